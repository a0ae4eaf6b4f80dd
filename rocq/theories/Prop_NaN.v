(** Prop_NaN.v -- C69: what happens to NaN in every build *)
From Flocq Require Import Core BinarySingleNaN.
From Coq Require Import List Arith ZArith Lia Bool.
From Verif Require Import Base BaseProofs Ops Mem MemProofs SpecMem Activation ActivationProofs ActPropProofs Prop_Activation OpsB32 B32Facts SpecRelu Prop_Relu ExpB32Proofs Prop_ExpB32.
Import ListNotations.
Local Open Scope nat_scope.

(** the sigmoid and the tanh of NaN in a register *)
Lemma sigmoid_v_nan lm : @sigmoid_v (opsB32 lm) (@exp256_lane (opsB32 lm)) b32_nan = b32_of 2965841 (-149).
Proof.
  change (Bdiv mode_NE (b32_ofZ 1) (Bplus mode_NE (b32_ofZ 1) (@exp256_lane (opsB32 lm) (Bminus mode_NE b32_zero b32_nan))) = b32_of 2965841 (-149)).
  rewrite lane32. apply B2SF_inj. vm_compute. reflexivity.
Qed.
Lemma tanh_v_nan lm : @tanh_v (opsB32 lm) (@exp256_lane (opsB32 lm)) b32_nan = b32_ofZ (-1).
Proof.
  change (Bplus mode_NE (Bopp (b32_ofZ 1)) (Bdiv mode_NE (b32_ofZ 2) (Bplus mode_NE (b32_ofZ 1)
    (@exp256_lane (opsB32 lm) (Bmult mode_NE (Bopp (b32_ofZ 2)) b32_nan)))) = b32_ofZ (-1)).
  rewrite lane32. apply B2SF_inj. vm_compute. reflexivity.
Qed.

(** C69, every build: a NaN stays a NaN in all functions but relu and softmax, except in AVX2 and AVX-512 builds in groups of 16 elements,
    which for sigmoid begin at the first element with an address that suits the register, and for tanh at the first element:
    there the sigmoid of NaN is 2965841 * 2^-149 and the tanh of NaN is -1. *)
Definition register_bytes (c : cfg) : Z := match cfg_isa c with AVX512 => 64 | AVX | AVX2 => 32 | SSE => 16 end.
Definition wide (c : cfg) : Prop := cfg_isa c = AVX2 \/ cfg_isa c = AVX512.
Theorem nan_propagates_exact (lm : libm) (c : cfg) (g : act) (m : @mem (opsB32 lm)) (p : ptr) (xs : list b32) :
  @holds (opsB32 lm) m p xs -> 1 <= length xs -> act_pre c g m p (length xs) -> g <> Relu -> g <> Softmax -> nan_libm lm ->
  exists (k : nat) (ys : list b32), first_multiple (register_bytes c) (addr m p) (length xs) k /\
    writes_only (@activation_func (opsB32 lm) c (@exp256_lane (opsB32 lm)) g (length xs) p) m p ys /\ length ys = length xs /\
    forall j y, nth_error xs j = Some b32_nan -> nth_error ys j = Some y ->
      (g = Sigmoid /\ wide c /\ in_group k (length xs) j -> y = b32_of 2965841 (-149)) /\
      (g = Tanh /\ wide c /\ in_group 0 (length xs) j -> y = b32_ofZ (-1)) /\
      ((g <> Sigmoid \/ ~ wide c \/ ~ in_group k (length xs) j) /\ (g <> Tanh \/ ~ wide c \/ ~ in_group 0 (length xs) j) -> y = b32_nan).
Proof.
  intros H L A NR NS (N1 & N2 & N3). set (O := opsB32 lm) in *. exists (pro_f c (addr m p) (length xs)), (@act_f O c (@exp256_lane O) g (addr m p) xs).
  split; [exact (pro_first c (addr m p) (length xs))|]. split; [apply (activation_writes O); assumption|]. split; [apply (@length_act_f O)|].
  intros j y Ex Ey.
  assert (W : has_avx2 c = true <-> wide c) by (unfold has_avx2, wide; destruct (cfg_isa c); split; intros Q; try discriminate; try reflexivity; try (left; reflexivity); try (right; reflexivity); destruct Q; discriminate).
  assert (SI : forall a b : b32, Some a = Some b -> a = b) by (intros a b Q; injection Q; auto).
  assert (MP : forall (f : b32 -> b32), f b32_nan = b32_nan -> nth_error (map f xs) j = Some y -> y = b32_nan).
  { intros f E Q. rewrite nth_error_map, Ex in Q. cbn in Q. congruence. }
  assert (GEN : g <> Sigmoid -> g <> Tanh -> y = b32_nan ->
    (g = Sigmoid /\ wide c /\ in_group (pro_f c (addr m p) (length xs)) (length xs) j -> y = b32_of 2965841 (-149)) /\
    (g = Tanh /\ wide c /\ in_group 0 (length xs) j -> y = b32_ofZ (-1)) /\
    ((g <> Sigmoid \/ ~ wide c \/ ~ in_group (pro_f c (addr m p) (length xs)) (length xs) j) /\ (g <> Tanh \/ ~ wide c \/ ~ in_group 0 (length xs) j) -> y = b32_nan)).
  { intros G1 G2 E. split; [intros (Q & _); contradiction|]. split; [intros (Q & _); contradiction|]. intros _. exact E. }
  destruct g; cbn [act_f] in Ey; try congruence.
  - apply GEN; try discriminate. apply (MP (@softplus_s O)); [|exact Ey]. change (lm_log lm (Bplus mode_NE (lm_exp lm b32_nan) (b32_ofZ 1)) = b32_nan). rewrite N1, nan_plus_l. exact N2.
  - apply GEN; try discriminate. apply (MP (@softsign_s O)); [|exact Ey]. change (Bdiv mode_NE b32_nan (Bplus mode_NE (Babs b32_nan) (b32_ofZ 1)) = b32_nan). apply nan_div_l.
  - apply GEN; try discriminate. apply (MP (@hard_sigmoid_s O)); [|exact Ey]. change (Bplus mode_NE (Bmult mode_NE (b32_lit 1 5) b32_nan) (b32_lit 1 2) = b32_nan). rewrite nan_mult_r. apply nan_plus_l.
  - apply GEN; try discriminate. apply (MP (@fexp O)); [exact N1|exact Ey].
  - apply GEN; try discriminate. change (@F O) with b32 in *. congruence.
  - unfold sigmoid_f, reg_map in Ey. rewrite nth_error_mapi in Ey. change (@F O) with b32 in Ey. rewrite Ex in Ey. cbn [option_map] in Ey. apply SI in Ey.
    set (k := pro_f c (addr m p) (length xs)) in *. split; [|split].
    + intros (_ & Q & G). apply W in Q. apply in_group_vreg in G. rewrite Q, G in Ey. cbn [andb] in Ey. rewrite <- Ey. apply sigmoid_v_nan.
    + intros (Q & _). discriminate.
    + intros ([Q|Q] & _); [congruence|]. assert (E : has_avx2 c && vreg k 16 (length xs) j = false).
      { destruct (has_avx2 c) eqn:HC; [|reflexivity]. destruct (vreg k 16 (length xs) j) eqn:V; [|reflexivity]. exfalso. destruct Q as [Q|Q]; apply Q; [apply W; reflexivity|apply in_group_vreg; exact V]. }
      rewrite E in Ey. rewrite <- Ey.
      change (Bdiv mode_NE (b32_ofZ 1) (Bplus mode_NE (b32_ofZ 1) (lm_exp lm b32_nan)) = b32_nan). rewrite N1, nan_plus_r. apply nan_div_r.
  - unfold tanh_f, reg_map in Ey. rewrite nth_error_mapi in Ey. change (@F O) with b32 in Ey. rewrite Ex in Ey. cbn [option_map] in Ey. apply SI in Ey. split; [|split].
    + intros (Q & _). discriminate.
    + intros (_ & Q & G). apply W in Q. apply in_group_vreg in G. rewrite Q, G in Ey. cbn [andb] in Ey. rewrite <- Ey. apply tanh_v_nan.
    + intros (_ & [Q|Q]); [congruence|]. assert (E : has_avx2 c && vreg 0 16 (length xs) j = false).
      { destruct (has_avx2 c) eqn:HC; [|reflexivity]. destruct (vreg 0 16 (length xs) j) eqn:V; [|reflexivity]. exfalso. destruct Q as [Q|Q]; apply Q; [apply W; reflexivity|apply in_group_vreg; exact V]. }
      rewrite E in Ey. rewrite <- Ey. exact N3.
Qed.
Print Assumptions nan_propagates_exact.

(** 16 outputs in an AVX2 build: the softmax of a NaN is 1, as if the network was certain *)
Theorem nan_softmax_refuted (lm : libm) :
  exists (c : cfg) (m : @mem (opsB32 lm)) (p : ptr) (xs ys : list b32),
    @holds (opsB32 lm) m p xs /\ nth_error xs 1 = Some b32_nan /\
    writes_only (@activation_func (opsB32 lm) c (@exp256_lane (opsB32 lm)) Softmax (length xs) p) m p ys /\
    nth_error ys 1 = Some (b32_ofZ 1) /\ Forall (fun y => is_finite y = true) ys.
Proof.
  set (O := opsB32 lm). set (xs := b32_zero :: b32_nan :: repeat b32_zero 14).
  set (m := [@mkblock O 640 (map Some xs)]).
  set (c := {| cfg_isa := AVX2; cfg_fma := false |}). set (p := mkptr 0 0).
  assert (H : @holds O m p xs) by (exists (@mkblock O 640 (map Some xs)); split; [reflexivity|split; [simpl; lia|reflexivity]]).
  exists c, m, p, xs, (@act_f O c (@exp256_lane O) Softmax (addr m p) xs). split; [exact H|]. split; [reflexivity|].
  split. { apply (activation_writes O c (@exp256_lane O) Softmax m p xs); simpl; auto. lia. }
  set (ys := @act_f O c (@exp256_lane O) Softmax (addr m p) xs).
  assert (V : map B2SF ys = map B2SF (b32_of 2965841 (-149) :: b32_ofZ 1 :: repeat (b32_of 2965841 (-149)) 14)) by (vm_compute; reflexivity).
  assert (Q : ys = b32_of 2965841 (-149) :: b32_ofZ 1 :: repeat (b32_of 2965841 (-149)) 14).
  { clear -V. change (@F O) with b32 in *. revert V. generalize (b32_of 2965841 (-149) :: b32_ofZ 1 :: repeat (b32_of 2965841 (-149)) 14). clearbody ys. revert ys.
    fix IH 1. intros [|x l] [|y k] V; simpl in V; try discriminate; [reflexivity|]. injection V as V1 V2. apply B2SF_inj in V1. f_equal; [exact V1|apply IH; exact V2]. }
  rewrite Q. split; [reflexivity|]. repeat constructor.
Qed.
Print Assumptions nan_softmax_refuted.

(** the premises of the exact theorem: 40 NaN at an address that is 8 bytes behind a multiple of 32, an AVX2 build *)
Example nan_exact_case : let lm := {| lm_exp := fun x => x; lm_log := fun x => x; lm_tanh := fun x => x |} in
  let m := [@mkblock (opsB32 lm) 648 (repeat (Some b32_nan) 40)] in let c := {| cfg_isa := AVX2; cfg_fma := false |} in
  nan_libm lm /\ @holds (opsB32 lm) m (mkptr 0 0) (repeat b32_nan 40) /\ act_pre c Sigmoid m (mkptr 0 0) 40 /\ wide c /\
  first_multiple 32 (addr m (mkptr 0 0)) 40 6 /\ ~ in_group 6 40 5 /\ in_group 6 40 6 /\ in_group 6 40 37 /\ ~ in_group 6 40 38.
Proof.
  cbv zeta. split; [repeat split|]. set (lm := {| lm_exp := fun x => x; lm_log := fun x => x; lm_tanh := fun x => x |}).
  destruct (relu_exact_case lm) as (A & B & C1). split; [exact A|]. split; [exact I|]. split; [left; reflexivity|]. split; [exact B|exact C1].
Qed.
