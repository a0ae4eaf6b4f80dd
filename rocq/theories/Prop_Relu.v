(** Prop_Relu.v -- C06: relu of every float, NaN included *)
From Flocq Require Import BinarySingleNaN.
From Coq Require Import List Arith ZArith Lia Bool.
From Verif Require Import Base BaseProofs Ops Mem MemProofs SpecMem Activation ActivationProofs ActPropProofs OpsB32 B32Facts SpecRelu.
Import ListNotations.

Lemma pro_first c a n : first_multiple (align_size c) a n (pro_f c a n).
Proof.
  assert (G : forall fuel i, i <= n -> n - i < fuel ->
    forall j, i <= j < pro_from c fuel a n i -> ((a + 4 * Z.of_nat j) mod align_size c)%Z <> 0%Z).
  { induction fuel as [|f IH]; intros i Hi Hf j Hj; [lia|]. simpl in Hj. destruct (al c a i) eqn:E; [lia|].
    destruct (Nat.ltb_spec i n); [|lia]. destruct (Nat.eq_dec i j) as [<-|N].
    - unfold al in E. apply Z.eqb_neq in E. exact E.
    - apply IH with (i := i + 1); lia. }
  split; [apply pro_f_le|]. split.
  - intros i Hi. apply G with (fuel := S n) (i := 0); lia || (split; [lia|exact Hi]).
  - intros H. pose proof (pro_f_al c a n H) as E. unfold al in E. apply Z.eqb_eq in E. exact E.
Qed.

Lemma in_group_vreg k n i : in_group k n i <-> vreg k 16 n i = true.
Proof.
  unfold in_group, vreg. rewrite andb_true_iff, Nat.leb_le, Nat.ltb_lt. split.
  - intros (g & H & H'). split; [lia|]. assert (g + 1 <= (n - k) / 16) by (apply Nat.div_le_lower_bound; lia). nia.
  - intros (H & H'). exists ((i - k) / 16). pose proof (Nat.div_mod (i - k) 16 ltac:(lia)) as D. pose proof (Nat.mod_upper_bound (i - k) 16 ltac:(lia)).
    split; [lia|]. assert ((i - k) / 16 < (n - k) / 16) by (apply Nat.div_lt_upper_bound; lia).
    pose proof (Nat.mul_div_le (n - k) 16 ltac:(lia)). lia.
Qed.

(** C06, every float: elements that are not NaN become max(0,x) as a number.  A NaN stays a NaN if the build has AVX and the
    element is in a group of 16 behind the first element with an address that is a multiple of 32 (64 with AVX-512);
    everywhere else it becomes 0. *)
Theorem relu_same_everywhere_exact (lm : libm) (c : cfg) (m : @mem (opsB32 lm)) (p : ptr) (xs : list b32) :
  @holds (opsB32 lm) m p xs ->
  exists (k : nat) (ys : list b32),
    first_multiple (match cfg_isa c with AVX512 => 64 | AVX | AVX2 => 32 | SSE => 16 end)%Z (addr m p) (length xs) k /\
    writes_only (@relu (opsB32 lm) c (length xs) p) m p ys /\ length ys = length xs /\
    forall i x y, nth_error xs i = Some x -> nth_error ys i = Some y ->
      if is_nan x then
        (cfg_isa c <> SSE /\ in_group k (length xs) i -> y = b32_nan) /\ (cfg_isa c = SSE \/ ~ in_group k (length xs) i -> y = b32_zero)
      else Beqb y (if Bltb x b32_zero then b32_zero else x) = true.
Proof.
  intros H. set (O := opsB32 lm) in *. exists (pro_f c (addr m p) (length xs)), (@relu_f O c (addr m p) xs).
  split; [exact (pro_first c (addr m p) (length xs))|].
  assert (L : length (@relu_f O c (addr m p) xs) = length xs) by apply (@length_reg_map O).
  split. { apply writes_only_intro; [rewrite L; exact (@holds_valid O m p xs H)|exact (@relu_ok O c m p xs H)]. }
  split; [exact L|]. intros i x y Ex Ey.
  unfold relu_f, reg_map in Ey. rewrite nth_error_mapi in Ey. change (@F O) with b32 in Ey. rewrite Ex in Ey. cbn [option_map] in Ey. injection Ey as Ey. subst y.
  assert (HA : has_avx c = true <-> cfg_isa c <> SSE) by (unfold has_avx; destruct (cfg_isa c); split; congruence).
  destruct (is_nan x) eqn:N.
  - destruct x as [| | |]; try discriminate. split.
    + intros (A & G). apply HA in A. apply in_group_vreg in G. rewrite A, G. reflexivity.
    + intros [A|G].
      * assert (E : has_avx c = false) by (unfold has_avx; rewrite A; reflexivity). rewrite E. reflexivity.
      * destruct (vreg _ 16 _ i) eqn:E; [exfalso; apply G; apply in_group_vreg; exact E|]. rewrite andb_false_r. reflexivity.
  - destruct (has_avx c && vreg _ 16 _ i); [exact (relu_v_num lm x N)|exact (relu_s_num x N)].
Qed.
Print Assumptions relu_same_everywhere_exact.

(** A case that meets the hypothesis and has all three kinds of elements: 40 NaN at an address that is 8 bytes behind a
    multiple of 32.  Elements 6 to 37 stay NaN. *)
Example relu_exact_case (lm : libm) :
  let m := [@mkblock (opsB32 lm) 648 (repeat (Some b32_nan) 40)] in
  @holds (opsB32 lm) m (mkptr 0 0) (repeat b32_nan 40) /\ first_multiple 32 (addr m (mkptr 0 0)) 40 6 /\
  ~ in_group 6 40 5 /\ in_group 6 40 6 /\ in_group 6 40 37 /\ ~ in_group 6 40 38.
Proof.
  cbv zeta. split. { eexists. split; [reflexivity|]. split; [simpl; lia|reflexivity]. }
  split. { split; [lia|]. split; [|intros _; reflexivity]. intros i Hi.
           destruct i as [|[|[|[|[|[|i]]]]]]; [cbv; discriminate..|lia]. }
  repeat split.
  - intros (g & H & _). lia.
  - exists 0. lia.
  - exists 1. lia.
  - intros (g & H & H'). lia.
Qed.
