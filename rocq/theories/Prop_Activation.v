(** Prop_Activation.v -- C04, C05, C06, C57: activation functions *)
From Coq Require Import List Arith ZArith Lia Bool Reals Lra.
From Flocq Require Import Core BinarySingleNaN.
From Verif Require Import Base BaseProofs Ops Mem MemProofs Kernels KernelProofs Activation ActivationProofs
  OpsR SpecReal RealForward OpsB32 SpecBits BitsProofs SpecMem Exp256 ActAccuracy ActPropProofs.
Import ListNotations.
Local Open Scope R_scope.

(** C04.  [act_pre]: tanh needs an aligned array of 16 or more elements in AVX2 builds; there is
    no requirement for the other functions.  [vexp] is the function computed by exp256_ps; if it
    is the exponential function, all activation functions are exact. *)
Theorem activation_exact (c : cfg) (g : act) (m : @mem opsR) (p : ptr) (xs : list R) :
  holds m p xs -> (1 <= length xs)%nat -> act_pre c g m p (length xs) ->
  exists ys : list R,
    writes_only (@activation_func opsR c exp g (length xs) p) m p ys /\ length ys = length xs /\
    forall j, (j < length xs)%nat -> vec ys j = act_math g (length xs) (vec xs) j.
Proof.
  intros H L A. exists (@act_f opsR c exp g (addr m p) xs). split; [apply (activation_writes opsR); auto|].
  split; [apply length_act_f|]. intros j Hj. apply act_R; auto.
Qed.
Print Assumptions activation_exact.

(** C04 with the polynomial of exp256_ps: within 3e-7 of the mathematical function everywhere *)
Theorem activation_accurate (c : cfg) (g : act) (m : @mem opsR) (p : ptr) (xs : list R) :
  holds m p xs -> (1 <= length xs)%nat -> INR (length xs) <= 10 ^ 20 -> act_pre c g m p (length xs) ->
  exists ys : list R,
    writes_only (@activation_func opsR c (@exp256_lane opsR) g (length xs) p) m p ys /\ length ys = length xs /\
    forall j, (j < length xs)%nat -> Rabs (vec ys j - act_math g (length xs) (vec xs) j) <= 3 / 10 ^ 7.
Proof.
  intros H L LN A. exists (@act_f opsR c (@exp256_lane opsR) g (addr m p) xs). split; [apply (activation_writes opsR); auto|].
  split; [apply length_act_f|]. intros j Hj. apply act_acc; auto.
Qed.
Print Assumptions activation_accurate.

(** C04 for any float operations: element by element the scalar or the vector formula; softmax
    divides by a sum of the exponentials taken in some order *)
Theorem activation_float (FO : fops) (c : cfg) (vexp : F -> F) (g : act) (m : mem) (p : ptr) (xs : list F) :
  holds m p xs -> (1 <= length xs)%nat -> act_pre c g m p (length xs) ->
  exists ys, writes_only (activation_func c vexp g (length xs) p) m p ys /\ act_rel vexp g xs ys.
Proof.
  intros H L A. eexists. split; [apply activation_writes; auto|]. apply act_f_rel. apply not_nil. auto.
Qed.
Print Assumptions activation_float.

(** C05 *)
Theorem softmax_distribution (c : cfg) (m m' : @mem opsR) (p p' : ptr) (xs : list R) (a : R) :
  holds m p xs -> (1 <= length xs)%nat -> holds m' p' (map (fun x => x + a) xs) ->
  exists ys ys' : list R,
    writes_only (@softmax opsR c exp (length xs) p) m p ys /\
    writes_only (@softmax opsR c exp (length xs) p') m' p' ys' /\
    (forall j, (j < length xs)%nat -> 0 < vec ys j) /\
    sumf (length xs) (vec ys) = 1 /\
    (forall i j, (i < length xs)%nat -> (j < length xs)%nat -> vec xs i < vec xs j -> vec ys i < vec ys j) /\
    (forall j, (j < length xs)%nat -> vec ys' j = vec ys j).
Proof.
  intros H L H'. set (n := length xs) in *.
  exists (@softmax_f opsR c exp (addr m p) xs), (@softmax_f opsR c exp (addr m' p') (map (fun x => x + a) xs)).
  assert (E : forall j, (j < n)%nat -> vec (@softmax_f opsR c exp (addr m p) xs) j = sm n (vec xs) j).
  { intros. apply softmax_R; auto. }
  split. { apply (activation_writes opsR c exp Softmax); simpl; auto. }
  split. { assert (LE : length (map (fun x => x + a) xs) = n) by apply map_length. rewrite <- LE.
           apply (activation_writes opsR c exp Softmax); simpl; auto. rewrite LE. auto. }
  split. { intros j Hj. rewrite E by auto. apply sm_pos; auto. }
  split. { rewrite (sumf_ext n _ (sm n (vec xs))) by auto. apply sm_sum; auto. }
  split. { intros i j Hi Hj Hlt. rewrite !E by auto. apply sm_mono; auto. }
  intros j Hj. rewrite E by auto. rewrite softmax_R by (rewrite map_length; auto). rewrite map_length.
  change (sm n (vec (map (fun x => x + a) xs)) j = sm n (vec xs) j).
  rewrite <- (sm_shift n (vec xs) a j) by auto. apply sm_ext; auto. intros. apply vec_shift. auto.
Qed.
Print Assumptions softmax_distribution.

(** C06 is false: 17 NaN elements; the first is NaN afterwards, the last is 0 (AVX build). *)
Theorem relu_same_everywhere_refuted (lm : libm) :
  exists (c : cfg) (m m' : @mem (opsB32 lm)) (p : ptr),
    @holds (opsB32 lm) m p (repeat b32_nan 17) /\ @relu (opsB32 lm) c 17 p m = Ok (tt, m') /\
    @holds (opsB32 lm) m' p (repeat b32_nan 16 ++ [b32_zero]).
Proof.
  set (O := opsB32 lm). set (m := [@mkblock O 640 (repeat (Some b32_nan) 17)]).
  set (c := {| cfg_isa := AVX; cfg_fma := false |}). set (p := mkptr 0 0).
  assert (H : @holds O m p (repeat b32_nan 17)) by (exists (@mkblock O 640 (repeat (Some b32_nan) 17)); split; [reflexivity|split; [simpl; lia|reflexivity]]).
  exists c, m, (@writem O m p (@relu_f O c (addr m p) (repeat b32_nan 17))), p.
  split; [exact H|]. split; [exact (@relu_ok O c m p (repeat b32_nan 17) H)|].
  assert (E : @relu_f O c (addr m p) (repeat b32_nan 17) = repeat b32_nan 16 ++ [b32_zero]) by reflexivity.
  rewrite E. apply holds_writem_same. apply holds_valid in H. exact H.
Qed.
Print Assumptions relu_same_everywhere_refuted.

(** C06 holds for elements that are not NaN: the result is a float that compares equal to
    max(0,x), wherever the element lies (only the sign of a zero may differ). *)
Theorem relu_same_everywhere_partial (lm : libm) (c : cfg) (m : @mem (opsB32 lm)) (p : ptr) (xs : list b32) :
  @holds (opsB32 lm) m p xs -> (1 <= length xs)%nat -> Forall (fun x => is_nan x = false) xs ->
  exists ys : list b32,
    writes_only (@relu (opsB32 lm) c (length xs) p) m p ys /\
    Forall2 (fun x y => Beqb y (if Bltb x b32_zero then b32_zero else x) = true) xs ys.
Proof.
  intros H L HN. set (O := opsB32 lm).
  exists (@act_f O c (fun x => x) Relu (addr m p) xs).
  split. { apply (activation_writes O c (fun x => x) Relu); simpl; auto. }
  pose proof (act_f_rel (FO := O) c (fun x => x) Relu (addr m p) xs (not_nil _ _ L)) as R. simpl act_rel in R.
  exact (relu_elem _ _ R HN).
Qed.
Print Assumptions relu_same_everywhere_partial.

(** C57: exp256_ps in exact arithmetic: relative error below 1e-7 on [-88.37, 88.37], constant outside *)
Theorem exp256_accurate (x : R) :
  (- (883762626647949 / 10000000000000) <= x <= 883762626647949 / 10000000000000 ->
   Rabs (@exp256_lane opsR x - exp x) <= 1 / 10 ^ 7 * exp x) /\
  (883762626647949 / 10000000000000 <= x ->
   @exp256_lane opsR x = @exp256_lane opsR (883762626647949 / 10000000000000)) /\
  (x <= - (883762626647949 / 10000000000000) ->
   @exp256_lane opsR x = @exp256_lane opsR (- (883762626647949 / 10000000000000))).
Proof.
  split; [|split]; intros H.
  - pose proof (exp256_rel x) as E. rewrite clamp_id in E by exact H. exact E.
  - rewrite (exp256_clamp x). f_equal. unfold clamp, e_hi. rewrite Rmin_left, Rmax_right; lra.
  - rewrite (exp256_clamp x). f_equal. unfold clamp, e_hi. rewrite Rmin_right, Rmax_left; lra.
Qed.
Print Assumptions exp256_accurate.
(** C57: hence vector and scalar sigmoid and tanh agree up to 2e-7, for all reals *)
Theorem vector_scalar_agree (x : R) :
  Rabs (@sigmoid_v opsR (@exp256_lane opsR) x - @sigmoid_s opsR x) <= 1 / 10 ^ 7 /\
  Rabs (@tanh_v opsR (@exp256_lane opsR) x - tanh x) <= 2 / 10 ^ 7.
Proof.
  split. - exact (sigmoid_v_acc x). - rewrite tanh_math. exact (tanh_v_acc x).
Qed.
Print Assumptions vector_scalar_agree.

(** A case that meets the hypotheses: tanh and softmax of 19 elements, AVX-512 build (one vector step of 16 and a rest); softmax also
    at an unaligned address *)
Definition ex_c : cfg := {| cfg_isa := AVX512; cfg_fma := true |}.
Definition ex_m : @mem opsR := [mkblock 640 (repeat (Some 2) 19); mkblock 1284 (repeat (Some (2 + 1)) 19)].
Example activation_case :
  holds ex_m (mkptr 0 0) (repeat 2 19) /\ holds ex_m (mkptr 1 0) (map (fun x => x + 1) (repeat 2 19)) /\
  (1 <= length (repeat 2 19))%nat /\ INR (length (repeat 2 19)) <= 10 ^ 20 /\
  act_pre ex_c Tanh ex_m (mkptr 0 0) (length (repeat 2 19)) /\
  act_pre ex_c Softmax ex_m (mkptr 1 0) (length (repeat 2 19)) /\ 
  Forall (fun x => is_nan x = false) [b32_zero; b32_inf].
Proof.
  unfold holds. repeat split; try (eexists; split; [reflexivity|split; [simpl; lia|reflexivity]]); try (simpl; lia).
  - rewrite INR_IZR_INZ. simpl. lra.
  - repeat constructor.
Qed.
