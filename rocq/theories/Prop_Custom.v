(** Prop_Custom.v -- C99: the activation function of the shared object computes a scaled sigmoid and the slope of that curve. *)
From Coquelicot Require Import Coquelicot.
From Flocq Require Import Core BinarySingleNaN.
From Coq Require Import ZArith Bool List Arith Reals Lia Lra.
From Verif Require Import Base Ops OpsB32 B32Facts MetricB32 InitProofs SpecRound SpecLibm RoundProofs Exp256B32 DivD LibmCase Custom CustomProofs.
Import ListNotations.
Local Open Scope R_scope.

(** The curve, and the number k that the double constant SIGMOID_SCALAR stands for. *)
Definition curve (k x : R) : R := 1 / (1 + exp (- (k * x))).
Definition stands_for (s : b64) (k : R) : Prop :=
  is_finite s = true /\ Rabs k <= 1/4 /\ Rabs (B2R s - k) <= Rabs k / 10 ^ 12.

(** The default value is one tenth. *)
Lemma stands_for_default : stands_for sigmoid_scalar (1/10).
Proof. destruct scalar_R as (F & E). split; [exact F|]. rewrite (Rabs_pos_eq (1/10)) in * by lra. split; lra. Qed.

(** Every element of the array is replaced by a finite float within 3e-7 of the curve, whatever the size of the argument. *)
Theorem custom_sigmoid_value : forall lm s k (ys : list b32), accurate_exp (lm_exp lm) -> stands_for s k ->
  (forall y, In y ys -> is_finite y = true) ->
  length (scaled_sigmoid lm s ys) = length ys /\
  forall i y, nth_error ys i = Some y ->
    exists o, nth_error (scaled_sigmoid lm s ys) i = Some o /\ is_finite o = true /\ Rabs (B2R o - curve k (B2R y)) <= 3 / 10 ^ 7.
Proof.
  intros lm s k ys A (Fs & Hk & Hs) FY. unfold scaled_sigmoid. split; [apply map_length|]. intros i y Hy.
  exists (scaled_sigmoid1 lm s y). split; [apply map_nth_error; exact Hy|]. apply scaled_sigmoid1_R; auto; [lra|]. apply FY. eapply nth_error_In, Hy.
Qed.
Print Assumptions custom_sigmoid_value.

(** The factor of the derivative function, taken at a value of the curve, is the slope of the curve. *)
Theorem custom_sigmoid_slope : forall k x, is_derive (curve k) x (k * (curve k x * (1 - curve k x))).
Proof. intros k x. unfold curve. pose proof (exp_pos (- (k * x))). auto_derive; [lra|]. field. lra. Qed.
Print Assumptions custom_sigmoid_slope.

Lemma nth_map2 {A B C} (f : A -> B -> C) : forall l1 l2 i x y, nth_error l1 i = Some x -> nth_error l2 i = Some y -> nth_error (map2 f l1 l2) i = Some (f x y).
Proof. induction l1 as [|a l1 IH]; intros [|b l2] [|i] x y H1 H2; cbn in *; try discriminate; [congruence|]. apply IH; assumption. Qed.
Lemma len_map2 {A B C} (f : A -> B -> C) : forall l1 l2, length l1 = length l2 -> length (map2 f l1 l2) = length l1.
Proof. induction l1 as [|a l1 IH]; intros [|b l2] H; cbn in *; try discriminate; [reflexivity|]. f_equal. apply IH. lia. Qed.

(** Every element of d is multiplied by k a (1 - a), with a relative error of at most 1.3e-7 and an absolute one of at most the smallest positive float. *)
Theorem custom_sigmoid_derivative : forall s k (act d : list b32), stands_for s k -> length act = length d ->
  (forall a, In a act -> is_finite a = true /\ 0 <= B2R a <= 1) -> (forall x, In x d -> is_finite x = true /\ Rabs (B2R x) <= 2 ^ 100) ->
  length (scaled_sigmoid_derivative s act d) = length d /\
  forall i a x, nth_error act i = Some a -> nth_error d i = Some x ->
    exists o, nth_error (scaled_sigmoid_derivative s act d) i = Some o /\ is_finite o = true /\
      Rabs (B2R o - B2R x * (k * (B2R a * (1 - B2R a)))) <= 13 / 10 ^ 8 * Rabs (B2R x * (k * (B2R a * (1 - B2R a)))) + / 2 ^ 149.
Proof.
  intros s k act d (Fs & Hk & Hs) L HA HD. unfold scaled_sigmoid_derivative. split; [rewrite len_map2; assumption|]. intros i a x Ha Hx.
  exists (scaled_sigmoid_d1 s a x). split; [apply nth_map2; assumption|].
  destruct (HA a) as (Fa & Ba); [eapply nth_error_In, Ha|]. destruct (HD x) as (Fx & Bx); [eapply nth_error_In, Hx|].
  destruct (scaled_sigmoid_d1_R s k a x) as (F & E); auto; [lra|]. split; [exact F|].
  assert (T : 2 * eta32 = / 2 ^ 149). { unfold eta32. change 150%nat with (S 149). rewrite <- (tech_pow_Rmult 2 149). assert (0 < 2 ^ 149) by (apply pow_lt; lra). field; lra. }
  rewrite <- T. exact E.
Qed.
Print Assumptions custom_sigmoid_derivative.

(** With the default scalar: arguments 0 and 4, and the derivative at the activations 0 and 1 with incoming 1. *)
Example custom_sigmoid_ex :
  (exists o, nth_error (scaled_sigmoid lm_rounded sigmoid_scalar [b32_ofZ 4; b32_zero]) 1 = Some o /\ Rabs (B2R o - 1/2) <= 3 / 10 ^ 7) /\
  map (fun o => Beqb o b32_zero) (scaled_sigmoid_derivative sigmoid_scalar [b32_zero; b32_ofZ 1] [b32_ofZ 1; b32_ofZ 1]) = [true; true] /\
  (let half := Bdiv mode_NE (b32_ofZ 1) (b32_ofZ 2) in
   map (fun o => Bltb b32_zero o) (scaled_sigmoid_derivative sigmoid_scalar [half; half] [b32_ofZ 1; Bopp (b32_ofZ 1)]) = [true; false]).
Proof.
  split.
  - destruct (custom_sigmoid_value lm_rounded sigmoid_scalar (1/10) [b32_ofZ 4; b32_zero] rounded_exp stands_for_default) as (_ & H).
    { intros y [<-|[<-|[]]]; vm_compute; reflexivity. }
    destruct (H 1%nat b32_zero eq_refl) as (o & E & _ & B). exists o. split; [exact E|]. unfold curve in B. change (B2R b32_zero) with 0 in B.
    rewrite Rmult_0_r, Ropp_0, exp_0 in B. replace (1 / (1 + 1)) with (1/2) in B by lra. exact B.
  - split; vm_compute; reflexivity.
Qed.
