(** SpecAdapt.v -- how far one step of the adaptive optimizers may move a parameter in float32.  Nothing here refers to the code. *)
From Flocq Require Import BinarySingleNaN.
From Coq Require Import ZArith Reals List.
From Verif Require Import OpsB32 SpecRound.
Local Open Scope R_scope.

(** a NaN, or a number with the property *)
Definition nan_or (x : b32) (P : R -> Prop) : Prop := is_nan x = true \/ (is_finite x = true /\ P (B2R x)).
(** not a negative number: a number >= 0, plus infinity or a NaN *)
Definition not_negative (x : b32) : Prop := Bltb x b32_zero = false.

(** the largest step: the learning rate over the square root of the share k with which a squared gradient is counted *)
Definition largest_step (lr k : R) : R := Rabs lr / sqrt k * (1 + 10 * u32) + / 2 ^ 60.
(** the parameter th moves by at most d, up to the rounding of the parameter *)
Definition moves (th d y : R) : Prop := Rabs (y - th) <= d + 3 * u32 * (Rabs th + d).
(** the largest velocity after a step of at most S with momentum mu *)
Definition velocity_cap (mu v S : R) : R := (1 + 3 * u32) * (mu * Rabs v + S).
(** with momentum the parameter moves with the velocity, without by the step *)
Definition rms_moves (mu v S th y : R) : Prop := moves th (if Rlt_dec 0 mu then velocity_cap mu v S else S) y.
