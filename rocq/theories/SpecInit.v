(** SpecInit.v -- how parameters are to be initialised (nothing of the model but the record of a layer). *)
From Coq Require Import ZArith Bool String Ascii List Reals.
From Flocq Require Import Core BinarySingleNaN.
From Verif Require Import Base Ops OpsB32 Activation Registry SpecLog.
Import ListNotations.

(** the method: the one asked for, or else the one for the activation function *)
Inductive method := Xavier | Kaiming | Normal.
Inductive method_for (initializer : list ascii) (f : fn) : method -> Prop :=
| by_xavier : initializer = txt "xavier" -> method_for initializer f Xavier
| by_kaiming : initializer = txt "kaiming" -> method_for initializer f Kaiming
| guess_xavier : initializer <> txt "xavier" -> initializer <> txt "kaiming" ->
    In f (map Builtin [Sigmoid; Tanh; Softmax; Hard_sigmoid; Softsign]) -> method_for initializer f Xavier
| guess_kaiming : initializer <> txt "xavier" -> initializer <> txt "kaiming" ->
    In f (map Builtin [Relu; Softplus]) -> method_for initializer f Kaiming
| guess_normal : initializer <> txt "xavier" -> initializer <> txt "kaiming" ->
    ~ In f (map Builtin [Sigmoid; Tanh; Softmax; Hard_sigmoid; Softsign; Relu; Softplus]) -> method_for initializer f Normal.
(** the strings of the layers: the ones of the array, empty if there is none *)
Definition initializer_strings (inits : option (list (option (list ascii)))) (strs : list (list ascii)) : Prop :=
  match inits with
  | None => Forall (fun s => s = []) strs
  | Some l => exists rest, l = map Some strs ++ rest
  end.

Local Open Scope R_scope.
(** a Xavier weight: not NaN, and between plus and minus sqrt(6/(n_in + n_out)), up to rounding: the bound is the
    number that sqrtf computes *)
Definition in_xavier_range (n_in n_out : Z) (w : b32) : Prop :=
  is_finite w = true
  /\ Rabs (B2R w) <= B2R (Bsqrt mode_NE (Bdiv mode_NE (b32_ofZ 6) (b32_ofZ (n_in + n_out))))
  /\ Rabs (B2R w) <= sqrt (6 / IZR (n_in + n_out)) * (1 + / 4194304).

(** r, a number from 0 to RAND_MAX, is so close to the middle that the uniform number is 0 *)
Definition centre (r : Z) : Prop := (1073741792 <= r <= 1073741888)%Z.

(** a normally distributed number by the polar method, in binary32: u and v in [-1, 1] with s = u*u + v*v < 1, one
    of them times sqrt(-2 log(s) / s) *)
Definition polar_value (lm : libm) (g : b32) : Prop :=
  exists u v : b32, is_finite u = true /\ is_finite v = true /\ Rabs (B2R u) <= 1 /\ Rabs (B2R v) <= 1
    /\ let s := Bplus mode_NE (Bmult mode_NE u u) (Bmult mode_NE v v) in
       let fac := Bsqrt mode_NE (Bdiv mode_NE (Bmult mode_NE (Bopp (b32_ofZ 2)) (lm_log lm s)) s) in
       is_finite s = true /\ B2R s < 1 /\ (g = Bmult mode_NE u fac \/ g = Bmult mode_NE v fac).
(** a weight of the method *)
Definition weight_of (lm : libm) (m : method) (n_in n_out : Z) (w : b32) : Prop :=
  match m with
  | Xavier => in_xavier_range n_in n_out w
  | Kaiming => exists g, polar_value lm g /\ w = Bmult mode_NE g (Bsqrt mode_NE (Bdiv mode_NE (b32_ofZ 2) (b32_ofZ n_in)))
  | Normal => exists g, polar_value lm g /\ w = Bmult mode_NE g (b32_ofZ 1)
  end.
