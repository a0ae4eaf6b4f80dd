(** OpsR.v -- the float operations interpreted as exact operations on real numbers *)
From Coq Require Import Reals ZArith Bool Lra.
From Verif Require Import Ops.
Local Open Scope R_scope.

Definition Rltb (a b : R) : bool := if Rlt_dec a b then true else false.
Definition Rleb (a b : R) : bool := if Rle_dec a b then true else false.
Definition Reqb (a b : R) : bool := if Req_EM_T a b then true else false.

(** Int_part is the floor function of the standard library.  roundf: halves away from zero. *)
Definition Rroundf (x : R) : R :=
  if Rle_dec 0 x then IZR (Int_part (x + / 2)) else - IZR (Int_part (- x + / 2)).

#[global] Instance opsR : fops := {|
  F := R; f0 := 0; f1 := 1;
  fadd := Rplus; fsub := Rminus; fmul := Rmult; fdiv := Rdiv; fdivd := (fun a b c => a / (b * c)); fneg := Ropp;
  fabs := Rabs; fsqrt := sqrt;
  flt := Rltb; fle := Rleb; feq := Reqb;
  fmaxf := Rmax; fminf := Rmin;
  ffma := fun a b c => a * b + c;
  fexp := exp; flog := ln; ftanh := tanh;
  fround := Rroundf;
  ffloor := fun x => IZR (Int_part x);
  fpow2i := fun x => powerRZ 2 (Int_part x);
  flit := fun n d => IZR n / IZR d;
  fofZ := IZR
|}.

(** lets unification find the instance from the type R *)
Canonical Structure opsR.

Lemma Rltb_spec a b : reflect (a < b) (Rltb a b).
Proof. unfold Rltb. destruct (Rlt_dec a b); constructor; auto. Qed.
Lemma Rleb_spec a b : reflect (a <= b) (Rleb a b).
Proof. unfold Rleb. destruct (Rle_dec a b); constructor; auto. Qed.
Lemma Reqb_spec a b : reflect (a = b) (Reqb a b).
Proof. unfold Reqb. destruct (Req_EM_T a b); constructor; auto. Qed.

Lemma mulC_R : forall a b : @F opsR, fmul a b = fmul b a.
Proof. exact Rmult_comm. Qed.
