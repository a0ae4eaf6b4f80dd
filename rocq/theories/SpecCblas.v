(** SpecCblas.v -- what the BLAS routines compute, over the reals (the reference BLAS documentation).
    [y] may be shorter if beta = 0 because it is not read. *)
From Coq Require Import List Arith Reals.
From Verif Require Import Ops OpsR SpecReal Cblas.
Import ListNotations.
Local Open Scope R_scope.

Record cblas_exact (cb : @cblas opsR) : Prop := {
  sgemv_exact : forall (tr : bool) (m n : nat) (al : R) (a : list R) (lda : nat) (x : list R) (be : R) (y : list R),
    (n <= lda)%nat -> length a = (m * lda)%nat ->
    length x = (if tr then m else n) -> length y = (if tr then n else m) \/ be = 0 ->
    let r := sgemv cb tr m n al a lda x be y in
    length r = (if tr then n else m) /\
    forall i, (i < (if tr then n else m))%nat ->
      vec r i = al * (if tr then sumf m (fun k => vec a (k * lda + i) * vec x k)
                            else sumf n (fun k => vec a (i * lda + k) * vec x k)) + be * vec y i;
  sger_exact : forall (m n : nat) (al : R) (x y a : list R) (lda : nat),
    (n <= lda)%nat -> length a = (m * lda)%nat -> length x = m -> length y = n ->
    let r := sger cb m n al x y a lda in
    length r = (m * lda)%nat /\
    forall i j, (i < m)%nat -> (j < lda)%nat ->
      vec r (i * lda + j) = vec a (i * lda + j) + (if Nat.ltb j n then al * vec x i * vec y j else 0);
  saxpy_exact : forall (n : nat) (al : R) (x y : list R), length x = n -> length y = n ->
    let r := saxpy cb n al x y in
    length r = n /\ forall i, (i < n)%nat -> vec r i = al * vec x i + vec y i;
  saxpby_exact : forall (n : nat) (al : R) (x : list R) (be : R) (y : list R), length x = n -> length y = n ->
    let r := saxpby cb n al x be y in
    length r = n /\ forall i, (i < n)%nat -> vec r i = al * vec x i + be * vec y i
}.

(** there is such a library *)
Definition ref_cblas : @cblas opsR := {|
  sgemv := fun tr m n (al : R) a lda x (be : R) y =>
    map (fun i => al * (if tr then sumf m (fun k => vec a (k * lda + i) * vec x k)
                              else sumf n (fun k => vec a (i * lda + k) * vec x k)) + be * vec y i)
        (seq 0 (if tr then n else m)) : list R;
  sger := fun m n (al : R) x y a lda =>
    map (fun k => vec a k + (if Nat.ltb (k mod lda) n then al * vec x (k / lda) * vec y (k mod lda) else 0)) (seq 0 (m * lda)) : list R;
  saxpy := fun n (al : R) x y => map (fun i => al * vec x i + vec y i) (seq 0 n) : list R;
  saxpby := fun n (al : R) x (be : R) y => map (fun i => al * vec x i + be * vec y i) (seq 0 n) : list R |}.
