(** SpecMem.v -- vocabulary of the specifications about memory *)
From Coq Require Import List Arith ZArith Lia Bool.
From Verif Require Import Base BaseProofs Ops Mem MemProofs.
Import ListNotations.

Section SpecMem.
Context {FO : fops}.

(** content of cell i of block b: None if it does not exist, Some None if it is uninitialised *)
Definition cell_at (m : mem) (b i : nat) : option (option F) :=
  match nth_error m b with Some bl => nth_error (cells bl) i | None => None end.

(** m' differs from m at most in the n floats at p *)
Definition only_changes (m m' : mem) (p : ptr) (n : nat) : Prop :=
  length m' = length m /\
  (forall b, option_map base (nth_error m' b) = option_map base (nth_error m b)) /\
  (forall b i, ~ (b = blk p /\ off p <= i < off p + n) -> cell_at m' b i = cell_at m b i).

(** m' has the same blocks and differs from m at most in the listed regions (pointer, number of floats) *)
Definition only_changes_in (m m' : mem) (rs : list (ptr * nat)) : Prop :=
  length m' = length m /\
  (forall b, option_map base (nth_error m' b) = option_map base (nth_error m b)) /\
  (forall b, option_map (fun x => length (cells x)) (nth_error m' b) = option_map (fun x => length (cells x)) (nth_error m b)) /\
  (forall b i, (forall p n, In (p, n) rs -> ~ (b = blk p /\ off p <= i < off p + n)) -> cell_at m' b i = cell_at m b i).

(** [run] ends without a fault, afterwards the floats at p are ys, and nothing else has changed *)
Definition writes_only (run : M unit) (m : mem) (p : ptr) (ys : list F) : Prop :=
  exists m', run m = Ok (tt, m') /\ holds m' p ys /\ only_changes m m' p (length ys).

Lemma nth_error_overwrite A (l : list A) i xs k : i + length xs <= length l ->
  ~ (i <= k < i + length xs) -> nth_error (overwrite l i xs) k = nth_error l k.
Proof.
  intros H Hk. unfold overwrite. destruct (Nat.lt_ge_cases k i).
  - rewrite nth_error_app1 by (rewrite firstn_length; lia).
    rewrite <- (firstn_skipn i l) at 2. rewrite nth_error_app1; auto. rewrite firstn_length; lia.
  - rewrite nth_error_app2 by (rewrite firstn_length; lia).
    rewrite nth_error_app2 by (rewrite firstn_length; lia).
    rewrite <- (firstn_skipn (i + length xs) l) at 3.
    rewrite (nth_error_app2 (firstn (i + length xs) l)) by (rewrite firstn_length; lia).
    f_equal. rewrite !firstn_length. lia.
Qed.

Lemma writem_only_changes m p ys : valid m p (length ys) -> only_changes m (writem m p ys) p (length ys).
Proof.
  intros (b & Hb & HL). split; [apply length_writem|]. split.
  - intros k. destruct (Nat.eq_dec k (blk p)) as [->|Hk].
    + rewrite (nth_writem_eq m p ys Hb), Hb. reflexivity.
    + rewrite nth_writem_neq; auto.
  - intros k i Hi. unfold cell_at. destruct (Nat.eq_dec k (blk p)) as [->|Hk].
    + rewrite (nth_writem_eq m p ys Hb), Hb. simpl. apply nth_error_overwrite; rewrite map_length; auto.
    + rewrite nth_writem_neq; auto.
Qed.

Lemma writes_only_intro run m p ys : valid m p (length ys) ->
  run m = Ok (tt, writem m p ys) -> writes_only run m p ys.
Proof.
  intros V E. eexists. split; [exact E|]. split; [apply holds_writem_same; auto|apply writem_only_changes; auto].
Qed.
End SpecMem.
