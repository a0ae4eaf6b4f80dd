(** Ex_Mem.v -- concrete memories used by the examples of the property files.

    The floats of these examples are integers with exact operations (an instance of Ops.v that
    computes fast); the theorems hold for every instance. *)
From Coq Require Import List Arith ZArith Bool Lia.
From Verif Require Import Base Ops Mem MemProofs.
Import ListNotations.

Definition opsZ : fops := {|
  F := Z; f0 := 0%Z; f1 := 1%Z;
  fadd := Z.add; fsub := Z.sub; fmul := Z.mul; fdiv := Z.div; fdivd := (fun a b c => a / (b * c))%Z; fneg := Z.opp; fabs := Z.abs; fsqrt := Z.sqrt;
  flt := Z.ltb; fle := Z.leb; feq := Z.eqb; fmaxf := Z.max; fminf := Z.min;
  ffma := fun a b c => (a * b + c)%Z;
  fexp := fun x => x; flog := fun x => x; ftanh := fun x => x; fround := fun x => x; ffloor := fun x => x;
  fpow2i := fun x => x; flit := Z.div; fofZ := fun x => x |}.
Lemma mulC_Z : forall x y : @F opsZ, fmul x y = fmul y x.
Proof. exact Z.mul_comm. Qed.

Definition blk_of (a : Z) (xs : list Z) : @block opsZ := @mkblock opsZ a (map (@Some Z) xs).
Definition uninit (a : Z) (n : nat) : @block opsZ := @mkblock opsZ a (repeat None n).

(** 1, 2, ..., n *)
Definition count_up (n : nat) : list Z := map Z.of_nat (seq 1 n).

(** solves concrete instances of holds / valid / disjoint / alignment *)
Ltac mem_tac :=
  repeat match goal with
  | |- holds _ _ _ => eexists; split; [reflexivity|split; [vm_compute; lia|vm_compute; reflexivity]]
  | |- valid _ _ _ => eexists; split; [reflexivity|vm_compute; lia]
  | |- disjoint _ _ _ _ => first [left; vm_compute; lia | right; left; vm_compute; lia | right; right; vm_compute; lia]
  | |- aligned_to _ _ _ = true => vm_compute; reflexivity
  | |- _ /\ _ => split
  | |- ?a = ?b => vm_compute; reflexivity
  | |- ~ _ => intro
  | |- _ -> _ => intro
  end.
