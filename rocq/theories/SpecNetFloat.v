(** SpecNetFloat.v -- the floats that the bytes of a network stand for *)
From Coq Require Import ZArith Ascii List.
From Flocq Require Import Core BinarySingleNaN.
From Flocq Require IEEE754.Binary IEEE754.Bits.
From Verif Require Import Ops OpsB32 Activation ForwardProofs Registry SpecNetFile.
Import ListNotations.

(** four bytes, little endian, are one binary32 *)
Definition float_of (a b c d : ascii) : b32 :=
  let byte x := Z.of_nat (nat_of_ascii x) in
  Binary.B2BSN 24 128 (Bits.b32_of_bits (byte a + 256 * byte b + 65536 * byte c + 16777216 * byte d)%Z).
Fixpoint floats_of (s : list ascii) : list b32 :=
  match s with a :: b :: c :: d :: r => float_of a b c d :: floats_of r | _ => [] end.
(** the same network, in bytes and in floats *)
Definition layer_floats (lm : libm) (d : ndesc) (f : @flayer (opsB32 lm)) : Prop :=
  fw f = floats_of (d_w d) /\ fb f = floats_of (d_b d) /\ d_f d = Builtin (fact f).
Definition net_floats (lm : libm) (ds : list ndesc) (net : list (@flayer (opsB32 lm))) : Prop := Forall2 (layer_floats lm) ds net.

(** 1.0, -2.5 and the smallest number *)
Example floats_of_case : floats_of (map ascii_of_nat [0; 0; 128; 63;  0; 0; 32; 192;  1; 0; 0; 0])
  = [b32_of 1 0; b32_of (-5) (-1); b32_of 1 (-149)].
Proof.
  assert (H : map B2SF (floats_of (map ascii_of_nat [0; 0; 128; 63;  0; 0; 32; 192;  1; 0; 0; 0]))
    = map B2SF [b32_of 1 0; b32_of (-5) (-1); b32_of 1 (-149)]) by (vm_compute; reflexivity).
  revert H. generalize (floats_of (map ascii_of_nat [0; 0; 128; 63;  0; 0; 32; 192;  1; 0; 0; 0])). intros l.
  generalize [b32_of 1 0; b32_of (-5) (-1); b32_of 1 (-149)]. revert l. fix IH 1. intros [|x l] [|y k] H; simpl in H; try discriminate; [reflexivity|].
  injection H as H1 H2. apply B2SF_inj in H1. f_equal; [exact H1|apply IH; exact H2].
Qed.
