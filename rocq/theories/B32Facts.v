(** B32Facts.v -- facts about binary32 used by the property files *)
From Coq Require Import ZArith Bool List Reals Lia Lra.
From Flocq Require Import Core BinarySingleNaN.
From Verif Require Import Ops OpsB32.
Local Open Scope Z_scope.

Lemma one_R : B2R (b32_ofZ 1) = 1%R.
Proof. unfold B2R. assert (E : B2SF (b32_ofZ 1) = B2SF (b32_ofZ 1)) by reflexivity.
  replace (b32_ofZ 1) with (SF2B (prec:=24) (emax:=128) (SpecFloat.S754_finite false 8388608 (-23)) eq_refl).
  - simpl. unfold F2R. simpl. lra.
  - apply B2SF_inj. rewrite B2SF_SF2B. vm_compute. reflexivity.
Qed.
Lemma one_fin : is_finite (b32_ofZ 1) = true.
Proof. vm_compute. reflexivity. Qed.
Lemma one_sign : Bsign (b32_ofZ 1) = false.
Proof. vm_compute. reflexivity. Qed.

(** x == 1.0f only for the number one *)
Lemma eq_one (x : b32) : Beqb x (b32_ofZ 1) = true -> x = b32_ofZ 1.
Proof.
  intros H.
  assert (Fx : is_finite x = true).
  { destruct x as [s|s| |s m e He]; try reflexivity; exfalso; [destruct s|]; vm_compute in H; discriminate. }
  unfold Beqb in H. pose proof (Bcompare_correct 24 128 x (b32_ofZ 1) Fx one_fin) as C.
  unfold Bcompare in C. unfold SpecFloat.SFeqb in H. rewrite C in H.
  destruct (Rcompare_spec (B2R x) (B2R (b32_ofZ 1))) as [L|E|L]; try discriminate.
  apply B2R_Bsign_inj; auto using one_fin. rewrite one_sign.
  rewrite one_R in E. destruct x as [s|s| |s m e He]; try discriminate.
  - destruct s; [|reflexivity]. exfalso. simpl in E.
    assert (F2R (Float radix2 (Zneg m) e) < 0)%R by (apply F2R_lt_0; simpl; lia). unfold F2R in *. simpl in *. lra.
Qed.

Lemma mul_one (w : b32) : Bmult mode_NE (b32_ofZ 1) w = w.
Proof.
  destruct w as [s|s| |s m e He].
  - apply B2SF_inj. destruct s; vm_compute; reflexivity.
  - apply B2SF_inj. destruct s; vm_compute; reflexivity.
  - apply B2SF_inj. vm_compute. reflexivity.
  - set (w := B754_finite s m e He). 
    pose proof (Bmult_correct 24 128 _ _ mode_NE (b32_ofZ 1) w) as C.
    rewrite one_R, Rmult_1_l in C. rewrite round_generic in C; [|apply valid_rnd_round_mode|apply generic_format_B2R].
    rewrite Rlt_bool_true in C by apply abs_B2R_lt_emax.
    destruct C as (C1 & C2 & C3). rewrite one_fin in C2.
    apply B2R_Bsign_inj; auto.
    rewrite C3. + rewrite one_sign. apply xorb_false_l. + destruct (Bmult mode_NE (b32_ofZ 1) w); simpl in *; congruence.
Qed.

Lemma mul1_B32 lm : forall x w : @F (opsB32 lm), feq x f1 = true -> fmul x w = w.
Proof. intros x w H. simpl in *. rewrite (eq_one x H). apply mul_one. Qed.

Lemma eq_zero (x : b32) : Beqb x b32_zero = true <-> exists s, x = B754_zero s.
Proof.
  split.
  - destruct x as [s|s| |s m e He]; [intros _; eexists; reflexivity|destruct s|..|destruct s]; vm_compute; discriminate.
  - intros [s ->]. reflexivity.
Qed.
