(** ActPropProofs.v -- proofs for Prop_Activation.v *)
From Coq Require Import List Arith ZArith Lia Bool Reals Lra.
From Flocq Require Import Core BinarySingleNaN.
From Verif Require Import Base BaseProofs Ops Mem MemProofs Kernels KernelProofs Activation ActivationProofs
  OpsR SpecReal RealForward OpsB32 SpecBits BitsProofs SpecMem Exp256 ActAccuracy.
Import ListNotations.
Local Open Scope R_scope.

Lemma activation_writes (FO : fops) c vexp g m p xs : holds m p xs -> (1 <= length xs)%nat -> act_pre c g m p (length xs) ->
  writes_only (activation_func c vexp g (length xs) p) m p (act_f c vexp g (addr m p) xs).
Proof.
  intros H L A. apply writes_only_intro; [|apply activation_func_ok; auto].
  rewrite length_act_f. apply holds_valid; auto.
Qed.

(** ** softmax *)
Definition sm (n : nat) (z : nat -> R) (j : nat) : R := exp (z j) / sumf n (fun k => exp (z k)).
Lemma sum_exp_pos n z : (1 <= n)%nat -> 0 < sumf n (fun k => exp (z k)).
Proof.
  intros H. eapply Rlt_le_trans; [apply (exp_pos (z 0%nat))|].
  apply (sumf_ge_term n (fun k => exp (z k)) 0); [intros; left; apply exp_pos|lia].
Qed.
Lemma sm_pos n z j : (1 <= n)%nat -> 0 < sm n z j.
Proof. intros. apply Rdiv_lt_0_compat; [apply exp_pos|apply sum_exp_pos; auto]. Qed.
Lemma sm_sum n z : (1 <= n)%nat -> sumf n (sm n z) = 1.
Proof.
  intros H. unfold sm. rewrite (sumf_ext n _ (fun k => / sumf n (fun k => exp (z k)) * exp (z k))).
  - rewrite sumf_scal. apply Rinv_l. pose proof (sum_exp_pos n z H). lra.
  - intros. unfold Rdiv. ring.
Qed.
Lemma sm_mono n z i j : (1 <= n)%nat -> z i < z j -> sm n z i < sm n z j.
Proof.
  intros H L. unfold sm. apply Rmult_lt_compat_r; [apply Rinv_0_lt_compat, sum_exp_pos; auto|]. apply exp_increasing; auto.
Qed.
Lemma sm_shift n z a j : (1 <= n)%nat -> sm n (fun k => z k + a) j = sm n z j.
Proof.
  intros H. unfold sm. rewrite (sumf_ext n _ (fun k => exp a * exp (z k))) by (intros; rewrite exp_plus; ring).
  rewrite sumf_scal, exp_plus. pose proof (sum_exp_pos n z H). pose proof (exp_pos a). field. lra.
Qed.
Lemma sm_ext n z z' j : (forall k, (k < n)%nat -> z k = z' k) -> (j < n)%nat -> sm n z j = sm n z' j.
Proof. intros H Hj. unfold sm. rewrite H by auto. f_equal. apply sumf_ext. intros. rewrite H; auto. Qed.

Lemma vec_shift (xs : list R) a k : (k < length xs)%nat -> vec (map (fun x => x + a) xs) k = vec xs k + a.
Proof. intros. apply vec_map; auto. Qed.

(** ** relu in binary32 *)
Lemma Beqb_refl (x : b32) : is_nan x = false -> Beqb x x = true.
Proof.
  intros H. destruct x as [s|s| |s m e He]; try discriminate; try reflexivity.
  - destruct s; reflexivity.
  - unfold Beqb, SpecFloat.SFeqb, SpecFloat.SFcompare. simpl. rewrite Z.compare_refl, Pos.compare_cont_refl.
    destruct s; reflexivity.
Qed.
Definition relu_math (x : b32) : b32 := if Bltb x b32_zero then b32_zero else x.
Lemma relu_s_num (x : b32) : is_nan x = false -> Beqb (b32_max b32_zero x) (relu_math x) = true.
Proof.
  intros H. destruct x as [s|s| |s m e He]; try discriminate; destruct s; try reflexivity.
  apply (Beqb_refl (B754_finite false m e He)). reflexivity.
Qed.
Lemma relu_v_num lm (x : b32) : is_nan x = false -> Beqb (@relu_v (opsB32 lm) x) (relu_math x) = true.
Proof.
  intros H. unfold relu_v, vmax, fgt. simpl.
  destruct x as [s|s| |s m e He]; try discriminate; destruct s; try reflexivity.
  apply (Beqb_refl (B754_finite false m e He)). reflexivity.
Qed.
Lemma relu_elem (xs ys : list b32) :
  Forall2 (fun z y => y = b32_max b32_zero z \/ y = (if Bltb z b32_zero then b32_zero else z)) xs ys ->
  Forall (fun x => is_nan x = false) xs ->
  Forall2 (fun x y => Beqb y (if Bltb x b32_zero then b32_zero else x) = true) xs ys.
Proof.
  induction 1 as [|x y xs ys Hxy R IH]; intros HN; constructor; inversion HN; subst; auto.
  destruct Hxy as [E|E]; rewrite E; clear E.
  - apply relu_s_num; auto.
  - destruct x as [s|s| |s mm e He]; try discriminate; destruct s; try reflexivity.
    apply (Beqb_refl (B754_finite false mm e He)). reflexivity.
Qed.
