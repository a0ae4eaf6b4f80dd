(** ActAccuracy.v -- sigmoid, tanh and softmax with exp256_ps, in exact arithmetic *)
From Coq Require Import Reals ZArith Lra Lia Bool List.
From Coquelicot Require Import Coquelicot.
From Verif Require Import Base BaseProofs Ops Mem MemProofs Kernels KernelProofs Activation ActivationProofs
  OpsR SpecReal RealForward BitsProofs Exp256.
Import ListNotations.
Local Open Scope R_scope.

Notation E256 := (@exp256_lane opsR).

Lemma E256_bounds x : (1 - 1/10^7) * exp (clamp x) <= E256 x <= (1 + 1/10^7) * exp (clamp x).
Proof. pose proof (exp256_rel x) as H. apply Rabs_le_between in H. lra. Qed.
Lemma E256_pos x : 0 < E256 x.
Proof. pose proof (E256_bounds x). pose proof (exp_pos (clamp x)). lra. Qed.

Lemma exp_le a b : a <= b -> exp a <= exp b.
Proof. intros [H| ->]; [left; apply exp_increasing; auto|lra]. Qed.
Lemma exp_hi_big : 10^30 <= exp e_hi.
Proof.
  pose proof exp_lo_small as H. rewrite exp_Ropp in H. pose proof (exp_pos e_hi) as P.
  apply Rmult_le_reg_r with (/ exp e_hi * (1 / 10^30)).
  - apply Rmult_lt_0_compat; [apply Rinv_0_lt_compat; auto|lra].
  - replace (exp e_hi * (/ exp e_hi * (1 / 10^30))) with (1/10^30) by (field; lra). lra.
Qed.

Lemma clamp_cases x : (- e_hi <= x <= e_hi /\ clamp x = x) \/ (e_hi < x /\ clamp x = e_hi) \/ (x < - e_hi /\ clamp x = - e_hi).
Proof.
  destruct (Rle_dec (- e_hi) x); [destruct (Rle_dec x e_hi)|].
  - left. split; [lra|]. apply clamp_id; lra.
  - right; left. split; [lra|]. unfold clamp, e_hi in *. rewrite Rmin_left, Rmax_right; lra.
  - right; right. split; [lra|]. unfold clamp, e_hi in *. rewrite Rmin_right, Rmax_left; lra.
Qed.

(** 1 / (1 + exp x) *)
Lemma inv1p_acc x : Rabs (1 / (1 + E256 x) - 1 / (1 + exp x)) <= 1 / 10^7.
Proof.
  pose proof (E256_pos x) as PE. pose proof (exp_pos x) as Px. pose proof (E256_bounds x) as B.
  set (v := E256 x) in *. set (u := exp x) in *.
  destruct (clamp_cases x) as [[Hx C]|[[Hx C]|[Hx C]]]; rewrite C in B.
  - fold u in B. replace (1 / (1 + v) - 1 / (1 + u)) with ((u - v) / (1 + u) * / (1 + v)) by (field; lra).
    rewrite Rabs_mult. rewrite (Rabs_pos_eq (/ (1 + v))) by (left; apply Rinv_0_lt_compat; lra).
    assert (I : / (1 + v) <= 1). { rewrite <- Rinv_1 at 2. apply Rinv_le_contravar; lra. }
    assert (J : Rabs ((u - v) / (1 + u)) <= 1/10^7).
    { unfold Rdiv. rewrite Rabs_mult. rewrite (Rabs_pos_eq (/ (1 + u))) by (left; apply Rinv_0_lt_compat; lra).
      apply Rmult_le_reg_r with (1 + u); [lra|]. rewrite Rmult_assoc, Rinv_l by lra.
      assert (Rabs (u - v) <= 1/10^7 * u) by (apply Rabs_le_between; lra). lra. }
    pose proof (Rabs_pos ((u - v) / (1 + u))). assert (0 < / (1 + v)) by (apply Rinv_0_lt_compat; lra). nra.
  - pose proof exp_hi_big. assert (U : 10^30 <= u). { unfold u. eapply Rle_trans; [exact H|]. apply exp_le; lra. }
    assert (V : 10^29 <= v) by lra.
    assert (A : 0 < / (1 + v) <= / 10^29). { split; [apply Rinv_0_lt_compat; lra|apply Rinv_le_contravar; lra]. }
    assert (A2 : 0 < / (1 + u) <= / 10^29). { split; [apply Rinv_0_lt_compat; lra|apply Rinv_le_contravar; lra]. }
    unfold Rdiv. rewrite !Rmult_1_l. apply Rabs_le_between. lra.
  - pose proof exp_lo_small as L. assert (U : u <= 1/10^30). { unfold u. eapply Rle_trans; [|exact L]. apply exp_le; lra. }
    assert (V : v <= 2/10^30) by lra.
    replace (1 / (1 + v) - 1 / (1 + u)) with ((u - v) * / ((1 + u) * (1 + v))) by (field; lra).
    assert (I : 0 < / ((1 + u) * (1 + v)) <= 1).
    { split; [apply Rinv_0_lt_compat; nra|]. rewrite <- Rinv_1. apply Rinv_le_contravar; nra. }
    rewrite Rabs_mult, (Rabs_pos_eq (/ _)) by lra. assert (Rabs (u - v) <= 3/10^30) by (apply Rabs_le_between; lra).
    pose proof (Rabs_pos (u - v)). nra.
Qed.

Lemma sigmoid_v_acc x : Rabs (@sigmoid_v opsR E256 x - act_math1 Sigmoid x) <= 1 / 10^7.
Proof.
  unfold sigmoid_v, act_math1. change (@fsub opsR f0 x) with (0 - x). replace (0 - x) with (- x) by ring. apply inv1p_acc.
Qed.
Lemma tanh_v_acc x : Rabs (@tanh_v opsR E256 x - act_math1 Tanh x) <= 2 / 10^7.
Proof.
  assert (E : act_math1 Tanh x = -1 + 2 * (1 / (1 + exp (-2 * x)))).
  { unfold act_math1. replace (exp (-2 * x)) with (exp (- x) * exp (- x)) by (rewrite <- exp_plus; f_equal; ring).
    rewrite exp_Ropp. pose proof (exp_pos x). field. nra. }
  rewrite E. change (@tanh_v opsR E256 x) with (- (1) + 2 / (1 + E256 (- (2) * x))). replace (- (2) * x) with (-2 * x) by ring.
  pose proof (inv1p_acc (-2 * x)) as H. pose proof (E256_pos (-2 * x)). pose proof (exp_pos (-2 * x)).
  apply Rabs_le_between in H. apply Rabs_le_between. unfold Rdiv in *. lra.
Qed.

(** softmax *)
Lemma lsum_mono f g n : (forall i, (i < n)%nat -> f i <= g i) -> sumf n f <= sumf n g.
Proof. induction n; intros H; simpl; [lra|]. pose proof (H n (Nat.lt_succ_diag_r n)). assert (sumf n f <= sumf n g) by auto. lra. Qed.
Lemma sumf_const n a : sumf n (fun _ => a) = INR n * a.
Proof. induction n; [simpl; lra|]. rewrite S_INR. simpl. rewrite IHn. lra. Qed.
Lemma sumf_opp n f : sumf n (fun i => - f i) = - sumf n f.
Proof. induction n; simpl; lra. Qed.
Lemma sumf_ge_term n f j : (forall i, (i < n)%nat -> 0 <= f i) -> (j < n)%nat -> f j <= sumf n f.
Proof.
  intros H Hj. induction n; [lia|]. simpl.
  assert (P : 0 <= sumf n f). { rewrite <- (sumf_0 n). apply lsum_mono. auto. }
  destruct (Nat.eq_dec j n) as [->|]. - lra. - assert (f j <= sumf n f) by (apply IHn; auto; lia). pose proof (H n ltac:(lia)). lra.
Qed.

Lemma fold_max_ge : forall (xs : list R) x0 x, (x = x0 \/ In x xs) ->
  x <= fold_left (fun mv x => if @fgt opsR x mv then x else mv) xs x0.
Proof.
  assert (M : forall (xs : list R) x0, x0 <= fold_left (fun mv x => if @fgt opsR x mv then x else mv) xs x0).
  { induction xs as [|y xs IH]; intros x0; [simpl; lra|]. cbn [fold_left].
    eapply Rle_trans; [|apply IH]. unfold fgt. simpl. destruct (Rltb_spec x0 y); lra. }
  induction xs as [|y xs IH]; intros x0 x H.
  - destruct H as [->|[]]. simpl. lra.
  - cbn [fold_left]. destruct H as [->|[->|H]].
    + apply (M (y :: xs)).
    + eapply Rle_trans; [|apply M]. unfold fgt. simpl. destruct (Rltb_spec x0 x); lra.
    + apply IH. auto.
Qed.
Lemma max_f_ge (xs : list R) x : In x xs -> x <= @max_f opsR xs.
Proof. destruct xs as [|y xs]; [intros []|]. intros [->|H]; apply fold_max_ge; auto. Qed.

Lemma E256_neg_acc t : t <= 0 -> Rabs (E256 t - exp t) <= 1/10^7 * exp t + 2/10^30.
Proof.
  intros Ht. pose proof (E256_bounds t) as B. pose proof (exp_pos t).
  destruct (clamp_cases t) as [[Hx C]|[[Hx C]|[Hx C]]]; rewrite C in B.
  - apply Rabs_le_between. lra.
  - unfold e_hi in Hx. lra.
  - pose proof exp_lo_small as L. assert (exp t <= exp (- e_hi)) by (apply exp_le; lra). pose proof (exp_pos (- e_hi)).
    apply Rabs_le_between. lra.
Qed.

Section Softmax.
Variable c : cfg.
Lemma vec_mapi f (xs : list R) j : (j < length xs)%nat -> vec (mapi f xs) j = f j (vec xs j).
Proof.
  intros H. unfold vec. destruct (nth_error_ex xs H) as [x Hx].
  rewrite (nth_error_nth _ _ 0 Hx). apply nth_error_nth. rewrite nth_error_mapi, Hx. reflexivity.
Qed.
Lemma length_mapi' A B (f : nat -> A -> B) xs : length (mapi f xs) = length xs.
Proof. unfold mapi. generalize 0%nat. induction xs; intros; simpl; auto. Qed.

Lemma softmax_acc a (xs : list R) j : (j < length xs)%nat -> INR (length xs) <= 10^20 ->
  Rabs (vec (@softmax_f opsR c E256 a xs) j - exp (vec xs j) / sumf (length xs) (fun k => exp (vec xs k))) <= 3 / 10^7.
Proof.
  intros Hj HN. set (n := length xs) in *. set (mx := @max_f opsR xs).
  set (es := @exps_f opsR c E256 a xs).
  assert (Les : length es = n) by (unfold es, exps_f; apply length_mapi').
  set (e := fun k => exp (vec xs k - mx)).
  assert (He : forall k, (k < n)%nat -> Rabs (vec es k - e k) <= 1/10^7 * e k + 2/10^30).
  { intros k Hk. unfold es, exps_f. rewrite vec_mapi by auto. fold mx.
    assert (T : vec xs k - mx <= 0).
    { assert (vec xs k <= mx) by (apply max_f_ge; unfold vec; apply nth_In; auto). lra. }
    destruct (_ && _).
    - apply (E256_neg_acc (vec xs k - mx) T).
    - change (@fexp opsR (@fsub opsR (vec xs k) mx)) with (e k). replace (e k - e k) with 0 by ring. rewrite Rabs_R0.
      pose proof (exp_pos (vec xs k - mx)). unfold e. lra. }
  assert (Ep : forall k, 0 < e k) by (intros; apply exp_pos).
  set (S1 := sumf n e). set (S2 := sumf n (vec es)).
  assert (HS1 : 1 <= S1).
  { assert (NE : xs <> []) by (intros ->; simpl in *; unfold n in Hj; simpl in Hj; lia).
    pose proof (max_f_in (FO := opsR) xs NE) as IM. apply (In_nth _ _ 0) in IM. destruct IM as (k & Hk & Ek).
    replace 1 with (e k). - apply sumf_ge_term; auto. intros; left; auto.
    - unfold e, vec. change (@F opsR) with R in *. rewrite Ek. fold mx. replace (mx - mx) with 0 by ring. apply exp_0. }
  assert (HD : Rabs (S2 - S1) <= 11/10 * (1/10^7) * S1).
  { assert (U : S2 <= sumf n (fun k => e k + (1/10^7 * e k + 2/10^30))).
    { apply lsum_mono. intros k Hk. specialize (He k Hk). apply Rabs_le_between in He. lra. }
    assert (D : sumf n (fun k => e k + - (1/10^7 * e k + 2/10^30)) <= S2).
    { apply lsum_mono. intros k Hk. specialize (He k Hk). apply Rabs_le_between in He. lra. }
    rewrite sumf_plus, sumf_plus, sumf_scal, sumf_const in U. rewrite sumf_plus, sumf_opp, sumf_plus, sumf_scal, sumf_const in D.
    fold S1 in U, D. pose proof (pos_INR n). apply Rabs_le_between.
    assert (INR n * (2/10^30) <= 2/10^10) by lra. lra. }
  assert (HS2 : (9/10) * S1 <= S2). { apply Rabs_le_between in HD. lra. }
  assert (EQ : exp (vec xs j) / sumf n (fun k => exp (vec xs k)) = e j / S1).
  { unfold S1, e. rewrite (sumf_ext n (fun k => exp (vec xs k - mx)) (fun k => exp (- mx) * exp (vec xs k))).
    - rewrite sumf_scal. unfold Rminus. rewrite exp_plus. field. split; [|pose proof (exp_pos (- mx)); lra].
      assert (P : 0 < sumf n (fun k => exp (vec xs k))).
      { eapply Rlt_le_trans; [apply (exp_pos (vec xs j))|]. apply (sumf_ge_term n (fun k => exp (vec xs k)) j); auto.
        intros; left; apply exp_pos. }
      lra.
    - intros. unfold Rminus. rewrite exp_plus. ring. }
  rewrite EQ. unfold softmax_f. fold es. rewrite sum_R.
  assert (ES : lsum es = S2) by (rewrite lsum_sumf; change (@F opsR) with R in *; rewrite Les; reflexivity).
  rewrite ES. change (@fdiv opsR) with Rdiv. change (@F opsR) with R in *. rewrite vec_map by lia.
  set (e' := vec es j). specialize (He j Hj). fold e' in He. pose proof (Ep j) as Pj.
  replace (e' / S2 - e j / S1) with (((e' - e j) * S1 + e j * (S1 - S2)) * / (S1 * S2)) by (field; lra).
  assert (I : 0 < S1 * S2) by nra.
  rewrite Rabs_mult, (Rabs_pos_eq (/ _)) by (left; apply Rinv_0_lt_compat; auto).
  apply Rmult_le_reg_r with (S1 * S2); auto. rewrite Rmult_assoc, Rinv_l, Rmult_1_r by lra.
  eapply Rle_trans; [apply Rabs_triang|]. rewrite !Rabs_mult, (Rabs_pos_eq S1), (Rabs_pos_eq (e j)) by lra.
  rewrite (Rabs_minus_sym S1 S2).
  assert (EJ : e j <= S1) by (apply sumf_ge_term; auto; intros; left; auto).
  assert (A1 : Rabs (e' - e j) * S1 <= (1/10^7 * e j + 2/10^30) * S1) by (apply Rmult_le_compat_r; lra).
  assert (A2 : e j * Rabs (S2 - S1) <= e j * (11/10 * (1/10^7) * S1)) by (apply Rmult_le_compat_l; lra).
  eapply Rle_trans; [apply Rplus_le_compat; [exact A1|exact A2]|].
  assert (A3 : (1/10^7 * e j + 2/10^30) * S1 + e j * (11/10 * (1/10^7) * S1) <= (22/10^8 * S1) * S1) by nra.
  eapply Rle_trans; [exact A3|]. nra.
Qed.

(** all activation functions: with exp256_ps within 3e-7 of the mathematical function *)
Lemma act_acc g a (xs : list R) j : (j < length xs)%nat -> INR (length xs) <= 10^20 ->
  Rabs (vec (@act_f opsR c E256 g a xs) j - act_math g (length xs) (vec xs) j) <= 3 / 10^7.
Proof.
  intros Hj HN.
  assert (EX : forall y z : R, y = z -> Rabs (y - z) <= 3/10^7).
  { intros y z ->. replace (z - z) with 0 by ring. rewrite Rabs_R0. lra. }
  assert (EL : forall (s v : R -> R) (P : nat -> bool) (f : R -> R) (e : R), (forall x, s x = f x) -> (forall x, Rabs (v x - f x) <= e) -> e <= 3/10^7 ->
     Rabs (vec (mapi (fun i x => if P i then v x else s x) xs) j - f (vec xs j)) <= 3/10^7).
  { intros s v P f e Hs Hv He. rewrite vec_mapi by auto. destruct (P j); [eapply Rle_trans; [apply Hv|auto]|apply EX, Hs]. }
  destruct g.
  - apply EX; exact (act_R c Softplus a xs j Hj).
  - apply EX; exact (act_R c Softsign a xs j Hj).
  - apply EX; exact (act_R c Hard_sigmoid a xs j Hj).
  - apply EX; exact (act_R c Exponential a xs j Hj).
  - apply EX; exact (act_R c Linear a xs j Hj).
  - apply EX; exact (act_R c Relu a xs j Hj).
  - apply softmax_acc; auto.
  - eapply (EL (@sigmoid_s opsR) (@sigmoid_v opsR E256) _ (act_math1 Sigmoid) (1/10^7)); [reflexivity|apply sigmoid_v_acc|lra].
  - eapply (EL (@ftanh opsR) (@tanh_v opsR E256) _ (act_math1 Tanh) (2/10^7)); [apply tanh_math|apply tanh_v_acc|lra].
Qed.
End Softmax.
