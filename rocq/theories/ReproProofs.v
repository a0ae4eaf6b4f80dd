(** ReproProofs.v -- sums of floats that start from +0: at most two numbers give the same bits in every order *)
From Flocq Require Import Core IEEE754.BinarySingleNaN Plus_error.
From Coq Require Import List Arith ZArith Lia Bool Reals Lra Permutation.
From Verif Require Import Base BaseProofs Ops OpsB32 B32Facts MetricB32 SpecReal SpecOpt Activation Exp256B32 Loss Neuralnet ForwardProofs Optimizer OptProofs SpecRound RoundProofs SpecGradRound SpecStepRound SumRound BatchRound.
Import ListNotations.
Local Open Scope nat_scope.
Local Notation NZ := b32_zero.
Local Notation plus := (Bplus mode_NE : b32 -> b32 -> b32).

#[local] Instance vexpr : Valid_exp (SpecFloat.fexp 24 128) := fexp_correct 24 128 prec_gt_0_32.

Lemma plus_comm32 (x y : b32) : plus x y = plus y x.
Proof.
  destruct x as [sx|sx| |sx mx ex Hx], y as [sy|sy| |sy my ey Hy]; try reflexivity.
  - cbn. destruct sx, sy; reflexivity.
  - cbn. destruct sx, sy; reflexivity.
  - cbn [Bplus]. rewrite (Z.min_comm ey ex). f_equal. unfold Fplus_naive. apply Z.add_comm.
Qed.

(** equal, or both zeros *)
Definition same0 (x y : b32) : Prop := x = y \/ exists s t, x = B754_zero s /\ y = B754_zero t.
Definition pos0 (x : b32) : Prop := x <> B754_zero true.
Lemma same0_refl x : same0 x x. Proof. left. reflexivity. Qed.
Lemma same0_sym x y : same0 x y -> same0 y x.
Proof. intros [->|(s & t & -> & ->)]; [left; reflexivity|right; eauto]. Qed.
Lemma same0_trans x y z : same0 x y -> same0 y z -> same0 x z.
Proof. intros [->|(s & t & -> & ->)] [E|(s' & t' & E1 & ->)]; subst; try (left; reflexivity); right; eauto. Qed.
Lemma same0_plus x x' y y' : same0 x x' -> same0 y y' -> same0 (plus x y) (plus x' y').
Proof.
  intros [E|(s & t & E & E')] [D|(s' & t' & D & D')]; subst.
  - left. reflexivity.
  - destruct x' as [a|a| |a ma ea Ha]; cbn; try (left; reflexivity). right. destruct a, s', t'; cbn; eauto.
  - destruct y' as [a|a| |a ma ea Ha]; cbn; try (left; reflexivity). right. destruct a, s, t; cbn; eauto.
  - right. cbn. destruct s, t, s', t'; cbn; eauto.
Qed.
Lemma zero_plus s x : same0 (plus (B754_zero s) x) x.
Proof. destruct x as [a|a| |a ma ea Ha]; cbn; try (left; reflexivity). right. destruct s, a; cbn; eauto. Qed.
Lemma plus_zero s x : same0 (plus x (B754_zero s)) x.
Proof. rewrite plus_comm32. apply zero_plus. Qed.
Lemma same0_eq x y : same0 x y -> pos0 x -> pos0 y -> x = y.
Proof. intros [->|(s & t & -> & ->)] P Q; [reflexivity|]. destruct s; [elim P; reflexivity|]. destruct t; [elim Q; reflexivity|reflexivity]. Qed.
Lemma pos0_plus x y : pos0 x -> pos0 (plus x y).
Proof.
  intros P. destruct x as [sx|sx| |sx mx ex Hx], y as [sy|sy| |sy my ey Hy]; try exact P; try discriminate; unfold pos0.
  - destruct sx, sy; cbn; try discriminate. elim P. reflexivity.
  - cbn. destruct sx, sy; discriminate.
  - set (x := B754_finite sx mx ex Hx : b32) in *. set (y := B754_finite sy my ey Hy : b32).
    pose proof (Bplus_correct 24 128 _ _ mode_NE x y eq_refl eq_refl) as C. intros E. rewrite E in C.
    destruct (Rlt_bool _ _) eqn:B in C.
    + destruct C as (C1 & _ & C3). cbn [Bsign] in C3. cbn [B2R] in C1.
      destruct (Rcompare_spec (B2R x + B2R y) 0) as [L|L|L]; try discriminate.
      2: { cbn in C3. subst x y. cbn in C3. destruct sx, sy; try discriminate. clear - L.
           assert (N1 : (B2R (B754_finite true mx ex Hx : b32) < 0)%R) by (apply F2R_lt_0; reflexivity).
           assert (N2 : (B2R (B754_finite true my ey Hy : b32) < 0)%R) by (apply F2R_lt_0; reflexivity). cbn [B2R] in *. lra. }
      symmetry in C1. revert C1. change (SpecFloat.fexp 24 128) with (FLT_exp (-149) 24).
      apply (round_plus_neq_0 radix2 (FLT_exp (-149) 24) ZnearestE); try apply (generic_format_B2R 24 128). lra.
    + destruct C as (C1 & _). cbn in C1. discriminate.
Qed.

Section Few.
  Variable g : nat -> b32.
  Lemma adds_nil l v : adds g l v -> l = [] -> same0 v NZ.
  Proof.
    induction 1 as [|i|a b x y H1 IH1 H2 IH2]; intros E; [apply same0_refl|discriminate|].
    apply app_eq_nil in E. destruct E as (-> & ->). eapply same0_trans; [apply same0_plus; [apply IH1|apply IH2]; reflexivity|]. left. reflexivity.
  Qed.
  Lemma adds_single l v i : adds g l v -> l = [i] -> same0 v (g i).
  Proof.
    induction 1 as [|j|a b x y H1 IH1 H2 IH2]; intros E; [discriminate|inversion E; apply same0_refl|].
    apply app_eq_unit in E. destruct E as [(-> & ->)|(-> & ->)].
    - eapply same0_trans; [apply same0_plus; [exact (adds_nil _ _ H1 eq_refl)|apply IH2; reflexivity]|]. apply zero_plus.
    - eapply same0_trans; [apply same0_plus; [apply IH1; reflexivity|exact (adds_nil _ _ H2 eq_refl)]|]. apply plus_zero.
  Qed.
  Lemma adds_pair l v i j : adds g l v -> l = [i; j] -> same0 v (plus (g i) (g j)).
  Proof.
    induction 1 as [|k|a b x y H1 IH1 H2 IH2]; intros E; [discriminate|discriminate|].
    destruct a as [|a0 a].
    - eapply same0_trans; [apply same0_plus; [exact (adds_nil _ _ H1 eq_refl)|apply IH2; exact E]|]. apply zero_plus.
    - cbn in E. injection E as -> E. destruct a as [|a1 a].
      + apply same0_plus; [exact (adds_single _ _ i H1 eq_refl)|exact (adds_single _ _ j H2 E)].
      + cbn in E. injection E as -> E. apply app_eq_nil in E. destruct E as (-> & ->).
        eapply same0_trans; [apply same0_plus; [apply IH1; reflexivity|exact (adds_nil _ _ H2 eq_refl)]|]. apply plus_zero.
  Qed.
  (** at most two numbers *)
  Lemma adds_few l l' v v' : adds g l v -> adds g l' v' -> Permutation l l' -> length l <= 2 -> same0 v v'.
  Proof.
    intros H H' P L. destruct l as [|i [|j [|k l]]]; cbn in L; try lia.
    - apply Permutation_nil in P. subst l'. eapply same0_trans; [exact (adds_nil _ _ H eq_refl)|apply same0_sym; exact (adds_nil _ _ H' eq_refl)].
    - apply Permutation_length_1_inv in P. subst l'. eapply same0_trans; [exact (adds_single _ _ i H eq_refl)|apply same0_sym; exact (adds_single _ _ i H' eq_refl)].
    - apply Permutation_length_2_inv in P. destruct P as [-> | ->].
      + eapply same0_trans; [exact (adds_pair _ _ i j H eq_refl)|apply same0_sym; exact (adds_pair _ _ i j H' eq_refl)].
      + eapply same0_trans; [exact (adds_pair _ _ i j H eq_refl)|]. rewrite plus_comm32. apply same0_sym. exact (adds_pair _ _ j i H' eq_refl).
  Qed.
End Few.

Section Pos.
  Variables (lm : libm) (c : cfg) (nn : neuralnet) (lf : loss) (xs ts : list (list b32)) (pv : list nat) (i : nat).
  Notation OP := (opsB32 lm).
  Notation VE := (@exp256_lane OP).
  Variable net : list (@flayer OP).
  (** no component of the sum is -0 *)
  Lemma map2_pos0 (a b : list b32) : Forall pos0 a -> Forall pos0 (map2 plus a b).
  Proof. intros H. revert b. induction H as [|x a P H IH]; intros [|y b]; cbn; constructor; auto using pos0_plus. Qed.
  Lemma sched_pos0 s bs : Forall pos0 (@sched_sum OP c VE nn lf xs ts pv s i net bs).
  Proof.
    unfold sched_sum. assert (Z : forall k, Forall pos0 (repeat (@f0 OP) k)) by (intros k; induction k; constructor; [discriminate|assumption]).
    destruct (s_omp s) as [trs|].
    - generalize (Z (total_n_parameters nn)). generalize (repeat (@f0 OP) (total_n_parameters nn)). induction trs as [|t trs IH]; intros a H; [exact H|].
      cbn [map fold_left]. apply IH. apply map2_pos0. exact H.
    - unfold acc_f. generalize (Z (total_n_parameters nn)). generalize (repeat (@f0 OP) (total_n_parameters nn)). induction (seq 0 bs) as [|t trs IH]; intros a H; [exact H|].
      cbn [fold_left]. apply IH. apply map2_pos0. exact H.
  Qed.
  Lemma few_same s s' bs : bs <= 2 -> (forall b, b < bs -> length (@iter_grad OP c VE lf xs ts pv i net b) = total_n_parameters nn) ->
    sched_ok s bs -> sched_ok s' bs ->
    @batch_grad_f OP c VE nn lf xs ts pv s i net bs = @batch_grad_f OP c VE nn lf xs ts pv s' i net bs.
  Proof.
    intros L Lig S1 S2. unfold batch_grad_f. f_equal.
    assert (LEN : forall s, sched_ok s bs -> length (@sched_sum OP c VE nn lf xs ts pv s i net bs) = total_n_parameters nn).
    { intros s0 S0. destruct (total_n_parameters nn) as [|k] eqn:EK.
      - clear - EK. unfold sched_sum. rewrite EK. cbn [repeat]. destruct (s_omp s0) as [trs|].
        + induction trs as [|t trs IH]; [reflexivity|]. exact IH.
        + unfold acc_f. induction (seq 0 bs) as [|t l IH]; [reflexivity|exact IH].
      - destruct (sched_adds lm c nn lf xs ts pv s0 i net bs) with (j := 0) as (l & _ & LL & _); try assumption.
        + intros b Hb. rewrite EK. apply Lig. exact Hb.
        + rewrite EK. lia.
        + rewrite EK in LL. exact LL. }
    apply (nth_ext _ _ NZ NZ). { etransitivity; [apply LEN; exact S1|symmetry; apply LEN; exact S2]. }
    intros q Hq. assert (Hq' : q < total_n_parameters nn) by (rewrite <- (LEN s S1); exact Hq).
    destruct (sched_adds lm c nn lf xs ts pv s i net bs Lig q Hq' S1) as (l & P & LL & A).
    destruct (sched_adds lm c nn lf xs ts pv s' i net bs Lig q Hq' S2) as (l' & P' & LL' & A').
    assert (POS : forall s, sched_ok s bs -> pos0 (nth q (@sched_sum OP c VE nn lf xs ts pv s i net bs) NZ)).
    { intros s0 S0. pose proof (sched_pos0 s0 bs) as H. rewrite Forall_forall in H. apply H. apply nth_In. pose proof (LEN s0 S0) as LE.
      change (@F OP) with b32 in *. rewrite LE. exact Hq'. }
    apply same0_eq; [|apply POS; exact S1|apply POS; exact S2].
    apply (adds_few _ l l' _ _ A A'); [etransitivity; [exact P|symmetry; exact P']|]. apply Permutation_length in P. rewrite seq_length in P. lia.
  Qed.

  (** the mean of exact floats *)
  Lemma mean_plain s bs q : 0 < bs -> (forall b, b < bs -> length (@iter_grad OP c VE lf xs ts pv i net b) = total_n_parameters nn) ->
    q < total_n_parameters nn -> sched_ok s bs ->
    let G d := nth q (@iter_grad OP c VE lf xs ts pv i net d) NZ in
    let S := rsum (map (fun d => Rabs (bv (G d))) (seq 0 bs)) in
    (forall d, d < bs -> fin (G d) = true) -> (INR bs < 2 ^ 24)%R -> ((1 + u32) ^ bs * S <= 2 ^ 126)%R ->
    let v := nth q (@batch_grad_f OP c VE nn lf xs ts pv s i net bs) NZ in
    fin v = true /\ (Rabs (bv v - rsum (map (fun d => bv (G d)) (seq 0 bs)) / INR bs) <= ((1 + u32) ^ (bs + 1) - 1) * (S / INR bs) + eta32)%R.
  Proof.
    intros B Lig Hq S0 G S FG NB CAP v. destruct (sched_adds lm c nn lf xs ts pv s i net bs Lig q Hq S0) as (l & P & LL & A).
    assert (E : v = Bdiv mode_NE (nth q (@sched_sum OP c VE nn lf xs ts pv s i net bs) NZ) (b32_ofZ (Z.of_nat bs))).
    { unfold v, batch_grad_f. change (@F OP) with b32 in *. rewrite (nth_indep _ NZ (Bdiv mode_NE NZ (b32_ofZ (Z.of_nat bs)))).
      - exact (map_nth (fun x => Bdiv mode_NE x (b32_ofZ (Z.of_nat bs))) _ NZ q).
      - rewrite map_length. rewrite LL. exact Hq. }
    set (b := fun d => mk_near (Rabs (bv (G d))) 0).
    assert (IL : forall d, In d l -> d < bs). { intros d Hd. apply (Permutation_in _ P) in Hd. apply in_seq in Hd. lia. }
    destruct (mean_is_near G b (fun d => bv (G d)) l (seq 0 bs) _ A P) as (FQ & (_ & NQ)).
    { intros EL. subst l. apply Permutation_length in P. rewrite seq_length in P. cbn in P. lia. }
    { intros d Hd. split; [apply FG, IL, Hd|]. split; cbn [mag err b]; [lra|]. rewrite Rminus_eq_0, Rabs_R0. lra. }
    { split; rewrite map_length, seq_length; [exact NB|]. rewrite map_map. unfold cap. cbn [mag err b].
      assert (EQ : map (fun x => (Rabs (bv (G x)) + 0)%R) (seq 0 bs) = map (fun d => Rabs (bv (G d))) (seq 0 bs)) by (apply map_ext; intros; ring).
      rewrite EQ. exact CAP. }
    rewrite seq_length in FQ, NQ. rewrite E. split; [exact FQ|]. eapply Rle_trans; [exact NQ|].
    unfold mean_near, rounded, cap. cbn [mag err]. rewrite map_length, seq_length, !map_map. cbn [mag err b].
    assert (ZS : rsum (map (fun _ : nat => 0%R) (seq 0 bs)) = 0%R). { clear. induction (seq 0 bs) as [|a l IH]; cbn; [reflexivity|]. rewrite IH. ring. }
    rewrite ZS. change (map (fun x => Rabs (bv (G x))) (seq 0 bs)) with (map (fun d => Rabs (bv (G d))) (seq 0 bs)). fold S.
    change (INR 1) with 1%R. rewrite pow_1, pow_add, pow_1. assert (0 < INR bs)%R by (apply lt_0_INR; lia). apply Req_le. field. lra.
  Qed.
End Pos.
