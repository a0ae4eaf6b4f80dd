(** BatchRound.v -- rounding errors of the batch gradient in binary32, for every schedule *)
From Coquelicot Require Import Coquelicot.
From Flocq Require Import Core BinarySingleNaN.
From Coq Require Import ZArith Bool List Arith Reals Lia Lra Permutation.
From Verif Require Import Base BaseProofs Ops OpsR Mem MemProofs Kernels KernelProofs Activation ActivationProofs Loss Neuralnet
  ForwardProofs BackpropProofs OpsB32 B32Facts MetricB32 SpecReal RealForward RealGrad LossGrad GradProofs SpecBits BitsProofs SpecMem PredictProofs GradPropProofs
  ParamProofs Batch BatchProofs BlasProofs Optimizer OptKernels OptProofs OptEpochs SpecOpt OptReal OptTrain SpecDescent DescentProofs
  Exp256B32 SpecLibm SpecRound RoundProofs RoundNet SpecGradRound SlopeRound LossRound GradRound GradSample SpecStepRound SumRound.
Import ListNotations.
Local Open Scope R_scope.
Local Notation NZ := b32_zero.

Lemma in_firstn {A} k (l : list A) x : In x (firstn k l) -> In x l.
Proof. intros H. rewrite <- (firstn_skipn k l). apply in_or_app. left. exact H. Qed.
Lemma len_map2_b (f : b32 -> b32 -> b32) (a b : list b32) n : length a = n -> length b = n -> length (map2 f a b) = n.
Proof. intros. rewrite length_map2. lia. Qed.

Section Batch.
  Variables (lm : libm) (c : cfg) (nn : neuralnet) (lf : loss) (xs ts : list (list b32)) (pv : list nat) (s : sched) (i : nat).
  Notation OP := (opsB32 lm).
  Notation VE := (@exp256_lane OP).
  Let np := total_n_parameters nn.
  Variable net : list (@flayer OP).
  Variable bs : nat.
  Notation ig := (@iter_grad OP c VE lf xs ts pv i net).
  Hypothesis Lig : forall b, (b < bs)%nat -> length (ig b) = np.
  Variable j : nat.
  Hypothesis Hj : (j < np)%nat.
  Let g (b : nat) : b32 := nth j (ig b) NZ.

  Lemma acc_adds : forall its (a : list b32) l0, length a = np -> adds g l0 (nth j a NZ) -> (forall b, In b its -> (b < bs)%nat) ->
    length (@acc_f OP c VE lf xs ts pv i net a its) = np /\ adds g (l0 ++ its) (nth j (@acc_f OP c VE lf xs ts pv i net a its) NZ).
  Proof.
    induction its as [|b its IH]; intros a l0 La HA Hb.
    - cbn. rewrite app_nil_r. split; [exact La|exact HA].
    - assert (Lb : length (ig b) = np) by (apply Lig, Hb; left; reflexivity).
      replace (l0 ++ b :: its) with ((l0 ++ [b]) ++ its) by (rewrite <- app_assoc; reflexivity).
      change (@acc_f OP c VE lf xs ts pv i net a (b :: its)) with (@acc_f OP c VE lf xs ts pv i net (map2 (Bplus mode_NE) a (ig b)) its).
      apply IH.
      + apply len_map2_b; [exact La|exact Lb].
      + assert (L2 : length a = length (ig b)) by (rewrite La; symmetry; exact Lb).
        rewrite nth_map2 by (solve [exact L2|rewrite La; exact Hj]). apply adds_plus; [exact HA|apply (adds_one g)].
      + intros b' Hb'. apply Hb. right. exact Hb'.
  Qed.
  Lemma zeros_adds : adds g [] (nth j (repeat NZ np) NZ).
  Proof. rewrite nth_repeat. constructor. Qed.
  Lemma tree_adds : forall t, (forall b, In b (tree_its t) -> (b < bs)%nat) ->
    length (@tree_g OP c VE nn lf xs ts pv i net t) = np /\ adds g (tree_its t) (nth j (@tree_g OP c VE nn lf xs ts pv i net t) NZ).
  Proof.
    induction t as [base its|t1 IH1 t2 IH2]; intros Hb.
    - apply (acc_adds its (repeat NZ np) []); [apply repeat_length|exact zeros_adds|exact Hb].
    - cbn [tree_its] in Hb |- *. destruct IH1 as [A1 B1]; [intros; apply Hb; apply in_or_app; auto|]. destruct IH2 as [A2 B2]; [intros; apply Hb; apply in_or_app; auto|].
      change (@tree_g OP c VE nn lf xs ts pv i net (Comb t1 t2)) with (map2 (Bplus mode_NE) (@tree_g OP c VE nn lf xs ts pv i net t1) (@tree_g OP c VE nn lf xs ts pv i net t2)).
      change (@F OP) with b32 in *.
      split; [apply len_map2_b; assumption|]. rewrite nth_map2 by (rewrite ?A1; auto). apply adds_plus; assumption.
  Qed.
  Lemma sched_adds : sched_ok s bs -> exists l, Permutation l (seq 0 bs) /\
    length (@sched_sum OP c VE nn lf xs ts pv s i net bs) = np /\ adds g l (nth j (@sched_sum OP c VE nn lf xs ts pv s i net bs) NZ).
  Proof.
    unfold sched_ok, sched_sum. destruct (s_omp s) as [trs|]; intros SO.
    - exists (flat_map tree_its trs). split; [exact SO|].
      assert (IB : forall b, In b (flat_map tree_its trs) -> (b < bs)%nat). { intros b Hb. apply (Permutation_in _ SO) in Hb. apply in_seq in Hb. lia. }
      change (@fadd OP) with (Bplus mode_NE : b32 -> b32 -> b32). change (@f0 OP) with NZ. fold np.
      assert (G : forall trs (a : list b32) l0, length a = np -> adds g l0 (nth j a NZ) -> (forall b, In b (flat_map tree_its trs) -> (b < bs)%nat) ->
        length (fold_left (map2 (Bplus mode_NE)) (map (@tree_g OP c VE nn lf xs ts pv i net) trs) a) = np /\
        adds g (l0 ++ flat_map tree_its trs) (nth j (fold_left (map2 (Bplus mode_NE)) (map (@tree_g OP c VE nn lf xs ts pv i net) trs) a) NZ)).
      { clear trs SO IB. induction trs as [|t trs IH]; intros a l0 La HA Hb; cbn [flat_map map fold_left]; [rewrite app_nil_r; auto|].
        destruct (tree_adds t) as [A1 B1]. { intros b H. apply Hb. cbn [flat_map]. apply in_or_app. auto. } change (@F OP) with b32 in *.
        rewrite app_assoc. apply IH.
        - apply len_map2_b; assumption.
        - rewrite nth_map2 by (rewrite ?La; auto). apply adds_plus; assumption.
        - intros b H. apply Hb. cbn [flat_map]. apply in_or_app. auto. }
      apply (G trs (repeat NZ np) []); [apply repeat_length|exact zeros_adds|exact IB].
    - exists (seq 0 bs). split; [apply Permutation_refl|]. apply (acc_adds (seq 0 bs) (repeat NZ np) []); [apply repeat_length|exact zeros_adds|].
      intros b Hb. apply in_seq in Hb. lia.
  Qed.
End Batch.

(** ** the network with given parameters *)
Lemma reals_params lm (net : list (@flayer (opsB32 lm))) : params_b32 (triples net) = reals (@params_list (opsB32 lm) net).
Proof.
  unfold params_b32, triples, reals. induction net as [|l net IH]; [reflexivity|]. cbn [map flat_map fst snd params_list].
  change (@params_list (opsB32 lm) (l :: net)) with ((@fb (opsB32 lm) l ++ @fw (opsB32 lm) l) ++ @params_list (opsB32 lm) net).
  rewrite !map_app. f_equal. exact IH.
Qed.
Lemma shape_net_b32 lm nn (net : list (@flayer (opsB32 lm))) :
  Forall2 (fun l f => @fn_out (opsB32 lm) f = n_output l /\ @fact (opsB32 lm) f = l_act l) (nn_layers nn) net -> shape_b32 (triples net) = nn_shape nn.
Proof.
  unfold shape_b32, triples, nn_shape. induction 1 as [|a b r1 r2 [H1 H2] H IH]; cbn [map]; [reflexivity|]. cbn [fst snd]. rewrite IH. f_equal. f_equal; [exact H1|exact H2].
Qed.
Lemma params_count : forall ls n, chain n ls -> n_params (map (fun l => (n_output l, l_act l)) ls) n = psize ls.
Proof.
  induction ls as [|l ls IH]; intros n H; [reflexivity|]. destruct H as (A & B & H). cbn [map n_params psize fold_right]. fold (psize ls). rewrite (IH _ H), A. lia.
Qed.
Lemma nn_params_count nn : chain (in_size nn) (nn_layers nn) -> n_params (nn_shape nn) (in_size nn) = total_n_parameters nn.
Proof. intros H. rewrite total_psize. apply params_count; exact H. Qed.
Lemma nn_outputs nn : nn_layers nn <> [] -> n_outputs (nn_shape nn) (in_size nn) = out_size nn.
Proof.
  intros H. destruct (@nth_error_ex _ (nn_layers nn) (length (nn_layers nn) - 1)) as [l Hl]. { destruct (nn_layers nn); simpl; [congruence|lia]. }
  rewrite (out_size_nth nn l Hl). unfold nn_shape. generalize (in_size nn). revert Hl H. generalize (nn_layers nn). clear.
  induction l0 as [|a r IH]; intros Hl Hne n; [congruence|]. destruct r as [|b r].
  - cbn in Hl. inversion Hl; subst. reflexivity.
  - change (n_outputs (map (fun l => (n_output l, l_act l)) (a :: b :: r)) n) with (n_outputs (map (fun l => (n_output l, l_act l)) (b :: r)) (n_output a)).
    apply IH; [|discriminate]. rewrite <- Hl. cbn [length Nat.sub nth_error]. rewrite Nat.sub_0_r. reflexivity.
Qed.
Lemma covered_net_of lm nn (th : list b32) : Forall (fun l => covered lm (l_act l)) (nn_layers nn) -> Forall (fun v : b32 => fin v = true) th ->
  covered_net lm (triples (@net_of (opsB32 lm) (nn_layers nn) th)).
Proof.
  generalize (nn_layers nn). intros ls. revert th. induction ls as [|l ls IH]; intros th HC FT; [constructor|].
  inversion HC; subst. cbn [net_of triples map]. constructor.
  - cbn [fst snd fact fw fb]. split; [assumption|]. split; apply Forall_forall; intros v Hv; rewrite Forall_forall in FT; apply FT.
    + exact (in_slice _ _ _ _ Hv).
    + exact (in_firstn _ _ _ Hv).
  - apply IH; [assumption|]. apply Forall_forall. intros v Hv. rewrite Forall_forall in FT. apply FT. rewrite <- (firstn_skipn (n_output l + n_input l * n_output l) th). apply in_or_app. right. exact Hv.
Qed.
Lemma nth_reals (l : list (list b32)) k : nth k (map reals l) [] = reals (nth k l []).
Proof. exact (map_nth reals l [] k). Qed.

(** ** the batch gradient *)
Section Mean.
  Variables (lm : libm) (c : cfg) (nn : neuralnet) (lf : loss) (xs ts : list (list b32)).
  Notation OP := (opsB32 lm).
  Notation VE := (@exp256_lane OP).
  Let ls := nn_layers nn.
  Let np := total_n_parameters nn.
  Hypothesis Hne : ls <> [].
  Hypothesis Hch : chain (in_size nn) ls.
  Hypothesis HX : forall i x, nth_error xs i = Some x -> length x = in_size nn.
  Hypothesis HY : forall i t, nth_error ts i = Some t -> length t = out_size nn.
  Hypothesis HL : length ts = length xs.
  Variables (o : opt) (pv : list nat) (n : nat) (s : sched) (i : nat).
  Let bsz := o_batchsize o.
  Hypothesis Hbsz : (0 < bsz)%nat.
  Hypothesis Hpvl : length pv = n.
  Hypothesis Hpvn : forall k, In k pv -> (k < length xs)%nat.
  Hypothesis Hi : (i < n)%nat.
  Hypothesis SO : sched_ok s (batch_size o n i).
  Variable th : list b32.
  Hypothesis Lth : length th = np.
  Hypothesis CV : Forall (fun l => covered lm (l_act l)) (nn_layers nn).
  Hypothesis FTH : Forall (fun v : b32 => fin v = true) th.
  Let b := firstn bsz (skipn i pv).
  Hypothesis FXY : forall k, In k b -> Forall (fun v : b32 => fin v = true) (nth k xs []) /\ Forall (fun v : b32 => fin v = true) (nth k ts []).
  Let sh := nn_shape nn.
  Hypothesis HT : trainable lf sh.
  Let T := vec (reals th).
  Let rxs := map reals xs.
  Let rts := map reals ts.
  Hypothesis BS : batch_safe lf sh (in_size nn) T rxs rts b.
  Let net := @net_of OP ls th.

  Lemma sample_grad_near k : In k b -> let g := @sample_grad OP c VE lf net (nth k xs []) (nth k ts []) in
    (smooth sh (in_size nn) T (vec (nth k rxs [])) /\ target_ok lf (out_size nn) (vec (nth k rts [])) (eval sh (in_size nn) T (vec (nth k rxs [])))) /\
    length g = np /\ forall q, (q < np)%nat -> fin (nth q g NZ) = true /\
      exists D, is_derive (fun v => loss_math lf (out_size nn) (vec (nth k rts [])) (eval sh (in_size nn) (upd T q v) (vec (nth k rxs [])))) (T q) D /\
        is_near (sample_near lf sh (in_size nn) T (vec (nth k rxs [])) (vec (nth k rts [])) q) (bv (nth q g NZ)) D.
  Proof.
    intros Hk g. destruct (FXY k Hk) as (FX & FT). destruct BS as (BS1 & _). destruct (BS1 k Hk) as (HC & HR & HS).
    assert (Kx : (k < length xs)%nat). { apply Hpvn. unfold b in Hk. apply in_firstn in Hk. rewrite <- (firstn_skipn i pv). apply in_or_app. right. exact Hk. }
    destruct (@nth_error_ex _ xs k Kx) as [x Hx]. destruct (@nth_error_ex _ ts k) as [t Ht]; [lia|].
    assert (Ex : nth k xs [] = x) by (exact (nth_error_nth xs k [] Hx)). assert (Et : nth k ts [] = t) by (exact (nth_error_nth ts k [] Ht)).
    pose proof (HX k x Hx) as Lx. pose proof (HY k t Ht) as Lt.
    destruct (@net_of_fits OP ls (in_size nn) th Hch) as (F1 & P1 & L1 & S1). { unfold ls. rewrite <- total_psize. exact Lth. }
    fold net in F1, P1, L1, S1. change (@F OP) with b32 in *.
    assert (SH : shape_b32 (triples net) = sh) by (apply shape_net_b32; exact S1).
    assert (PA : params_b32 (triples net) = reals th) by (rewrite reals_params; f_equal; exact P1).
    assert (Eg : g = @bp_grad OP c VE (derivs lf net) lf x t) by (unfold g, sample_grad; rewrite Ex, Et; reflexivity). clearbody g. subst g.
    unfold rxs, rts in *. rewrite !nth_reals in *. rewrite Ex, Et in *. unfold reals in HC, HR, HS |- *.
    pose proof (bp_grad_near lm c lf net x t) as BG. cbv zeta in BG. rewrite SH, PA, Lx in BG. unfold reals in BG. fold (reals th) in BG. fold T in BG.
    pose proof (nn_outputs nn Hne) as NO. pose proof (nn_params_count nn Hch) as NP. fold sh in NO, NP. rewrite NO, NP in BG. fold np in BG. rewrite NO in HC.
    apply BG; try assumption.
    - intros E. rewrite E in L1. destruct ls; [apply Hne; reflexivity|discriminate].
    - apply covered_net_of; assumption.
  Qed.

  Lemma batch_differentiable : differentiable lf sh (in_size nn) (out_size nn) rxs rts b T.
  Proof. intros k Hk. exact (proj1 (sample_grad_near k Hk)). Qed.

  Lemma batch_grad_near q : (q < np)%nat ->
    let g := @batch_grad_f OP c VE nn lf xs ts pv s i net (batch_size o n i) in
    length g = np /\ fin (nth q g NZ) = true /\
    exists D, is_derive (fun v => mean_loss lf sh (in_size nn) (out_size nn) rxs rts b (upd T q v)) (T q) D /\
      is_near (batch_near lf sh (in_size nn) T rxs rts b q) (bv (nth q g NZ)) D.
  Proof.
    intros Hq g. set (bs := batch_size o n i) in *.
    assert (Lb : length b = bs).
    { unfold b, bs, batch_size. fold bsz. rewrite firstn_length, skipn_length, Hpvl. destruct (Nat.ltb_spec (n - i) bsz); lia. }
    assert (Bpos : (0 < bs)%nat) by (unfold bs, batch_size; fold bsz; destruct (Nat.ltb_spec (n - i) bsz); lia).
    assert (EB : b = map (fun b => nth (i + b) pv 0%nat) (seq 0 bs)) by (apply (firstn_skipn_nth pv i bsz bs Lb)).
    assert (IB : forall d, (d < bs)%nat -> In (nth (i + d) pv 0%nat) b).
    { intros d Hd. rewrite EB. apply in_map_iff. exists d. split; [reflexivity|]. apply in_seq. lia. }
    set (smp := fun d => nth (i + d) pv 0%nat).
    assert (SG : forall d, (d < bs)%nat -> length (@iter_grad OP c VE lf xs ts pv i net d) = np /\ fin (nth q (@iter_grad OP c VE lf xs ts pv i net d) NZ) = true /\
      exists D, is_derive (fun v => loss_math lf (out_size nn) (vec (nth (smp d) rts [])) (eval sh (in_size nn) (upd T q v) (vec (nth (smp d) rxs [])))) (T q) D /\
        is_near (sample_near lf sh (in_size nn) T (vec (nth (smp d) rxs [])) (vec (nth (smp d) rts [])) q) (bv (nth q (@iter_grad OP c VE lf xs ts pv i net d) NZ)) D).
    { intros d Hd. destruct (sample_grad_near (smp d) (IB d Hd)) as (_ & L & G). split; [exact L|]. exact (G q Hq). }
    assert (HD : exists D : nat -> R, forall d, (d < bs)%nat ->
      is_derive (fun v => loss_math lf (out_size nn) (vec (nth (smp d) rts [])) (eval sh (in_size nn) (upd T q v) (vec (nth (smp d) rxs [])))) (T q) (D d) /\
      is_near (sample_near lf sh (in_size nn) T (vec (nth (smp d) rxs [])) (vec (nth (smp d) rts [])) q) (bv (nth q (@iter_grad OP c VE lf xs ts pv i net d) NZ)) (D d)).
    { exists (fun d => Derive (fun v => loss_math lf (out_size nn) (vec (nth (smp d) rts [])) (eval sh (in_size nn) (upd T q v) (vec (nth (smp d) rxs [])))) (T q)).
      intros d Hd. destruct (SG d Hd) as (_ & _ & D & ID & ND). pose proof (is_derive_unique _ _ _ ID) as EU. set (dd := Derive _ _). assert (ED : dd = D) by exact EU. rewrite ED. split; [exact ID|exact ND]. }
    destruct HD as (D & HD).
    assert (Lig : forall d, (d < bs)%nat -> length (@iter_grad OP c VE lf xs ts pv i net d) = np) by (intros d Hd; apply SG; exact Hd).
    destruct (sched_adds lm c nn lf xs ts pv s i net bs Lig q Hq SO) as (l & HP & LS & HA).
    set (bn := fun d => sample_near lf sh (in_size nn) T (vec (nth (smp d) rxs [])) (vec (nth (smp d) rts [])) q).
    assert (EN : sample_nears lf sh (in_size nn) T rxs rts b q = map bn (seq 0 bs)).
    { unfold sample_nears. rewrite EB, map_map. reflexivity. }
    destruct (mean_is_near (fun d => nth q (@iter_grad OP c VE lf xs ts pv i net d) NZ) bn D l (seq 0 bs) _ HA HP) as (FQ & NQ).
    { intros E. subst l. apply Permutation_length in HP. rewrite seq_length in HP. cbn in HP. lia. }
    { intros d Hd. assert (Hd' : (d < bs)%nat). { apply (Permutation_in _ HP) in Hd. apply in_seq in Hd. lia. }
      split; [apply SG; exact Hd'|]. apply HD. exact Hd'. }
    { rewrite <- EN. apply (proj2 BS). unfold sh. rewrite nn_params_count by exact Hch. exact Hq. }
    rewrite seq_length in FQ, NQ.
    assert (EG : nth q g NZ = Bdiv mode_NE (nth q (@sched_sum OP c VE nn lf xs ts pv s i net bs) NZ) (b32_ofZ (Z.of_nat bs))).
    { unfold g, batch_grad_f. fold bs. change (@F OP) with b32 in *. rewrite (nth_indep _ NZ (Bdiv mode_NE NZ (b32_ofZ (Z.of_nat bs)))).
      - exact (map_nth (fun x => Bdiv mode_NE x (b32_ofZ (Z.of_nat bs))) _ NZ q).
      - rewrite map_length. rewrite LS. exact Hq. }
    split. { unfold g, batch_grad_f. change (@F OP) with b32 in *. rewrite map_length. exact LS. }
    rewrite EG. split; [exact FQ|]. exists (rsum (map D (seq 0 bs)) / INR bs). split.
    - unfold mean_loss. rewrite Lb. apply is_derive_div. rewrite EB.
      eapply is_derive_ext.
      { intros v. rewrite map_map. reflexivity. }
      apply (is_derive_rsum (fun d v => loss_math lf (out_size nn) (vec (nth (smp d) rts [])) (eval sh (in_size nn) (upd T q v) (vec (nth (smp d) rxs []))))).
      intros d Hd. apply HD. apply in_seq in Hd. lia.
    - unfold batch_near. rewrite EN. exact NQ.
  Qed.
End Mean.
