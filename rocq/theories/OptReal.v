(** OptReal.v -- the list-level recurrences of OptEpochs.v are the rules of SpecOpt.v *)
From Coquelicot Require Import Coquelicot.
From Coq Require Import List Arith ZArith Lia Bool Reals Lra Permutation.
From Verif Require Import Base BaseProofs Ops OpsR Mem MemProofs Kernels KernelProofs Activation ActivationProofs
  Loss Neuralnet ForwardProofs BackpropProofs SpecReal RealForward RealGrad LossGrad GradProofs GradPropProofs PredictProofs BitsProofs SpecMem ParamProofs Batch BatchProofs
  BlasProofs Optimizer OptKernels OptProofs OptEpochs SpecOpt.
Import ListNotations.
Local Open Scope nat_scope.
Local Open Scope mem_scope.

(** ** networks from parameter vectors *)
Fixpoint chain (n : nat) (ls : list layer) : Prop :=
  match ls with [] => True | l :: r => n_input l = n /\ 1 <= n_output l /\ chain (n_output l) r end.
Definition psize (ls : list layer) : nat := fold_right (fun l s => n_output l + n_input l * n_output l + s) 0 ls.
Lemma total_psize nn : total_n_parameters nn = psize (nn_layers nn).
Proof.
  unfold total_n_parameters. assert (G : forall ls a, fold_left (fun s l => s + (n_input l + 1) * n_output l) ls a = a + psize ls).
  { induction ls as [|l ls IH]; intros a; simpl; [lia|]. rewrite IH. nia. }
  rewrite G. reflexivity.
Qed.
Section Nets.
Context {FO : fops}.
Variable c : cfg.
Variable vexp : F -> F.
Lemma net_holds_chain m : forall ls net n, net_holds c m n ls net -> chain n ls.
Proof.
  induction ls as [|l ls IH]; intros [|f net] n H; simpl in *; try tauto.
  destruct H as [(A & B & _) H]. split; auto. split; auto. eapply IH; eauto.
Qed.
Lemma net_of_fits : forall ls n (th : list F), chain n ls -> length th = psize ls ->
  fits_f n (net_of ls th) /\ params_list (net_of ls th) = th /\ length (net_of ls th) = length ls /\
  Forall2 (fun l f => fn_out f = n_output l /\ fact f = l_act l) ls (net_of ls th).
Proof.
  induction ls as [|l ls IH]; intros n th H L; simpl in *.
  - destruct th; [auto|discriminate].
  - destruct H as (A & B & H). set (nb := n_output l) in *. set (nw := n_input l * nb) in *.
    destruct (IH nb (skipn (nb + nw) th) H) as (F1 & P1 & L1 & S1). { rewrite skipn_length. lia. }
    assert (Lb : length (firstn nb th) = nb) by (rewrite firstn_length; lia).
    assert (Lw : length (slice nb nw th) = nw) by (unfold slice; rewrite firstn_length, skipn_length; lia).
    split; [|split; [|split]].
    + unfold fn_out. simpl. rewrite Lb, Lw. split; [unfold nw; rewrite A; reflexivity|]. split; auto.
    + rewrite P1. unfold slice. rewrite <- app_assoc. rewrite <- (firstn_skipn nb th) at 4. f_equal.
      rewrite <- (firstn_skipn nw (skipn nb th)) at 2. rewrite skipn_skipn. reflexivity.
    + rewrite L1. reflexivity.
    + constructor; auto.
Qed.
Lemma length_sample_grad lf net x t : net <> [] -> fits_f (length x) net ->
  (forall l, nth_error net (length net - 1) = Some l -> length t = fn_out l) ->
  length (sample_grad c vexp lf net x t) = length (params_list net).
Proof.
  intros Hne HF Lt. unfold sample_grad, bp_grad. rewrite map_fst_derivs. cbv zeta. rewrite last_vals.
  destruct (@nth_error_ex _ net (length net - 1)) as [f Hf]. { destruct net; simpl; [congruence|lia]. }
  destruct (length_bp_f c vexp lf (loss_f lf (forward_f c vexp net 0 x) t) net x Hne HF) as (d & w & rest & l' & E & _ & _ & LF).
  { intros l' Hl'. assert (l' = f) by congruence. subst l'. unfold loss_f. rewrite length_map2.
    rewrite (forward_f_length c vexp net 0 x f HF Hf). rewrite (Lt f Hf). lia. }
  exact LF.
Qed.
Lemma last_out nn net l : Forall2 (fun l f => @fn_out FO f = n_output l /\ fact f = l_act l) (nn_layers nn) net ->
  nth_error net (length net - 1) = Some l -> fn_out l = out_size nn.
Proof.
  intros H Hl. pose proof (Forall2_length _ _ _ _ _ H) as L.
  destruct (@nth_error_ex _ (nn_layers nn) (length net - 1)) as [a Ha].
  { rewrite L. apply nth_error_Some. congruence. }
  destruct (Forall2_nth _ _ _ _ _ H _ _ Ha) as (f & Hf & E1 & _). assert (f = l) by congruence. subst f.
  rewrite E1. symmetry; apply out_size_nth. rewrite L. exact Ha.
Qed.
End Nets.

(** ** sums *)
Lemma rsum_app a b : rsum (a ++ b) = (rsum a + rsum b)%R.
Proof. induction a; simpl; [lra|]. rewrite IHa. lra. Qed.
Lemma rsum_perm a b : Permutation a b -> rsum a = rsum b.
Proof. induction 1; simpl; lra. Qed.
Lemma nth_map2_R (a b : list R) j n : length a = n -> length b = n -> j < n ->
  nth j (map2 Rplus a b) 0%R = (nth j a 0 + nth j b 0)%R.
Proof.
  revert b j n. induction a as [|x a IH]; intros [|y b] [|j] n La Lb Hj; simpl in *; subst; try lia; auto; try discriminate.
  apply (IH b j (length a)); auto; lia.
Qed.
Lemma length_map2_R (a b : list R) n : length a = n -> length b = n -> length (map2 Rplus a b) = n.
Proof. intros. rewrite length_map2. lia. Qed.
Lemma nth_fold_R n j : j < n -> forall (gs : list (list R)) a, length a = n -> (forall g, In g gs -> length g = n) ->
  nth j (fold_left (map2 Rplus) gs a) 0%R = (nth j a 0 + rsum (map (fun g => nth j g 0) gs))%R /\ length (fold_left (map2 Rplus) gs a) = n.
Proof.
  intros Hj. induction gs as [|g gs IH]; intros a La Hg; simpl; [split; [lra|auto]|].
  destruct (IH (map2 Rplus a g)) as [E L]. { apply length_map2_R; auto. apply Hg; left; auto. } { intros; apply Hg; right; auto. }
  split; auto. rewrite E. rewrite (nth_map2_R a g j n); auto; [lra|]. apply Hg; left; auto.
Qed.
Lemma firstn_skipn_nth (pv : list nat) i bs k : length (firstn bs (skipn i pv)) = k ->
  firstn bs (skipn i pv) = map (fun b => nth (i + b) pv 0) (seq 0 k).
Proof.
  intros L. apply nth_ext with (d := 0) (d' := nth (i + 0) pv 0); [rewrite map_length, seq_length; auto|].
  intros j Hj. rewrite L in Hj. rewrite (map_nth (fun b => nth (i + b) pv 0)). rewrite seq_nth by auto. simpl.
  rewrite firstn_length, skipn_length in L.
  assert (E : nth_error (firstn bs (skipn i pv)) j = nth_error pv (i + j)) by (rewrite nth_error_firstn, nth_error_skipn; auto; lia).
  destruct (nth_error pv (i + j)) as [x|] eqn:Ex; [|apply nth_error_None in Ex; lia].
  rewrite (nth_error_nth _ _ _ E), (nth_error_nth _ _ _ Ex). reflexivity.
Qed.

Section Real.
Variables (c : cfg) (nn : neuralnet) (lf : loss) (xs ts : list (list R)).
Let ls := nn_layers nn.
Let np := total_n_parameters nn.
Hypothesis Hne : ls <> [].
Hypothesis Hch : chain (in_size nn) ls.
Hypothesis HX : forall i x, nth_error xs i = Some x -> length x = in_size nn.
Hypothesis HY : forall i t, nth_error ts i = Some t -> length t = out_size nn.
Hypothesis HL : length ts = length xs.

(** the gradient of one sample *)
Definition Gr (th x t : list R) : list R := @sample_grad opsR c exp lf (@net_of opsR ls th) x t.

Lemma length_Gr th x t : length th = np -> length x = in_size nn -> length t = out_size nn -> length (Gr th x t) = np.
Proof.
  intros Lt Lx Ly. destruct (@net_of_fits opsR ls (in_size nn) th Hch) as (F1 & P1 & L1 & S1).
  { unfold ls; rewrite <- total_psize. exact Lt. }
  unfold Gr. rewrite <- Lt. rewrite <- P1 at 2. apply (@length_sample_grad opsR).
  - intros E. rewrite E in L1. destruct ls; [congruence|discriminate].
  - change (@F opsR) with R in *. rewrite Lx. exact F1.
  - intros l Hl. change (@F opsR) with R in *. rewrite Ly. symmetry. exact (@last_out opsR nn _ l S1 Hl).
Qed.
Lemma length_Gr_sample th k : length th = np -> k < length xs -> length (Gr th (nth k xs []) (nth k ts [])) = np.
Proof.
  intros Lt Hk. destruct (@nth_error_ex _ xs k Hk) as [x Hx]. destruct (@nth_error_ex _ ts k) as [t Ht]; [lia|].
  apply length_Gr; auto.
  - rewrite (nth_error_nth xs k [] Hx). eapply HX; eauto.
  - rewrite (nth_error_nth ts k [] Ht). eapply HY; eauto.
Qed.

Variables (o : opt) (pv : list nat) (n : nat) (e : @env opsR).
Let bsz := o_batchsize o.
Hypothesis Hbsz : 0 < bsz.
Hypothesis Hpvl : length pv = n.
Hypothesis Hpvn : forall k, In k pv -> k < length xs.

(** the mean of the gradients of the samples of a batch *)
Definition mean_grad (b : list nat) (th : list R) : list R :=
  vmean np (map (fun k => Gr th (nth k xs []) (nth k ts [])) b).

Lemma bgrad_mean i th : length th = np -> i < n -> sched_ok (e_sched e i) (batch_size o n i) ->
  @bgrad opsR c exp nn lf xs ts o pv n e i th = mean_grad (firstn bsz (skipn i pv)) th.
Proof.
  intros Lt Hi SO. set (bs := batch_size o n i) in *.
  assert (Lb : length (firstn bsz (skipn i pv)) = bs).
  { unfold bs, batch_size. fold bsz. rewrite firstn_length, skipn_length, Hpvl. destruct (Nat.ltb_spec (n - i) bsz); lia. }
  assert (Bpos : 0 < bs) by (unfold bs, batch_size; fold bsz; destruct (Nat.ltb_spec (n - i) bsz); lia).
  assert (Bn : i + bs <= n) by (unfold bs, batch_size; fold bsz; destruct (Nat.ltb_spec (n - i) bsz); lia).
  set (it := fun b => Gr th (nth (nth (i + b) pv 0) xs []) (nth (nth (i + b) pv 0) ts [])).
  assert (Lit : forall b, b < bs -> length (it b) = np).
  { intros b Hb. apply length_Gr_sample; auto. apply Hpvn. apply nth_In. lia. }
  unfold mean_grad. rewrite (firstn_skipn_nth pv i bsz bs Lb), map_map. fold it.
  unfold bgrad, batch_grad_f. fold bs. fold ls.
  set (S := @sched_sum opsR c exp nn lf xs ts pv (e_sched e i) i (@net_of opsR ls th) bs).
  assert (HS : forall j, j < np -> nth j S 0%R = rsum (map (fun b => nth j (it b) 0%R) (seq 0 bs)) /\ length S = np).
  { intros j Hj. unfold S, sched_sum. unfold sched_ok in SO.
    assert (ACC : forall its, (forall b, In b its -> b < bs) ->
       nth j (@acc_f opsR c exp lf xs ts pv i (@net_of opsR ls th) (repeat 0%R np) its) 0%R = rsum (map (fun b => nth j (it b) 0%R) its) /\
       length (@acc_f opsR c exp lf xs ts pv i (@net_of opsR ls th) (repeat 0%R np) its) = np).
    { intros its Hits. unfold acc_f.
      assert (EF : forall its a, fold_left (fun a b => @map2 R R R Rplus a (@iter_grad opsR c exp lf xs ts pv i (@net_of opsR ls th) b)) its a
                  = fold_left (map2 Rplus) (map it its) a).
      { induction its0 as [|b its0 IH]; intros a; simpl; auto. }
      pose proof (nth_fold_R np j Hj (map it its) (repeat 0%R np)) as [E1 E2].
      { apply repeat_length. } { intros g Hg. apply in_map_iff in Hg. destruct Hg as (b & <- & Hb). apply Lit. auto. }
      split.
      - etransitivity; [exact (f_equal (fun l => nth j l 0%R) (EF its (repeat 0%R np)))|]. rewrite E1, map_map, nth_repeat. lra.
      - etransitivity; [exact (f_equal (@length R) (EF its (repeat 0%R np)))|]. exact E2. }
    destruct (s_omp (e_sched e i)) as [trs|].
    - assert (TR : forall t, (forall b, In b (tree_its t) -> b < bs) ->
         nth j (@tree_g opsR c exp nn lf xs ts pv i (@net_of opsR ls th) t) 0%R = rsum (map (fun b => nth j (it b) 0%R) (tree_its t)) /\
         length (@tree_g opsR c exp nn lf xs ts pv i (@net_of opsR ls th) t) = np).
      { induction t as [base its|t1 IH1 t2 IH2]; intros Hb; simpl tree_its in *.
        - apply ACC. auto.
        - destruct IH1 as [A1 B1]; [intros; apply Hb; apply in_or_app; auto|]. destruct IH2 as [A2 B2]; [intros; apply Hb; apply in_or_app; auto|].
          simpl tree_g. split.
          + etransitivity; [apply (nth_map2_R _ _ j np B1 B2 Hj)|]. etransitivity; [exact (f_equal2 Rplus A1 A2)|]. rewrite map_app, rsum_app. reflexivity.
          + apply (length_map2_R _ _ np B1 B2). }
      assert (IB : forall b, In b (flat_map tree_its trs) -> b < bs).
      { intros b Hb. apply (Permutation_in _ SO) in Hb. apply in_seq in Hb. lia. }
      pose proof (nth_fold_R np j Hj (map (@tree_g opsR c exp nn lf xs ts pv i (@net_of opsR ls th)) trs) (repeat 0%R np)) as [E1 E2].
      { apply repeat_length. }
      { intros g Hg. apply in_map_iff in Hg. destruct Hg as (t & <- & Ht). apply TR. intros b Hb. apply IB. apply in_flat_map. eauto. }
      split; [|exact E2]. etransitivity; [exact E1|]. rewrite nth_repeat, map_map, Rplus_0_l.
      etransitivity; [|exact (rsum_perm _ _ (Permutation_map (fun b => nth j (it b) 0%R) SO))].
      clear E1 E2 SO. induction trs as [|t trs IH]; simpl; auto. rewrite map_app, rsum_app.
      rewrite IH by (intros b Hb; apply IB; simpl; apply in_or_app; auto). f_equal. apply TR. intros b Hb. apply IB. simpl. apply in_or_app. auto.
    - apply ACC. intros b Hb. apply in_seq in Hb. lia. }
  destruct np as [|np'] eqn:Enp.
  { (* no parameters *)
    exfalso. unfold np in Enp. rewrite total_psize in Enp. fold ls in Enp. destruct ls as [|l r]; [congruence|]. simpl in *. lia. }
  rewrite <- Enp in *.
  assert (LS : length S = np) by (apply (HS 0); lia).
  apply nth_ext with (d := (0 / IZR (Z.of_nat bs))%R) (d' := (rsum (map (fun g => nth 0 g 0%R) (map it (seq 0 bs))) / INR (length (map it (seq 0 bs))))%R).
  { etransitivity; [apply map_length|]. unfold vmean. rewrite map_length, seq_length. exact LS. }
  intros j Hj. assert (Hj' : j < np). { eapply Nat.lt_le_trans; [exact Hj|]. apply Nat.eq_le_incl. etransitivity; [apply map_length|exact LS]. }
  unfold vmean. rewrite (map_nth (fun j => rsum (map (fun g => nth j g 0%R) (map it (seq 0 bs))) / INR (length (map it (seq 0 bs))))%R).
  rewrite seq_nth by auto. simpl plus. rewrite map_map, map_length, seq_length.
  etransitivity; [apply (map_nth (fun x => (x / IZR (Z.of_nat bs))%R))|].
  rewrite <- INR_IZR_INZ. exact (f_equal (fun x => x / INR bs)%R (proj1 (HS j Hj'))).
Qed.
End Real.
