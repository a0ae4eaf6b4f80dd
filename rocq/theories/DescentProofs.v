(** DescentProofs.v -- the mean loss along the direction of an optimizer step *)
From Coquelicot Require Import Coquelicot.
From Coq Require Import List Arith ZArith Lia Bool Reals Lra Permutation.
From Verif Require Import Base BaseProofs Ops OpsR Mem MemProofs Kernels KernelProofs Activation ActivationProofs
  Loss Neuralnet ForwardProofs BackpropProofs SpecReal RealForward RealGrad LossGrad GradProofs GradPropProofs PredictProofs BitsProofs SpecMem ParamProofs Batch BatchProofs
  BlasProofs Optimizer OptKernels OptProofs OptEpochs SpecOpt OptReal OptTrain SpecDescent Prop_Rules.
Import ListNotations.
Local Open Scope R_scope.

Lemma Gr_curve c nn lf th x t : nn_layers nn <> [] -> chain (in_size nn) (nn_layers nn) ->
  length th = total_n_parameters nn -> length x = in_size nn -> length t = out_size nn ->
  let sh := nn_shape nn in let n := in_size nn in let no := out_size nn in
  trainable lf sh -> smooth sh n (vec th) (vec x) -> target_ok lf no (vec t) (eval sh n (vec th) (vec x)) ->
  forall dth (thc : R -> nat -> R) s,
    (forall k, thc s k = vec th k) -> (forall k, is_derive (fun s => thc s k) s (dth k)) ->
    is_derive (fun s => loss_math lf no (vec t) (eval sh n (thc s) (vec x))) s
      (sumf (total_n_parameters nn) (fun k => vec (Gr c nn lf th x t) k * dth k)).
Proof.
  intros Hne Hch Lth Lx Lt sh n no HT HS HTG.
  destruct (@net_of_fits opsR (nn_layers nn) (in_size nn) th Hch) as (F1 & P1 & L1 & S1). { rewrite <- total_psize. exact Lth. }
  set (net := @net_of opsR (nn_layers nn) th) in *. change (@F opsR) with R in *.
  pose proof (shape_net_of nn net S1) as SH. pose proof (fits_of_f _ _ F1) as F2.
  assert (PO : params_of net = th) by exact P1.
  destruct (@nth_error_ex _ net (length net - 1)) as [f Hf]. { rewrite L1. destruct (nn_layers nn); simpl; [congruence|lia]. }
  assert (NO : n_outputs (shape_of net) (length x) = no).
  { unfold no. rewrite <- (@last_out opsR nn net f S1 Hf).
    assert (F2' : fits (length x) net) by (rewrite Lx; exact F2).
    pose proof (proj1 (forward_R c net 0 x F2')) as LO. etransitivity; [symmetry; exact LO|].
    eapply (forward_f_length (FO := opsR)); eauto. change (@F opsR) with R in *. rewrite Lx. exact F1. }
  assert (Pos : (0 < no)%nat).
  { unfold no. rewrite <- (@last_out opsR nn net f S1 Hf).
    clear - F1 Hf. revert F1 Hf. generalize (in_size nn). intros n F1 Hf. apply nth_error_In in Hf. revert n F1.
    induction net as [|l net IH]; intros n F1; simpl in *; [contradiction|]. destruct F1 as (A & B & F1). destruct Hf as [->|Hf]; [lia|eauto]. }
  pose proof (grad_curve_R c lf net x t) as GR. cbv zeta in GR. rewrite NO, SH, Lx, PO in GR.
  destruct GR as [LG D]; auto.
  assert (E : n_params sh n = length th).
  { unfold sh, n. rewrite <- SH. etransitivity; [|exact (f_equal (@length R) PO)]. symmetry. apply length_params_of. exact F2. }
  unfold sh, n in E. rewrite E, Lth in D. exact D.
Qed.

(** the same for every function that is the gradient *)
Lemma gradient_curve nn lf G th x t : nn_layers nn <> [] -> chain (in_size nn) (nn_layers nn) -> is_gradient nn lf G ->
  length th = total_n_parameters nn -> length x = in_size nn -> length t = out_size nn ->
  let sh := nn_shape nn in let n := in_size nn in let no := out_size nn in
  trainable lf sh -> smooth sh n (vec th) (vec x) -> target_ok lf no (vec t) (eval sh n (vec th) (vec x)) ->
  forall dth (thc : R -> nat -> R) s,
    (forall k, thc s k = vec th k) -> (forall k, is_derive (fun s => thc s k) s (dth k)) ->
    is_derive (fun s => loss_math lf no (vec t) (eval sh n (thc s) (vec x))) s
      (sumf (total_n_parameters nn) (fun k => vec (G th x t) k * dth k)).
Proof.
  intros Hne Hch HG Lth Lx Lt sh n no HT HS HTG dth thc s Es Ds.
  set (c0 := {| cfg_isa := SSE; cfg_fma := false |}).
  eapply is_derive_val; [apply (Gr_curve c0 nn lf th x t Hne Hch Lth Lx Lt HT HS HTG dth thc s Es Ds)|].
  apply sumf_ext. intros k Hk. f_equal.
  pose proof (is_derive_unique _ _ _ (HG th x t Lth Lx Lt HT HS HTG k Hk)) as U1.
  pose proof (is_derive_unique _ _ _ (Gr_gradient c0 nn lf Hne Hch th x t Lth Lx Lt HT HS HTG k Hk)) as U2. congruence.
Qed.

Lemma is_derive_rsum {A} (f : A -> R -> R) (d : A -> R) s (l : list A) : (forall a, In a l -> is_derive (f a) s (d a)) ->
  is_derive (fun v => rsum (map (fun a => f a v) l)) s (rsum (map d l)).
Proof.
  induction l as [|a l IH]; intros H; simpl; [apply is_derive_const'|].
  apply (@is_derive_plus R_AbsRing R_NormedModule (f a)); [apply H; left; reflexivity|apply IH; intros b Hb; apply H; right; exact Hb].
Qed.
Lemma is_derive_div (f : R -> R) s d k : is_derive f s d -> is_derive (fun v => f v / k) s (d / k).
Proof.
  intros H. eapply is_derive_ext; [intros v; symmetry; apply Rmult_comm|]. eapply is_derive_val; [apply (is_derive_scal' f s (/ k) d H)|].
  unfold Rdiv. apply Rmult_comm.
Qed.
Lemma rsum_sumf {A} (n : nat) (g : A -> nat -> R) (l : list A) : rsum (map (fun a => sumf n (g a)) l) = sumf n (fun k => rsum (map (fun a => g a k) l)).
Proof.
  induction l as [|a l IH]; simpl. { symmetry. apply sumf_0. }
  rewrite IH. clear. induction n; simpl; lra.
Qed.
Lemma rsum_scale {A} (g : A -> R) d (l : list A) : rsum (map (fun a => g a * d) l) = rsum (map g l) * d.
Proof. induction l as [|a l IH]; simpl; [lra|]. rewrite IH. lra. Qed.
Lemma sumf_div n f k : sumf n f / k = sumf n (fun i => f i / k).
Proof. induction n; simpl; [unfold Rdiv; apply Rmult_0_l|]. rewrite <- IHn. unfold Rdiv. ring. Qed.

(** the derivative of the mean loss along a curve *)
Lemma mean_curve nn lf G xs ts b th : nn_layers nn <> [] -> chain (in_size nn) (nn_layers nn) -> is_gradient nn lf G ->
  length th = total_n_parameters nn ->
  (forall k, In k b -> length (nth k xs []) = in_size nn /\ length (nth k ts []) = out_size nn) ->
  let sh := nn_shape nn in let n := in_size nn in let no := out_size nn in
  trainable lf sh -> differentiable lf sh n no xs ts b (vec th) ->
  forall dth (thc : R -> nat -> R) s,
    (forall k, thc s k = vec th k) -> (forall k, is_derive (fun s => thc s k) s (dth k)) ->
    is_derive (fun s => mean_loss lf sh n no xs ts b (thc s)) s
      (sumf (total_n_parameters nn) (fun k => vec (batch_mean nn xs ts G b th) k * dth k)).
Proof.
  intros Hne Hch HG Lth HL sh n no HT HD dth thc s Es Ds. unfold mean_loss.
  eapply is_derive_val.
  - apply is_derive_div. eapply (is_derive_rsum (fun k s => loss_math lf no (vec (nth k ts [])) (eval sh n (thc s) (vec (nth k xs []))))).
    intros k Hk. destruct (HL k Hk) as [Lx Lt]. destruct (HD k Hk) as [HS HTG].
    exact (gradient_curve nn lf G th _ _ Hne Hch HG Lth Lx Lt HT HS HTG dth thc s Es Ds).
  - rewrite rsum_sumf, sumf_div. apply sumf_ext. intros k Hk. rewrite rsum_scale.
    unfold batch_mean, vmean, vec at 2. erewrite nth_error_nth; [|rewrite nth_error_map, (nth_error_nth' _ 0%nat) by (rewrite seq_length; exact Hk); reflexivity].
    rewrite seq_nth by exact Hk. rewrite map_map, map_length. cbn [Nat.add]. unfold vec, Rdiv. ring.
Qed.

(** negative derivative: smaller just behind *)
Lemma goes_down (f : R -> R) d : is_derive f 0 d -> d < 0 -> exists eps, 0 < eps /\ forall s, 0 < s < eps -> f s < f 0.
Proof.
  intros H Hd. apply is_derive_Reals in H. destruct (H (- d) ltac:(lra)) as [delta HH].
  exists delta. split; [apply cond_pos|]. intros s Hs. specialize (HH s ltac:(lra)). rewrite Rabs_pos_eq in HH by lra. specialize (HH ltac:(lra)).
  rewrite Rplus_0_l in HH. apply Rabs_def2 in HH. destruct HH as [HH _].
  assert (Q : (f s - f 0) / s < 0) by lra. apply Rmult_lt_compat_r with (r := s) in Q; [|lra].
  unfold Rdiv in Q. rewrite Rmult_assoc, Rinv_l, Rmult_0_l in Q by lra. lra.
Qed.

Lemma sumf_neg n f : (forall k, (k < n)%nat -> f k <= 0) -> (exists k, (k < n)%nat /\ f k < 0) -> sumf n f < 0.
Proof.
  induction n; intros H [k [Hk N]]; [lia|]. simpl. assert (P : sumf n f <= 0).
  { clear - H. induction n; simpl; [lra|]. assert (f n <= 0) by (apply H; lia). assert (sumf n f <= 0) by (apply IHn; intros; apply H; lia). lra. }
  destruct (Nat.eq_dec k n) as [-> |]. { lra. }
  assert (sumf n f < 0) by (apply IHn; [intros; apply H; lia|exists k; split; [lia|exact N]]). assert (f n <= 0) by (apply H; lia). lra.
Qed.

(** the gradient is unique *)
Lemma mean_unique nn lf G G' xs ts b th : nn_layers nn <> [] -> chain (in_size nn) (nn_layers nn) -> is_gradient nn lf G -> is_gradient nn lf G' ->
  length th = total_n_parameters nn ->
  (forall k, In k b -> length (nth k xs []) = in_size nn /\ length (nth k ts []) = out_size nn) ->
  trainable lf (nn_shape nn) -> differentiable lf (nn_shape nn) (in_size nn) (out_size nn) xs ts b (vec th) ->
  batch_mean nn xs ts G b th = batch_mean nn xs ts G' b th.
Proof.
  intros Hne Hch HG HG' Lth HL HT HD. unfold batch_mean, vmean. apply map_ext_in. intros j Hj. apply in_seq in Hj. rewrite !map_length, !map_map. f_equal. f_equal.
  apply map_ext_in. intros k Hk. destruct (HL k Hk) as [Lx Lt]. destruct (HD k Hk) as [HS HTG].
  pose proof (is_derive_unique _ _ _ (HG th _ _ Lth Lx Lt HT HS HTG j ltac:(lia))) as U1.
  pose proof (is_derive_unique _ _ _ (HG' th _ _ Lth Lx Lt HT HS HTG j ltac:(lia))) as U2. exact (eq_trans (eq_sym U1) U2).
Qed.

(** a step of length lr in a direction with the opposite signs of the gradient *)
Lemma step_down nn lf xs ts b th (a : nat -> R -> R) : nn_layers nn <> [] -> chain (in_size nn) (nn_layers nn) ->
  length th = total_n_parameters nn ->
  (forall k, In k b -> length (nth k xs []) = in_size nn /\ length (nth k ts []) = out_size nn) ->
  let sh := nn_shape nn in let n := in_size nn in let no := out_size nn in
  trainable lf sh -> differentiable lf sh n no xs ts b (vec th) ->
  (forall k x, 0 < a k x) -> ~ stationary (mean_loss lf sh n no xs ts b) (total_n_parameters nn) (vec th) ->
  exists lmax, 0 < lmax /\ forall lr th' G, 0 < lr < lmax -> is_gradient nn lf G ->
    (forall k, let g := vec (batch_mean nn xs ts G b th) k in vec th' k = vec th k - lr * (g * a k g)) ->
    mean_loss lf sh n no xs ts b (vec th') < mean_loss lf sh n no xs ts b (vec th).
Proof.
  intros Hne Hch Lth HL sh n no HT HD HA NS.
  set (G0 := Gr {| cfg_isa := SSE; cfg_fma := false |} nn lf).
  assert (HG0 : is_gradient nn lf G0) by (apply Gr_gradient; assumption).
  set (g := vec (batch_mean nn xs ts G0 b th)) in *.
  assert (D := mean_curve nn lf G0 xs ts b th Hne Hch HG0 Lth HL HT HD). cbv zeta in D. fold sh n no in D. fold g in D.
  set (thc := fun s k => vec th k - s * (g k * a k (g k))).
  assert (EX : exists k, (k < total_n_parameters nn)%nat /\ g k <> 0).
  { destruct (Classical_Prop.classic (exists k, (k < total_n_parameters nn)%nat /\ g k <> 0)) as [Y|N]; [exact Y|]. exfalso. apply NS.
    intros k Hk. eapply is_derive_val; [apply (D (fun i => if Nat.eqb i k then 1 else 0) (fun v => upd (vec th) k v) (vec th k))|].
    - apply upd_same.
    - intros i. unfold upd. destruct (Nat.eqb i k). apply is_derive_id'. apply is_derive_const'.
    - rewrite (sumf_single _ k _ Hk). { rewrite Nat.eqb_refl. destruct (Req_dec (g k) 0) as [-> |NZ]; [lra|]. exfalso. apply N. exists k. split; assumption. }
      intros i Hi Hne'. destruct (Nat.eqb_spec i k); [congruence|lra]. }
  assert (D0 : is_derive (fun s => mean_loss lf sh n no xs ts b (thc s)) 0 (sumf (total_n_parameters nn) (fun k => g k * - (g k * a k (g k))))).
  { apply D.
    - intros k. unfold thc. lra.
    - intros k. unfold thc. generalize (vec th k) (g k * a k (g k)). intros u w. auto_derive; [exact I|ring]. }
  assert (NEG : sumf (total_n_parameters nn) (fun k => g k * - (g k * a k (g k))) < 0).
  { apply sumf_neg.
    - intros k _. specialize (HA k (g k)). assert (0 <= g k * g k) by apply Rle_0_sqr. nra.
    - destruct EX as (k & Hk & NZ). exists k. split; [exact Hk|]. specialize (HA k (g k)). assert (0 < g k * g k) by (apply Rsqr_pos_lt; exact NZ). nra. }
  destruct (goes_down _ _ D0 NEG) as (eps & He & HH). exists eps. split; [exact He|]. intros lr th' G Hlr HG E.
  assert (EM : forall th1 th2, (forall k, th1 k = th2 k) -> mean_loss lf sh n no xs ts b th1 = mean_loss lf sh n no xs ts b th2).
  { intros th1 th2 E12. assert (FE : th1 = th2) by (apply FunctionalExtensionality.functional_extensionality; exact E12). rewrite FE. reflexivity. }
  rewrite (mean_unique nn lf G G0 xs ts b th Hne Hch HG HG0 Lth HL HT HD) in E. fold g in E.
  rewrite (EM (vec th') (thc lr)) by exact E. rewrite (EM (vec th) (thc 0)). 2:{ intros k. unfold thc. lra. }
  apply HH. exact Hlr.
Qed.
