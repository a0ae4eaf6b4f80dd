(** OptTrain.v -- training runs in exact arithmetic follow the rules of SpecOpt.v *)
From Coquelicot Require Import Coquelicot.
From Coq Require Import List Arith ZArith Lia Bool Reals Lra Permutation.
From Verif Require Import Base BaseProofs Ops OpsR Mem MemProofs Kernels KernelProofs Activation ActivationProofs
  Loss Neuralnet ForwardProofs BackpropProofs SpecReal RealForward RealGrad LossGrad GradProofs GradPropProofs PredictProofs BitsProofs SpecMem ParamProofs Batch BatchProofs
  BlasProofs Optimizer OptKernels OptProofs OptEpochs SpecOpt OptReal.
Import ListNotations.
Local Open Scope nat_scope.
Local Open Scope mem_scope.

(** ** the preconditions of training *)
(** The network nn (with the parameter vector th) and the samples xs, ts (at X, Y) are in memory, nothing
    overlaps; see [train_mem]. *)
Definition train_ready {FO : fops} (c : cfg) (nn : neuralnet) (lf : loss) (X Y : ptr) (xs ts : list (list F)) (m : mem) (th : list F) : Prop :=
  params_apart nn X Y xs ts /\ exists net, params_list net = th /\ train_mem c nn lf net m X Y xs ts.
(** an array of the optimizer with the numbers v, one per parameter *)
Definition state_array {FO : fops} (c : cfg) (nn : neuralnet) (X Y : ptr) (xs ts : list (list F)) (m : mem) (p : ptr) (v : list F) : Prop :=
  holds m p v /\ length v = total_n_parameters nn /\ clear nn X Y xs ts p (length v) /\ kal c (length v) m p.
(** the optimizer record at the start of an epoch: the network with the loss set, the batch size, a sample
    order of length n; and sane choices of the runtime [env_ok] *)
Definition order (o : opt) : list nat := match o_pivot o with Some pv => pv | None => [] end.
Definition epoch_ready {FO : fops} (c : cfg) (nn : neuralnet) (lf : loss) (bsz n_samples : nat) (h : env * opt * nat) : Prop :=
  let '(e, o, n) := h in
  o_nn o = neuralnet_set_loss nn (Some lf) /\ o_batchsize o = bsz /\ o_pivot o <> None /\
  length (order o) = n /\ (forall k, In k (order o) -> k < n_samples) /\ env_ok c nn o n e.

(** ** what the gradient function is *)
Definition nn_shape (nn : neuralnet) : shape := map (fun l => (n_output l, l_act l)) (nn_layers nn).
(** G th x t is the gradient of the loss of sample (x, t) at th, wherever the loss is differentiable *)
Definition is_gradient (nn : neuralnet) (lf : loss) (G : list R -> list R -> list R -> list R) : Prop :=
  forall th x t, length th = total_n_parameters nn -> length x = in_size nn -> length t = out_size nn ->
  let sh := nn_shape nn in let n := in_size nn in let no := out_size nn in
  trainable lf sh -> smooth sh n (vec th) (vec x) -> target_ok lf no (vec t) (eval sh n (vec th) (vec x)) ->
  forall k, k < total_n_parameters nn ->
    is_derive (fun v => loss_math lf no (vec t) (eval sh n (upd (vec th) k v) (vec x))) (vec th k) (vec (G th x t) k).
(** and it is what neuralnet_backpropagation computes in every situation *)
Definition is_backprop (c : cfg) (nn : neuralnet) (lf : loss) (G : list R -> list R -> list R -> list R) : Prop :=
  forall wb net (m : @mem opsR) pin pt pg x t, @bp_ready opsR c wb nn net lf m pin pt pg x t ->
    writes_only (@neuralnet_backpropagation opsR c exp wb (neuralnet_set_loss nn (Some lf)) pin pt pg) m pg (G (@params_list opsR net) x t).

Lemma Gr_backprop c nn lf : is_backprop c nn lf (Gr c nn lf).
Proof.
  intros wb net m pin pt pg x t H. unfold Gr, sample_grad.
  assert (E : @net_of opsR (nn_layers nn) (@params_list opsR net) = net).
  { destruct H as ((_ & _ & HN & _) & _). eapply (@net_of_params opsR); eauto. }
  change (@F opsR) with R in *. rewrite E. apply (@backprop_writes opsR); auto. exact mulC_R.
Qed.

Lemma shape_net_of nn (net : list (@flayer opsR)) :
  Forall2 (fun l f => fn_out f = n_output l /\ fact f = l_act l) (nn_layers nn) net -> shape_of net = nn_shape nn.
Proof.
  unfold shape_of, nn_shape. induction 1 as [|a b r1 r2 [H1 H2] H IH]; simpl; auto. rewrite H1, H2, IH. reflexivity.
Qed.
Lemma fits_of_f : forall (net : list (@flayer opsR)) n, @fits_f opsR n net -> fits n net.
Proof. induction net as [|l net IH]; intros n H; simpl in *; auto. destruct H as (A & B & H). auto. Qed.

Lemma Gr_gradient c nn lf : nn_layers nn <> [] -> chain (in_size nn) (nn_layers nn) -> is_gradient nn lf (Gr c nn lf).
Proof.
  intros Hne Hch th x t Lth Lx Lt sh n no HT HS HTG k Hk.
  destruct (@net_of_fits opsR (nn_layers nn) (in_size nn) th Hch) as (F1 & P1 & L1 & S1). { rewrite <- total_psize. exact Lth. }
  set (net := @net_of opsR (nn_layers nn) th) in *. change (@F opsR) with R in *.
  pose proof (shape_net_of nn net S1) as SH. pose proof (fits_of_f _ _ F1) as F2.
  assert (PO : params_of net = th) by exact P1.
  destruct (@nth_error_ex _ net (length net - 1)) as [f Hf]. { rewrite L1. destruct (nn_layers nn); simpl; [congruence|lia]. }
  assert (NO : n_outputs (shape_of net) (length x) = no).
  { unfold no. rewrite <- (@last_out opsR nn net f S1 Hf).
    assert (F2' : fits (length x) net) by (rewrite Lx; exact F2).
    pose proof (proj1 (forward_R c net 0 x F2')) as LO. etransitivity; [symmetry; exact LO|].
    eapply (forward_f_length (FO := opsR)); eauto. change (@F opsR) with R in *. rewrite Lx. exact F1. }
  assert (Pos : 0 < no).
  { unfold no. rewrite <- (@last_out opsR nn net f S1 Hf).
    clear - F1 Hf. revert F1 Hf. generalize (in_size nn). intros n F1 Hf. apply nth_error_In in Hf. revert n F1.
    induction net as [|l net IH]; intros n F1; simpl in *; [contradiction|]. destruct F1 as (A & B & F1). destruct Hf as [->|Hf]; [lia|eauto]. }
  pose proof (grad_R c lf net x t) as GR. cbv zeta in GR. rewrite NO, SH, Lx, PO in GR.
  destruct GR as [LG D]; auto. apply D.
  assert (E : n_params sh n = length th).
  { unfold sh, n. rewrite <- SH. etransitivity; [|exact (f_equal (@length R) PO)]. symmetry. apply length_params_of. exact F2. }
  unfold sh, n in E. rewrite E, Lth. exact Hk.
Qed.

(** ** vectors *)
Lemma vec_mom mu lr (v g : list R) : map2 Rplus (map (fun y => y * mu)%R v) (map (fun y => y * - lr)%R g) = vsub (vscale mu v) (vscale lr g).
Proof. unfold vsub, vscale. revert g. induction v as [|x v IH]; intros [|y g]; simpl; auto. rewrite IH. f_equal. ring. Qed.
Lemma vec_scale_comm mu (v : list R) : map (fun y => y * mu)%R v = vscale mu v.
Proof. unfold vscale. apply map_ext. intros. ring. Qed.
Lemma vec_plain lr (th g : list R) : map2 Rplus th (map (fun y => y * - lr)%R g) = vsub th (vscale lr g).
Proof. unfold vsub, vscale. revert g. induction th as [|x v IH]; intros [|y g]; simpl; auto. rewrite IH. f_equal. ring. Qed.
Lemma vec_assoc (a b d : list R) : map2 Rplus (map2 Rplus a b) d = map2 Rplus a (map2 Rplus b d).
Proof. revert b d. induction a as [|x a IH]; intros [|y b] [|z d]; simpl; auto. rewrite IH. f_equal. ring. Qed.
Lemma vec_ext2 (f g : R -> R -> R) (a b : list R) : (forall x y, f x y = g x y) -> map2 f a b = map2 g a b.
Proof. intros H. revert b. induction a as [|x a IH]; intros [|y b]; simpl; auto. rewrite H, IH. reflexivity. Qed.
Lemma vec_rho a b (r g : list R) :
  map2 (fun x y => a * x + b * y)%R r (map (fun x => x * x)%R g) = vadd (vscale a r) (vscale b (vsqr g)).
Proof. unfold vadd, vscale, vsqr. revert g. induction r as [|x r IH]; intros [|y g]; simpl; auto. rewrite IH. f_equal. ring. Qed.
Lemma vec_lin a b (r g : list R) : map2 (fun x y => a * x + b * y)%R r g = vadd (vscale a r) (vscale b g).
Proof. unfold vadd, vscale. revert g. induction r as [|x r IH]; intros [|y g]; simpl; auto. rewrite IH. reflexivity. Qed.
Lemma vec_sm a b (r g : list R) : map2 (fun x y => x * a + y * y * b)%R r g = vadd (vscale a r) (vscale b (vsqr g)).
Proof. unfold vadd, vscale, vsqr. revert g. induction r as [|x r IH]; intros [|y g]; simpl; auto. rewrite IH. f_equal. ring. Qed.
Lemma vec_acc (r g : list R) : map2 (fun x y => x + y * y)%R r g = vadd r (vsqr g).
Proof. unfold vadd, vsqr. revert g. induction r as [|x r IH]; intros [|y g]; simpl; auto. rewrite IH. f_equal. ring. Qed.
Lemma vec_update lr (g r : list R) : map2 (@update_f opsR lr) g r = rms_delta (1 / 10000000) lr g r.
Proof. unfold rms_delta. apply vec_ext2. intros x y. unfold update_f. simpl. unfold Rdiv. ring. Qed.
Lemma vec_wd wd (d th : list R) : map2 (fun x y => x + - wd * y)%R d th = vsub d (vscale wd th).
Proof. unfold vsub, vscale. revert th. induction d as [|x r IH]; intros [|y g]; simpl; auto. rewrite IH. f_equal. ring. Qed.
Lemma vec_adam b1 b2 lr (s r : list R) :
  map2 (@adam_f opsR b1 b2 lr) s r = map2 (fun m v => - (lr * m / (sqrt v + 1 / 100000000)))%R (vscale (/ (1 - b1)) s) (vscale (/ (1 - b2)) r).
Proof.
  unfold vscale. revert r. induction s as [|x s IH]; intros [|y r]; simpl; auto. rewrite IH. f_equal.
  unfold adam_f. simpl. unfold Rdiv. rewrite (Rmult_comm y). ring.
Qed.
Lemma length_vadd a b n : length a = n -> length b = n -> length (vadd a b) = n.
Proof. intros. unfold vadd. rewrite length_map2. lia. Qed.
Lemma length_vsub a b n : length a = n -> length b = n -> length (vsub a b) = n.
Proof. intros. unfold vsub. rewrite length_map2. lia. Qed.

Lemma decayed_lr lr0 d t : @decayed opsR (lr_after lr0 d t) d t = lr_after lr0 d (S t).
Proof.
  unfold decayed, lr_after, fgt. simpl. unfold Rltb. destruct (Rlt_dec 0 d); auto.
  unfold count32. change (2 ^ 32)%Z with 4294967296%Z. ring.
Qed.

(** ** the runs *)
Lemma fold_batches {T} (rule : T -> list nat -> T) (bsz : nat) (pv : list nat) (t : T) :
  fold_left (fun t k => rule t (firstn bsz (skipn (k * bsz) pv))) (seq 0 ((length pv + bsz - 1) / bsz)) t = fold_left rule (batches bsz pv) t.
Proof. unfold batches. generalize (seq 0 ((length pv + bsz - 1) / bsz)). intros l. revert t. induction l; simpl; auto. Qed.

Lemma training_ok {FO : fops} {S T : Type} (epoch : env -> opt -> nat -> S -> M S) (I : T -> mem -> S -> Prop) (rule : T -> list nat -> T) bsz :
  forall h, (forall e o n, In (e, o, n) h -> forall t m s, I t m s ->
    exists m' s', epoch e o n s m = Ok (s', m') /\ I (fold_left rule (batches bsz (order o)) t) m' s') ->
  forall t m s, I t m s ->
  exists m' s', training epoch h s m = Ok (s', m') /\ I (fold_left rule (flat_map (fun '(e, o, n) => batches bsz (order o)) h) t) m' s'.
Proof.
  induction h as [|[[e o] n] h IH]; intros HE t m s HI; simpl; [exists m, s; split; [reflexivity|exact HI]|].
  destruct (HE e o n (or_introl eq_refl) t m s HI) as (m1 & s1 & E1 & I1). erewrite bind_ok by exact E1.
  destruct (IH (fun e' o' n' H => HE e' o' n' (or_intror H)) _ m1 s1 I1) as (m2 & s2 & E2 & I2).
  exists m2, s2. split; [exact E2|]. rewrite fold_left_app. exact I2.
Qed.

Section Runs.
Variables (c : cfg) (nn : neuralnet) (lf : loss) (X Y : ptr) (xs ts : list (list R)) (bsz : nat).
Hypothesis Hbsz : 0 < bsz.
Let np := total_n_parameters nn.
Let ls := nn_layers nn.
Notation train_ready := (@train_ready opsR c nn lf X Y xs ts).
Notation state_array := (@state_array opsR c nn X Y xs ts).
Notation svec := (@svec opsR c nn X Y xs ts).
Notation holds_th := (@holds_th opsR c nn lf X Y xs ts).
Definition mgrad := mean_grad c nn lf xs ts.

Lemma ready_th m th : train_ready m th -> holds_th m th.
Proof. intros (_ & net & <- & T). apply (@holds_th_intro opsR); auto. Qed.
Lemma th_ready m th : params_apart nn X Y xs ts -> holds_th m th -> train_ready m th.
Proof. intros P (T & _ & E). split; auto. exists (@net_of opsR ls th). split; auto. Qed.
Lemma array_svec m p v : state_array m p v <-> svec m p v.
Proof.
  unfold OptTrain.state_array, OptEpochs.svec. split; intros (A & B & C & D); (split; [exact A|split; [exact B|]]).
  - rewrite B in C, D. auto. - rewrite B. auto.
Qed.

(** the facts all four proofs need *)
Lemma ready_facts m th : train_ready m th -> params_apart nn X Y xs ts /\ nn_layers nn <> [] /\ chain (in_size nn) (nn_layers nn) /\
  (forall i x, nth_error xs i = Some x -> length x = in_size nn) /\
  (forall i t, nth_error ts i = Some t -> length t = out_size nn) /\ length ts = length xs.
Proof.
  intros (P & net & _ & (H1 & H2 & H3 & H4 & H5 & H6 & H7 & H8)). split; auto. split; auto.
  split; [eapply (@net_holds_chain opsR); eauto|]. auto.
Qed.
Hypothesis PA : params_apart nn X Y xs ts.
Hypothesis Hne : nn_layers nn <> [].
Hypothesis Hch : chain (in_size nn) (nn_layers nn).
Hypothesis HX : forall i x, nth_error xs i = Some x -> length x = in_size nn.
Hypothesis HY : forall i t, nth_error ts i = Some t -> length t = out_size nn.
Hypothesis HL : length ts = length xs.

Lemma epoch_run {S T : Type} (e : env) (o : opt) (n : nat) (step : nat -> S -> @M opsR (nat * S)) (I : T -> @mem opsR -> S -> Prop) (rule : T -> list nat -> T) :
  o_batchsize o = bsz -> length (order o) = n ->
  (forall i t m s, i < n -> I t m s -> exists m' s', step i s m = Ok ((i + batch_size o n i, s'), m') /\
     I (rule t (firstn bsz (skipn i (order o)))) m' s') ->
  forall t m s, I t m s -> exists m' s', epoch_loop (Datatypes.S n) step n 0 s m = Ok (s', m') /\
     I (fold_left rule (batches bsz (order o)) t) m' s'.
Proof.
  intros Hb Hn HS t m s HI.
  assert (Hb' : 0 < o_batchsize o) by lia.
  destruct (@epoch_ok opsR nn o (order o) n Hb' Hn S T step I (fun i t => rule t (firstn bsz (skipn i (order o)))) HS t m s HI) as (m' & s' & E & I').
  exists m', s'. split; [exact E|]. unfold n_batches in I'. rewrite Hb, <- Hn in I'. rewrite <- fold_batches. exact I'.
Qed.

Lemma bgrad_eq e o n i th : @epoch_ready opsR c nn lf bsz (length xs) (e, o, n) -> length th = np -> i < n ->
  @bgrad opsR c exp nn lf xs ts o (order o) n e i th = mgrad (firstn bsz (skipn i (order o))) th.
Proof.
  intros (E1 & E2 & E3 & E4 & E5 & E6) Lth Hi. unfold mgrad. rewrite <- E2. apply bgrad_mean; auto.
  - lia. - destruct (E6 i) as (_ & _ & _ & _ & SO & _). exact SO.
Qed.
Lemma order_some o : o_pivot o <> None -> o_pivot o = Some (order o).
Proof. unfold order. destruct (o_pivot o); congruence. Qed.

(** *** SGD *)
Section SGD.
Variables (lr0 decay mu : R) (nest : bool) (V : ptr).
Let of t lr := {| sg_lr := lr; sg_decay := decay; sg_mu := mu; sg_nesterov := nest; sg_t := t; sg_v := V |} : @sgd opsR.
Let rule := sgd_rule mgrad mu nest (fun t => lr_after lr0 decay (S t)).
Let Inv (m0 : @mem opsR) (st : list R * list R * nat) (m : @mem opsR) (s : @sgd opsR) : Prop :=
  let '(th, v, t) := st in
  s = of t (lr_after lr0 decay t) /\ holds_th m th /\ svec m V v /\ only_changes_in m0 m ((V, np) :: regions ls).

Lemma sgd_run_ok m0 h : Forall (@epoch_ready opsR c nn lf bsz (length xs)) h ->
  forall st m s, Inv m0 st m s -> exists m' s', training (fun e o n => @sgd_epoch opsR c exp e o n X Y) h s m = Ok (s', m') /\
    Inv m0 (fold_left rule (flat_map (fun '(e, o, n) => batches bsz (order o)) h) st) m' s'.
Proof.
  intros HR. apply training_ok. intros e o n Hin. rewrite Forall_forall in HR. pose proof (HR _ Hin) as ER.
  pose proof ER as (E1 & E2 & E3 & E4 & E5 & E6).
  apply epoch_run; auto.
  intros i [[th v] t] m s Hi (-> & T & SV & OC).
  assert (E7 : 0 < o_batchsize o) by lia.
  destruct (@sgd_step_ok opsR c exp mulC_R nn lf X Y xs ts PA o (order o) n e E1 E7 (order_some o E3) E4 E5 E6 decay mu nest V m0 i
     (th, v, lr_after lr0 decay t, t) m (of t (lr_after lr0 decay t)) Hi) as (m' & s' & E & II).
  { split; [reflexivity|]. auto. }
  exists m', s'. split; [exact E|].
  pose proof T as (_ & Lth & _). pose proof SV as (_ & Lv & _). change (@F opsR) with R in *.
  assert (Lw : length (vscale mu v) = np) by (unfold vscale; rewrite map_length; exact Lv).
  assert (Lth1 : length (vadd th (vscale mu v)) = np) by (apply length_vadd; auto).
  assert (EQ : @sgd_step_f opsR decay mu nest (@bgrad opsR c exp nn lf xs ts o (order o) n e i) (th, v, lr_after lr0 decay t, t) =
     let '(th', v', t') := rule (th, v, t) (firstn bsz (skipn i (order o))) in (th', v', lr_after lr0 decay t', t')).
  { unfold sgd_step_f, rule, sgd_rule. rewrite decayed_lr. unfold fgt. cbn [flt opsR f0]. unfold Rltb. rewrite Nat.add_1_r.
    destruct (Rlt_dec 0 mu).
    - destruct nest.
      + change (@map2 (@F opsR) (@F opsR) (@F opsR) fadd th (map (fun y : @F opsR => fmul y mu) v)) with (map2 Rplus th (map (fun y => y * mu)%R v)).
        rewrite (vec_scale_comm mu v). fold (vadd th (vscale mu v)).
        rewrite (bgrad_eq e o n i _ ER Lth1 Hi).
        set (g := mgrad _ _). f_equal. f_equal. f_equal.
        * etransitivity; [apply vec_assoc|]. f_equal. rewrite <- vec_mom, (vec_scale_comm mu v). reflexivity.
        * rewrite <- vec_mom. reflexivity.
      + rewrite (bgrad_eq e o n i _ ER Lth Hi). set (g := mgrad _ _).
        f_equal. f_equal. { f_equal; [|apply vec_mom]. unfold vadd. f_equal. apply vec_mom. }
    - rewrite (bgrad_eq e o n i _ ER Lth Hi). f_equal. f_equal. f_equal. apply vec_plain. }
  destruct II as (-> & A & B & C). rewrite EQ in *.
  destruct (rule (th, v, t) (firstn bsz (skipn i (order o)))) as [[th' v'] t'] eqn:ER2.
  split; [reflexivity|]. auto.
Qed.
End SGD.

(** *** RMSprop *)
Section RMS.
Variables (lr0 decay rho mu : R) (nest : bool) (V Q : ptr).
Hypothesis HVQ : disjoint V np Q np.
Let of t lr := {| rm_lr := lr; rm_decay := decay; rm_rho := rho; rm_mu := mu; rm_nesterov := nest; rm_t := t; rm_v := V; rm_r := Q |} : @rmsprop opsR.
Let rule := rms_rule mgrad rho mu nest (fun t => lr_after lr0 decay (S t)).
Let Inv (m0 : @mem opsR) (st : list R * list R * list R * nat) (m : @mem opsR) (s : @rmsprop opsR) : Prop :=
  let '(th, v, r, t) := st in
  s = of t (lr_after lr0 decay t) /\ holds_th m th /\ svec m V v /\ svec m Q r /\
  only_changes_in m0 m ((V, np) :: (Q, np) :: regions ls).

Lemma rms_run_ok m0 h : Forall (@epoch_ready opsR c nn lf bsz (length xs)) h ->
  forall st m s, Inv m0 st m s -> exists m' s', training (fun e o n => @rmsprop_epoch opsR c exp e o n X Y) h s m = Ok (s', m') /\
    Inv m0 (fold_left rule (flat_map (fun '(e, o, n) => batches bsz (order o)) h) st) m' s'.
Proof.
  intros HR. apply training_ok. intros e o n Hin. rewrite Forall_forall in HR. pose proof (HR _ Hin) as ER.
  pose proof ER as (E1 & E2 & E3 & E4 & E5 & E6).
  apply epoch_run; auto.
  intros i [[[th v] r] t] m s Hi (-> & T & SV & SQ & OC).
  assert (E7 : 0 < o_batchsize o) by lia.
  destruct (@rms_step_ok opsR c exp mulC_R nn lf X Y xs ts PA o (order o) n e E1 E7 (order_some o E3) E4 E5 E6 decay rho mu nest V Q HVQ m0 i
     (th, v, r, lr_after lr0 decay t, t) m (of t (lr_after lr0 decay t)) Hi) as (m' & s' & E & II).
  { split; [reflexivity|]. auto. }
  exists m', s'. split; [exact E|].
  pose proof T as (_ & Lth & _). pose proof SV as (_ & Lv & _). change (@F opsR) with R in *.
  assert (Lw : length (vscale mu v) = np) by (unfold vscale; rewrite map_length; exact Lv).
  assert (Lth1 : length (vadd th (vscale mu v)) = np) by (apply length_vadd; auto).
  assert (EQ : @rms_step_f opsR decay rho mu nest (@bgrad opsR c exp nn lf xs ts o (order o) n e i) (th, v, r, lr_after lr0 decay t, t) =
     let '(th', v', r', t') := rule (th, v, r, t) (firstn bsz (skipn i (order o))) in (th', v', r', lr_after lr0 decay t', t')).
  { unfold rms_step_f, rule, rms_rule. rewrite decayed_lr. unfold fgt. cbn [flt opsR f0]. unfold Rltb. rewrite Nat.add_1_r.
    destruct (Rlt_dec 0 mu); cbn [andb].
    - destruct nest; cbn [negb].
      + change (@map2 (@F opsR) (@F opsR) (@F opsR) fadd th (map (fun y : @F opsR => fmul y mu) v)) with (map2 Rplus th (map (fun y => y * mu)%R v)).
        rewrite (vec_scale_comm mu v). fold (vadd th (vscale mu v)).
        rewrite (bgrad_eq e o n i _ ER Lth1 Hi).
        set (g := mgrad _ _). change (@F opsR) with R. cbn [fadd fmul fsub f1 opsR].
        rewrite vec_rho, vec_update. f_equal. f_equal. f_equal. f_equal.
        * etransitivity; [apply vec_assoc|]. reflexivity.
        * rewrite (vec_scale_comm mu v). reflexivity.
      + rewrite (bgrad_eq e o n i _ ER Lth Hi). set (g := mgrad _ _). change (@F opsR) with R. cbn [fadd fmul fsub f1 opsR].
        rewrite vec_rho, vec_update, (vec_scale_comm mu v). reflexivity.
    - rewrite (bgrad_eq e o n i _ ER Lth Hi). set (g := mgrad _ _). change (@F opsR) with R. cbn [fadd fmul fsub f1 opsR].
      rewrite vec_rho, vec_update. reflexivity. }
  destruct II as (-> & A & B & C & D). rewrite EQ in *.
  destruct (rule (th, v, r, t) (firstn bsz (skipn i (order o)))) as [[[th' v'] r'] t'] eqn:ER2.
  split; [reflexivity|]. auto.
Qed.
End RMS.

(** *** Adagrad *)
Section AG.
Variables (lr0 decay : R) (Q : ptr).
Let of t lr := {| ag_lr := lr; ag_decay := decay; ag_t := t; ag_r := Q |} : @adagrad opsR.
Let rule := adagrad_rule mgrad (fun t => lr_after lr0 decay (S t)).
Let Inv (m0 : @mem opsR) (st : list R * list R * nat) (m : @mem opsR) (s : @adagrad opsR) : Prop :=
  let '(th, r, t) := st in
  s = of t (lr_after lr0 decay t) /\ holds_th m th /\ svec m Q r /\ only_changes_in m0 m ((Q, np) :: regions ls).

Lemma ag_run_ok m0 h : Forall (@epoch_ready opsR c nn lf bsz (length xs)) h ->
  forall st m s, Inv m0 st m s -> exists m' s', training (fun e o n => @adagrad_epoch opsR c exp e o n X Y) h s m = Ok (s', m') /\
    Inv m0 (fold_left rule (flat_map (fun '(e, o, n) => batches bsz (order o)) h) st) m' s'.
Proof.
  intros HR. apply training_ok. intros e o n Hin. rewrite Forall_forall in HR. pose proof (HR _ Hin) as ER.
  pose proof ER as (E1 & E2 & E3 & E4 & E5 & E6).
  apply epoch_run; auto.
  intros i [[th r] t] m s Hi (-> & T & SQ & OC).
  assert (E7 : 0 < o_batchsize o) by lia.
  destruct (@ag_step_ok opsR c exp mulC_R nn lf X Y xs ts PA o (order o) n e E1 E7 (order_some o E3) E4 E5 E6 decay Q m0 i
     (th, r, lr_after lr0 decay t, t) m (of t (lr_after lr0 decay t)) Hi) as (m' & s' & E & II).
  { split; [reflexivity|]. auto. }
  exists m', s'. split; [exact E|].
  pose proof T as (_ & Lth & _). change (@F opsR) with R in *.
  assert (EQ : @ag_step_f opsR decay (@bgrad opsR c exp nn lf xs ts o (order o) n e i) (th, r, lr_after lr0 decay t, t) =
     let '(th', r', t') := rule (th, r, t) (firstn bsz (skipn i (order o))) in (th', r', lr_after lr0 decay t', t')).
  { unfold ag_step_f, rule, adagrad_rule. rewrite decayed_lr. rewrite Nat.add_1_r.
    rewrite (bgrad_eq e o n i _ ER Lth Hi). set (g := mgrad _ _). change (@F opsR) with R. cbn [fadd fmul fsub f1 opsR].
    rewrite vec_acc, vec_update. reflexivity. }
  destruct II as (-> & A & B & C). rewrite EQ in *.
  destruct (rule (th, r, t) (firstn bsz (skipn i (order o)))) as [[th' r'] t'] eqn:ER2.
  split; [reflexivity|]. auto.
Qed.
End AG.

(** *** Adam *)
Section AD.
Variables (lr beta1 beta2 wd : R) (Q W : ptr).
Hypothesis HQW : disjoint Q np W np.
Let s0 := {| ad_lr := lr; ad_beta1 := beta1; ad_beta2 := beta2; ad_wd := wd; ad_r := Q; ad_s := W |} : @adam opsR.
Let rule := adam_rule mgrad beta1 beta2 lr wd.
Let Inv (m0 : @mem opsR) (st : list R * list R * list R * nat) (m : @mem opsR) (s : @adam_static opsR) : Prop :=
  let '(th, m1, m2, t) := st in
  s = ((beta1 ^ t)%R, (beta2 ^ t)%R) /\ holds_th m th /\ svec m Q m2 /\ svec m W m1 /\
  only_changes_in m0 m ((Q, np) :: (W, np) :: regions ls).

Lemma ad_run_ok m0 h : Forall (@epoch_ready opsR c nn lf bsz (length xs)) h ->
  forall st m s, Inv m0 st m s -> exists m' s', training (fun e o n => @adam_epoch opsR c exp e o n X Y s0) h s m = Ok (s', m') /\
    Inv m0 (fold_left rule (flat_map (fun '(e, o, n) => batches bsz (order o)) h) st) m' s'.
Proof.
  intros HR. apply training_ok. intros e o n Hin. rewrite Forall_forall in HR. pose proof (HR _ Hin) as ER.
  pose proof ER as (E1 & E2 & E3 & E4 & E5 & E6).
  apply epoch_run; auto.
  intros i [[[th m1] m2] t] m s Hi (-> & T & SQ & SW & OC).
  assert (E7 : 0 < o_batchsize o) by lia.
  destruct (@ad_step_ok opsR c exp mulC_R nn lf X Y xs ts PA o (order o) n e E1 E7 (order_some o E3) E4 E5 E6 lr beta1 beta2 wd Q W HQW m0 i
     (th, m2, m1, ((beta1 ^ t)%R, (beta2 ^ t)%R)) m ((beta1 ^ t)%R, (beta2 ^ t)%R) Hi) as (m' & s' & E & II).
  { split; [reflexivity|]. auto. }
  exists m', s'. split; [exact E|].
  pose proof T as (_ & Lth & _). change (@F opsR) with R in *.
  pose proof SQ as (_ & L2 & _). pose proof SW as (_ & L1 & _). change (@F opsR) with R in *.
  assert (EQ : @ad_step_f opsR c lr beta1 beta2 wd (@bgrad opsR c exp nn lf xs ts o (order o) n e i) (th, m2, m1, ((beta1 ^ t)%R, (beta2 ^ t)%R)) =
     let '(th', m1', m2', t') := rule (th, m1, m2, t) (firstn bsz (skipn i (order o))) in (th', m2', m1', ((beta1 ^ t')%R, (beta2 ^ t')%R))).
  { unfold ad_step_f, rule, adam_rule. rewrite (bgrad_eq e o n i _ ER Lth Hi). set (g := mgrad _ _). change (@F opsR) with R. cbn [fst snd].
    assert (S2 : @second_moment_f opsR c beta2 m2 g = vadd (vscale beta2 m2) (vscale (1 - beta2) (vsqr g))).
    { unfold second_moment_f. rewrite <- vec_sm. apply (@lanes2_eq opsR); intros; simpl; ring. }
    change (@F opsR) with R in *. rewrite S2. unfold fgt. cbn [fadd fmul fsub f1 fneg flt f0 opsR]. unfold Rltb.
    rewrite vec_lin, vec_adam, (Rmult_comm (beta1 ^ t)), (Rmult_comm (beta2 ^ t)).
    destruct (Rlt_dec 0 wd); [rewrite vec_wd|]; reflexivity. }
  destruct II as (-> & A & B & C & D). rewrite EQ in *.
  destruct (rule (th, m1, m2, t) (firstn bsz (skipn i (order o)))) as [[[th' m1'] m2'] t'] eqn:ER2.
  split; [reflexivity|]. auto.
Qed.
End AD.
End Runs.
