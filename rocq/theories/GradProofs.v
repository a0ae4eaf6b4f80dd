(** GradProofs.v -- neuralnet_set_loss followed by neuralnet_backpropagation yields the gradient *)
From Coq Require Import List Arith ZArith Lia Bool Reals Lra.
From Coquelicot Require Import Coquelicot.
From Verif Require Import Base BaseProofs Ops OpsR Mem MemProofs Kernels KernelProofs KernelProofs2
  Activation ActivationProofs Loss Neuralnet ForwardProofs BackpropProofs SpecReal RealForward RealGrad LossGrad.
Import ListNotations.

(** ** neuralnet_set_loss, layer by layer *)
Definition last_deriv (lf : loss) (g : act) : act :=
  match lf, g with BCE, Sigmoid => Linear | CCE, Softmax => Linear | _, _ => g end.
Definition set_d (l : layer) (d : act) : layer :=
  Build_layer (n_input l) (n_output l) (weight l) (bias l) (l_act l) (Some d).
Fixpoint lsd (lf : loss) (ls : list layer) : list layer :=
  match ls with
  | [] => []
  | l :: r => match r with [] => [set_d l (last_deriv lf (l_act l))] | _ => set_d l (l_act l) :: lsd lf r end
  end.

Lemma set_last_linear_cons a b r : set_last_linear (a :: b :: r) = a :: set_last_linear (b :: r).
Proof.
  unfold set_last_linear. simpl rev. remember (rev r ++ [b]) as q. destruct q as [|x q]; simpl.
  - destruct (rev r); discriminate.
  - rewrite !rev_app_distr. reflexivity.
Qed.
Lemma last_act_cons a b r : last_act (a :: b :: r) = last_act (b :: r).
Proof.
  unfold last_act. simpl rev. remember (rev r ++ [b]) as q. destruct q as [|x q]; simpl; auto.
  destruct (rev r); discriminate.
Qed.

Lemma set_loss_layers nn lf : nn_layers (neuralnet_set_loss nn (Some lf)) = lsd lf (nn_layers nn).
Proof.
  destruct nn as [ls ol]. unfold neuralnet_set_loss. cbn [nn_layers].
  induction ls as [|l ls IH]. { destruct lf; reflexivity. }
  destruct ls as [|l2 ls].
  - simpl. unfold last_act, set_last_linear, set_d, last_deriv. simpl. destruct lf; auto; destruct (l_act l); reflexivity.
  - change (lsd lf (l :: l2 :: ls)) with (set_d l (l_act l) :: lsd lf (l2 :: ls)). rewrite <- IH.
    assert (E : forall l r, set_derivs (l :: r) = set_d l (l_act l) :: set_derivs r) by reflexivity.
    rewrite !E, last_act_cons, set_last_linear_cons.
    destruct lf; auto; destruct (last_act _) as [[]|]; reflexivity.
Qed.

Lemma total_eq : forall ls1 ls2 ol1 ol2, Forall2 (fun a b => n_input a = n_input b /\ n_output a = n_output b) ls1 ls2 ->
  total_n_parameters (Build_neuralnet ls1 ol1) = total_n_parameters (Build_neuralnet ls2 ol2).
Proof.
  intros ls1 ls2 ol1 ol2 H. unfold total_n_parameters. cbn [nn_layers].
  enough (G : forall s, fold_left (fun s l => s + (n_input l + 1) * n_output l)%nat ls1 s =
    fold_left (fun s l => s + (n_input l + 1) * n_output l)%nat ls2 s) by apply G.
  induction H as [|a b ls1 ls2 [E1 E2] H IH]; intros s; simpl; auto. rewrite E1, E2. apply IH.
Qed.
Definition same_but_deriv (a b : layer) : Prop :=
  n_input a = n_input b /\ n_output a = n_output b /\ weight a = weight b /\ bias a = bias b /\ l_act a = l_act b.
Lemma lsd_same lf : forall ls, Forall2 same_but_deriv (lsd lf ls) ls.
Proof.
  induction ls as [|l ls IH]; simpl; auto. destruct ls; constructor; auto; repeat split.
Qed.
Lemma total_set_loss nn lf : total_n_parameters (neuralnet_set_loss nn (Some lf)) = total_n_parameters nn.
Proof.
  assert (G : forall ls1 ls2, Forall2 same_but_deriv ls1 ls2 ->
    Forall2 (fun a b => n_input a = n_input b /\ n_output a = n_output b) ls1 ls2).
  { induction 1 as [|a b l1 l2 HH]; constructor; auto. unfold same_but_deriv in HH. tauto. }
  unfold total_n_parameters at 1. rewrite set_loss_layers. destruct nn as [ls ol]. cbn [nn_layers].
  change (total_n_parameters (Build_neuralnet (lsd lf ls) ol) = total_n_parameters (Build_neuralnet ls ol)).
  apply total_eq. apply G. apply lsd_same.
Qed.

Section Net.
Context {FO : fops}.
Variable c : cfg.
Fixpoint derivs (lf : loss) (net : list flayer) : list (flayer * act) :=
  match net with
  | [] => []
  | l :: r => match r with [] => [(l, last_deriv lf (fact l))] | _ => (l, fact l) :: derivs lf r end
  end.
Lemma map_fst_derivs lf : forall net, map fst (derivs lf net) = net.
Proof. induction net as [|l [|l2 r] IH]; simpl in *; auto. f_equal. auto. Qed.
Lemma net_holds_same m : forall ls1 ls2, Forall2 same_but_deriv ls1 ls2 ->
  forall n net, net_holds c m n ls2 net -> net_holds c m n ls1 net.
Proof.
  induction 1 as [|a b ls1 ls2 (E1 & E2 & E3 & E4 & E5) H IH]; intros n net; simpl; auto.
  destruct net as [|f net]; auto. unfold layer_holds. rewrite E1, E2, E3, E4, E5. intros [A B]. split; auto.
Qed.
Lemma derivs_ok lf m : forall ls net n, net_holds c m n ls net ->
  Forall2 (fun l fd => l_deriv l = Some (snd fd)) (lsd lf ls) (derivs lf net).
Proof.
  induction ls as [|l ls IH]; intros [|f net] n H; simpl in *; try tauto; auto.
  destruct H as [(A & B & C & D & H0) H].
  destruct ls as [|l2 ls]; destruct net as [|f2 net]; try (simpl in H; tauto).
  - constructor; auto. simpl. rewrite D. reflexivity.
  - constructor; [simpl; rewrite D; reflexivity|]. eapply IH; eauto.
Qed.
Lemma net_holds_fits_len m : forall ls net n, net_holds c m n ls net -> ls <> [] ->
  forall l, nth_error ls (length ls - 1) = Some l -> exists f, nth_error net (length net - 1) = Some f /\ n_output l = fn_out f /\ (1 <= n_output l)%nat.
Proof.
  induction ls as [|l ls IH]; intros [|f net] n H Hne l' Hl; try (simpl in H; tauto).
  destruct H as [(A & B & C & D & H0) H]. destruct ls as [|l2 ls]; destruct net as [|f2 net]; try (simpl in H; tauto).
  - simpl in *. inversion Hl; subst. eauto.
  - specialize (IH _ _ H ltac:(congruence) l').
    simpl length in *. simpl in Hl, IH. rewrite Nat.sub_0_r in IH. specialize (IH Hl).
    simpl. rewrite Nat.sub_0_r in IH. exact IH.
Qed.
Lemma last_vals vexp : forall net xs, last (vals_f c vexp net xs) [] = forward_f c vexp net 0 xs.
Proof.
  induction net as [|l net IH]; intros xs; [reflexivity|].
  change (vals_f c vexp (l :: net) xs) with (xs :: vals_f c vexp net (layer_f c vexp 0 l xs)).
  destruct net as [|l2 net]; [reflexivity|].
  change (forward_f c vexp (l :: l2 :: net) 0 xs) with (forward_f c vexp (l2 :: net) 0 (layer_f c vexp 0 l xs)).
  rewrite <- IH. reflexivity.
Qed.
End Net.

Local Open Scope R_scope.

Section Real.
Variable c : cfg.

Lemma net_holds_fits m : forall ls net n, net_holds (FO := opsR) c m n ls net -> fits n net.
Proof.
  induction ls as [|l ls IH]; intros [|f net] n H; simpl in *; try tauto.
  destruct H as [(A & B & C & D & E & H0) H]. split; auto. rewrite C in H. eauto.
Qed.

Lemma loss_f_R lf (o ts : list R) j : length ts = length o -> (j < length o)%nat ->
  vec (@loss_f opsR lf o ts) j = @loss_elem opsR lf (length o) (vec o j) (vec ts j).
Proof. intros L Hj. unfold loss_f. rewrite vec_map2 by lia. reflexivity. Qed.

Lemma n_outputs_cons (l l2 : @flayer opsR) net n : n_outputs (shape_of (l :: l2 :: net)) n = n_outputs (shape_of (l2 :: net)) (fn_out l).
Proof. reflexivity. Qed.

Lemma net_ok_derivs lf (ts : list R) : forall (net : list (@flayer opsR)) (xs : list R),
  let o := @forward_f opsR c exp net 0 xs in
  trainable lf (shape_of net) -> fits (length xs) net ->
  length ts = length o -> (0 < length o)%nat -> target_ok lf (length o) (vec ts) (vec o) ->
  net_ok (loss_math lf (length o) (vec ts)) (@loss_f opsR lf o ts) (derivs lf net) (@vals_f opsR c exp net xs).
Proof.
  induction net as [|l net IH]; intros xs o HT HF Lt Ho HTG. { destruct HT. }
  destruct net as [|l2 net].
  - simpl in HT. destruct HF as [HF _]. simpl in o. 
    assert (Lo : length o = fn_out l) by (unfold o; apply length_layer_f; auto).
    simpl. fold o. split.
    2:{ unfold loss_f. rewrite length_map2. change (@F opsR) with R in *. lia. }
    change (@F opsR) with R in *.
    assert (LE : length (@loss_f opsR lf o ts) = fn_out l).
    { unfold loss_f. rewrite length_map2. change (@F opsR) with R in *. lia. }
    rewrite <- Lo.
    assert (EE : forall j, (j < length o)%nat -> vec (@loss_f opsR lf o ts) j = @loss_elem opsR lf (length o) (vec o j) (vec ts j)).
    { intros j Hj. apply loss_f_R; auto. }
    rewrite <- Lo in LE.
    destruct lf; cbn [last_deriv matching target_ok] in *.
    + apply last_elem; simpl; auto. left; auto.
    + apply last_elem; auto. right; left; auto.
    + apply last_elem; auto. right; right; auto.
    + rewrite HT. apply last_cce; auto.
    + rewrite HT. apply last_bce; auto.
  - assert (HT' : fact l <> Softmax /\ trainable lf (shape_of (l2 :: net))) by exact HT.
    destruct HT' as [Hg HT']. destruct HF as [HF1 HF2].
    pose proof (length_layer_f c exp 0 l xs HF1) as LL.
    specialize (IH (@layer_f opsR c exp 0 l xs)).
    assert (EO : forward_f c exp (l2 :: net) 0 (layer_f c exp 0 l xs) = o) by reflexivity.
    cbv zeta in IH. rewrite EO in IH.
    change (@F opsR) with R in *. specialize (IH HT'). rewrite LL in IH. specialize (IH HF2 Lt Ho HTG).
    change (vals_f c exp (l :: l2 :: net) xs) with (xs :: vals_f c exp (l2 :: net) (layer_f c exp 0 l xs)).
    change (derivs lf (l :: l2 :: net)) with ((l, fact l) :: derivs lf (l2 :: net)).
    remember (derivs lf (l2 :: net)) as dd. destruct dd as [|d0 dd].
    { exfalso. destruct net; discriminate. }
    simpl. split; auto.
Qed.

Lemma upd_same th k : forall i, upd th k (th k) i = th i.
Proof. intros i. unfold upd. destruct (Nat.eqb_spec i k); congruence. Qed.

(** the gradient at the level of lists: the derivative of the loss along every differentiable curve of parameters *)
Theorem grad_curve_R lf (net : list (@flayer opsR)) (xs ts : list R) :
  let sh := shape_of net in
  let n := length xs in
  let th := vec (params_of net) in
  let no := n_outputs sh n in
  fits n net -> trainable lf sh -> (0 < no)%nat -> length ts = no ->
  smooth sh n th (vec xs) -> target_ok lf no (vec ts) (eval sh n th (vec xs)) ->
  length (@bp_grad opsR c exp (derivs lf net) lf xs ts) = n_params sh n /\
  forall dth (thc : R -> nat -> R) t,
    (forall k, thc t k = th k) -> (forall k, is_derive (fun s => thc s k) t (dth k)) ->
    is_derive (fun s => loss_math lf no (vec ts) (eval sh n (thc s) (vec xs))) t
      (sumf (n_params sh n) (fun k => vec (@bp_grad opsR c exp (derivs lf net) lf xs ts) k * dth k)).
Proof.
  intros sh n th no HF HT Hno Lt HS HTG.
  destruct (forward_R c net 0 xs HF) as [LO EV]. fold sh n no in LO, EV.
  set (o := @forward_f opsR c exp net 0 xs) in *. change (@F opsR) with R in *.
  assert (HTG' : target_ok lf (length o) (vec ts) (vec o)).
  { rewrite LO. destruct lf; simpl in *; auto; intros j Hj; rewrite EV; auto. }
  pose proof (net_ok_derivs lf ts net xs HT HF) as NO. fold o in NO. change (@F opsR) with R in *.
  specialize (NO ltac:(congruence) ltac:(lia) HTG'). rewrite LO in NO.
  unfold bp_grad. cbv zeta. rewrite map_fst_derivs, last_vals. fold o.
  assert (K : forall dth (thc : R -> nat -> R) t, 
     (forall k, thc t k = th k) -> (forall k, is_derive (fun s => thc s k) t (dth k)) ->
     length (flat (bp_f c (derivs lf net) (vals_f c exp net xs) (loss_f lf o ts))) = n_params sh n /\
     is_derive (fun s => loss_math lf no (vec ts) (eval sh n (thc s) (vec xs))) t
       (sumf (n_params sh n) (fun k => vec (flat (bp_f c (derivs lf net) (vals_f c exp net xs) (loss_f lf o ts))) k * dth k)
        )).
  { intros dth thc t Et Dt.
    destruct (bp_correct c (loss_math lf no (vec ts)) (loss_f lf o ts) (derivs lf net) xs thc (fun _ => vec xs) dth (fun _ => 0) t)
      as (d & w & rest & l & E & _ & Ld & LF & DD); rewrite ?map_fst_derivs; auto.
    - intros i Hi. apply is_derive_const'.
    - clear -HS Et. assert (G : forall sh n th1 th2 x1 x2, (forall k, th1 k = th2 k) -> (forall i, (i < n)%nat -> x1 i = x2 i) ->
         smooth sh n th1 x1 -> smooth sh n th2 x2).
      { clear. induction sh as [|[m g] sh IH]; intros n th1 th2 x1 x2 Ht Hx; simpl; auto. intros [A B].
        assert (Z : forall j, (j < m)%nat -> zf n m th1 x1 j = zf n m th2 x2 j).
        { intros j Hj. unfold zf. rewrite Ht. f_equal. apply sumf_ext. intros i Hi. rewrite Hx, Ht by auto. reflexivity. }
        split.
        - intros j Hj. rewrite <- Z by auto. auto.
        - eapply IH; [intros k; apply Ht|intros i Hi; apply act_math_ext; auto|exact B]. }
      eapply G; [| |exact HS]; auto.
    - rewrite map_fst_derivs in E, LF, DD. fold sh n in E, LF, DD. change (@F opsR) with R in *.
      split; [exact LF|].
      eapply is_derive_val; [exact DD|].
      match goal with |- ?a + ?b = _ => assert (Z : b = 0); [|rewrite Z; apply Rplus_0_r] end.
      etransitivity; [|apply (sumf_0 n)]. apply sumf_ext. intros. apply Rmult_0_r. }
  split.
  - destruct (K (fun _ => 0) (fun _ => th) 0) as [A _]; auto. intros k. apply is_derive_const'.
  - intros dth thc t Et Dt. apply (K dth thc t Et Dt).
Qed.

(** in particular the partial derivatives *)
Theorem grad_R lf (net : list (@flayer opsR)) (xs ts : list R) :
  let sh := shape_of net in
  let n := length xs in
  let th := vec (params_of net) in
  let no := n_outputs sh n in
  fits n net -> trainable lf sh -> (0 < no)%nat -> length ts = no ->
  smooth sh n th (vec xs) -> target_ok lf no (vec ts) (eval sh n th (vec xs)) ->
  length (@bp_grad opsR c exp (derivs lf net) lf xs ts) = n_params sh n /\
  forall k, (k < n_params sh n)%nat ->
    is_derive (fun v => loss_math lf no (vec ts) (eval sh n (upd th k v) (vec xs))) (th k)
              (vec (@bp_grad opsR c exp (derivs lf net) lf xs ts) k).
Proof.
  intros sh n th no HF HT Hno Lt HS HTG.
  destruct (grad_curve_R lf net xs ts HF HT Hno Lt HS HTG) as [A K]. split; [exact A|]. intros k Hk.
  assert (B := K (fun i => if Nat.eqb i k then 1 else 0) (fun s => upd th k s) (th k)).
  eapply is_derive_val; [apply B|].
  - apply upd_same.
  - intros i. unfold upd. destruct (Nat.eqb i k). apply is_derive_id'. apply is_derive_const'.
  - change (@F opsR) with R in *. fold sh n. rewrite (sumf_single _ k); auto. { rewrite Nat.eqb_refl. lra. }
    intros i Hi Hne. destruct (Nat.eqb_spec i k); [congruence|lra].
Qed.
End Real.
