(** Prop_SoftmaxGrad.v -- C19: softmax is not differentiated outside of the last layer / other losses *)
From Coquelicot Require Import Coquelicot.
From Coq Require Import List Arith ZArith Lia Bool Reals Lra.
From Verif Require Import Base BaseProofs Ops Mem MemProofs Kernels KernelProofs KernelProofs2 Activation ActivationProofs
  Loss Neuralnet ForwardProofs BackpropProofs OpsR SpecReal RealForward RealGrad LossGrad GradProofs BitsProofs PredictProofs SpecMem
  GradPropProofs Ex_Mem.
Import ListNotations.
Local Open Scope nat_scope.
Local Open Scope mem_scope.

Definition sse : cfg := {| cfg_isa := SSE; cfg_fma := false |}.

(** one layer, softmax outputs *)
Definition s1_nn : neuralnet := {| nn_layers := [Build_layer 1 2 (mkptr 0 0) (mkptr 1 0) Softmax None]; nn_loss := None |}.
Definition s1_net : list (@flayer opsR) := [@Build_flayer opsR [0; 0]%R [0; 0]%R Softmax].
Definition s1_m : @mem opsR :=
  [@mkblock opsR 1024 [Some 0%R; Some 0%R]; @mkblock opsR 2048 [Some 0%R; Some 0%R];
   @mkblock opsR 3072 [Some 0%R]; @mkblock opsR 4096 [Some 1%R; Some 0%R]; @mkblock opsR 5120 (repeat None 4)].
(** a hidden softmax layer *)
Definition s2_nn : neuralnet :=
  {| nn_layers := [Build_layer 1 2 (mkptr 0 0) (mkptr 1 0) Softmax None; Build_layer 2 1 (mkptr 5 0) (mkptr 6 0) Linear None]; nn_loss := None |}.
Definition s2_net : list (@flayer opsR) := [@Build_flayer opsR [0; 0]%R [0; 0]%R Softmax; @Build_flayer opsR [1; 0]%R [0]%R Linear].
Definition s2_m : @mem opsR :=
  [@mkblock opsR 1024 [Some 0%R; Some 0%R]; @mkblock opsR 2048 [Some 0%R; Some 0%R];
   @mkblock opsR 3072 [Some 0%R]; @mkblock opsR 4096 [Some 0%R]; @mkblock opsR 5120 (repeat None 7);
   @mkblock opsR 6144 [Some 1%R; Some 0%R]; @mkblock opsR 7168 [Some 0%R]].

Lemma holds_full (m : @mem opsR) b a (l : list R) : nth_error m b = Some (@mkblock opsR a (map (@Some R) l)) -> @holds opsR m (mkptr b 0) l.
Proof.
  intros H. eexists. split; [exact H|]. simpl. rewrite map_length. split; auto. unfold slice. simpl.
  change (@F opsR) with R in *. rewrite firstn_all2; auto. rewrite map_length. auto.
Qed.

Lemma s1_ready : @bp_ready opsR sse 8192 s1_nn s1_net MSE s1_m (mkptr 2 0) (mkptr 3 0) (mkptr 4 0) [0%R] [1; 0]%R.
Proof.
  split.
  - unfold bp_args. cbv zeta. split; [discriminate|]. split; [reflexivity|].
    split. { simpl. unfold layer_holds, kal. simpl. repeat split; auto; try discriminate; try (eapply holds_full; reflexivity). }
    split. { eapply holds_full; reflexivity. } split. { eapply holds_full. reflexivity. }
    split. { intros l Hl. inversion Hl; subst. reflexivity. }
    split; [reflexivity|]. split. { eexists. split; [reflexivity|]. apply Nat.leb_le. reflexivity. } split. { left. simpl. lia. } split. { left. simpl. lia. }
    constructor; [|constructor]; split; left; simpl; lia.
  - apply bp_align_multiples; auto; simpl; discriminate.
Qed.
Lemma s2_ready : @bp_ready opsR sse 8192 s2_nn s2_net MSE s2_m (mkptr 2 0) (mkptr 3 0) (mkptr 4 0) [0%R] [0]%R.
Proof.
  split.
  - unfold bp_args. cbv zeta. split; [discriminate|]. split; [reflexivity|].
    split. { simpl. unfold layer_holds, kal. simpl. repeat split; auto; try discriminate; try (eapply holds_full; reflexivity). }
    split. { eapply holds_full; reflexivity. } split. { eapply holds_full. reflexivity. }
    split. { intros l Hl. inversion Hl; subst. reflexivity. }
    split; [reflexivity|]. split. { eexists. split; [reflexivity|]. apply Nat.leb_le. reflexivity. } split. { left. simpl. lia. } split. { left. simpl. lia. }
    constructor; [|constructor; [|constructor]]; split; left; simpl; lia.
  - apply bp_align_multiples; auto; simpl; discriminate.
Qed.

Local Open Scope R_scope.

Lemma s1_g0 : vec (@bp_grad opsR sse exp (derivs MSE s1_net) MSE [0] [1; 0]) 0 = - (1 / 2).
Proof.
  unfold bp_grad. rewrite map_fst_derivs. cbv zeta. rewrite last_vals.
  assert (FT : fits (length [0]) s1_net) by (simpl; auto).
  destruct (forward_R sse s1_net 0 [0] FT) as [LO EV]. set (o := @forward_f opsR sse exp s1_net 0 [0]) in *.
  change (@F opsR) with R in *. change (length o = 2%nat) in LO. clearbody o.
  assert (E0 : vec o 0 = 1 / 2).
  { rewrite EV by (cbn; lia). unfold s1_net, shape_of, params_of, vec. simpl. rewrite !Rmult_0_l, !Rplus_0_l, exp_0. lra. }
  cbn [derivs s1_net vals_f bp_f fact]. unfold last_deriv. simpl fact.
  change (vec (@loss_f opsR MSE o [1; 0] ++ _) 0 = - (1 / 2)) || idtac.
  unfold flat. cbn [flat_map fst snd]. rewrite app_nil_r.
  change (@deriv_f opsR Softmax) with (fun (a b : list R) => b). cbv beta.
  assert (LL : length (@loss_f opsR MSE o [1; 0]) = 2%nat).
  { unfold loss_f. rewrite length_map2. change (@F opsR) with R in *. rewrite LO. reflexivity. }
  rewrite vec_app1 by (change (@F opsR) with R in *; rewrite LL; lia).
  rewrite loss_f_R by (change (@F opsR) with R in *; rewrite LO; simpl; lia).
  change (@F opsR) with R in *. rewrite LO, E0. unfold vec, loss_elem. simpl. lra.
Qed.

Lemma s2_g0 : vec (@bp_grad opsR sse exp (derivs MSE s2_net) MSE [0] [0]) 0 = 1.
Proof.
  unfold bp_grad. rewrite map_fst_derivs. cbv zeta. rewrite last_vals.
  assert (FT : fits (length [0]) s2_net) by (simpl; auto).
  destruct (forward_R sse s2_net 0 [0] FT) as [LO EV]. set (o := @forward_f opsR sse exp s2_net 0 [0]) in *.
  change (@F opsR) with R in *. change (length o = 1%nat) in LO. clearbody o.
  assert (E0 : vec o 0 = 1 / 2).
  { rewrite EV by (cbn; lia). unfold s2_net, shape_of, params_of, vec. simpl. rewrite !Rmult_0_l, !Rplus_0_l, exp_0. lra. }
  set (e := @loss_f opsR MSE o [0]).
  assert (LL : length e = 1%nat).
  { unfold e, loss_f. rewrite length_map2. change (@F opsR) with R in *. rewrite LO. reflexivity. }
  assert (Ve : vec e 0 = 1).
  { unfold e. rewrite loss_f_R by (change (@F opsR) with R in *; rewrite LO; simpl; lia).
    change (@F opsR) with R in *. rewrite LO, E0. unfold vec, loss_elem. simpl. lra. }
  cbn [derivs s2_net vals_f bp_f fact]. unfold last_deriv. simpl fact.
  change (@deriv_f opsR Softmax) with (fun (a b : list R) => b). change (@deriv_f opsR Linear) with (fun (a b : list R) => b). cbv beta.
  unfold flat. cbn [flat_map fst snd]. rewrite <- !app_assoc.
  rewrite vec_app1.
  2:{ unfold mvm_f. rewrite map_length, length_rows. unfold fn_out. simpl. lia. }
  cbn [fb fw fn_out length]. change (@F opsR) with R in *.
  rewrite (mvm_R sse e) by (rewrite ?LL; simpl; auto; lia). rewrite LL. simpl. rewrite Ve. unfold vec. simpl. lra.
Qed.

(** C19 is false.  Exact arithmetic, SSE build: (1) one layer with two softmax outputs and
    mean_squared_error; (2) a hidden softmax layer.  In both cases the point is smooth, the call succeeds and
    the first component of what it writes is not the partial derivative. *)
Theorem softmax_gradient_refuted :
  (exists (c : cfg) (wb : Z) (nn : neuralnet) (net : list (@flayer opsR)) (m : @mem opsR) (pin pt pg : ptr) (xs ts g : list R),
    let sh := shape_of net in let th := vec (params_of net) in let no := n_outputs sh (length xs) in
    @bp_ready opsR c wb nn net MSE m pin pt pg xs ts /\ smooth sh (length xs) th (vec xs) /\
    map fact net = [Softmax] /\
    writes_only (@neuralnet_backpropagation opsR c exp wb (neuralnet_set_loss nn (Some MSE)) pin pt pg) m pg g /\
    ~ is_derive (fun v => loss_math MSE no (vec ts) (eval sh (length xs) (upd th 0 v) (vec xs))) (th 0%nat) (vec g 0)) /\
  (exists (c : cfg) (wb : Z) (nn : neuralnet) (net : list (@flayer opsR)) (m : @mem opsR) (pin pt pg : ptr) (xs ts g : list R),
    let sh := shape_of net in let th := vec (params_of net) in let no := n_outputs sh (length xs) in
    @bp_ready opsR c wb nn net MSE m pin pt pg xs ts /\ smooth sh (length xs) th (vec xs) /\
    map fact net = [Softmax; Linear] /\
    writes_only (@neuralnet_backpropagation opsR c exp wb (neuralnet_set_loss nn (Some MSE)) pin pt pg) m pg g /\
    ~ is_derive (fun v => loss_math MSE no (vec ts) (eval sh (length xs) (upd th 0 v) (vec xs))) (th 0%nat) (vec g 0)).
Proof.
  split.
  - exists sse, 8192%Z, s1_nn, s1_net, s1_m, (mkptr 2 0), (mkptr 3 0), (mkptr 4 0), [0], [1; 0], (@bp_grad opsR sse exp (derivs MSE s1_net) MSE [0] [1; 0]).
    cbv zeta. split; [exact s1_ready|]. split. { simpl. repeat split; auto. } split; [reflexivity|]. split.
    { apply (backprop_writes (FO := opsR)); [exact mulC_R|exact s1_ready]. }
    rewrite s1_g0. intros D.
    assert (D2 : is_derive (fun v => ((exp v / (exp v + 1) - 1) ^ 2 + (1 / (exp v + 1)) ^ 2) / 2) 0 (- (1 / 2))).
    { eapply is_derive_ext; [|exact D]. intros v. unfold s1_net, shape_of, params_of, vec, upd. simpl.
      rewrite !Rmult_0_l, !Rplus_0_l, !Rplus_0_r, exp_0. match goal with |- ?a = ?b => change (@eq R a b) end. field. pose proof (exp_pos v). lra. }
    assert (D3 : is_derive (fun v => ((exp v / (exp v + 1) - 1) ^ 2 + (1 / (exp v + 1)) ^ 2) / 2) 0 (- (1 / 4))).
    { auto_derive. { rewrite exp_0. repeat split; auto; lra. } rewrite exp_0. field. }
    apply is_derive_unique in D2. apply is_derive_unique in D3. lra.
  - exists sse, 8192%Z, s2_nn, s2_net, s2_m, (mkptr 2 0), (mkptr 3 0), (mkptr 4 0), [0], [0], (@bp_grad opsR sse exp (derivs MSE s2_net) MSE [0] [0]).
    cbv zeta. split; [exact s2_ready|]. split. { simpl. repeat split; auto. } split; [reflexivity|]. split.
    { apply (backprop_writes (FO := opsR)); [exact mulC_R|exact s2_ready]. }
    rewrite s2_g0. intros D.
    assert (D2 : is_derive (fun v => (exp v / (exp v + 1)) ^ 2) 0 1).
    { eapply is_derive_ext; [|exact D]. intros v. unfold s2_net, shape_of, params_of, vec, upd. simpl.
      rewrite !Rmult_0_l, !Rplus_0_l, !Rplus_0_r, exp_0. match goal with |- ?a = ?b => change (@eq R a b) end. field. pose proof (exp_pos v). lra. }
    assert (D3 : is_derive (fun v => (exp v / (exp v + 1)) ^ 2) 0 (1 / 4)).
    { auto_derive. { rewrite exp_0. repeat split; auto; lra. } rewrite exp_0. field. }
    apply is_derive_unique in D2. apply is_derive_unique in D3. lra.
Qed.
Print Assumptions softmax_gradient_refuted.
