(** Prop_Grad.v -- C16-C20: neuralnet_backpropagation and neuralnet_set_loss *)
From Coquelicot Require Import Coquelicot.
From Coq Require Import String List Arith ZArith Lia Bool Reals Lra.
From Verif Require Import Base BaseProofs Ops Mem MemProofs Kernels KernelProofs Activation ActivationProofs
  Loss Neuralnet Names ForwardProofs BackpropProofs OpsR SpecReal RealForward RealGrad LossGrad GradProofs OpsB32 BitsProofs PredictProofs SpecMem
  GradPropProofs Ex_Mem SpecNames NamesProofs.
Import ListNotations.
Local Open Scope nat_scope.
Local Open Scope mem_scope.

(** C16: in exact arithmetic (with the exact exponential) neuralnet_backpropagation writes the
    gradient of the loss: component k is the partial derivative of
      loss( target, network output as a function of the parameters )
    with respect to the k-th parameter.  [trainable]: softmax only in the last layer and only with
    categorical_crossentropy, sigmoid output for binary_crossentropy (see C19);
    [smooth], [target_ok]: the point is not at a kink of relu, hard_sigmoid or |.|, and for
    categorical_crossentropy the targets sum to 1. *)
Theorem backprop_exact (c : cfg) (wb : Z) (nn : neuralnet) (net : list (@flayer opsR)) (lf : loss)
    (m : @mem opsR) (pin pt pg : ptr) (xs ts : list R) :
  @bp_ready opsR c wb nn net lf m pin pt pg xs ts ->
  let sh := shape_of net in
  let n := length xs in
  let th := vec (params_of net) in
  let no := n_outputs sh n in
  trainable lf sh -> smooth sh n th (vec xs) -> target_ok lf no (vec ts) (eval sh n th (vec xs)) ->
  exists g : list R,
    writes_only (@neuralnet_backpropagation opsR c exp wb (neuralnet_set_loss nn (Some lf)) pin pt pg) m pg g /\
    length g = n_params sh n /\
    forall k, (k < n_params sh n) ->
      is_derive (fun v => loss_math lf no (vec ts) (eval sh n (upd th k v) (vec xs))) (th k) (vec g k).
Proof. exact (backprop_exact_proof c wb nn net lf m pin pt pg xs ts). Qed.
Print Assumptions backprop_exact.

(** C17: for any float operations there is one function G of the build, the numbers of the network,
    the loss, the input and the target, such that every call writes exactly G's value into the gradient
    buffer and changes nothing else, wherever things are in memory and whatever was there before. *)
Theorem backprop_function (FO : fops) (vexp : F -> F) : (forall a b : F, fmul a b = fmul b a) ->
  exists G : cfg -> list flayer -> loss -> list F -> list F -> list F,
  forall c wb nn net lf m pin pt pg xs ts,
    bp_ready c wb nn net lf m pin pt pg xs ts ->
    writes_only (neuralnet_backpropagation c vexp wb (neuralnet_set_loss nn (Some lf)) pin pt pg) m pg (G c net lf xs ts) /\
    length (G c net lf xs ts) = total_n_parameters nn.
Proof.
  intros HC. exists (fun c net lf xs ts => bp_grad c vexp (derivs lf net) lf xs ts). intros. split.
  - apply backprop_writes; auto.
  - eapply length_bp_grad; eauto.
Qed.
Print Assumptions backprop_function.

(** in particular in float32 *)
Theorem backprop_function_float32 (lm : libm) (c : cfg) wb wb' nn nn' net lf (m m' : @mem (opsB32 lm)) pin pt pg pin' pt' pg' (xs ts : list b32) :
  @bp_ready (opsB32 lm) c wb nn net lf m pin pt pg xs ts -> @bp_ready (opsB32 lm) c wb' nn' net lf m' pin' pt' pg' xs ts ->
  exists g : list b32,
    writes_only (@neuralnet_backpropagation (opsB32 lm) c (@exp256_lane (opsB32 lm)) wb (neuralnet_set_loss nn (Some lf)) pin pt pg) m pg g /\
    writes_only (@neuralnet_backpropagation (opsB32 lm) c (@exp256_lane (opsB32 lm)) wb' (neuralnet_set_loss nn' (Some lf)) pin' pt' pg') m' pg' g.
Proof.
  intros H1 H2. destruct (backprop_function (opsB32 lm) (@exp256_lane (opsB32 lm)) (mulC_B32 lm)) as [G HG].
  exists (G c net lf xs ts). split; [apply (HG _ _ _ _ _ _ _ _ _ _ _ H1)|apply (HG _ _ _ _ _ _ _ _ _ _ _ H2)].
Qed.
Print Assumptions backprop_function_float32.

(** C18 is false: AVX build, all buffers aligned, layers 1 -> 1 -> 16 with relu outputs: the bias
    gradient of the second layer starts at float 2 of the gradient buffer. *)
Definition bad1 : neuralnet :=
  {| nn_layers := [Build_layer 1 1 (mkptr 0 0) (mkptr 1 0) Linear None; Build_layer 1 16 (mkptr 2 0) (mkptr 3 0) Relu None]; nn_loss := None |}.
(** and 1 -> 2 -> 10 with linear outputs: row 1 of the weights starts at float 10 *)
Definition bad2 : neuralnet :=
  {| nn_layers := [Build_layer 1 2 (mkptr 0 0) (mkptr 1 0) Linear None; Build_layer 2 10 (mkptr 2 0) (mkptr 3 0) Linear None]; nn_loss := None |}.
Definition bad_m {FO : fops} (h n : nat) : mem :=
  [mkblock 1024 (repeat (Some f0) h); mkblock 2048 (repeat (Some f0) h); mkblock 3072 (repeat (Some f0) (h * n)); mkblock 4096 (repeat (Some f0) n);
   mkblock 5120 [Some f0]; mkblock 6144 (repeat (Some f0) n); mkblock 7168 (repeat None (h + h + (h + 1) * n))].
Definition bad_net {FO : fops} (h n : nat) (g : act) : list flayer :=
  [@Build_flayer FO (repeat f0 h) (repeat f0 h) Linear; @Build_flayer FO (repeat f0 (h * n)) (repeat f0 n) g].
Definition is_misaligned {A} (r : res A) : bool := match r with Fault Misaligned => true | _ => false end.
Lemma is_misaligned_spec A (r : res A) : is_misaligned r = true -> r = Fault Misaligned.
Proof. destruct r as [x|[]]; simpl; congruence. Qed.
Definition avx : cfg := {| cfg_isa := AVX; cfg_fma := false |}.
Theorem backprop_every_shape_refuted (lm : libm) :
  let O := opsB32 lm in
  exists (c : cfg) (wb : Z) (nn nn' : neuralnet) net net' (m m' : @mem O) (pin pt pg : ptr) (xs ts ts' : list b32),
    bp_args c wb nn net m pin pt pg xs ts /\
    @neuralnet_backpropagation O c (@exp256_lane O) wb (neuralnet_set_loss nn (Some MSE)) pin pt pg m = Fault Misaligned /\
    bp_args c wb nn' net' m' pin pt pg xs ts' /\
    @neuralnet_backpropagation O c (@exp256_lane O) wb (neuralnet_set_loss nn' (Some MSE)) pin pt pg m' = Fault Misaligned.
Proof.
  intros O.
  exists avx, 8192%Z, bad1, bad2, (@bad_net O 1 16 Relu), (@bad_net O 2 10 Linear), (@bad_m O 1 16), (@bad_m O 2 10),
    (mkptr 4 0), (mkptr 5 0), (mkptr 6 0), [@f0 O], (repeat (@f0 O) 16), (repeat (@f0 O) 10).
  split; [|split; [apply is_misaligned_spec; vm_compute; reflexivity|split; [|apply is_misaligned_spec; vm_compute; reflexivity]]].
  - unfold bp_args. cbv zeta. split; [discriminate|]. split; [reflexivity|].
    split. { simpl. unfold layer_holds, kal. mem_tac; simpl; lia. }
    split. { mem_tac. } split. { mem_tac. }
    split. { intros l Hl. inversion Hl; subst. reflexivity. }
    split; [reflexivity|]. split. { mem_tac. } split. { left. simpl. lia. } split. { left. simpl. lia. }
    unfold bad1. cbn [nn_layers]. constructor; [|constructor; [|constructor]]; split; left; simpl; lia.
  - unfold bp_args. cbv zeta. split; [discriminate|]. split; [reflexivity|].
    split. { simpl. unfold layer_holds, kal. mem_tac; simpl; lia. }
    split. { mem_tac. } split. { mem_tac. }
    split. { intros l Hl. inversion Hl; subst. reflexivity. }
    split; [reflexivity|]. split. { mem_tac. } split. { left. simpl. lia. } split. { left. simpl. lia. }
    unfold bad2. cbn [nn_layers]. constructor; [|constructor; [|constructor]]; split; left; simpl; lia.
Qed.
Print Assumptions backprop_every_shape_refuted.

(** C18 holds in the SSE/scalar build, and if the size of every layer is a multiple of the number of
    floats per register and the weight arrays are aligned. *)
Theorem backprop_every_shape_partial (FO : fops) (c : cfg) (vexp : F -> F) wb nn net lf m pin pt pg xs ts :
  (forall a b : F, fmul a b = fmul b a) ->
  bp_args c wb nn net m pin pt pg xs ts ->
  (cfg_isa c = SSE \/
   Forall (fun l => Nat.divide (fps c) (n_output l) /\ al c (addr m (weight l)) 0 = true) (nn_layers nn)) ->
  exists g, writes_only (neuralnet_backpropagation c vexp wb (neuralnet_set_loss nn (Some lf)) pin pt pg) m pg g.
Proof.
  intros HC HA HS. eexists. apply backprop_writes; auto. split; [exact HA|].
  destruct HA as (Hne & HB & HN & Hin & Ht & Lt & Hal & V & D1 & D2 & Off).
  apply bp_align_multiples; [eapply valid_some; eauto|auto|].
  destruct HS as [HS|HS]; [left; auto|right].
  pose proof (net_holds_in_m c _ _ _ _ HN) as IM.
  rewrite set_loss_layers. apply Forall_forall. intros l Hl. apply In_nth_error in Hl. destruct Hl as [i Hi].
  destruct (Forall2_nth _ _ _ _ _ (lsd_same lf (nn_layers nn)) _ _ Hi) as (l' & Hl' & (E1 & E2 & E3 & E4 & E5)).
  rewrite Forall_forall in HS, IM. destruct (HS l' (nth_error_In _ _ Hl')) as [X Y]. destruct (IM l' (nth_error_In _ _ Hl')) as [Z _].
  rewrite E2, E3. split; auto. split; auto. apply nth_error_Some. auto.
Qed.
Print Assumptions backprop_every_shape_partial.

(** C20: the effect of neuralnet_set_loss( nn, name ) does not depend on earlier calls.  After a known
    name the derivative of every layer is that of its activation function, except for the last layer of the
    pairs (binary_crossentropy, sigmoid) and (categorical_crossentropy, softmax), where it is the identity. *)
Theorem set_loss_last_call (nn : neuralnet) (calls : list string) (name : string) :
  let r := set_loss_by_name (fold_left set_loss_by_name calls nn) name in
  List.length (nn_layers r) = List.length (nn_layers nn) /\
  ((forall lf, ~ In name (loss_names lf)) -> nn_loss r = None) /\
  (forall lf, In name (loss_names lf) ->
      nn_loss r = Some lf /\
      forall i l, nth_error (nn_layers nn) i = Some l ->
        let fused := (i =? List.length (nn_layers nn) - 1) &&
                     match lf, l_act l with BCE, Sigmoid => true | CCE, Softmax => true | _, _ => false end in
        nth_error (nn_layers r) i =
        Some (Build_layer (n_input l) (n_output l) (weight l) (bias l) (l_act l) (Some (if fused then Linear else l_act l)))).
Proof.
  intros r. set (nn1 := fold_left set_loss_by_name calls nn) in *.
  assert (SM : Forall2 same_but_deriv (nn_layers nn1) (nn_layers nn)).
  { unfold nn1. clear. revert nn. induction calls as [|s calls IH]; intros nn; [apply same_refl|].
    simpl. eapply same_trans; [apply IH|]. apply set_loss_same. }
  unfold r, set_loss_by_name. split; [|split].
  - rewrite (Forall2_length _ _ _ _ _ (set_loss_same nn1 (get_loss_func name))). exact (Forall2_length _ _ _ _ _ SM).
  - intros NO. destruct (get_loss_func name) as [lf|] eqn:E; [|reflexivity]. apply get_loss_iff in E. destruct (NO _ E).
  - intros lf E. apply get_loss_iff in E. rewrite E. split; [reflexivity|].
    intros i l Hl. rewrite set_loss_layers, (lsd_ext lf _ _ SM), (nth_lsd lf _ _ _ Hl). unfold set_d, last_deriv.
    do 2 f_equal. destruct (i =? List.length (nn_layers nn) - 1); simpl; [|reflexivity].
    destruct lf; auto; destruct (l_act l); reflexivity.
Qed.
Print Assumptions set_loss_last_call.
(** an output layer that was set up for categorical_crossentropy is reset *)
Example set_loss_case :
  map l_deriv (nn_layers (fold_left set_loss_by_name ["categorical_crossentropy"; "nonsense"; "mse"]%string
     {| nn_layers := [Build_layer 1 1 (mkptr 0 0) (mkptr 1 0) Sigmoid None; Build_layer 1 3 (mkptr 2 0) (mkptr 3 0) Softmax None]; nn_loss := None |}))
  = [Some Sigmoid; Some Softmax].
Proof. reflexivity. Qed.

(** A case that meets the hypotheses of the theorems of this file: 1 -> 2 (sigmoid) -> 2 (softmax),
    categorical_crossentropy, AVX-512 build. *)
Definition gcase_c : cfg := {| cfg_isa := AVX512; cfg_fma := true |}.
Definition gcase_nn : neuralnet :=
  {| nn_layers := [Build_layer 1 2 (mkptr 0 0) (mkptr 1 0) Sigmoid None; Build_layer 2 2 (mkptr 2 0) (mkptr 3 0) Softmax None]; nn_loss := None |}.
Definition gcase_net : list (@flayer opsR) :=
  [@Build_flayer opsR [1; 2]%R [3; -4]%R Sigmoid; @Build_flayer opsR [1; 2; 3; 4]%R [0; 1]%R Softmax].
Definition gcase_m : @mem opsR :=
  [@mkblock opsR 1024 [Some 1%R; Some 2%R]; @mkblock opsR 2048 [Some 3%R; Some (-4)%R];
   @mkblock opsR 3072 [Some 1%R; Some 2%R; Some 3%R; Some 4%R]; @mkblock opsR 4096 [Some 0%R; Some 1%R];
   @mkblock opsR 5120 [Some 5%R]; @mkblock opsR 6144 [Some 0%R; Some 1%R]; @mkblock opsR 7168 (repeat None 10)].
Example grad_case :
  @bp_ready opsR gcase_c 8192 gcase_nn gcase_net CCE gcase_m (mkptr 4 0) (mkptr 5 0) (mkptr 6 0) [5%R] [0; 1]%R /\
  trainable CCE (shape_of gcase_net) /\ smooth (shape_of gcase_net) 1 (vec (params_of gcase_net)) (vec [5%R]) /\
  target_ok CCE 2 (vec [0; 1]%R) (eval (shape_of gcase_net) 1 (vec (params_of gcase_net)) (vec [5%R])).
Proof.
  assert (T : forall ls, nn_layers gcase_nn = ls -> Forall (off_params (mkptr 6 0) 10) ls).
  { intros ls <-. constructor; [|constructor; [|constructor]]; split; left; simpl; lia. }
  split. { split.
  - unfold bp_args. cbv zeta. split; [discriminate|]. split; [reflexivity|].
    assert (Hh : forall b (l : list R), nth_error gcase_m b = Some (@mkblock opsR (1024 * (Z.of_nat b + 1)) (map (@Some R) l)) -> @holds opsR gcase_m (mkptr b 0) l).
    { intros b l H. eexists. split; [exact H|]. simpl. rewrite map_length. split; auto. unfold slice. simpl.
      change (@F opsR) with R in *. rewrite firstn_all2; auto. rewrite map_length. auto. }
    split. { simpl. unfold layer_holds, kal. simpl. repeat split; auto; try discriminate; try (apply Hh; reflexivity); lia. }
    split. { apply Hh; reflexivity. } split. { apply Hh. reflexivity. }
    split. { intros l Hl. inversion Hl; subst. reflexivity. }
    split; [reflexivity|]. split. { eexists. split; [reflexivity|]. apply Nat.leb_le. reflexivity. } split. { left. simpl. lia. } split. { left. simpl. lia. }
    apply T. reflexivity.
  - split.
    + intros [|[|[|i]]] l d Hl Hd; inversion Hl; subst; inversion Hd; subst; [intros _ H; cbn in H; lia|exact I].
    + intros i l r H1 H2. destruct i as [|[|[|i]]]; try discriminate. inversion H1; subst; split; intros _ H; cbn in H; lia. }
  split. { simpl. split; [discriminate|reflexivity]. }
  split. { simpl. repeat split; auto. }
  simpl. unfold vec. simpl. lra.
Qed.
