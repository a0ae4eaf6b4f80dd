(** Prop_Params.v -- C12, C13, C14: the parameter vector *)
From Coq Require Import List Arith ZArith Lia Bool Reals Lra.
From Verif Require Import Base BaseProofs Ops Mem MemProofs Kernels KernelProofs Activation ActivationProofs
  Loss Neuralnet ForwardProofs SpecMem ParamProofs OpsR OpsB32 Ex_Mem.
Import ListNotations.
Local Open Scope nat_scope.
Local Open Scope mem_scope.

Section Any.
Context {FO : fops}.

(** C12: neuralnet_get_parameters writes exactly total_n_parameters floats: per layer, from input to
    output, the biases and then the weights (row-major: [fw]).  The gradient uses the same order: in
    [backprop_exact] (Prop_Grad.v) component k is the derivative with respect to the k-th float of this list;
    for neuralnet_update see [update_adds]. *)
Theorem get_parameters_layout (c : cfg) (m : mem) (nn : neuralnet) (n : nat) (net : list flayer) (p : ptr) :
  net_holds c m n (nn_layers nn) net ->
  valid m p (total_n_parameters nn) -> Forall (off_params p (total_n_parameters nn)) (nn_layers nn) ->
  writes_only (neuralnet_get_parameters nn p) m p (flat_map (fun l => fb l ++ fw l) net) /\
  length (flat_map (fun l => fb l ++ fw l) net) = total_n_parameters nn.
Proof.
  intros HN V Off. destruct nn as [ls ol]. pose proof (length_params c m ls net n ol HN) as L. split; [|exact L].
  unfold neuralnet_get_parameters. simpl in *. rewrite <- L in *.
  apply writes_only_intro; [exact V|]. eapply get_layers_ok; eauto.
Qed.

(** C12: where a parameter is.  Bias j of layer i is at index (sizes of the layers before) + j, the weight
    from input r to output j at (sizes of the layers before) + n_output + r * n_output + j. *)
Theorem parameter_index (c : cfg) (m : mem) (nn : neuralnet) (n i r j : nat) (net : list flayer) (l : layer) (f : flayer) :
  net_holds c m n (nn_layers nn) net -> nth_error (nn_layers nn) i = Some l -> nth_error net i = Some f ->
  let before := total_n_parameters (Build_neuralnet (firstn i (nn_layers nn)) None) in
  let ps := flat_map (fun l => fb l ++ fw l) net in
  (j < n_output l -> nth_error ps (before + j) = nth_error (fb f) j) /\
  (r < n_input l -> j < n_output l ->
   nth_error ps (before + n_output l + (r * n_output l + j)) = nth_error (fw f) (r * n_output l + j)).
Proof.
  intros HN Hl Hf before ps. destruct nn as [ls ol]. unfold total_n_parameters in before. cbn [nn_layers] in *.
  assert (G : forall i ls net n a, net_holds c m n ls net -> nth_error ls i = Some l -> nth_error net i = Some f ->
     exists ps1 ps2, flat_map (fun l => fb l ++ fw l) net = ps1 ++ (fb f ++ fw f) ++ ps2 /\
       a + length ps1 = fold_left (fun s l => s + (n_input l + 1) * n_output l) (firstn i ls) a /\
       length (fb f) = n_output l /\ length (fw f) = n_input l * n_output l).
  { clear. induction i as [|i IH]; intros [|l0 ls] [|f0 net] n a HN Hl Hf; try discriminate; try (simpl in HN; tauto).
    - simpl in HN, Hl, Hf. destruct HN as [(A & B & C & D & E & _) HN]. inversion Hl; inversion Hf; subst.
      exists [], (flat_map (fun l => fb l ++ fw l) net). simpl. unfold fn_out in *. rewrite E, C. repeat split; auto.
    - simpl in Hl, Hf. destruct HN as [(A & B & C & D & E & _) HN].
      destruct (IH ls net (n_output l0) (a + (n_input l0 + 1) * n_output l0) HN Hl Hf) as (p1 & p2 & E1 & E2 & E3 & E4).
      exists ((fb f0 ++ fw f0) ++ p1), p2. simpl. rewrite E1. rewrite <- E2. rewrite !app_length, E, A, C, <- !app_assoc. unfold fn_out.
      repeat split; auto. lia. }
  destruct (G i ls net n 0 HN Hl Hf) as (p1 & p2 & E1 & E2 & E3 & E4). simpl in E2.
  fold before in E2. unfold ps. rewrite E1, <- E2. split.
  - intros Hj. rewrite nth_error_app2 by lia. replace (length p1 + j - length p1) with j by lia.
    rewrite nth_error_app1 by (rewrite app_length; lia). rewrite nth_error_app1; auto. lia.
  - intros Hr Hj. assert (r * n_output l + j < n_input l * n_output l) by nia.
    rewrite nth_error_app2 by lia. rewrite nth_error_app1 by (rewrite app_length; lia).
    rewrite nth_error_app2 by lia. f_equal. lia.
Qed.

(** C13: after neuralnet_update( nn, d ) neuralnet_get_parameters returns the old values plus d (float
    addition); only the parameters change.  The arrays of the layers must not overlap each other. *)
Theorem update_adds (c : cfg) (m : mem) (nn : neuralnet) (n : nat) (net : list flayer) (p : ptr) (ds : list F) :
  net_holds c m n (nn_layers nn) net -> holds m p ds -> length ds = total_n_parameters nn ->
  Forall (off_params p (length ds)) (nn_layers nn) -> ForallOrdPairs dis (regions (nn_layers nn)) ->
  exists m' net',
    neuralnet_update c nn p m = Ok (tt, m') /\ only_changes_in m m' (regions (nn_layers nn)) /\
    net_holds c m' n (nn_layers nn) net' /\ map fact net' = map fact net /\
    forall q, valid m' q (total_n_parameters nn) -> Forall (off_params q (total_n_parameters nn)) (nn_layers nn) ->
      writes_only (neuralnet_get_parameters nn q) m' q (map2 fadd (flat_map (fun l => fb l ++ fw l) net) ds).
Proof.
  intros HN Hd Ld Off PD. destruct nn as [ls ol]. simpl in *.
  destruct (update_layers_ok c ls net n p m ds) as (m' & net' & R & HN' & FA & PA & OC); auto.
  { rewrite Ld. symmetry. eapply length_params; eauto. }
  exists m', net'. repeat (split; [auto; fail|]). intros q V OffQ.
  pose proof (get_parameters_layout c m' (Build_neuralnet ls ol) n net' q HN' V OffQ) as [W _].
  fold (params_list net') in W. rewrite PA in W. exact W.
Qed.
End Any.
Print Assumptions get_parameters_layout.
Print Assumptions parameter_index.
Print Assumptions update_adds.

(** A network that meets the hypotheses: 2 -> 3 (relu) -> 1 (linear). *)
Section Case.
Variable FO : fops.
Variable x d : F.
Definition pcase_c : cfg := {| cfg_isa := AVX; cfg_fma := false |}.
Definition pcase_nn : neuralnet :=
  {| nn_layers := [Build_layer 2 3 (mkptr 0 0) (mkptr 1 0) Relu None; Build_layer 3 1 (mkptr 2 0) (mkptr 3 0) Linear None]; nn_loss := None |}.
Definition pcase_net : list flayer := [@Build_flayer FO (repeat x 6) (repeat x 3) Relu; @Build_flayer FO (repeat x 3) [x] Linear].
Definition pcase_m : mem :=
  [mkblock 640 (repeat (Some x) 6); mkblock 1280 (repeat (Some x) 3); mkblock 2560 (repeat (Some x) 3);
   mkblock 5120 [Some x]; mkblock 6404 (repeat (Some d) 13); mkblock 7704 (repeat (Some (fneg d)) 13); mkblock 10240 (repeat None 13)].
Lemma params_case_holds :
  net_holds pcase_c pcase_m 2 (nn_layers pcase_nn) pcase_net /\ holds pcase_m (mkptr 4 0) (repeat d 13) /\
  total_n_parameters pcase_nn = 13 /\ holds pcase_m (mkptr 5 0) (repeat (fneg d) 13) /\
  Forall (off_params (mkptr 4 0) 13) (nn_layers pcase_nn) /\ Forall (off_params (mkptr 5 0) 13) (nn_layers pcase_nn) /\
  Forall (off_params (mkptr 6 0) 13) (nn_layers pcase_nn) /\
  ForallOrdPairs dis (regions (nn_layers pcase_nn)) /\ valid pcase_m (mkptr 6 0) 13.
Proof.
  split. { simpl. unfold layer_holds, kal. mem_tac; simpl; lia. }
  split. { mem_tac. } split; [reflexivity|]. split. { mem_tac. }
  assert (P : forall k, 4 <= k -> Forall (off_params (mkptr k 0) 13) (nn_layers pcase_nn)).
  { intros k Hk. unfold pcase_nn. cbn [nn_layers]. constructor; [|constructor; [|constructor]]; split; left; simpl; lia. }
  repeat (split; [apply P; lia|]).
  split. { unfold regions, dis. simpl. repeat constructor; simpl; discriminate. }
  mem_tac.
Qed.
End Case.
Example params_case :
  net_holds pcase_c (pcase_m opsZ 1%Z 3%Z) 2 (nn_layers pcase_nn) (pcase_net opsZ 1%Z) /\
  @holds opsZ (pcase_m opsZ 1%Z 3%Z) (mkptr 4 0) (repeat 3%Z 13) /\
  ForallOrdPairs dis (regions (nn_layers pcase_nn)).
Proof. destruct (params_case_holds opsZ 1%Z 3%Z) as (A & B & _ & _ & _ & _ & _ & C & _). auto. Qed.

(** two updates and a look at the result *)
Definition update_twice {FO : fops} (c : cfg) (nn : neuralnet) (d d' q : ptr) : M unit :=
  neuralnet_update c nn d ;;; neuralnet_update c nn d' ;;; neuralnet_get_parameters nn q.

Lemma update_twice_ok {FO : fops} (c : cfg) (m : mem) (nn : neuralnet) (n : nat) (net : list flayer) (p p' q : ptr) (ds ds' : list F) :
  net_holds c m n (nn_layers nn) net -> holds m p ds -> length ds = total_n_parameters nn ->
  holds m p' ds' -> length ds' = total_n_parameters nn ->
  Forall (off_params p (length ds)) (nn_layers nn) -> Forall (off_params p' (length ds')) (nn_layers nn) ->
  ForallOrdPairs dis (regions (nn_layers nn)) ->
  valid m q (total_n_parameters nn) -> Forall (off_params q (total_n_parameters nn)) (nn_layers nn) ->
  exists m', update_twice c nn p p' q m = Ok (tt, m') /\
    holds m' q (map2 fadd (map2 fadd (flat_map (fun l => fb l ++ fw l) net) ds) ds').
Proof.
  intros HN H1 L1 H2 L2 O1 O2 PD V OQ. destruct nn as [ls ol]. simpl in *.
  destruct (update_layers_ok c ls net n p m ds) as (m1 & net1 & R1 & HN1 & FA1 & PA1 & OC1); auto.
  { rewrite L1. symmetry. eapply length_params; eauto. }
  destruct (update_layers_ok c ls net1 n p' m1 ds') as (m2 & net2 & R2 & HN2 & FA2 & PA2 & OC2); auto.
  { eapply oci_holds; eauto. intros r k Hr. apply (proj1 (off_params_regions _ _ _)) with (r := (r, k)) in O2; auto.
    unfold dis in O2. simpl in O2. apply disjoint_sym. auto. }
  { rewrite L2. symmetry. eapply length_params; eauto. }
  assert (V2 : valid m2 q (total_n_parameters (Build_neuralnet ls ol))) by (eapply oci_valid; [exact OC2|]; eapply oci_valid; eauto).
  destruct (get_parameters_layout c m2 (Build_neuralnet ls ol) n net2 q HN2 V2 OQ) as [(m3 & R3 & H3 & _) _].
  exists m3. split.
  - unfold update_twice. erewrite bind_ok by exact R1. erewrite bind_ok by exact R2. exact R3.
  - fold (params_list net2) in H3. rewrite PA2, PA1 in H3. exact H3.
Qed.

(** C14 is false in float32: all parameters 1, all deltas 2^30: afterwards all parameters are 0. *)
Theorem undo_update_restores_refuted (lm : libm) :
  exists (c : cfg) (nn : neuralnet) (n : nat) (net : list (@flayer (opsB32 lm))) (m m' : @mem (opsB32 lm)) (p p' q : ptr) (ds : list b32),
    net_holds c m n (nn_layers nn) net /\ @holds (opsB32 lm) m p ds /\ @holds (opsB32 lm) m p' (map (@fneg (opsB32 lm)) ds) /\
    update_twice c nn p p' q m = Ok (tt, m') /\
    ~ @holds (opsB32 lm) m' q (flat_map (fun l => fb l ++ fw l) net).
Proof.
  set (d := b32_ofZ 1073741824). set (O := opsB32 lm).
  destruct (params_case_holds O (@f1 O) d) as (A & B & T & C & O1 & O2 & O3 & PD & V).
  destruct (@update_twice_ok O pcase_c (pcase_m O (@f1 O) d) pcase_nn 2 (pcase_net O (@f1 O)) (mkptr 4 0) (mkptr 5 0) (mkptr 6 0)
    (repeat d 13) (repeat (@fneg O d) 13)) as (m' & R & H); auto.
  exists pcase_c, pcase_nn, 2, (pcase_net O (@f1 O)), (pcase_m O (@f1 O) d), m', (mkptr 4 0), (mkptr 5 0), (mkptr 6 0), (repeat d 13).
  split; [exact A|]. split; [exact B|]. split; [exact C|]. split; [exact R|].
  intros H'.
  assert (E : forall xs ys, @holds O m' (mkptr 6 0) xs -> @holds O m' (mkptr 6 0) ys -> length xs = length ys -> xs = ys).
  { intros xs ys (b & Hb & _ & S1) (b' & Hb' & _ & S2) L. rewrite Hb in Hb'. inversion Hb'; subst b'. rewrite L in S1. rewrite S1 in S2.
    clear -S2. revert ys S2. induction xs; destruct ys; simpl; intros; try discriminate; auto. inversion S2. f_equal; auto. }
  specialize (E _ _ H' H eq_refl).
  apply (f_equal (fun l => match l with x :: _ => Flocq.IEEE754.BinarySingleNaN.B2SF (x : b32) | [] => Flocq.IEEE754.BinarySingleNaN.B2SF b32_nan end)) in E.
  vm_compute in E. discriminate.
Qed.
Print Assumptions undo_update_restores_refuted.

(** C14 in exact arithmetic: the parameters are restored. *)
Theorem undo_update_restores_partial (c : cfg) (m : @mem opsR) (nn : neuralnet) (n : nat) (net : list (@flayer opsR)) (p p' q : ptr) (ds : list R) :
  net_holds c m n (nn_layers nn) net -> @holds opsR m p ds -> length ds = total_n_parameters nn ->
  @holds opsR m p' (map Ropp ds) ->
  Forall (off_params p (length ds)) (nn_layers nn) -> Forall (off_params p' (length ds)) (nn_layers nn) ->
  ForallOrdPairs dis (regions (nn_layers nn)) ->
  valid m q (total_n_parameters nn) -> Forall (off_params q (total_n_parameters nn)) (nn_layers nn) ->
  exists m', update_twice c nn p p' q m = Ok (tt, m') /\ @holds opsR m' q (flat_map (fun l => fb l ++ fw l) net).
Proof.
  intros HN H1 L1 H2 O1 O2 PD V OQ.
  destruct (@update_twice_ok opsR c m nn n net p p' q ds (map Ropp ds)) as (m' & RU & H); auto.
  { rewrite map_length. auto. } { rewrite map_length. auto. }
  exists m'. split; auto.
  assert (L : length ds = length (flat_map (fun l => fb l ++ fw l) net)).
  { rewrite L1. symmetry. destruct nn. eapply (length_params (FO := opsR)); eauto. }
  match type of H with holds _ _ ?e => assert (E : e = flat_map (fun l => fb l ++ fw l) net) end; [|rewrite E in H; exact H].
  generalize dependent (flat_map (fun l => @fb opsR l ++ fw l) net). change (@F opsR) with R. intros ps _ L. clear -L. revert ps L.
  induction ds as [|d ds IH]; intros [|x ps] L; simpl in *; try discriminate; auto.
  f_equal; [change (x + d + - d = x)%R; lra|auto].
Qed.
Print Assumptions undo_update_restores_partial.
