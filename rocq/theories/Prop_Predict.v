(** Prop_Predict.v -- C01, C02, C03: neuralnet_predict *)
From Coq Require Import List Arith ZArith Lia Bool Reals.
From Verif Require Import Base BaseProofs Ops Mem MemProofs Kernels KernelProofs Activation ActivationProofs
  Loss Neuralnet ForwardProofs OpsR SpecReal RealForward OpsB32 B32Facts SpecBits BitsProofs SpecMem PredictProofs Ex_Mem.
Import ListNotations.

(** C01 in exact arithmetic: the prediction is the feed-forward function of the parameters, in
    every build.  [net_holds]: the layers of [nn] are in memory and hold the numbers [net];
    [out_pre]: the output array is writable, suitably aligned for the last layer and does not
    overlap the last layer's parameters; [wb]: the (aligned) address of the work array. *)
Theorem predict_exact (c : cfg) (wb : Z) (nn : neuralnet) (net : list (@flayer opsR)) (m : @mem opsR)
    (pin po : ptr) (xs : list R) :
  nn_layers nn <> [] -> aligned_base c wb ->
  net_holds c m (length xs) (nn_layers nn) net -> holds m pin xs ->
  out_pre c m (nn_layers nn) pin (length xs) po ->
  let sh := shape_of net in
  exists ys : list R,
    writes_only (@neuralnet_predict opsR c exp wb nn pin po) m po ys /\
    length ys = n_outputs sh (length xs) /\
    forall j, j < n_outputs sh (length xs) ->
      vec ys j = eval sh (length xs) (vec (params_of net)) (vec xs) j.
Proof. exact (predict_exact_proof c wb nn net m pin po xs). Qed.
Print Assumptions predict_exact.

(** C01 for any float operations: the prediction is, layer by layer, the activation of
    bias + sum of the products in feature order; [cfg_fma c = false] allows no fused step. *)
Theorem predict_float (FO : fops) (c : cfg) (vexp : F -> F) (wb : Z) (nn : neuralnet) (net : list flayer) (m : mem)
    (pin po : ptr) (xs : list F) :
  (forall a b : F, fmul a b = fmul b a) -> (forall x w : F, feq x f1 = true -> fmul x w = w) ->
  nn_layers nn <> [] -> aligned_base c wb ->
  net_holds c m (length xs) (nn_layers nn) net -> holds m pin xs ->
  out_pre c m (nn_layers nn) pin (length xs) po ->
  exists ys, writes_only (neuralnet_predict c vexp wb nn pin po) m po ys /\
             net_rel vexp (cfg_fma c) (triples net) xs ys /\
             (cfg_fma c = false -> net_rel_nofma vexp (triples net) xs ys).
Proof. exact (predict_float_proof FO c vexp wb nn net m pin po xs). Qed.
Print Assumptions predict_float.

(** C01, C03 in IEEE binary32 arithmetic, for any libm: no further assumptions.  In
    [net_rel_nofma] features equal to +0 or -0 are skipped and all others add x*w in order
    (and 1*w is w: [mul1_B32]). *)
Theorem predict_float32 (lm : libm) (c : cfg) (wb : Z) (nn : neuralnet) (net : list (@flayer (opsB32 lm)))
    (m : @mem (opsB32 lm)) (pin po : ptr) (xs : list b32) :
  nn_layers nn <> [] -> aligned_base c wb ->
  net_holds c m (length xs) (nn_layers nn) net -> @holds (opsB32 lm) m pin xs ->
  out_pre c m (nn_layers nn) pin (length xs) po ->
  exists ys : list b32,
    writes_only (@neuralnet_predict (opsB32 lm) c (@exp256_lane (opsB32 lm)) wb nn pin po) m po ys /\
    @net_rel (opsB32 lm) (@exp256_lane (opsB32 lm)) (cfg_fma c) (triples net) xs ys /\
    (cfg_fma c = false -> @net_rel_nofma (opsB32 lm) (@exp256_lane (opsB32 lm)) (triples net) xs ys).
Proof.
  exact (predict_float_proof (opsB32 lm) c (@exp256_lane (opsB32 lm)) wb nn net m pin po xs (mulC_B32 lm) (mul1_B32 lm)).
Qed.
Print Assumptions predict_float32.

(** C03: the weights of features equal to zero do not matter, whatever they are.  net' holds
    other first-layer weights for zero features; both predictions are bit-identical. *)
Theorem zero_features_contribute_nothing (lm : libm) (c : cfg) (wb wb' : Z) (nn nn' : neuralnet)
    (net net' : list (@flayer (opsB32 lm))) (m m' : @mem (opsB32 lm)) (pin pin' po po' : ptr) (xs : list b32) :
  let vexp := @exp256_lane (opsB32 lm) in
  nn_layers nn <> [] -> nn_layers nn' <> [] -> aligned_base c wb -> aligned_base c wb' ->
  net_holds c m (length xs) (nn_layers nn) net -> net_holds c m' (length xs) (nn_layers nn') net' ->
  @holds (opsB32 lm) m pin xs -> @holds (opsB32 lm) m' pin' xs ->
  out_pre c m (nn_layers nn) pin (length xs) po -> out_pre c m' (nn_layers nn') pin' (length xs) po' ->
  addr m' po' = addr m po -> @same_but_zero_rows (opsB32 lm) xs net net' ->
  exists ys : list b32,
    writes_only (@neuralnet_predict (opsB32 lm) c vexp wb nn pin po) m po ys /\
    writes_only (@neuralnet_predict (opsB32 lm) c vexp wb' nn' pin' po') m' po' ys.
Proof.
  exact (zero_features_proof (FO := opsB32 lm) c _ wb wb' nn nn' net net' m m' pin pin' po po' xs (mulC_B32 lm)).
Qed.
Print Assumptions zero_features_contribute_nothing.
(** x == 0.0f holds exactly for both zeros *)
Theorem zero_features_are_the_two_zeros (x : b32) :
  Flocq.IEEE754.BinarySingleNaN.Beqb x b32_zero = true <-> exists s, x = Flocq.IEEE754.BinarySingleNaN.B754_zero s.
Proof. exact (eq_zero x). Qed.
Print Assumptions zero_features_are_the_two_zeros.

(** C02 is false: there is a network and an output buffer that is large enough and does not overlap anything,
    for which neuralnet_predict faults because of the address of the buffer (AVX build, 8 outputs). *)
Theorem predict_any_output_buffer_refuted (FO : fops) (vexp : F -> F) :
  exists (c : cfg) (wb : Z) (nn : neuralnet) (net : list flayer) (m : mem) (pin po : ptr) (xs : list F),
    nn_layers nn <> [] /\ aligned_base c wb /\ net_holds c m (length xs) (nn_layers nn) net /\ holds m pin xs /\
    (forall l, nth_error (nn_layers nn) (length (nn_layers nn) - 1) = Some l ->
       valid m po (n_output l) /\ off_params po (n_output l) l /\ disjoint po (n_output l) pin (length xs)) /\
    neuralnet_predict c vexp wb nn pin po m = Fault Misaligned.
Proof.
  exists {| cfg_isa := AVX; cfg_fma := false |}, 0%Z,
    {| nn_layers := [Build_layer 1 8 (mkptr 0 0) (mkptr 1 0) Linear None]; nn_loss := None |},
    [@Build_flayer FO (repeat f0 8) (repeat f0 8) Linear],
    [mkblock 640 (repeat (Some f0) 8); mkblock 1280 (repeat (Some f0) 8); mkblock 2560 [Some f0]; mkblock 3844 (repeat None 8)],
    (mkptr 2 0), (mkptr 3 0), [f0].
  split; [discriminate|]. split; [reflexivity|].
  split. { simpl. unfold layer_holds, kal. mem_tac; simpl; lia. }
  split. { mem_tac. }
  split. { intros l Hl. inversion Hl; subst l. unfold off_params. simpl. mem_tac. }
  reflexivity.
Qed.
Print Assumptions predict_any_output_buffer_refuted.

(** C02 holds for every address in the scalar/SSE build and for fewer than 8 outputs. *)
Theorem predict_any_output_buffer_partial (FO : fops) (c : cfg) (vexp : F -> F) (wb : Z) (nn : neuralnet) (net : list flayer)
    (m : mem) (pin po : ptr) (xs : list F) :
  (forall a b : F, fmul a b = fmul b a) ->
  nn_layers nn <> [] -> aligned_base c wb ->
  net_holds c m (length xs) (nn_layers nn) net -> holds m pin xs ->
  (cfg_isa c = SSE \/ forall l, nth_error (nn_layers nn) (length (nn_layers nn) - 1) = Some l -> n_output l < 8) ->
  (forall l, nth_error (nn_layers nn) (length (nn_layers nn) - 1) = Some l ->
     valid m po (n_output l) /\ off_params po (n_output l) l /\ disjoint po (n_output l) pin (length xs)) ->
  exists ys, writes_only (neuralnet_predict c vexp wb nn pin po) m po ys.
Proof.
  intros HC Hne HB HN Hin HS HO. eexists. eapply predict_unaligned_proof; eauto.
Qed.
Print Assumptions predict_any_output_buffer_partial.

(** A case that meets the hypotheses of the theorems above: two layers (2 inputs, 16 hidden
    tanh units, 3 softmax outputs), AVX-512 build, float32. *)
Section Case.
Variable FO : fops.
Definition case_c : cfg := {| cfg_isa := AVX512; cfg_fma := true |}.
Definition case_nn : neuralnet :=
  {| nn_layers := [Build_layer 2 16 (mkptr 0 0) (mkptr 1 0) Tanh None; Build_layer 16 3 (mkptr 2 0) (mkptr 3 0) Softmax None];
     nn_loss := None |}.
Definition case_net (w00 : F) : list flayer :=
  [@Build_flayer FO (w00 :: repeat f1 31) (repeat f0 16) Tanh; @Build_flayer FO (repeat f1 48) (repeat f1 3) Softmax].
Definition case_m (w00 : F) : mem :=
  [mkblock 640 (Some w00 :: repeat (Some f1) 31); mkblock 1280 (repeat (Some f0) 16); mkblock 2560 (repeat (Some f1) 48);
   mkblock 5120 (repeat (Some f1) 3); mkblock 6400 [Some f0; Some f1]; mkblock 6484 (repeat None 3)].
Lemma case_holds w00 :
  nn_layers case_nn <> [] /\ aligned_base case_c 128 /\ net_holds case_c (case_m w00) 2 (nn_layers case_nn) (case_net w00) /\
  holds (case_m w00) (mkptr 4 0) [f0; f1] /\ out_pre case_c (case_m w00) (nn_layers case_nn) (mkptr 4 0) 2 (mkptr 5 0).
Proof.
  split; [discriminate|]. split; [reflexivity|].
  split. { simpl. unfold layer_holds, kal. mem_tac; simpl; try lia. }
  split. { mem_tac. }
  intros l Hl. inversion Hl; subst l. unfold off_params, kal. simpl. mem_tac; try lia; auto.
Qed.
End Case.
Example predict_case :
  nn_layers case_nn <> [] /\ aligned_base case_c 128 /\
  net_holds case_c (case_m opsR 5%R) 2 (nn_layers case_nn) (case_net opsR 5%R) /\
  @holds opsR (case_m opsR 5%R) (mkptr 4 0) [0%R; 1%R] /\
  out_pre case_c (case_m opsR 5%R) (nn_layers case_nn) (mkptr 4 0) 2 (mkptr 5 0).
Proof. exact (case_holds opsR 5%R). Qed.
(** a NaN weight of a zero feature *)
Example zero_features_case (lm : libm) :
  let O := opsB32 lm in
  net_holds case_c (case_m O b32_nan) 2 (nn_layers case_nn) (case_net O b32_nan) /\
  net_holds case_c (case_m O b32_zero) 2 (nn_layers case_nn) (case_net O b32_zero) /\
  @same_but_zero_rows O [f0; f1] (case_net O b32_nan) (case_net O b32_zero).
Proof.
  cbv zeta. split; [apply (case_holds (opsB32 lm) b32_nan)|]. split; [apply (case_holds (opsB32 lm) b32_zero)|].
  simpl. repeat (split; [reflexivity|]). intros [|[|[|i]]] x j Hi; simpl in Hi; inversion Hi; subst; try discriminate.
  intros _ Hj. simpl in *. reflexivity.
Qed.
