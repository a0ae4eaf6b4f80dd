(** PredictProofs.v -- proofs for Prop_Predict.v *)
From Coq Require Import List Arith ZArith Lia Bool Reals.
From Verif Require Import Base BaseProofs Ops Mem MemProofs Kernels KernelProofs Activation ActivationProofs
  Loss Neuralnet ForwardProofs OpsR SpecReal RealForward GradProofs OpsB32 B32Facts SpecBits BitsProofs SpecMem.
Import ListNotations.

Section Any.
Context {FO : fops}.
Variable c : cfg.
Variable vexp : F -> F.

Lemma forward_f_length : forall net ao xs l, fits_f (length xs) net -> nth_error net (length net - 1) = Some l ->
  length (forward_f c vexp net ao xs) = fn_out l.
Proof.
  induction net as [|f net IH]; intros ao xs l H Hl; [destruct (length (@nil flayer) - 1); discriminate|].
  destruct H as (L1 & L2 & H). destruct net as [|f2 net].
  - simpl in Hl. inversion Hl; subst. apply length_layer_f; auto.
  - change (forward_f c vexp (f :: f2 :: net) ao xs) with (forward_f c vexp (f2 :: net) ao (layer_f c vexp 0 f xs)).
    apply IH; [rewrite length_layer_f; auto|]. simpl in Hl |- *. rewrite Nat.sub_0_r in *. exact Hl.
Qed.

Lemma out_len wb (nn : neuralnet) net m pin po xs : aligned_base c wb -> nn_layers nn <> [] ->
  net_holds c m (length xs) (nn_layers nn) net -> out_pre c m (nn_layers nn) pin (length xs) po ->
  valid m po (length (forward_f c vexp net (addr m po) xs)).
Proof.
  intros _ Hne HN HO. set (ls := nn_layers nn) in *.
  destruct (@nth_error_ex _ ls (length ls - 1)) as [l Hl]. { destruct ls; simpl; [congruence|lia]. }
  destruct (HO l Hl) as (V & _). destruct (net_holds_fits_len c m ls net _ HN Hne l Hl) as (f & Hf & E & _).
  rewrite (forward_f_length net (addr m po) xs f); auto. - rewrite <- E. auto.
  - eapply net_holds_fits_f; eauto.
Qed.

Lemma predict_writes wb nn net m pin po xs : (forall a b : F, fmul a b = fmul b a) ->
  nn_layers nn <> [] -> aligned_base c wb ->
  net_holds c m (length xs) (nn_layers nn) net -> holds m pin xs ->
  out_pre c m (nn_layers nn) pin (length xs) po ->
  writes_only (neuralnet_predict c vexp wb nn pin po) m po (forward_f c vexp net (addr m po) xs).
Proof.
  intros HC Hne HB HN Hin HO. apply writes_only_intro.
  - eapply out_len; eauto.
  - apply predict_ok; auto.
Qed.
End Any.

Lemma predict_exact_proof (c : cfg) (wb : Z) (nn : neuralnet) (net : list (@flayer opsR)) (m : @mem opsR)
    (pin po : ptr) (xs : list R) :
  nn_layers nn <> [] -> aligned_base c wb ->
  net_holds c m (length xs) (nn_layers nn) net -> holds m pin xs ->
  out_pre c m (nn_layers nn) pin (length xs) po ->
  let sh := shape_of net in
  exists ys : list R,
    writes_only (@neuralnet_predict opsR c exp wb nn pin po) m po ys /\
    length ys = n_outputs sh (length xs) /\
    forall j, j < n_outputs sh (length xs) ->
      vec ys j = eval sh (length xs) (vec (params_of net)) (vec xs) j.
Proof.
  intros Hne HB HN Hin HO sh. exists (@forward_f opsR c exp net (addr m po) xs).
  split. { apply (predict_writes (FO := opsR)); auto. exact mulC_R. }
  apply forward_R. eapply net_holds_fits; eauto.
Qed.

Lemma predict_float_proof (FO : fops) (c : cfg) (vexp : F -> F) (wb : Z) (nn : neuralnet) (net : list flayer) (m : mem)
    (pin po : ptr) (xs : list F) :
  (forall a b : F, fmul a b = fmul b a) -> (forall x w : F, feq x f1 = true -> fmul x w = w) ->
  nn_layers nn <> [] -> aligned_base c wb ->
  net_holds c m (length xs) (nn_layers nn) net -> holds m pin xs ->
  out_pre c m (nn_layers nn) pin (length xs) po ->
  exists ys, writes_only (neuralnet_predict c vexp wb nn pin po) m po ys /\
             net_rel vexp (cfg_fma c) (triples net) xs ys /\
             (cfg_fma c = false -> net_rel_nofma vexp (triples net) xs ys).
Proof.
  intros HC H1 Hne HB HN Hin HO. exists (forward_f c vexp net (addr m po) xs).
  split. { apply predict_writes; auto. }
  pose proof (net_holds_fits_f c m _ _ _ HN) as HF.
  split. { apply forward_f_rel; auto. }
  intros E. apply forward_f_nofma; auto.
Qed.

(** ** zero features *)
(** the numbers of net and net' differ only in first-layer weights of features that are zero *)
Definition same_but_zero_rows {FO : fops} (xs : list F) (net net' : list flayer) : Prop :=
  match net, net' with
  | l :: r, l' :: r' =>
      fb l' = fb l /\ fact l' = fact l /\ r' = r /\ length (fw l') = length (fw l) /\
      forall i x j, nth_error xs i = Some x -> feq x f0 = false -> j < fn_out l ->
        nth_error (fw l') (i * fn_out l + j) = nth_error (fw l) (i * fn_out l + j)
  | _, _ => False
  end.

Section Zero.
Context {FO : fops}.
Variable c : cfg.
Variable vexp : F -> F.

Lemma nth_error_firstn_lt A (l : list A) n k : k < n -> nth_error (firstn n l) k = nth_error l k.
Proof. revert l k. induction n; intros l k H; [lia|]. destruct l, k; simpl; auto. apply IHn. lia. Qed.
Lemma nth_error_skipn' A (l : list A) n k : nth_error (skipn n l) k = nth_error l (n + k).
Proof. revert l. induction n; intros l; simpl; auto. destruct l; auto. destruct k; auto. Qed.

Lemma vmm_zero_rows m : forall xs w w' b, length w' = length w ->
  (forall i x j, nth_error xs i = Some x -> feq x f0 = false -> j < m -> nth_error w' (i * m + j) = nth_error w (i * m + j)) ->
  vmm_f c m w' b xs = vmm_f c m w b xs.
Proof.
  unfold vmm_f. induction xs as [|x xs IH]; intros w w' b L H; [reflexivity|].
  cbn [length rows combine fold_left].
  assert (E : vmm_step c b (x, firstn m w') = vmm_step c b (x, firstn m w)).
  { unfold vmm_step, ftrue. destruct (feq x f0) eqn:Z; [reflexivity|]. simpl.
    assert (EW : firstn m w' = firstn m w).
    { apply nth_error_ext. intros k. destruct (Nat.lt_ge_cases k m) as [Hk|Hk].
      - rewrite !nth_error_firstn_lt by auto. apply (H 0 x k); auto.
      - rewrite !(proj2 (nth_error_None _ _)); auto; rewrite firstn_length; lia. }
    rewrite EW. reflexivity. }
  rewrite E. apply IH. { rewrite !skipn_length. lia. }
  intros i y j Hi Hy Hj. rewrite !nth_error_skipn'. specialize (H (S i) y j Hi Hy Hj).
  simpl in H. rewrite !Nat.add_assoc. exact H.
Qed.

Lemma forward_zero_rows net net' ao xs : same_but_zero_rows xs net net' ->
  forward_f c vexp net' ao xs = forward_f c vexp net ao xs.
Proof.
  destruct net as [|l r], net' as [|l' r']; simpl; try tauto. intros (E1 & E2 & -> & E3 & H).
  assert (EL : forall a, layer_f c vexp a l' xs = layer_f c vexp a l xs).
  { intros a. unfold layer_f. rewrite E2, E1. unfold fn_out. rewrite E1. rewrite (vmm_zero_rows _ xs (fw l) (fw l')); auto. }
  destruct r; rewrite EL; reflexivity.
Qed.

Lemma zero_features_proof wb wb' nn nn' net net' m m' pin pin' po po' xs :
  (forall a b : F, fmul a b = fmul b a) ->
  nn_layers nn <> [] -> nn_layers nn' <> [] -> aligned_base c wb -> aligned_base c wb' ->
  net_holds c m (length xs) (nn_layers nn) net -> net_holds c m' (length xs) (nn_layers nn') net' ->
  holds m pin xs -> holds m' pin' xs ->
  out_pre c m (nn_layers nn) pin (length xs) po -> out_pre c m' (nn_layers nn') pin' (length xs) po' ->
  addr m' po' = addr m po -> same_but_zero_rows xs net net' ->
  exists ys, writes_only (neuralnet_predict c vexp wb nn pin po) m po ys /\
             writes_only (neuralnet_predict c vexp wb' nn' pin' po') m' po' ys.
Proof.
  intros HC N1 N2 B1 B2 H1 H2 I1 I2 O1 O2 HA HS. exists (forward_f c vexp net (addr m po) xs). split.
  - apply predict_writes; auto.
  - rewrite <- (forward_zero_rows net net'), <- HA by auto. apply predict_writes; auto.
Qed.

(** ** alignment of the output *)
Definition small_out (c : cfg) (ls : list layer) : Prop :=
  cfg_isa c = SSE \/ forall l, nth_error ls (length ls - 1) = Some l -> n_output l < 8.

Lemma predict_unaligned_proof wb nn net m pin po xs :
  (forall a b : F, fmul a b = fmul b a) ->
  nn_layers nn <> [] -> aligned_base c wb ->
  net_holds c m (length xs) (nn_layers nn) net -> holds m pin xs ->
  small_out c (nn_layers nn) ->
  (forall l, nth_error (nn_layers nn) (length (nn_layers nn) - 1) = Some l ->
     valid m po (n_output l) /\ off_params po (n_output l) l /\ disjoint po (n_output l) pin (length xs)) ->
  writes_only (neuralnet_predict c vexp wb nn pin po) m po (forward_f c vexp net (addr m po) xs).
Proof.
  intros HC Hne HB HN Hin HS HO. apply predict_writes; auto. intros l Hl. destruct (HO l Hl) as (V & OP & D).
  split; auto. assert (HS' : has_avx c = false \/ n_output l < 8).
  { destruct HS as [E|E]; [left; unfold has_avx; rewrite E; auto|right; auto]. }
  split; [|split; auto].
  - split; intros A Hn.
    + destruct HS' as [E|E]; [|lia]. unfold has_avx, has_avx512 in *. destruct (cfg_isa c); congruence.
    + destruct HS' as [E|E]; [congruence|lia].
  - destruct (l_act l); simpl; auto. intros A Hn. destruct HS' as [E|E]; [|lia].
    unfold has_avx, has_avx2 in *. destruct (cfg_isa c); congruence.
Qed.
End Zero.
