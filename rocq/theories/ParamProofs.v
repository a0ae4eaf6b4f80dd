(** ParamProofs.v -- neuralnet_get_parameters and neuralnet_update *)
From Coq Require Import List Arith ZArith Lia Bool.
From Verif Require Import Base BaseProofs Ops Mem MemProofs Kernels KernelProofs Activation ActivationProofs
  Loss Neuralnet ForwardProofs SpecMem.
Import ListNotations.
Local Open Scope mem_scope.

Section ChangesIn.
Context {FO : fops}.

Lemma oci_refl m rs : only_changes_in m m rs.
Proof. repeat split; auto. Qed.
Lemma oci_trans m1 m2 m3 rs : only_changes_in m1 m2 rs -> only_changes_in m2 m3 rs -> only_changes_in m1 m3 rs.
Proof.
  intros (A & B & C & D) (A' & B' & C' & D'). split; [congruence|]. split; [|split].
  - intros b. rewrite B'. auto.
  - intros b. rewrite C'. auto.
  - intros b i H. rewrite D' by auto. auto.
Qed.
Lemma oci_incl m m' rs rs' : incl rs rs' -> only_changes_in m m' rs -> only_changes_in m m' rs'.
Proof. intros HI (A & B & C & D). repeat (split; auto). Qed.
Lemma oci_writem m p xs rs : valid m p (length xs) -> In (p, length xs) rs -> only_changes_in m (writem m p xs) rs.
Proof.
  intros V HI. destruct (writem_only_changes m p xs V) as (A & B & C). split; auto. split; auto. split.
  - intros b. destruct V as (bb & Hb & HL). destruct (Nat.eq_dec b (blk p)) as [->|Hk].
    + rewrite (nth_writem_eq m p xs Hb), Hb. simpl. f_equal. apply length_overwrite. rewrite map_length. auto.
    + rewrite nth_writem_neq; auto.
  - intros b i H. apply C. apply H. auto.
Qed.
Lemma oci_addr m m' rs p : only_changes_in m m' rs -> addr m' p = addr m p.
Proof.
  intros (_ & B & _). unfold addr. specialize (B (blk p)). destruct (nth_error m' (blk p)), (nth_error m (blk p)); simpl in B; congruence.
Qed.
Lemma oci_holds m m' rs q ys : only_changes_in m m' rs -> holds m q ys ->
  (forall p n, In (p, n) rs -> disjoint p n q (length ys)) -> holds m' q ys.
Proof.
  intros (A & B & C & D) (b & Hb & HL & HS) Hd.
  specialize (C (blk q)). rewrite Hb in C. simpl in C. destruct (nth_error m' (blk q)) as [b'|] eqn:Hb'; [|discriminate].
  simpl in C. inversion C as [C']. exists b'. split; auto. split; [lia|].
  rewrite <- HS. apply nth_error_ext. intros k. destruct (Nat.lt_ge_cases k (length ys)) as [Hk|Hk].
  - rewrite !nth_error_slice by lia. specialize (D (blk q) (off q + k)).
    unfold cell_at in D. rewrite Hb, Hb' in D. apply D.
    intros p n HI [E1 E2]. specialize (Hd p n HI). unfold disjoint in Hd. destruct Hd as [H|[H|H]]; [congruence|lia|lia].
  - rewrite !(proj2 (nth_error_None _ _)); auto; rewrite length_slice by lia; lia.
Qed.
Lemma oci_valid m m' rs q n : only_changes_in m m' rs -> valid m q n -> valid m' q n.
Proof.
  intros (A & B & C & D) (b & Hb & HL). specialize (C (blk q)). rewrite Hb in C. simpl in C.
  destruct (nth_error m' (blk q)) as [b'|] eqn:Hb'; [|discriminate]. simpl in C. inversion C as [C']. exists b'. split; auto. lia.
Qed.
End ChangesIn.

(** all parameters of a network in order: per layer the biases, then the weights *)
Definition params_list {FO : fops} (net : list flayer) : list F := flat_map (fun l => fb l ++ fw l) net.
(** the memory of the parameters *)
Definition regions (ls : list layer) : list (ptr * nat) :=
  flat_map (fun l => [(bias l, n_output l); (weight l, n_input l * n_output l)]) ls.
Definition dis (a b : ptr * nat) : Prop := disjoint (fst a) (snd a) (fst b) (snd b).

Section Params.
Context {FO : fops}.
Variable c : cfg.

Lemma oci_kal m m' rs n p : only_changes_in m m' rs -> kal c n m p -> kal c n m' p.
Proof. intros H. unfold kal, aligned_to. rewrite (oci_addr _ _ _ p H). auto. Qed.

Lemma oci_layer_holds m m' rs n l f : only_changes_in m m' rs -> layer_holds c m n l f ->
  (forall r, In r rs -> dis r (bias l, n_output l) /\ dis r (weight l, n_input l * n_output l)) ->
  layer_holds c m' n l f.
Proof.
  intros H (A & B & C & D & E & G & K & L) Hd. unfold layer_holds. repeat (split; [auto; fail|]).
  split; [|split].
  - eapply oci_holds; eauto. intros p k HI. destruct (Hd _ HI) as [_ X]. unfold dis in X. simpl in X. rewrite E, <- A, <- C. auto.
  - eapply oci_holds; eauto. intros p k HI. destruct (Hd _ HI) as [X _]. unfold dis in X. simpl in X. fold (fn_out f). rewrite <- C. auto.
  - eapply oci_kal; eauto.
Qed.

Lemma oci_net_holds m m' rs : only_changes_in m m' rs -> forall ls net n, net_holds c m n ls net ->
  (forall r r', In r rs -> In r' (regions ls) -> dis r r') -> net_holds c m' n ls net.
Proof.
  intros H. induction ls as [|l ls IH]; intros [|f net] n HN Hd; simpl in HN; try tauto; simpl; auto.
  destruct HN as [HL HN]. split.
  - eapply oci_layer_holds; eauto. intros r Hr. split; apply Hd; simpl; auto.
  - eapply IH; eauto. intros r r' Hr Hr'. apply Hd; auto. simpl. auto.
Qed.

Lemma off_params_regions p n ls : Forall (off_params p n) ls <-> (forall r, In r (regions ls) -> dis (p, n) r).
Proof.
  unfold regions, dis. split.
  - intros H r Hr. apply in_flat_map in Hr. destruct Hr as (l & Hl & Hr). rewrite Forall_forall in H. destruct (H l Hl) as [A B].
    destruct Hr as [<-|[<-|[]]]; simpl; auto.
  - intros H. apply Forall_forall. intros l Hl. split.
    + apply (H (weight l, n_input l * n_output l)). apply in_flat_map. exists l. simpl. auto.
    + apply (H (bias l, n_output l)). apply in_flat_map. exists l. simpl. auto.
Qed.

Lemma length_params m : forall ls net n ol, net_holds c m n ls net ->
  length (params_list net) = total_n_parameters (Build_neuralnet ls ol).
Proof.
  intros ls net n ol. unfold total_n_parameters. cbn [nn_layers].
  assert (G : forall ls net n a, net_holds c m n ls net ->
    a + length (params_list net) = fold_left (fun s l => s + (n_input l + 1) * n_output l) ls a).
  { clear. induction ls as [|l ls IH]; intros [|f net] n a H; simpl in H; try tauto; [simpl; lia|].
    destruct H as [(A & B & C & D & E & _) H]. simpl. rewrite <- (IH net _ _ H). rewrite !app_length. rewrite E.
    rewrite A, C. unfold fn_out. fold (params_list net). nia. }
  intros H. rewrite <- (G ls net n 0 H). lia.
Qed.

Lemma memcpy_ok m p q xs n : holds m q xs -> n = length xs -> valid m p n -> memcpy p q n m = Ok (tt, writem m p xs).
Proof.
  intros H -> V. unfold memcpy. erewrite bind_ok by (eapply loadv_holds0; eauto).
  rewrite <- (padd_0 p) at 1. erewrite storev_valid; eauto. rewrite padd_0. auto.
Qed.

(** ** neuralnet_get_parameters *)
Lemma get_layers_ok : forall ls net n p m, net_holds c m n ls net -> valid m p (length (params_list net)) ->
  Forall (off_params p (length (params_list net))) ls ->
  get_layers ls p m = Ok (tt, writem m p (params_list net)).
Proof.
  induction ls as [|l ls IH]; intros [|f net] n p m HN V Off; simpl in HN; try tauto.
  - simpl. rewrite writem_nil. reflexivity.
  - destruct HN as [HL HN]. pose proof HL as (A & B & C & D & E & G & K & L).
    set (N := length (params_list (f :: net))) in *.
    assert (EN : N = length (fb f) + length (fw f) + length (params_list net)).
    { unfold N. simpl. rewrite !app_length. fold (params_list net). lia. }
    assert (Lb : length (fb f) = n_output l) by (rewrite C; reflexivity).
    assert (Lw : length (fw f) = n_output l * n_input l) by (rewrite E, A, C; lia).
    simpl get_layers.
    erewrite bind_ok by (apply memcpy_ok with (xs := fb f); auto; apply valid_le with N; auto; lia).
    assert (V1 : valid m p (length (fb f))) by (apply valid_le with N; auto; lia).
    pose proof (Forall_inv Off) as [O1 O2].
    erewrite bind_ok.
    2:{ apply memcpy_ok with (xs := fw f); auto.
        - apply holds_writem_disjoint; auto. eapply disjoint_sub with (p := p) (n := N).
          + rewrite Lw, Nat.mul_comm. auto.
          + auto. + auto. + lia.
        - apply valid_writem; auto. apply valid_sub with (n := N); auto. lia. }
    rewrite <- Lb. rewrite writem_writem_app by (apply valid_le with N; auto; lia).
    set (m2 := writem m p (fb f ++ fw f)).
    assert (V2 : valid m p (length (fb f ++ fw f))) by (rewrite app_length; apply valid_le with N; auto; lia).
    rewrite (IH net (n_output l)).
    + f_equal. f_equal. unfold m2.
      replace (p +! length (fb f) +! (n_input l * length (fb f))) with (p +! length (fb f ++ fw f)).
      2:{ rewrite padd_padd, app_length, Lw, Lb. f_equal. lia. }
      rewrite writem_writem_app. { reflexivity. }
      rewrite app_length. apply valid_le with N; auto. lia.
    + eapply oci_net_holds with (rs := [(p, length (fb f ++ fw f))]); eauto.
      * unfold m2. apply oci_writem; auto. simpl. auto.
      * intros r r' [<-|[]] Hr'. apply (proj1 (off_params_regions p N (l :: ls))) with (r := r') in Off; [|simpl; auto].
        unfold dis in *. simpl in *. eapply disjoint_sub; eauto. rewrite app_length. lia.
    + unfold m2. apply valid_writem; auto. rewrite padd_padd. apply valid_sub with (n := N); auto. lia.
    + inversion Off as [|? ? _ Off2]; subst. apply off_params_regions. intros r Hr.
      apply (proj1 (off_params_regions p N ls)) with (r := r) in Off2; auto.
      unfold dis in *. simpl in *. eapply disjoint_sub; eauto; simpl; lia.
Qed.

Lemma map2_app A B C (f : A -> B -> C) : forall l1 l2 k1 k2, length l1 = length k1 ->
  map2 f (l1 ++ l2) (k1 ++ k2) = map2 f l1 k1 ++ map2 f l2 k2.
Proof. induction l1; intros l2 [|y k1] k2 H; simpl in *; try discriminate; auto. f_equal; auto. Qed.

Lemma FOP_inv A (P : A -> A -> Prop) a l : ForallOrdPairs P (a :: l) -> Forall (P a) l /\ ForallOrdPairs P l.
Proof. inversion 1; auto. Qed.

(** ** neuralnet_update *)
Lemma update_layers_ok : forall ls net n p m ds, net_holds c m n ls net -> holds m p ds ->
  length ds = length (params_list net) -> Forall (off_params p (length ds)) ls ->
  ForallOrdPairs dis (regions ls) ->
  exists m' net', update_layers c ls p m = Ok (tt, m') /\ net_holds c m' n ls net' /\
    map fact net' = map fact net /\ params_list net' = map2 fadd (params_list net) ds /\
    only_changes_in m m' (regions ls).
Proof.
  induction ls as [|l ls IH]; intros [|f net] n p m ds HN Hd Ld Off PD; simpl in HN; try tauto.
  - exists m, []. simpl. repeat (split; auto). 
  - destruct HN as [HL HN]. pose proof HL as (A & B & C & D & E & G & K & L).
    assert (Lb : length (fb f) = n_output l) by (rewrite C; reflexivity).
    assert (Lw : length (fw f) = n_output l * n_input l) by (rewrite E, A, C; lia).
    assert (EN : length ds = length (fb f) + (length (fw f) + length (params_list net))).
    { rewrite Ld. simpl. rewrite !app_length. fold (params_list net). lia. }
    set (d1 := firstn (length (fb f)) ds). set (d2 := firstn (length (fw f)) (skipn (length (fb f)) ds)).
    set (d3 := skipn (length (fw f)) (skipn (length (fb f)) ds)).
    assert (Eds : ds = d1 ++ d2 ++ d3) by (unfold d1, d2, d3; rewrite !firstn_skipn; auto).
    assert (L1 : length d1 = length (fb f)) by (unfold d1; rewrite firstn_length; lia).
    assert (L2 : length d2 = length (fw f)) by (unfold d2; rewrite firstn_length, skipn_length; lia).
    assert (L3 : length d3 = length (params_list net)) by (unfold d3; rewrite !skipn_length; lia).
    rewrite Eds in Hd. apply holds_app_inv in Hd. destruct Hd as [H1 Hd]. apply holds_app_inv in Hd. destruct Hd as [H2 H3].
    rewrite L1 in H2, H3. rewrite L2 in H3.
    pose proof (Forall_inv Off) as [O1 O2]. rewrite EN in O1, O2, Off.
    change (regions (l :: ls)) with ((bias l, n_output l) :: (weight l, n_input l * n_output l) :: regions ls) in PD.
    apply FOP_inv in PD. destruct PD as [PX PD]. apply FOP_inv in PD. destruct PD as [PY PD'].
    pose proof (Forall_inv PX) as Pbw. rewrite Forall_forall in PX, PY.
    assert (Pl : forall r, In r (regions ls) -> dis (bias l, n_output l) r /\ dis (weight l, n_input l * n_output l) r).
    { intros r Hr. split; auto. apply PX. simpl. auto. }
    set (nb := map2 fadd (fb f) d1). set (nw := map2 fadd (fw f) d2).
    assert (Lnb : length nb = n_output l) by (unfold nb; rewrite length_map2; lia).
    assert (Lnw : length nw = n_input l * n_output l) by (unfold nw; rewrite length_map2; lia).
    simpl update_layers.
    erewrite bind_ok.
    2:{ rewrite <- Lb. apply vector_accumulate_unaligned_ok with (ys := d1); auto.
        apply disjoint_sym. eapply disjoint_sub with (p := p) (p' := p).
        - rewrite Lb. exact O2. - auto. - auto. - lia. }
    fold nb. set (m1 := writem m (bias l) nb).
    assert (Vb : valid m (bias l) (length nb)) by (rewrite Lnb, <- Lb; apply holds_valid; auto).
    assert (Hw1 : holds m1 (weight l) (fw f)).
    { unfold m1. apply holds_writem_disjoint; auto. rewrite Lnb, Lw, Nat.mul_comm. exact Pbw. }
    assert (Hd2 : holds m1 (p +! length (fb f)) d2).
    { unfold m1. apply holds_writem_disjoint; auto. apply disjoint_sym. rewrite Lnb, L2.
      eapply disjoint_sub with (p := p); [exact O2| | |]; simpl; auto; lia. }
    erewrite bind_ok.
    2:{ rewrite <- Lw, <- Lb. apply vector_accumulate_unaligned_ok with (ys := d2); auto.
        apply disjoint_sym. rewrite Lw, Nat.mul_comm. eapply disjoint_sub with (p := p); [exact O1| | |]; simpl; auto; lia. }
    fold nw. set (m2 := writem m1 (weight l) nw).
    assert (Vw : valid m1 (weight l) (length nw)).
    { rewrite Lnw, Nat.mul_comm, <- Lw. apply holds_valid; auto. }
    set (rl := [(bias l, n_output l); (weight l, n_input l * n_output l)]).
    assert (OC : only_changes_in m m2 rl).
    { eapply oci_trans with (m2 := m1).
      - unfold m1. apply oci_writem; auto. rewrite Lnb. simpl. auto.
      - unfold m2. apply oci_writem; auto. rewrite Lnw. simpl. auto. }
    destruct (IH net (n_output l) (p +! n_output l +! (n_input l * n_output l)) m2 d3)
      as (m' & net' & R & HN' & Fa & Pa & OC').
    + eapply oci_net_holds; eauto. intros r r' Hr Hr'. destruct (Pl _ Hr') as [X Y].
      destruct Hr as [<-|[<-|[]]]; auto.
    + rewrite <- Lb. rewrite padd_padd. rewrite padd_padd in H3. rewrite Lb at 2. rewrite Nat.mul_comm, <- Lw.
      eapply oci_holds; eauto. intros q k Hq.
      assert (Hq' : In (q, k) (regions (l :: ls))) by (simpl; destruct Hq as [Hq|[Hq|[]]]; auto).
      apply (proj1 (off_params_regions p _ (l :: ls))) with (r := (q, k)) in Off; auto. unfold dis in Off. simpl in Off.
      apply disjoint_sym. eapply disjoint_sub; [exact Off| | |]; simpl; auto; lia.
    + auto.
    + apply off_params_regions. intros r Hr.
      apply (proj1 (off_params_regions p _ (l :: ls))) with (r := r) in Off; [|simpl; auto]. unfold dis in *. simpl in *.
      eapply disjoint_sub; [exact Off| | |]; simpl; auto; lia.
    + auto.
    + exists m', (@Build_flayer FO nw nb (fact f) :: net').
      split; [exact R|]. split; [|split; [|split]].
      * simpl. split; auto. eapply oci_layer_holds with (m := m2); [exact OC'| |].
        2:{ intros r Hr. destruct (Pl _ Hr) as [X Y]. unfold dis in *. split; apply disjoint_sym; auto. }
        unfold layer_holds, fn_out. simpl. rewrite Lnb, Lnw, A.
        repeat (split; [auto; fail|]). split; [|split].
        { unfold m2. apply holds_writem_same. auto. }
        { unfold m2. apply holds_writem_disjoint; auto.
          - unfold m1. apply holds_writem_same. auto.
          - apply disjoint_sym. rewrite Lnw, Lnb. exact Pbw. }
        { eapply oci_kal; [exact OC|]. auto. }
      * simpl. f_equal. auto.
      * simpl. fold (params_list net') (params_list net). rewrite Pa, Eds. rewrite <- !app_assoc. rewrite !map2_app by auto. reflexivity.
      * eapply oci_trans; [eapply oci_incl; [|exact OC]|eapply oci_incl; [|exact OC']]; intros r Hr; simpl; auto.
        destruct Hr as [<-|[<-|[]]]; auto.
Qed.
End Params.
