(** GradPropProofs.v -- proofs for Prop_Grad.v *)
From Coquelicot Require Import Coquelicot.
From Coq Require Import List Arith ZArith Lia Bool Reals.
From Verif Require Import Base BaseProofs Ops Mem MemProofs Kernels KernelProofs KernelProofs2 Activation ActivationProofs
  Loss Neuralnet NetKernels ForwardProofs BackpropProofs OpsR SpecReal RealForward GradProofs BitsProofs PredictProofs SpecMem.
Import ListNotations.
Local Open Scope nat_scope.
Local Open Scope mem_scope.

(** What a call of neuralnet_backpropagation relies on.  [nn] is the network before
    neuralnet_set_loss( nn, lf ): its parameters are the numbers [net], the input is xs, the target
    ts (as many floats as the last layer has outputs); the gradient buffer is SIMD aligned (asserted by
    the code), large enough and overlaps neither the input nor the target nor the parameters.
    [bp_align]: see C18. *)
Definition bp_args {FO : fops} (c : cfg) (wb : Z) (nn : neuralnet) (net : list flayer) (m : mem)
    (pin pt pg : ptr) (xs ts : list F) : Prop :=
  let total := total_n_parameters nn in
  nn_layers nn <> [] /\ aligned_base c wb /\ net_holds c m (length xs) (nn_layers nn) net /\
  holds m pin xs /\ holds m pt ts /\
  (forall l, nth_error (nn_layers nn) (length (nn_layers nn) - 1) = Some l -> length ts = n_output l) /\
  al c (addr m pg) 0 = true /\ valid m pg total /\
  disjoint pg total pin (length xs) /\ disjoint pg total pt (length ts) /\
  Forall (off_params pg total) (nn_layers nn).
Definition bp_ready {FO : fops} (c : cfg) (wb : Z) (nn : neuralnet) (net : list flayer) (lf : loss) (m : mem)
    (pin pt pg : ptr) (xs ts : list F) : Prop :=
  bp_args c wb nn net m pin pt pg xs ts /\ bp_align c m (nn_layers (neuralnet_set_loss nn (Some lf))) pg.

Section Any.
Context {FO : fops}.
Variable c : cfg.
Variable vexp : F -> F.
Hypothesis mulC : forall a b : F, fmul a b = fmul b a.

Lemma Forall2_nth A B (P : A -> B -> Prop) l1 l2 : Forall2 P l1 l2 -> forall i x, nth_error l1 i = Some x ->
  exists y, nth_error l2 i = Some y /\ P x y.
Proof. induction 1; intros [|i] z Hz; simpl in *; try discriminate; eauto. inversion Hz; subst; eauto. Qed.

Lemma net_holds_total m : forall ls net n ol, net_holds c m n ls net -> fits_f n net -> ls <> [] ->
  length (flat_map (fun l => fb l ++ fw l) net) = total_n_parameters (Build_neuralnet ls ol).
Proof.
  intros ls net n ol. unfold total_n_parameters. cbn [nn_layers].
  assert (G : forall ls net (n a : nat), net_holds c m n ls net ->
    (a + length (flat_map (fun l => fb l ++ fw l) net) = fold_left (fun s l => s + (n_input l + 1) * n_output l) ls a)%nat).
  { clear. induction ls as [|l ls IH]; intros [|f net] n a H; simpl in H; try tauto; [simpl; lia|].
    destruct H as [(A & B & C & D & E & _) H]. simpl. rewrite <- (IH net _ _ H). rewrite !app_length. rewrite E.
    rewrite A, C. unfold fn_out. nia. }
  intros H _ _. rewrite <- (G ls net n 0 H). lia.
Qed.

Lemma backprop_run_with VMM MVM OUTER wb nn net lf m pin pt pg xs ts :
  vmm_spec c VMM -> mvm_spec c MVM -> outer_spec OUTER ->
  bp_ready c wb nn net lf m pin pt pg xs ts ->
  backprop_with c vexp VMM MVM OUTER wb (neuralnet_set_loss nn (Some lf)) pin pt pg m =
  Ok (tt, writem m pg (bp_grad c vexp (derivs lf net) lf xs ts)).
Proof.
  intros HKv HKm HKo ((Hne & HB & HN & Hin & Ht & Lt & Hal & V & D1 & D2 & Off) & AL).
  pose proof (lsd_same lf (nn_layers nn)) as SM.
  apply backprop_with_ok; auto; rewrite ?set_loss_layers, ?total_set_loss in *; auto.
  - destruct (nn_layers nn) as [|l [|l2 r]]; simpl; congruence.
  - rewrite map_fst_derivs. eapply net_holds_same; eauto.
  - eapply derivs_ok; eauto.
  - intros l Hl. destruct (Forall2_nth _ _ _ _ _ SM _ _ Hl) as (l' & Hl' & SB).
    rewrite (Forall2_length _ _ _ _ _ SM) in Hl'. rewrite (Lt l' Hl').
    unfold same_but_deriv in SB. destruct SB as (_ & E & _). auto.
  - apply Forall_forall. intros l Hl. apply In_nth_error in Hl. destruct Hl as [i Hi].
    destruct (Forall2_nth _ _ _ _ _ SM _ _ Hi) as (l' & Hl' & SB).
    rewrite Forall_forall in Off. specialize (Off l' (nth_error_In _ _ Hl')).
    unfold same_but_deriv in SB. unfold off_params in *. destruct SB as (E1 & E2 & E3 & E4 & E5).
    rewrite E1, E2, E3, E4. auto.
Qed.

Lemma backprop_run wb nn net lf m pin pt pg xs ts : bp_ready c wb nn net lf m pin pt pg xs ts ->
  neuralnet_backpropagation c vexp wb (neuralnet_set_loss nn (Some lf)) pin pt pg m =
  Ok (tt, writem m pg (bp_grad c vexp (derivs lf net) lf xs ts)).
Proof.
  intros H. rewrite backprop_builtin.
  apply backprop_run_with; auto using vmm_builtin, mvm_builtin, outer_builtin.
Qed.

Lemma length_bp_f lf e : forall net xs, net <> [] -> fits_f (length xs) net ->
  (forall l, nth_error net (length net - 1) = Some l -> length e = fn_out l) ->
  exists d w rest l, bp_f c (derivs lf net) (vals_f c vexp net xs) e = (d, w) :: rest /\ nth_error net 0 = Some l /\
    length d = fn_out l /\
    length (flat (bp_f c (derivs lf net) (vals_f c vexp net xs) e)) = length (flat_map (fun l => fb l ++ fw l) net).
Proof.
  induction net as [|l [|l2 net] IH]; intros xs Hne HF He; [congruence| |].
  - destruct HF as (L1 & L2 & _). specialize (He l eq_refl). cbn [derivs vals_f bp_f].
    assert (LL : length (layer_f c vexp 0 l xs) = length e) by (rewrite length_layer_f; auto).
    do 4 eexists. split; [reflexivity|]. split; [reflexivity|]. split; [rewrite length_deriv_f; auto|].
    unfold flat. simpl. rewrite !app_length, length_outer_f, length_deriv_f by auto. simpl. rewrite L1. unfold fn_out in *. lia.
  - destruct HF as (L1 & L2 & HF).
    pose proof (length_layer_f c vexp 0 l xs L1) as LL.
    destruct (IH (layer_f c vexp 0 l xs)) as (d & w & rest & l' & E & Hl' & Ld & LF).
    { congruence. } { rewrite LL; auto. }
    { intros l' Hl'. apply He. simpl in Hl' |- *. rewrite Nat.sub_0_r in *. auto. }
    simpl in Hl'. inversion Hl'; subst l'. clear Hl'.
    change (vals_f c vexp (l :: l2 :: net) xs) with (xs :: vals_f c vexp (l2 :: net) (layer_f c vexp 0 l xs)).
    change (derivs lf (l :: l2 :: net)) with ((l, fact l) :: derivs lf (l2 :: net)).
    remember (derivs lf (l2 :: net)) as dd. destruct dd as [|[d0 a0] dd].
    { exfalso. destruct net; discriminate. }
    remember (vals_f c vexp (l2 :: net) (layer_f c vexp 0 l xs)) as vv. destruct vv as [|o vv]; [discriminate|].
    assert (Eo : o = layer_f c vexp 0 l xs) by (simpl in Heqvv; congruence).
    rewrite bp_f_cons2, E. cbv zeta. do 4 eexists. split; [reflexivity|]. split; [reflexivity|].
    match goal with |- length (deriv_f ?d ?o ?e') = _ /\ _ => assert (LD : length (deriv_f d o e') = fn_out l) end.
    { rewrite length_deriv_f; unfold mvm_f; rewrite map_length, length_rows; auto. subst o. auto. }
    split; [exact LD|].
    rewrite <- E. unfold flat in LF |- *. cbn [flat_map fst snd]. rewrite !app_length, length_outer_f, LD.
    rewrite LF. rewrite L1. simpl. rewrite !app_length. unfold fn_out. lia.
Qed.

Lemma length_bp_grad wb nn net lf m pin pt pg xs ts : bp_ready c wb nn net lf m pin pt pg xs ts ->
  length (bp_grad c vexp (derivs lf net) lf xs ts) = total_n_parameters nn.
Proof.
  intros ((Hne & HB & HN & Hin & Ht & Lt & Hal & V & D1 & D2 & Off) & AL).
  unfold bp_grad. rewrite map_fst_derivs. cbv zeta. rewrite last_vals.
  pose proof (net_holds_fits_f c m _ _ _ HN) as HF.
  assert (Nn : net <> []). { destruct nn as [ls ol]. cbn [nn_layers] in *. destruct ls; destruct net; simpl in HN; try tauto; congruence. }
  destruct (@nth_error_ex _ (nn_layers nn) (length (nn_layers nn) - 1)) as [l Hl].
  { destruct (nn_layers nn); simpl; [congruence|lia]. }
  destruct (net_holds_fits_len c m _ _ _ HN Hne l Hl) as (f & Hf & Ef & _).
  destruct (length_bp_f lf (loss_f lf (forward_f c vexp net 0 xs) ts) net xs Nn HF) as (d & w & rest & l' & E & _ & _ & LF).
  { intros l' Hl'. assert (l' = f) by congruence. subst l'. unfold loss_f. rewrite length_map2.
    rewrite (forward_f_length c vexp net 0 xs f HF Hf). rewrite (Lt l Hl). lia. }
  rewrite LF. destruct nn as [ls ol]. eapply net_holds_total; eauto.
Qed.

Lemma backprop_writes wb nn net lf m pin pt pg xs ts : bp_ready c wb nn net lf m pin pt pg xs ts ->
  writes_only (neuralnet_backpropagation c vexp wb (neuralnet_set_loss nn (Some lf)) pin pt pg) m pg
    (bp_grad c vexp (derivs lf net) lf xs ts).
Proof.
  intros H. apply writes_only_intro.
  - erewrite length_bp_grad; eauto. destruct H as ((Hne & HB & HN & Hin & Ht & Lt & Hal & V & _) & _). auto.
  - apply backprop_run; auto.
Qed.
End Any.

Lemma backprop_exact_proof (c : cfg) (wb : Z) (nn : neuralnet) (net : list (@flayer opsR)) (lf : loss)
    (m : @mem opsR) (pin pt pg : ptr) (xs ts : list R) :
  @bp_ready opsR c wb nn net lf m pin pt pg xs ts ->
  let sh := shape_of net in
  let n := length xs in
  let th := vec (params_of net) in
  let no := n_outputs sh n in
  trainable lf sh -> smooth sh n th (vec xs) -> target_ok lf no (vec ts) (eval sh n th (vec xs)) ->
  exists g : list R,
    writes_only (@neuralnet_backpropagation opsR c exp wb (neuralnet_set_loss nn (Some lf)) pin pt pg) m pg g /\
    length g = n_params sh n /\
    forall k, (k < n_params sh n)%nat ->
      is_derive (fun v => loss_math lf no (vec ts) (eval sh n (upd th k v) (vec xs))) (th k) (vec g k).
Proof.
  intros H sh n th no HT HS HTG. exists (@bp_grad opsR c exp (derivs lf net) lf xs ts).
  split. { apply (backprop_writes (FO := opsR)); auto. exact mulC_R. }
  destruct H as ((Hne & HB & HN & Hin & Ht & Lt & _) & _).
  assert (HF : fits (length xs) net) by (eapply net_holds_fits; eauto).
  destruct (@nth_error_ex _ (nn_layers nn) (length (nn_layers nn) - 1)) as [l Hl].
  { destruct (nn_layers nn); simpl; [congruence|lia]. }
  destruct (net_holds_fits_len (FO := opsR) c m _ _ _ HN Hne l Hl) as (f & Hf & Ef & Hf1).
  assert (NO : no = fn_out f).
  { pose proof (proj1 (forward_R c net 0 xs HF)) as LO. etransitivity; [symmetry; exact LO|].
    eapply (forward_f_length (FO := opsR)); eauto. eapply (net_holds_fits_f (FO := opsR)); eauto. }
  apply grad_R; auto; fold sh n; fold no.
  - rewrite NO. lia.
  - etransitivity; [exact (Lt l Hl)|]. lia.
Qed.

(** sufficient for [bp_align]: the SSE build, or all layer sizes are multiples of the number of floats per
    register and the weight arrays are aligned *)
Lemma bp_align_multiples {FO : fops} (c : cfg) (m : mem) (ls : list layer) (pg : ptr) :
  nth_error m (blk pg) <> None -> al c (addr m pg) 0 = true ->
  (cfg_isa c = SSE \/
   Forall (fun l => Nat.divide (fps c) (n_output l) /\ nth_error m (blk (weight l)) <> None /\
                    al c (addr m (weight l)) 0 = true) ls) ->
  bp_align c m ls pg.
Proof.
  intros Hpg Hal [HS|HA].
  - assert (A1 : has_avx c = false) by (unfold has_avx; rewrite HS; reflexivity).
    assert (A2 : has_avx512 c = false) by (unfold has_avx512; rewrite HS; reflexivity).
    split.
    + intros i l d _ _. unfold deriv_pre. rewrite A1. destruct d; auto; discriminate.
    + intros i l r _ _. unfold kal. rewrite A1, A2. split; discriminate.
  - assert (P : forall p k, nth_error m (blk p) <> None -> al c (addr m p) 0 = true -> Nat.divide (fps c) k -> al c (addr m (p +! k)) 0 = true).
    { intros p k H1 H2 [q Hq]. rewrite addr_padd by auto. unfold al in *. rewrite Z.add_0_r in *. apply Z.eqb_eq in H2. apply Z.eqb_eq.
      pose proof (fps_pos c). rewrite fps_align in *. apply Z.mod_divide in H2; [|lia]. apply Z.mod_divide; [lia|].
      apply Z.divide_add_r; auto. exists (Z.of_nat q). subst k. lia. }
    assert (G : forall i, Nat.divide (fps c) (goff ls i)).
    { revert HA. clear. intros HA i. revert i. induction HA as [|l ls (D & _) HA IH]; intros [|i]; simpl; try apply Nat.divide_0_r.
      apply Nat.divide_add_r; auto. apply Nat.divide_add_r; auto. apply Nat.divide_mul_r; auto. }
    split.
    + intros i l d Hl _. assert (A8 : has_avx c = true -> aligned_to 8 m (pg +! goff ls i) = true).
      { intros HX. apply al_aligned8' with (c := c); auto. }
      destruct d; simpl; auto.
    + intros i l r Hl Hr. rewrite Forall_forall in HA. destruct (HA l (nth_error_In _ _ Hl)) as (D & W1 & W2).
      apply al_kal. apply P; auto. apply Nat.divide_mul_r; auto.
Qed.

(** ** neuralnet_set_loss *)
Lemma lsd_ext lf : forall ls1 ls2, Forall2 same_but_deriv ls1 ls2 -> lsd lf ls1 = lsd lf ls2.
Proof.
  assert (S : forall a b d, same_but_deriv a b -> set_d a d = set_d b d).
  { intros a b d (A & B & C & D & E). unfold set_d. rewrite A, B, C, D, E. reflexivity. }
  induction 1 as [|a b l1 l2 H H2 IH]; auto. pose proof H as (A & B & C & D & E).
  destruct H2 as [|a2 b2 l1 l2 H3 H4]; simpl in *.
  - rewrite E. f_equal. auto.
  - rewrite E. f_equal; auto.
Qed.
Lemma same_refl : forall ls, Forall2 same_but_deriv ls ls.
Proof. induction ls; constructor; auto. unfold same_but_deriv. auto 10. Qed.
Lemma same_trans : forall l1 l2 l3, Forall2 same_but_deriv l1 l2 -> Forall2 same_but_deriv l2 l3 -> Forall2 same_but_deriv l1 l3.
Proof.
  induction l1; intros l2 l3 H1 H2; inversion H1; subst; inversion H2; subst; constructor; eauto.
  unfold same_but_deriv in *. intuition congruence.
Qed.
Lemma set_loss_same nn lf : Forall2 same_but_deriv (nn_layers (neuralnet_set_loss nn lf)) (nn_layers nn).
Proof. destruct lf as [l|]; [rewrite set_loss_layers; apply lsd_same|apply same_refl]. Qed.
Lemma length_lsd lf ls : length (lsd lf ls) = length ls.
Proof. exact (Forall2_length _ _ _ _ _ (lsd_same lf ls)). Qed.
Lemma nth_lsd lf : forall ls i l, nth_error ls i = Some l ->
  nth_error (lsd lf ls) i = Some (set_d l (if i =? length ls - 1 then last_deriv lf (l_act l) else l_act l)).
Proof.
  induction ls as [|a [|b ls] IH]; intros i l H; [destruct i; discriminate| |].
  - destruct i as [|[|i]]; try discriminate. simpl in *. inversion H; subst. reflexivity.
  - destruct i as [|i]. { simpl in *. inversion H; subst. reflexivity. }
    change (lsd lf (a :: b :: ls)) with (set_d a (l_act a) :: lsd lf (b :: ls)). 
    change (nth_error (set_d a (l_act a) :: lsd lf (b :: ls)) (S i)) with (nth_error (lsd lf (b :: ls)) i).
    rewrite (IH i l H). simpl length. replace (S (S (length ls)) - 1) with (S (length ls)) by lia.
    replace (S (length ls) - 1) with (length ls) by lia. reflexivity.
Qed.
