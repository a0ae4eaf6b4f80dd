(** BackpropProofs.v -- neuralnet_backpropagation computes the functional backward pass *)
From Coq Require Import List Arith ZArith Lia Bool.
From Verif Require Import Base BaseProofs Ops Mem MemProofs Kernels KernelProofs KernelProofs2
  Activation ActivationProofs Loss Neuralnet NetKernels ForwardProofs.
Import ListNotations.
Local Open Scope mem_scope.

Section BackpropProofs.
Context {FO : fops}.
Variable c : cfg.
Variable vexp : F -> F.
Hypothesis mulC : forall a b, fmul a b = fmul b a.

(** ** loss functions *)
Definition loss_f (l : loss) (ps rs : list F) : list F := map2 (loss_elem l (length ps)) ps rs.

Lemma loss_func_ok l m pp pr po ps rs n :
  holds m pp ps -> holds m pr rs -> length ps = n -> length rs = n -> valid m po n ->
  disjoint po n pp n -> disjoint po n pr n ->
  loss_func l n pp pr po m = Ok (tt, writem m po (loss_f l ps rs)).
Proof.
  intros Hp Hr Lp Lr V D1 D2. unfold loss_func. set (new := loss_f l ps rs).
  assert (HN : length new = n) by (unfold new, loss_f; rewrite length_map2; lia).
  replace m with (writem m po (firstn 0 new)) at 1 by apply writem_nil.
  replace (writem m po new) with (writem m po (firstn n new)) by (rewrite <- HN, firstn_all; auto).
  apply (@loop1_st _ n _ (fun i => writem m po (firstn i new))); [lia|].
  intros i Hi.
  destruct (@nth_error_ex _ ps i) as [p Ep]; [lia|].
  destruct (@nth_error_ex _ rs i) as [r Er]; [lia|].
  erewrite bind_ok by (eapply load_holds; [apply holds_b' with (n := n); eauto|eauto]).
  erewrite bind_ok by (eapply load_holds; [apply holds_b' with (n := n); eauto|eauto]).
  apply store_next with (n := n); auto.
  unfold new, loss_f. rewrite nth_error_map2, Ep, Er, Lp. reflexivity.
Qed.

(** ** functional backward pass.  [vals]: input and outputs of all layers; [e]: loss gradient.
    Result: per layer (gradient of the biases, gradient of the weights). *)
Fixpoint bp_f (net : list (flayer * act)) (vals : list (list F)) (e : list F) : list (list F * list F) :=
  match net, vals with
  | (l, d) :: r, a :: ((o :: _) as vr) =>
      match r with
      | [] => let dl := deriv_f d o e in [(dl, outer_f a dl)]
      | (l2, _) :: _ =>
          match bp_f r vr e with
          | ((d2, _) :: _) as gs =>
              let dl := deriv_f d o (mvm_f c d2 (rows (fn_out l) (length d2) (fw l2)) f0) in
              (dl, outer_f a dl) :: gs
          | [] => []
          end
      end
  | _, _ => []
  end.
Lemma bp_f_cons2 l d l2 dd2 r a o vr e :
  bp_f ((l, d) :: (l2, dd2) :: r) (a :: o :: vr) e =
  match bp_f ((l2, dd2) :: r) (o :: vr) e with
  | ((d2, _) :: _) as gs =>
      let dl := deriv_f d o (mvm_f c d2 (rows (fn_out l) (length d2) (fw l2)) f0) in
      (dl, outer_f a dl) :: gs
  | [] => []
  end.
Proof. reflexivity. Qed.
Definition flat (gs : list (list F * list F)) : list F := flat_map (fun g => fst g ++ snd g) gs.

(** offsets in the gradient *)
Fixpoint goff (ls : list layer) (i : nat) : nat :=
  match i, ls with
  | S k, l :: r => n_output l + n_input l * n_output l + goff r k
  | _, _ => 0
  end.
Lemma grad_ptrs_nth : forall ls p i l, nth_error ls i = Some l ->
  nth_error (grad_ptrs ls p) i = Some (p +! goff ls i, p +! (goff ls i + n_output l)).
Proof.
  induction ls as [|l0 ls IH]; intros p [|i] l H; simpl in *; try discriminate.
  - inversion H; subst. rewrite padd_0. reflexivity.
  - rewrite IH with (l := l) by auto. rewrite !padd_padd. f_equal. f_equal; f_equal; lia.
Qed.
Lemma goff_S : forall ls i l, nth_error ls i = Some l ->
  goff ls (i + 1) = goff ls i + n_output l + n_input l * n_output l.
Proof.
  induction ls as [|l0 ls IH]; intros [|i] l H; simpl in *; try discriminate.
  - inversion H; subst. destruct ls; simpl; lia.
  - rewrite IH with (l := l) by auto. lia.
Qed.
Lemma goff_mono ls : forall i j, i <= j -> goff ls i <= goff ls j.
Proof.
  induction ls as [|l0 ls IH]; intros [|i] [|j] H; simpl; try lia.
  specialize (IH i j ltac:(lia)). lia.
Qed.
Lemma total_goff nn : total_n_parameters nn = goff (nn_layers nn) (length (nn_layers nn)).
Proof.
  unfold total_n_parameters.
  assert (G : forall ls s, fold_left (fun s l => s + (n_input l + 1) * n_output l) ls s = s + goff ls (length ls)).
  { induction ls as [|l ls IH]; intros s; simpl; [lia|]. rewrite IH. lia. }
  apply G.
Qed.

Lemma skipn_nth A : forall i (l : list A) x, nth_error l i = Some x -> skipn i l = x :: skipn (i + 1) l.
Proof.
  induction i; intros [|y l] x H; simpl in *; try discriminate; auto. congruence.
Qed.

Lemma writem_prepend m p xs ys :
  valid m p (length xs + length ys) ->
  writem (writem m (p +! length xs) ys) p xs = writem m p (xs ++ ys).
Proof.
  intros V. rewrite writem_comm.
  - apply writem_writem_app; auto.
  - apply valid_sub with (n := length xs + length ys); auto.
  - eapply valid_le; eauto. lia.
  - right. simpl. lia.
Qed.

(** what the rest of the proof needs of the two other kernels *)
Definition outer_spec (OUTER : nat -> nat -> ptr -> ptr -> ptr -> M unit) : Prop :=
  forall mm px py pm xs ys,
  holds mm px xs -> holds mm py ys -> holds mm pm (repeat f0 (length xs * length ys)) ->
  disjoint pm (length xs * length ys) px (length xs) ->
  disjoint pm (length xs * length ys) py (length ys) ->
  OUTER (length xs) (length ys) px py pm mm = Ok (tt, writem mm pm (outer_f xs ys)).
Definition mvm_spec (MVM : nat -> nat -> ptr -> ptr -> ptr -> M unit) : Prop :=
  forall mm pm pv py n ms vs,
  holds mm pm ms -> holds mm pv vs -> length ms = n * length vs ->
  holds mm py (repeat f0 n) ->
  disjoint py n pm (length ms) -> disjoint py n pv (length vs) ->
  (forall i, i < n -> kal c (length vs) mm (pm +! (i * length vs))) ->
  MVM n (length vs) pm pv py mm = Ok (tt, writem mm py (mvm_f c vs (rows n (length vs) ms) f0)).

Lemma outer_builtin : outer_spec (vector_vector_outer c).
Proof. unfold outer_spec. intros. apply vector_vector_outer_ok; auto. Qed.
Lemma mvm_builtin : mvm_spec (matrix_vector_multiply c).
Proof.
  unfold mvm_spec. intros. apply matrix_vector_multiply_ok; auto.
  destruct (has_avx512 c); auto. apply holds_valid in H2. rewrite repeat_length in H2. auto.
Qed.

Section Backward.
Variables (M1 : mem) (ls : list layer) (net : list (flayer * act)) (acts : list ptr) (vals : list (list F)).
Variables (pg : ptr) (e : list F).
Let nl := length ls.
Let total := goff ls nl.
Let gs := grad_ptrs ls pg.
Hypothesis Hnl : nl <> 0.
Hypothesis Lnet : length net = nl.
Hypothesis Lacts : length acts = nl + 1.
Hypothesis Lvals : length vals = nl + 1.
Hypothesis Hz : holds M1 pg (repeat f0 total).
Hypothesis Hacts : forall i p v, nth_error acts i = Some p -> nth_error vals i = Some v ->
  holds M1 p v /\ disjoint pg total p (length v).
Hypothesis Hlay : forall i l f d, nth_error ls i = Some l -> nth_error net i = Some (f, d) ->
  1 <= n_output l /\ n_output l = fn_out f /\ l_deriv l = Some d /\ length (fw f) = n_input l * n_output l /\
  holds M1 (weight l) (fw f) /\ disjoint pg total (weight l) (n_input l * n_output l).
Hypothesis Hdim_in : forall i l v, nth_error ls i = Some l -> nth_error vals i = Some v -> length v = n_input l.
Hypothesis Hdim_out : forall i l v, nth_error ls i = Some l -> nth_error vals (i + 1) = Some v -> length v = n_output l.
Hypothesis Hal_d : forall i l f d p, nth_error ls i = Some l -> nth_error net i = Some (f, d) -> nth_error acts (i + 1) = Some p ->
  deriv_pre c d M1 p (pg +! goff ls i) (n_output l).
Hypothesis Hal_w : forall i l r, nth_error ls (i + 1) = Some l -> r < n_input l ->
  kal c (n_output l) M1 (weight l +! (r * n_output l)).
Hypothesis He : forall l, nth_error ls (nl - 1) = Some l -> length e = n_output l.

Definition bp_at (i : nat) := bp_f (skipn i net) (skipn i vals) e.

Lemma chain i l l1 : nth_error ls i = Some l -> nth_error ls (i + 1) = Some l1 -> n_input l1 = n_output l.
Proof.
  intros H1 H2. assert (i + 1 < nl) by (eapply nth_error_lt; eauto).
  destruct (@nth_error_ex _ vals (i + 1)) as [v Hv]; [lia|].
  rewrite <- (Hdim_in _ _ _ H2 Hv). eapply Hdim_out; eauto.
Qed.

Lemma bp_at_last i f d a o :
  i = nl - 1 -> nth_error net i = Some (f, d) -> nth_error vals i = Some a -> nth_error vals (i + 1) = Some o ->
  bp_at i = [(deriv_f d o e, outer_f a (deriv_f d o e))].
Proof.
  intros Hi H1 H2 H3. unfold bp_at.
  rewrite (skipn_nth _ _ _ _ H1), (skipn_nth _ _ _ _ H2), (skipn_nth _ _ _ _ H3).
  rewrite skipn_all2 by lia. reflexivity.
Qed.

Lemma bp_at_step i f d f2 dd2 a o d2 w2 rest :
  nth_error net i = Some (f, d) -> nth_error net (i + 1) = Some (f2, dd2) ->
  nth_error vals i = Some a -> nth_error vals (i + 1) = Some o ->
  bp_at (i + 1) = (d2, w2) :: rest ->
  let dl := deriv_f d o (mvm_f c d2 (rows (fn_out f) (length d2) (fw f2)) f0) in
  bp_at i = (dl, outer_f a dl) :: bp_at (i + 1).
Proof.
  intros H1 H2 H3 H4 E. unfold bp_at in *.
  rewrite (skipn_nth _ _ _ _ H1), (skipn_nth _ _ _ _ H3).
  rewrite (skipn_nth _ _ _ _ H4) in *. rewrite (skipn_nth _ _ _ _ H2) in *.
  cbv zeta. rewrite bp_f_cons2, E. reflexivity.
Qed.

(** sizes and existence *)
Lemma bp_at_shape : forall k i, i + k = nl - 1 ->
  exists d2 w2 rest l, bp_at i = (d2, w2) :: rest /\ nth_error ls i = Some l /\ length d2 = n_output l /\
    length (flat (bp_at i)) = total - goff ls i.
Proof.
  induction k; intros i Hi.
  - destruct (@nth_error_ex _ ls i) as [l Hl]; [fold nl; lia|].
    destruct (@nth_error_ex _ net i) as [[f d] Hn]; [lia|].
    destruct (@nth_error_ex _ vals i) as [a Ha]; [lia|].
    destruct (@nth_error_ex _ vals (i + 1)) as [o Ho]; [lia|].
    pose proof (bp_at_last i f d a o ltac:(lia) Hn Ha Ho) as E.
    assert (Ll : length e = n_output l) by (apply He; replace (nl - 1) with i by lia; auto).
    assert (Ld : length (deriv_f d o e) = n_output l).
    { rewrite length_deriv_f; auto. rewrite Ll. eapply Hdim_out; eauto. }
    exists (deriv_f d o e), (outer_f a (deriv_f d o e)), [], l.
    split; [|split; [|split]]; auto. rewrite E. simpl. rewrite !app_length, length_outer_f, Ld. simpl.
    rewrite (Hdim_in _ _ _ Hl Ha). unfold total. replace nl with (i + 1) by lia.
    rewrite (goff_S _ _ _ Hl). lia.
  - destruct (IHk (i + 1) ltac:(lia)) as (d2 & w2 & rest & l1 & E & Hl1 & Ld2 & Lf).
    destruct (@nth_error_ex _ ls i) as [l Hl]; [fold nl; lia|].
    destruct (@nth_error_ex _ net i) as [[f d] Hn]; [lia|].
    destruct (@nth_error_ex _ net (i + 1)) as [[f2 dd2] Hn2]; [lia|].
    destruct (@nth_error_ex _ vals i) as [a Ha]; [lia|].
    destruct (@nth_error_ex _ vals (i + 1)) as [o Ho]; [lia|].
    pose proof (bp_at_step i f d f2 dd2 a o d2 w2 rest Hn Hn2 Ha Ho E) as E2. cbv zeta in E2.
    destruct (Hlay _ _ _ _ Hl Hn) as (P1 & P2 & P3 & P4 & P5).
    set (dl := deriv_f d o (mvm_f c d2 (rows (fn_out f) (length d2) (fw f2)) f0)) in *.
    assert (Ld : length dl = n_output l).
    { unfold dl. rewrite length_deriv_f; unfold mvm_f; rewrite map_length, length_rows; auto.
      rewrite <- P2. eapply Hdim_out; eauto. }
    exists dl, (outer_f a dl), (bp_at (i + 1)), l.
    split; [|split; [|split]]; auto. rewrite E2. simpl. rewrite !app_length, length_outer_f, Ld.
    fold (flat (bp_at (i + 1))). rewrite Lf. rewrite (Hdim_in _ _ _ Hl Ha).
    pose proof (goff_S _ _ _ Hl). pose proof (goff_mono ls (i + 1) nl ltac:(lia)). fold total in H0. lia.
Qed.

Lemma Vpg : valid M1 pg total.
Proof. pose proof (holds_valid Hz) as V. rewrite repeat_length in V. auto. Qed.

Lemma zeros_at m' o k : holds m' pg (repeat f0 total) -> o + k <= total -> holds m' (pg +! o) (repeat f0 k).
Proof.
  intros H Hk. rewrite <- (@slice_repeat _ o k f0 total) by lia.
  apply holds_sub; auto. rewrite repeat_length; auto.
Qed.

(** memory before the iteration k-1 *)
Definition st (k : nat) : mem :=
  if k =? nl then writem M1 (pg +! goff ls (nl - 1)) e
  else writem M1 (pg +! goff ls k) (flat (bp_at k)).

(** what is preserved by writes at or after an offset of the gradient *)
Lemma keep_holds o xs p v : o + length xs <= total -> holds M1 p v -> disjoint pg total p (length v) ->
  holds (writem M1 (pg +! o) xs) p v.
Proof.
  intros Ho H D. apply holds_writem_disjoint; auto.
  - apply valid_sub with (n := total); auto. apply Vpg.
  - eapply disjoint_sub; eauto; simpl; lia.
Qed.
Lemma deriv_pre_writem d m p xs a r n : deriv_pre c d (writem m p xs) a r n <-> deriv_pre c d m a r n.
Proof. destruct d; simpl; rewrite ?aligned_to_writem; tauto. Qed.

(** derivative and outer product of one layer.  m0 has zeros from the layer's weight gradient on,
    [ex] is in the bias gradient *)
Lemma layer_step OUTER i l f d a_in a_out a o ex rest :
  outer_spec OUTER -> nth_error ls i = Some l -> nth_error net i = Some (f, d) ->
  nth_error acts i = Some a_in -> nth_error acts (i + 1) = Some a_out ->
  nth_error vals i = Some a -> nth_error vals (i + 1) = Some o ->
  length ex = n_output l -> length rest = total - goff ls (i + 1) ->
  forall K : M unit,
  let gb := pg +! goff ls i in
  let dl := deriv_f d o ex in
  (activation_derivative_of c d (n_output l) a_out gb ;;;
   OUTER (n_input l) (n_output l) a_in gb (pg +! (goff ls i + n_output l)) ;;; K)
    (writem (writem M1 (pg +! goff ls (i + 1)) rest) gb ex) =
  K (writem M1 gb (dl ++ outer_f a dl ++ rest)).
Proof.
  intros HKo Hl Hn Hai Hao Ha Ho Lex Lr K gb dl.
  destruct (Hlay _ _ _ _ Hl Hn) as (P1 & P2 & P3 & P4 & P5 & P6).
  assert (Hi : i < nl) by (eapply nth_error_lt; eauto).
  pose proof (goff_S _ _ _ Hl) as GS. pose proof (goff_mono ls (i + 1) nl ltac:(lia)) as GM. fold total in GM.
  pose proof Vpg as V.
  destruct (Hacts _ _ _ Hai Ha) as [HA DA]. destruct (Hacts _ _ _ Hao Ho) as [HO DO].
  assert (LO : length o = n_output l) by (eapply Hdim_out; eauto).
  assert (LA : length a = n_input l) by (eapply Hdim_in; eauto).
  set (m1 := writem M1 (pg +! goff ls (i + 1)) rest).
  assert (Vg : valid m1 gb (n_output l)).
  { apply valid_writem; [rewrite Lr; apply valid_sub with (n := total); auto; lia|].
    apply valid_sub with (n := total); auto; lia. }
  assert (Ldl : length dl = n_output l) by (unfold dl; rewrite length_deriv_f; lia).
  erewrite bind_ok.
  2:{ rewrite <- Lex. apply activation_derivative_ok with (actv := o) (ar := ex); auto.
      - apply holds_writem_disjoint; [rewrite Lex; auto| |].
        + apply keep_holds; auto. lia.
        + rewrite Lex. eapply disjoint_sub; eauto; simpl; lia.
      - apply holds_writem_same. rewrite Lex; auto.
      - lia.
      - rewrite Lex, <- LO. eapply disjoint_sub; eauto; simpl; lia.
      - apply deriv_pre_writem, deriv_pre_writem. rewrite Lex. eapply Hal_d; eauto. }
  fold dl. rewrite writem_writem_same by (rewrite ?Lex; auto).
  set (m2 := writem m1 gb dl).
  assert (Hm2z : holds m2 (pg +! (goff ls i + n_output l)) (repeat f0 (n_input l * n_output l))).
  { apply holds_writem_disjoint.
    - rewrite Ldl; auto.
    - apply holds_writem_disjoint.
      + rewrite Lr; apply valid_sub with (n := total); auto; lia.
      + apply zeros_at; auto. lia.
      + rewrite repeat_length. right. right. simpl. lia.
    - right. left. simpl. lia. }
  erewrite bind_ok.
  2:{ rewrite <- LA, <- Ldl. apply HKo with (xs := a) (ys := dl).
      - apply holds_writem_disjoint; [rewrite Ldl; auto| |].
        + apply keep_holds; auto. lia.
        + rewrite Ldl. eapply disjoint_sub; eauto; simpl; lia.
      - apply holds_writem_same. rewrite Ldl; auto.
      - rewrite LA, Ldl. auto.
      - rewrite LA, Ldl. rewrite <- LA at 2. eapply disjoint_sub; eauto; simpl; lia.
      - right. right. simpl. lia. }
  f_equal.
  assert (LO' : length (outer_f a dl) = n_input l * n_output l) by (rewrite length_outer_f, LA, Ldl; auto).
  unfold m2.
  rewrite Ldl. rewrite <- Ldl at 1. rewrite <- padd_padd. fold gb.
  rewrite writem_writem_app. 2:{ rewrite Ldl, LO'. unfold m1. apply valid_writem; [rewrite Lr; apply valid_sub with (n := total); auto; lia|].
    apply valid_sub with (n := total); auto; lia. }
  unfold m1. replace (pg +! goff ls (i + 1)) with (gb +! length (dl ++ outer_f a dl)).
  2:{ unfold gb. rewrite padd_padd, app_length, Ldl, LO'. f_equal. lia. }
  rewrite writem_prepend.
  - rewrite app_assoc. reflexivity.
  - rewrite app_length, Ldl, LO', Lr. apply valid_sub with (n := total); auto. lia.
Qed.

Lemma backward_with_ok MVM OUTER : mvm_spec MVM -> outer_spec OUTER ->
  forall k, k <= nl -> backward_with c MVM OUTER ls acts gs k (st k) = Ok (tt, st 0).
Proof.
  intros HKm HKo. induction k as [|i IH]; intros Hk; [reflexivity|].
  assert (Hi : i < nl) by lia.
  destruct (@nth_error_ex _ ls i) as [l Hl]; [auto|].
  destruct (@nth_error_ex _ net i) as [[f d] Hn]; [lia|].
  destruct (@nth_error_ex _ vals i) as [a Ha]; [lia|].
  destruct (@nth_error_ex _ vals (i + 1)) as [o Ho]; [lia|].
  destruct (@nth_error_ex _ acts i) as [a_in Hai]; [lia|].
  destruct (@nth_error_ex _ acts (i + 1)) as [a_out Hao]; [lia|].
  destruct (Hlay _ _ _ _ Hl Hn) as (P1 & P2 & P3 & P4 & P5 & P6).
  pose proof (goff_S _ _ _ Hl) as GS. pose proof (goff_mono ls (i + 1) nl ltac:(lia)) as GM. fold total in GM.
  pose proof Vpg as V.
  simpl backward_with. rewrite Hl, Hai, Hao. unfold gs. rewrite (grad_ptrs_nth _ _ _ _ Hl), P3.
  assert (ES : st i = writem M1 (pg +! goff ls i) (flat (bp_at i))).
  { unfold st. destruct (Nat.eqb_spec i nl); [lia|]. reflexivity. }
  fold nl. destruct (Nat.eqb_spec i (nl - 1)) as [Elast|Enl].
  - erewrite bind_ok by reflexivity.
    assert (Le : length e = n_output l) by (apply He; rewrite <- Elast; auto).
    pose proof (bp_at_last i f d a o Elast Hn Ha Ho) as EB.
    pose proof (layer_step OUTER i l f d a_in a_out a o e [] HKo Hl Hn Hai Hao Ha Ho Le) as LS.
    cbv zeta in LS.
    assert (E1 : st (S i) = writem (writem M1 (pg +! goff ls (i + 1)) []) (pg +! goff ls i) e).
    { unfold st. replace (S i =? nl) with true by (symmetry; apply Nat.eqb_eq; lia).
      rewrite writem_nil. rewrite <- Elast. reflexivity. }
    rewrite E1. rewrite LS.
    + rewrite <- IH by lia. rewrite ES, EB. unfold flat. simpl. rewrite !app_nil_r. reflexivity.
    + unfold total. replace nl with (i + 1) by lia. rewrite Nat.sub_diag. reflexivity.
  - destruct (@nth_error_ex _ ls (i + 1)) as [l1 Hl1]; [fold nl; lia|].
    destruct (@nth_error_ex _ net (i + 1)) as [[f2 dd2] Hn2]; [lia|].
    destruct (bp_at_shape (nl - 1 - (i + 1)) (i + 1) ltac:(lia)) as (d2 & w2 & rest & l1' & E & Hl1' & Ld2 & Lf).
    assert (l1' = l1) by congruence. subst l1'.
    destruct (Hlay _ _ _ _ Hl1 Hn2) as (Q1 & Q2 & Q3 & Q4 & Q5 & Q6).
    pose proof (chain _ _ _ Hl Hl1) as CH.
    pose proof (goff_S _ _ _ Hl1) as GS1. pose proof (goff_mono ls (i + 1 + 1) nl ltac:(lia)) as GM1. fold total in GM1.
    rewrite Hl1, (grad_ptrs_nth _ _ _ _ Hl1).
    assert (E1 : st (S i) = writem M1 (pg +! goff ls (i + 1)) (flat (bp_at (i + 1)))).
    { unfold st. replace (S i =? nl) with false by (symmetry; apply Nat.eqb_neq; lia).
      rewrite <- Nat.add_1_r. reflexivity. }
    rewrite E1.
    assert (Vr : valid M1 (pg +! goff ls (i + 1)) (length (flat (bp_at (i + 1))))).
    { rewrite Lf. apply valid_sub with (n := total); auto. lia. }
    assert (FH : flat (bp_at (i + 1)) = d2 ++ (w2 ++ flat rest)).
    { rewrite E. unfold flat. simpl. rewrite <- app_assoc. reflexivity. }
    erewrite bind_ok.
    2:{ rewrite <- Ld2. apply HKm with (ms := fw f2) (vs := d2).
        - apply keep_holds; auto. + lia. + rewrite Q4; auto.
        - apply (@holds_app_inv _ _ _ d2 (w2 ++ flat rest)). rewrite <- FH. apply holds_writem_same; auto.
        - rewrite Q4, Ld2. reflexivity.
        - assert (HH : holds (writem M1 (pg +! goff ls (i + 1)) (flat (bp_at (i + 1)))) (pg +! goff ls i) (repeat f0 (n_input l1))).
          { apply holds_writem_disjoint; auto.
            - apply zeros_at; auto. lia.
            - rewrite repeat_length. right. right. simpl. lia. }
          exact HH.
        - rewrite Q4. eapply disjoint_sub; eauto; simpl; lia.
        - right. left. simpl. lia.
        - intros r Hr. apply kal_writem. rewrite Ld2. apply (Hal_w i); auto. }
    rewrite CH.
    rewrite layer_step with (f := f) (o := o) (a := a); auto.
    + rewrite <- IH by lia. rewrite ES. unfold gs.
      pose proof (bp_at_step i f d f2 dd2 a o d2 w2 rest Hn Hn2 Ha Ho E) as E2. cbv zeta in E2.
      rewrite <- P2 in E2. rewrite E2. unfold flat at 2. simpl flat_map. fold (flat (bp_at (i + 1))). rewrite <- app_assoc. reflexivity.
    + unfold mvm_f. rewrite map_length, length_rows. auto.
Qed.

End Backward.

(** ** the forward pass into the work memory *)
Fixpoint vals_f (net : list flayer) (xs : list F) : list (list F) :=
  xs :: match net with [] => [] | l :: r => vals_f r (layer_f c vexp 0 l xs) end.
Lemma length_vals_f : forall net xs, length (vals_f net xs) = length net + 1.
Proof. induction net; intros; simpl; rewrite ?IHnet; lia. Qed.
Lemma acts_f_vals : forall net addrs xs, length net = length addrs ->
  Forall (fun a => al c a 0 = true) addrs ->
  xs :: acts_f c vexp net addrs xs = vals_f net xs.
Proof.
  induction net as [|l net IH]; intros [|a addrs] xs HL HA; simpl in *; try lia; auto.
  inversion HA; subst. rewrite IH by (auto; lia). unfold layer_f at 1. rewrite act_f_al by auto. reflexivity.
Qed.

Lemma holds_writes : forall l m q ys,
  Forall (fun pv => valid m (fst pv) (length (snd pv))) l -> holds m q ys ->
  Forall (fun pv => disjoint (fst pv) (length (snd pv)) q (length ys)) l ->
  holds (writes m l) q ys.
Proof.
  induction l as [|[p v] l IH]; intros m q ys V H D; simpl; auto.
  inversion V; subst. inversion D; subst. simpl in *. unfold writes. simpl. apply IH; auto.
  - eapply Forall_impl; [|apply H3]. intros. apply valid_writem; auto.
  - apply holds_writem_disjoint; auto.
Qed.
Lemma writes_holds : forall l m,
  Forall (fun pv => valid m (fst pv) (length (snd pv))) l ->
  ForallOrdPairs (fun pv qw => disjoint (fst qw) (length (snd qw)) (fst pv) (length (snd pv))) l ->
  Forall (fun pv => holds (writes m l) (fst pv) (snd pv)) l.
Proof.
  induction l as [|[p v] l IH]; intros m V D; constructor; inversion V; inversion D; subst; simpl in *.
  - unfold writes. simpl. apply holds_writes; auto.
    + eapply Forall_impl; [|apply H2]. intros. apply valid_writem; auto.
    + apply holds_writem_same; auto.
  - unfold writes. simpl. apply IH; auto.
    eapply Forall_impl; [|apply H2]. intros. apply valid_writem; auto.
Qed.

Lemma work_pairs L nb : forall ls (vs : list (list F)) o, Forall2 (fun l v => length v = n_output l) ls vs -> ls <> [] ->
  o + sum_outputs ls + fps c * length ls <= nb ->
  let l := combine (mkptr L o :: work_ptrs c (removelast ls) (mkptr L o)) vs in
  Forall (fun pv => blk (fst pv) = L /\ o <= off (fst pv) /\ off (fst pv) + length (snd pv) <= nb) l /\
  ForallOrdPairs (fun pv qw => disjoint (fst qw) (length (snd qw)) (fst pv) (length (snd pv))) l.
Proof.
  induction ls as [|l ls IH]; intros vs o H Hne Hs; [congruence|]. inversion H; subst. clear H.
  rewrite sum_outputs_cons in Hs. simpl length in Hs.
  destruct ls as [|l2 ls].
  - inversion H4; subst. simpl. split.
    + constructor; auto. simpl. repeat split; auto. lia.
    + constructor; constructor.
  - change (removelast (l :: l2 :: ls)) with (l :: removelast (l2 :: ls)).
    pose proof (padding_ge c (n_output l)) as PG. pose proof (padding_le c (n_output l)) as PL.
    destruct (IH l' (o + size_w_padding c (n_output l))) as [A B]; auto; try congruence.
    { simpl length in *. nia. }
    cbn [work_ptrs combine]. unfold padd. cbn [blk off].
    cbn [combine] in A, B. split; constructor.
    + cbn [fst snd blk off]. repeat split; auto. lia.
    + eapply Forall_impl; [|exact A]. cbn beta. intros ? (E1 & E2 & E3). repeat split; auto. lia.
    + eapply Forall_impl; [|exact A]. cbn beta. intros ? (E1 & E2 & E3). cbn [fst snd]. right. right. cbn [off]. lia.
    + exact B.
Qed.

Lemma net_holds_nth m : forall ls net n i l f, net_holds c m n ls net ->
  nth_error ls i = Some l -> nth_error net i = Some f ->
  layer_holds c m (n_input l) l f.
Proof.
  induction ls as [|l0 ls IH]; intros [|f0 net] n [|i] l f H H1 H2; simpl in *; try discriminate; try tauto.
  - inversion H1; inversion H2; subst. destruct H as [H _]. destruct (H) as (A & _). rewrite A. auto.
  - destruct H as [_ H]. eauto.
Qed.
Lemma vals_dims m : forall ls net xs i l, net_holds c m (length xs) ls net -> nth_error ls i = Some l ->
  (forall v, nth_error (vals_f net xs) i = Some v -> length v = n_input l) /\
  (forall v, nth_error (vals_f net xs) (i + 1) = Some v -> length v = n_output l).
Proof.
  induction ls as [|l0 ls IH]; intros [|f net] xs i l H Hl; simpl in H; try tauto.
  { destruct i; discriminate. }
  destruct H as [(A & B & C & D & E & _) H].
  assert (LL : length (layer_f c vexp 0 f xs) = n_output l0) by (rewrite length_layer_f; auto).
  destruct i as [|i]; simpl in Hl.
  - inversion Hl; subst. simpl. split.
    + intros v Hv. inversion Hv; subst. auto.
    + intros v Hv. destruct net; simpl in Hv; inversion Hv; subst; auto.
  - simpl. rewrite <- LL in H. apply (IH net (layer_f c vexp 0 f xs) i l H Hl).
Qed.
Lemma vals_lengths m : forall ls net xs, net_holds c m (length xs) ls net ->
  Forall2 (fun l v => length v = n_output l) ls (tl (vals_f net xs)).
Proof.
  induction ls as [|l0 ls IH]; intros [|f net] xs H; simpl in H; try tauto. { constructor. }
  destruct H as [(A & B & C & D & E & _) H].
  assert (LL : length (layer_f c vexp 0 f xs) = n_output l0) by (rewrite length_layer_f; auto).
  rewrite <- LL in H. specialize (IH _ _ H). simpl.
  destruct net; simpl in *; constructor; auto.
Qed.

Lemma Forall2_length A B (R : A -> B -> Prop) l1 l2 : Forall2 R l1 l2 -> length l1 = length l2.
Proof. induction 1; simpl; auto. Qed.
Lemma nth_last A (l : list A) d : nth (length l - 1) l d = last l d.
Proof.
  induction l as [|x [|y l] IH]; simpl in *; auto. rewrite <- IH.
  rewrite ?Nat.sub_0_r. reflexivity.
Qed.

Lemma in_combine_nth A B : forall (l1 : list A) (l2 : list B) i x y,
  nth_error l1 i = Some x -> nth_error l2 i = Some y -> In (x, y) (combine l1 l2).
Proof.
  induction l1; intros [|z l2] [|i] x y H1 H2; simpl in *; try discriminate.
  - left. congruence.
  - right. eauto.
Qed.

(** ** backpropagation *)
Definition bp_grad (net : list (flayer * act)) (lf : loss) (xs ts : list F) : list F :=
  let vals := vals_f (map fst net) xs in
  flat (bp_f net vals (loss_f lf (last vals []) ts)).

(** conditions on the alignment that the code relies on but does not check *)
Definition bp_align (m : mem) (ls : list layer) (pg : ptr) : Prop :=
  (forall i l d, nth_error ls i = Some l -> l_deriv l = Some d ->
     deriv_pre c d m (pg +! goff ls i) (pg +! goff ls i) (n_output l)) /\
  (forall i l r, nth_error ls (i + 1) = Some l -> r < n_input l ->
     kal c (n_output l) m (weight l +! (r * n_output l))).

Theorem backprop_with_ok VMM MVM OUTER wb nn lf net m pin pt pg xs ts :
  vmm_spec c VMM -> mvm_spec MVM -> outer_spec OUTER -> nn_layers nn <> [] -> nn_loss nn = Some lf -> aligned_base c wb ->
  net_holds c m (length xs) (nn_layers nn) (map fst net) ->
  Forall2 (fun l fd => l_deriv l = Some (snd fd)) (nn_layers nn) net ->
  holds m pin xs -> holds m pt ts ->
  (forall l, nth_error (nn_layers nn) (length (nn_layers nn) - 1) = Some l -> length ts = n_output l) ->
  al c (addr m pg) 0 = true -> valid m pg (total_n_parameters nn) ->
  disjoint pg (total_n_parameters nn) pin (length xs) ->
  disjoint pg (total_n_parameters nn) pt (length ts) ->
  Forall (off_params pg (total_n_parameters nn)) (nn_layers nn) ->
  bp_align m (nn_layers nn) pg ->
  backprop_with c vexp VMM MVM OUTER wb nn pin pt pg m = Ok (tt, writem m pg (bp_grad net lf xs ts)).
Proof.
  intros HKv HKm HKo Hne Hlf HB HN HD Hin Ht Lt Hal V D1 D2 Off [AL1 AL2]. unfold backprop_with.
  rewrite Hlf. set (T := total_n_parameters nn) in *. pose proof (total_goff nn) as TG. fold T in TG.
  set (ls := nn_layers nn) in *. set (nl := length ls) in *.
  destruct (Nat.eqb_spec nl 0) as [E0|E0]. { unfold nl in E0. destruct ls; simpl in E0; congruence. }
  erewrite bind_ok.
  2:{ unfold is_aligned. unfold al in Hal. rewrite Z.add_0_r in Hal. rewrite Hal. reflexivity. }
  erewrite bind_ok by reflexivity.
  set (N := sum_outputs ls + n_input (hd (Build_layer 0 0 pg pg Linear None) ls) + fps c * nl).
  set (b := mkblock wb (repeat None N)).
  assert (LB : length (cells b) = N) by (simpl; apply repeat_length).
  erewrite bind_ok by reflexivity. fold b.
  erewrite bind_ok by (apply setup_ok; auto; apply Nat.divide_0_r).
  set (w0 := mkptr (length m) 0).
  pose proof (holds_blk _ _ _ Hin) as Hbi. pose proof (holds_blk _ _ _ Ht) as Hbt.
  pose proof (valid_blk _ _ _ V) as Hbg.
  assert (RL : firstn (nl - 1) ls = removelast ls).
  { rewrite removelast_firstn_len. f_equal. unfold nl. lia. }
  rewrite RL. set (ps := w0 :: work_ptrs c (removelast ls) w0).
  assert (Lnet : length net = nl) by (symmetry; exact (Forall2_length _ _ _ _ _ HD)).
  assert (Lps : length ps = nl).
  { unfold ps. simpl. rewrite <- RL, length_firstn_work. fold nl. lia. }
  set (fnet := map fst net) in *.
  assert (HP : fwd_pre c (m ++ [b]) ls fnet pin (length xs) ps).
  { apply fwd_pre_work; auto.
    - apply Nat.divide_0_r.
    - rewrite LB. unfold N. fold nl. lia. }
  erewrite bind_ok by (eapply forward_with_ok; eauto; apply holds_app_l; auto).
  assert (ALH : Forall (fun q => al c (addr (m ++ [b]) q) 0 = true) ps).
  { constructor.
    - unfold w0. rewrite addr_work. apply al_aligned_base; auto. apply Nat.divide_0_r.
    - apply work_ptrs_al; auto. apply Nat.divide_0_r. }
  set (vals := vals_f fnet xs).
  assert (EV : vals = xs :: acts_f c vexp fnet (map (addr (m ++ [b])) ps) xs).
  { symmetry. apply acts_f_vals.
    - unfold fnet. rewrite !map_length. lia.
    - apply Forall_map. auto. }
  assert (EVt : acts_f c vexp fnet (map (addr (m ++ [b])) ps) xs = tl vals) by (rewrite EV; reflexivity).
  rewrite EVt.
  destruct (work_pairs (length m) N ls (tl vals) 0) as [WP1 WP2]; auto.
  { unfold vals. eapply vals_lengths; eauto. }
  { unfold N. fold nl. lia. }
  fold w0 in WP1, WP2. fold ps in WP1, WP2.
  destruct (writes_last m (combine ps (tl vals)) b) as (b' & EW & Eb').
  { eapply Forall_impl; [|exact WP1]. cbn beta. tauto. }
  pose proof (writes_holds (combine ps (tl vals)) (m ++ [b])) as WH.
  rewrite EW in *.
  assert (Lvals : length vals = nl + 1).
  { unfold vals. rewrite length_vals_f. unfold fnet. rewrite map_length. lia. }
  assert (WH' : Forall (fun pv => holds (m ++ [b']) (fst pv) (snd pv)) (combine ps (tl vals))).
  { apply WH; auto. eapply Forall_impl; [|exact WP1]. cbn beta. intros [q v] (E1 & E2 & E3). cbn [fst snd] in *.
    unfold valid. rewrite E1, nth_error_last. exists b. rewrite LB. auto. }
  clear WH.
  (* memset *)
  set (M1 := writem m pg (repeat f0 T) ++ [b']).
  assert (VT : valid m pg (length (repeat f0 T))) by (rewrite repeat_length; auto).
  assert (EM1 : M1 = writem (m ++ [b']) pg (repeat f0 T)) by (unfold M1; rewrite writem_app_l; auto).
  assert (ES : storev pg (repeat f0 T) (m ++ [b']) = Ok (tt, M1)).
  { rewrite EM1. pose proof (@storev_valid _ (m ++ [b']) pg T 0 (repeat f0 T)) as S0. rewrite padd_0 in S0.
    apply S0; [apply valid_app_l; auto|rewrite repeat_length; lia]. }
  erewrite bind_ok by exact ES.
  assert (Vb' : valid (m ++ [b']) pg (length (repeat f0 T))) by (apply valid_app_l; auto).
  assert (HA : forall i p v, nth_error (pin :: ps) i = Some p -> nth_error vals i = Some v ->
    holds M1 p v /\ disjoint pg T p (length v)).
  { intros [|i] p v Hp Hv.
    - rewrite EV in Hv. simpl in Hp, Hv. inversion Hp; inversion Hv; subst. split; auto.
      unfold M1. apply holds_app_l; [rewrite length_writem; auto|].
      apply holds_writem_disjoint; auto. rewrite repeat_length. auto.
    - assert (IN : In (p, v) (combine ps (tl vals))).
      { rewrite EV in Hv. cbn [nth_error] in Hv, Hp. rewrite EVt in Hv. eapply in_combine_nth; eauto. }
      rewrite Forall_forall in WH', WP1. pose proof (WP1 _ IN) as (E1 & _). apply WH' in IN. simpl in *.
      assert (DD : forall k j, disjoint pg k p j) by (intros; apply disjoint_blk; lia).
      split; auto. rewrite EM1. apply holds_writem_disjoint; auto. }
  destruct (@nth_error_ex _ ls (nl - 1)) as [l Hl]; [fold nl; lia|].
  destruct (@nth_error_ex _ (pin :: ps) nl) as [output Ho]; [cbn [length]; rewrite Lps; lia|].
  destruct (@nth_error_ex _ vals nl) as [ov Hov]; [lia|].
  change (pin :: w0 :: work_ptrs c (removelast ls) w0) with (pin :: ps).
  rewrite Ho. rewrite Hl. rewrite (grad_ptrs_nth _ _ _ _ Hl).
  assert (Lo : length ov = n_output l).
  { eapply vals_dims; eauto. replace (nl - 1 + 1) with nl by lia. auto. }
  assert (GT : goff ls (nl - 1) + n_output l + n_input l * n_output l = T).
  { rewrite TG, <- (goff_S _ _ _ Hl). f_equal. lia. }
  destruct (HA _ _ _ Ho Hov) as [HO DO].
  assert (ETS : holds M1 pt ts).
  { unfold M1. apply holds_app_l; [rewrite length_writem; auto|].
    apply holds_writem_disjoint; auto. rewrite repeat_length. auto. }
  specialize (Lt l Hl).
  assert (VM : valid M1 pg T). { rewrite EM1. apply valid_writem; auto. apply valid_app_l; auto. }
  erewrite bind_ok.
  2:{ apply loss_func_ok with (ps := ov) (rs := ts); auto.
      - apply valid_sub with (n := T); auto. lia.
      - rewrite <- Lo. eapply disjoint_sub; eauto; simpl; lia.
      - rewrite <- Lt. eapply disjoint_sub; eauto; simpl; lia. }
  set (e := loss_f lf ov ts).
  assert (Le : length e = n_output l) by (unfold e, loss_f; rewrite length_map2; lia).
  assert (EL : last vals [] = ov).
  { clear -Hov Lvals E0. rewrite <- (nth_last _ vals []). rewrite Lvals. replace (nl + 1 - 1) with nl by lia.
    apply nth_error_nth; auto. }
  assert (HLAY : forall i l f d, nth_error ls i = Some l -> nth_error net i = Some (f, d) ->
    1 <= n_output l /\ n_output l = fn_out f /\ l_deriv l = Some d /\ length (fw f) = n_input l * n_output l /\
    holds M1 (weight l) (fw f) /\ disjoint pg T (weight l) (n_input l * n_output l)).
  { intros i l' f d Hl' Hf.
        assert (Hff : nth_error fnet i = Some f) by (unfold fnet; rewrite nth_error_map, Hf; auto).
        pose proof (net_holds_nth _ _ _ _ _ _ _ HN Hl' Hff) as (A & B & C & D & E & G & G2 & G3).
        split; auto. split; auto. split.
        { clear -HD Hl' Hf. revert i Hl' Hf. induction HD; intros [|i] Hl' Hf; simpl in *; try discriminate; eauto.
          inversion Hl'; inversion Hf; subst. auto. }
        split; [congruence|].
        assert (OP : off_params pg T l').
        { rewrite Forall_forall in Off. apply Off. eapply nth_error_In; eauto. }
        destruct OP as [OP _]. split; auto.
        unfold M1. apply holds_app_l; [rewrite length_writem; eapply holds_blk; eauto|].
        apply holds_writem_disjoint; auto. rewrite repeat_length, E, <- C. auto. }
  assert (HDI : forall i l v, nth_error ls i = Some l -> nth_error vals i = Some v -> length v = n_input l).
  { intros i l' v Hl' Hv. eapply vals_dims; eauto. }
  assert (HDO : forall i l v, nth_error ls i = Some l -> nth_error vals (i + 1) = Some v -> length v = n_output l).
  { intros i l' v Hl' Hv. eapply vals_dims; eauto. }
  assert (HE : forall l', nth_error ls (nl - 1) = Some l' -> length e = n_output l').
  { intros l' Hl'. assert (l' = l) by congruence. subst. auto. }
  pose proof (backward_with_ok M1 ls net (pin :: ps) vals pg e) as BO. fold nl in BO.
  rewrite <- TG in BO.
  assert (ST : writem M1 (pg +! goff ls (nl - 1)) e = st M1 ls net vals pg e nl).
  { unfold st. fold nl. rewrite Nat.eqb_refl. reflexivity. }
  rewrite ST.
  erewrite bind_ok.
  2:{ apply BO; auto; clear BO.
      - cbn [length]. rewrite Lps. lia.
      - rewrite EM1. apply holds_writem_same. auto.
      - intros i l' f d p Hl' Hf Hp.
        assert (Hd : l_deriv l' = Some d).
        { clear -HD Hl' Hf. revert i Hl' Hf. induction HD; intros [|i] Hl' Hf; simpl in *; try discriminate; eauto.
          inversion Hl'; inversion Hf; subst. auto. }
        specialize (AL1 _ _ _ Hl' Hd).
        assert (AP : has_avx c = true -> aligned_to 8 M1 p = true).
        { intros HX. rewrite EM1, aligned_to_writem. rewrite Nat.add_1_r in Hp. simpl in Hp. apply nth_error_In in Hp.
          rewrite Forall_forall in ALH. specialize (ALH _ Hp).
          apply al_aligned8' with (c := c); auto. rewrite <- ALH. f_equal.
          unfold addr.
          assert (blk p = length m).
          { destruct Hp as [<-|Hp]; auto. pose proof (work_ptrs_blk c (removelast ls) w0) as G.
            rewrite Forall_forall in G. apply G; auto. }
          rewrite H, !nth_error_last, Eb'. reflexivity. }
        assert (AG : aligned_to 8 M1 (pg +! goff ls i) = aligned_to 8 m (pg +! goff ls i)).
        { unfold M1. rewrite aligned_to_app_l by (rewrite length_writem; auto). apply aligned_to_writem. }
        destruct d; simpl in *; auto; intros; rewrite AG; split; auto; apply AL1; auto.
      - intros i l' r Hl' Hr. unfold M1.
        assert (Hi : i + 1 < length ls) by (eapply nth_error_lt; eauto).
        pose proof (net_holds_in_m _ _ _ _ _ HN) as IM. rewrite Forall_forall in IM.
        destruct (IM l') as [IMw _]. { eapply nth_error_In; eauto. }
        apply kal_app_l; [rewrite length_writem; auto|]. apply kal_writem. eapply AL2; eauto.
      }
  unfold st. fold nl. destruct (Nat.eqb_spec 0 nl); [lia|]. replace (goff ls 0) with 0 by (destruct ls; reflexivity). rewrite padd_0.
  assert (LF : length (flat (bp_at net vals e 0)) = T).
  { pose proof (bp_at_shape M1 ls net (pin :: ps) vals pg e) as BS. fold nl in BS. rewrite <- TG in BS.
    assert (LP : length (pin :: ps) = nl + 1) by (cbn [length]; rewrite Lps; lia).
    destruct (BS E0 Lnet LP Lvals HLAY HDI HDO HE (nl - 1) 0 eq_refl) as (? & ? & ? & ? & _ & _ & _ & LF).
    rewrite LF. replace (goff ls 0) with 0 by (destruct ls; reflexivity). lia. }
  unfold freea. rewrite EM1. rewrite writem_writem_same by (exact Vb' || (rewrite LF, repeat_length; auto)).
  rewrite writem_app_l by auto. rewrite removelast_last.
  unfold bp_grad. fold fnet. fold vals. rewrite EL. fold e. unfold bp_at. reflexivity.
Qed.

Theorem backprop_ok wb nn lf net m pin pt pg xs ts :
  nn_layers nn <> [] -> nn_loss nn = Some lf -> aligned_base c wb ->
  net_holds c m (length xs) (nn_layers nn) (map fst net) ->
  Forall2 (fun l fd => l_deriv l = Some (snd fd)) (nn_layers nn) net ->
  holds m pin xs -> holds m pt ts ->
  (forall l, nth_error (nn_layers nn) (length (nn_layers nn) - 1) = Some l -> length ts = n_output l) ->
  al c (addr m pg) 0 = true -> valid m pg (total_n_parameters nn) ->
  disjoint pg (total_n_parameters nn) pin (length xs) ->
  disjoint pg (total_n_parameters nn) pt (length ts) ->
  Forall (off_params pg (total_n_parameters nn)) (nn_layers nn) ->
  bp_align m (nn_layers nn) pg ->
  neuralnet_backpropagation c vexp wb nn pin pt pg m = Ok (tt, writem m pg (bp_grad net lf xs ts)).
Proof.
  intros. rewrite backprop_builtin.
  apply backprop_with_ok; auto using vmm_builtin, mvm_builtin, outer_builtin.
Qed.

End BackpropProofs.
