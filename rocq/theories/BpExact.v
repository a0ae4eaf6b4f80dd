(** BpExact.v -- a run of the backpropagation that ends well has found every aligned access aligned *)
From Coq Require Import List Arith ZArith Lia Bool.
From Verif Require Import Base BaseProofs Ops Mem MemProofs Kernels KernelProofs Activation ActivationProofs
  Loss Neuralnet ForwardProofs BackpropProofs NoFuel.
Import ListNotations.
Local Open Scope nat_scope.
Local Open Scope mem_scope.

Section BpExact.
Context {FO : fops}.

(** [run] leaves every block where it is *)
Definition keeps {A} (run : M A) : Prop := forall m a m', run m = Ok (a, m') -> map base m' = map base m.

Lemma keeps_ret A (a : A) : keeps (ret a). Proof. intros m x m' E. inversion E; subst. reflexivity. Qed.
Lemma keeps_fail A e : keeps (@fail FO A e). Proof. intros m x m' E. discriminate. Qed.
Lemma keeps_bind A B (x : M A) (f : A -> M B) : keeps x -> (forall a, keeps (f a)) -> keeps (bind x f).
Proof.
  intros H1 H2 m b m' E. unfold bind in E. destruct (x m) as [[a m1]|] eqn:E1; [|discriminate].
  rewrite (H2 _ _ _ _ E). apply (H1 _ _ _ E1).
Qed.
Lemma keeps_loadv w p : keeps (loadv w p).
Proof. intros m a m' E. unfold loadv in E. destruct (nth_error _ _); [|discriminate]. destruct (_ <=? _); [|discriminate]. destruct (all_some _); inversion E; subst; reflexivity. Qed.
Lemma map_set_nth A B (f : A -> B) : forall l k x y, nth_error l k = Some y -> f x = f y -> map f (set_nth l k x) = map f l.
Proof.
  induction l as [|a l IH]; intros [|k] x y H1 H2; simpl in *; try discriminate.
  - inversion H1; subst. rewrite H2. reflexivity.
  - f_equal. eapply IH; eauto.
Qed.
Lemma keeps_storev p xs : keeps (storev p xs).
Proof.
  intros m a m' E. unfold storev in E. destruct (nth_error m (blk p)) as [b|] eqn:Hb; [|discriminate].
  destruct (_ <=? _); inversion E; subst. unfold writem. rewrite Hb. eapply map_set_nth; eauto.
Qed.
Lemma keeps_loadv_al w p : keeps (loadv_al w p).
Proof. intros m a m' E. unfold loadv_al in E. destruct (aligned_to _ _ _); [eapply keeps_loadv; eauto|discriminate]. Qed.
Lemma keeps_storev_al p xs : keeps (storev_al p xs).
Proof. intros m a m' E. unfold storev_al in E. destruct (aligned_to _ _ _); [eapply keeps_storev; eauto|discriminate]. Qed.
Lemma keeps_load p : keeps (load p).
Proof. apply keeps_bind; [apply keeps_loadv|]. intros [|x [|? ?]]; try apply keeps_fail. apply keeps_ret. Qed.
Lemma keeps_store p x : keeps (store p x). Proof. apply keeps_storev. Qed.
Lemma keeps_is_aligned c p : keeps (is_aligned c p). Proof. intros m a m' E. inversion E; subst; reflexivity. Qed.
Lemma keeps_assertM b : keeps (assertM b). Proof. destruct b; [apply keeps_ret|apply keeps_fail]. Qed.
Lemma keeps_when A b (x : M A) d : keeps x -> keeps (when b x d).
Proof. intros H. unfold when. destruct b; [exact H|apply keeps_ret]. Qed.
Lemma keeps_for_loop cond w body : (forall i, keeps (body i)) -> forall fuel i, keeps (for_loop fuel cond w i body).
Proof.
  intros Hb. induction fuel as [|k IH]; intros i; cbn [for_loop]; [apply keeps_fail|].
  destruct (cond i); [|apply keeps_ret]. apply keeps_bind; auto.
Qed.
Lemma keeps_for_loop_acc A cond w (body : nat -> A -> M A) : (forall i a, keeps (body i a)) ->
  forall fuel i a, keeps (for_loop_acc fuel cond w i a body).
Proof.
  intros Hb. induction fuel as [|k IH]; intros i a; cbn [for_loop_acc]; [apply keeps_fail|].
  destruct (cond i); [|apply keeps_ret]. apply keeps_bind; auto.
Qed.
Lemma keeps_loop_le w n i body : (forall i, keeps (body i)) -> keeps (loop_le w n i body).
Proof. intros Hb. apply keeps_for_loop; auto. Qed.
Lemma keeps_loop_lt w n i body : (forall i, keeps (body i)) -> keeps (loop_lt w n i body).
Proof. intros Hb. apply keeps_for_loop; auto. Qed.
Lemma keeps_loop1 n i body : (forall i, keeps (body i)) -> keeps (loop1 n i body).
Proof. intros Hb. apply keeps_bind; [|intros; apply keeps_ret]. apply keeps_for_loop; auto. Qed.

Variable c : cfg.
Variable vexp : F -> F.

Ltac e1 :=
  match goal with
  | |- forall _, _ => intro
  | |- keeps (let _ := _ in _) => cbv zeta
  | |- keeps (bind _ _) => apply keeps_bind
  | |- keeps (ret _) => apply keeps_ret
  | |- keeps (fail _) => apply keeps_fail
  | |- keeps (loadv _ _) => apply keeps_loadv
  | |- keeps (storev _ _) => apply keeps_storev
  | |- keeps (loadv_al _ _) => apply keeps_loadv_al
  | |- keeps (storev_al _ _) => apply keeps_storev_al
  | |- keeps (load _) => apply keeps_load
  | |- keeps (store _ _) => apply keeps_store
  | |- keeps (is_aligned _ _) => apply keeps_is_aligned
  | |- keeps (assertM _) => apply keeps_assertM
  | |- keeps (when _ _ _) => apply keeps_when
  | |- keeps (loop_le _ _ _ _) => apply keeps_loop_le
  | |- keeps (loop_lt _ _ _ _) => apply keeps_loop_lt
  | |- keeps (loop1 _ _ _) => apply keeps_loop1
  | |- keeps (for_loop_acc _ _ _ _ _ _) => apply keeps_for_loop_acc
  | |- keeps (let '(_, _) := ?x in _) => destruct x
  | |- keeps (if ?b then _ else _) => destruct b
  | |- keeps (match ?x with _ => _ end) => destruct x
  end.
Ltac es := repeat (e1 || (progress auto)).

Lemma keeps_prologue n p body : (forall i, keeps (body i)) -> forall fuel i, keeps (prologue_loop c fuel n p i body).
Proof.
  intros Hb. induction fuel as [|k IH]; intros i; cbn [prologue_loop]; [es|]. apply keeps_bind; [es|].
  intros a. destruct (negb a && _); [|es]. apply keeps_bind; auto.
Qed.
Lemma keeps_softmax_max n p : forall fuel i v, keeps (softmax_max fuel n p i v).
Proof. induction fuel as [|k IH]; intros i v; cbn [softmax_max]; es. Qed.
Lemma keeps_softmax_prologue n p v : forall fuel i s, keeps (softmax_prologue c fuel n p v i s).
Proof. induction fuel as [|k IH]; intros i s; cbn [softmax_prologue]; unfold softmax_exp1; es. Qed.
Lemma keeps_activation g n p : keeps (activation_func c vexp g n p).
Proof.
  destruct g; unfold activation_func, softplus, softsign, hard_sigmoid, exponential, linear, relu, sigmoid, tanh_act, scalar1, vec2x8;
    try (es; fail); try (apply keeps_bind; [apply keeps_when; apply keeps_bind; [apply keeps_prologue; es|intros; es]|intros; es]).
  unfold softmax, scalar1, softmax_exp1. es; auto using keeps_softmax_max, keeps_softmax_prologue. apply keeps_prologue. es.
Qed.
Lemma keeps_deriv g n a p : keeps (activation_derivative_of c g n a p).
Proof.
  destruct g; cbn [activation_derivative_of]; unfold softplus_derivative, softsign_derivative, hard_sigmoid_derivative, exponential_derivative,
    linear_derivative, softmax_derivative, relu_derivative, sigmoid_derivative, tanh_act_derivative, dvec_loops, dscalar1, dvec2x8; es.
Qed.
Lemma keeps_vmm n m w b x y : keeps (vector_matrix_multiply c n m w b x y).
Proof.
  unfold vector_matrix_multiply, vmm_copy_bias, vmm_row_one, vmm_row_general, three_loops, three_loops_strict. es.
Qed.
Lemma keeps_outer n m x y p : keeps (vector_vector_outer c n m x y p).
Proof. unfold vector_vector_outer, three_loops, three_loops_strict. es. Qed.
Lemma keeps_mvm_row n p v y : keeps (mvm_row c n p v y).
Proof. unfold mvm_row. es. Qed.
Lemma keeps_mvm n m p v y : keeps (matrix_vector_multiply c n m p v y).
Proof. unfold matrix_vector_multiply. apply keeps_loop1. intros. apply keeps_mvm_row. Qed.
Lemma keeps_loss l n p r o : keeps (loss_func l n p r o).
Proof. unfold loss_func. es. Qed.
Lemma keeps_setup : forall ls p, keeps (setup_activations c ls p).
Proof. induction ls as [|l ls IH]; intros p; cbn [setup_activations]; es. Qed.
Lemma keeps_forward : forall ls ps, keeps (forward c vexp ls ps).
Proof.
  induction ls as [|l ls IH]; intros ps; cbn [forward]; [es|]. destruct ps as [|a [|b ps]]; try (es; fail).
  apply keeps_bind; [apply keeps_vmm|]. intros _. apply keeps_bind; [apply keeps_activation|]. intros _. apply IH.
Qed.

(** where the blocks are decides what is aligned *)
Lemma addr_bases m m' p : map base m = map base m' -> addr m p = addr m' p.
Proof.
  intros H. unfold addr. assert (E : nth_error (map base m) (blk p) = nth_error (map base m') (blk p)) by (rewrite H; reflexivity).
  rewrite !nth_error_map in E. destruct (nth_error m (blk p)), (nth_error m' (blk p)); simpl in E; congruence.
Qed.
Lemma aligned_bases m m' w p : map base m = map base m' -> aligned_to w m p = aligned_to w m' p.
Proof. intros H. unfold aligned_to. rewrite (addr_bases m m' p H). reflexivity. Qed.

(** a run that ends well shows P of the memory it starts in *)
Definition shows {A} (P : mem -> Prop) (run : M A) : Prop := forall m a m', run m = Ok (a, m') -> P m.
Definition stable (P : mem -> Prop) : Prop := forall m m', map base m = map base m' -> P m -> P m'.
Lemma shows_bind1 A B P (x : M A) (f : A -> M B) : shows P x -> shows P (bind x f).
Proof. intros H m b m' E. unfold bind in E. destruct (x m) as [[a m1]|] eqn:E1; [|discriminate]. eapply H; eauto. Qed.
Lemma shows_bind2 A B P (x : M A) (f : A -> M B) : stable P -> keeps x -> (forall a, shows P (f a)) -> shows P (bind x f).
Proof.
  intros S K H m b m' E. unfold bind in E. destruct (x m) as [[a m1]|] eqn:E1; [|discriminate]. apply S with (m := m1); [eapply K; eauto|]. eapply H; eauto.
Qed.
(** a fact about the value that the first part returns *)
Lemma shows_bind3 A B P (Q : A -> Prop) (x : M A) (f : A -> M B) : stable P -> keeps x -> returns Q x -> (forall a, Q a -> shows P (f a)) -> shows P (bind x f).
Proof.
  intros S K R H m b m' E. unfold bind in E. destruct (x m) as [[a m1]|] eqn:E1; [|discriminate].
  apply S with (m := m1); [eapply K; eauto|]. eapply H; eauto.
Qed.
Lemma stable_al w p : stable (fun m => aligned_to w m p = true).
Proof. intros m m' H E. rewrite <- (aligned_bases m m' w p H). exact E. Qed.
Lemma shows_loadv_al w p : shows (fun m => aligned_to w m p = true) (loadv_al w p).
Proof. intros m a m' E. unfold loadv_al in E. destruct (aligned_to w m p) eqn:EA; [auto|discriminate]. Qed.
Lemma shows_acc_first A P cond w (body : nat -> A -> M A) fuel i a : cond i = true -> shows P (body i a) ->
  shows P (for_loop_acc fuel cond w i a body).
Proof. intros Hc Hb. destruct fuel; cbn [for_loop_acc]; [intros m x m' E; discriminate|]. rewrite Hc. apply shows_bind1. exact Hb. Qed.
Lemma shows_first P cond w (body : nat -> M unit) fuel i : cond i = true -> shows P (body i) -> shows P (for_loop fuel cond w i body).
Proof. intros Hc Hb. destruct fuel; cbn [for_loop]; [intros m x m' E; discriminate|]. rewrite Hc. apply shows_bind1. exact Hb. Qed.
(** every round of a loop *)
Lemma shows_each (P : nat -> mem -> Prop) n body : (forall i, stable (P i)) -> (forall i, keeps (body i)) -> (forall i, shows (P i) (body i)) ->
  forall fuel i j, i <= j -> j < n -> shows (P j) (for_loop fuel (fun i => i <? n) 1 i body).
Proof.
  intros S K H. induction fuel as [|k IH]; intros i j H1 H2; cbn [for_loop]; [intros m x m' E; discriminate|].
  replace (i <? n) with true by (symmetry; apply Nat.ltb_lt; lia).
  destruct (Nat.eq_dec i j) as [->|]; [apply shows_bind1; apply H|]. apply shows_bind2; auto. intros _. apply IH; lia.
Qed.
Lemma shows_loop1 (P : nat -> mem -> Prop) n body : (forall i, stable (P i)) -> (forall i, keeps (body i)) -> (forall i, shows (P i) (body i)) ->
  forall j, j < n -> shows (P j) (loop1 n 0 body).
Proof. intros S K H j Hj. unfold loop1. apply shows_bind1. apply shows_each; auto; lia. Qed.

Lemma aligned_16_8 m p : aligned_to 16 m p = true -> aligned_to 8 m p = true.
Proof.
  unfold aligned_to. rewrite !Z.eqb_eq. change (4 * Z.of_nat 16)%Z with 64%Z. change (4 * Z.of_nat 8)%Z with 32%Z.
  intros H. apply Z.mod_divide in H; [|lia]. apply Z.mod_divide; [lia|]. destruct H as [q ->]. exists (2 * q)%Z. lia.
Qed.

(** matrix_vector_multiply: the rows *)
Lemma stable_kal n p : stable (fun m => kal c n m p).
Proof. intros m m' H [A B]. split; intros; rewrite <- (aligned_bases m m' _ _ H); auto. Qed.
Lemma returns_acc_from A cond w (body : nat -> A -> M A) fuel i a : returns (fun r => i <= fst r /\ (cond i = false -> fst r = i)) (for_loop_acc fuel cond w i a body).
Proof.
  revert i a. induction fuel as [|k IH]; intros i a m r m' E; cbn [for_loop_acc] in E; [discriminate|].
  destruct (cond i) eqn:Ec.
  - unfold bind in E. destruct (body i a m) as [[a' m1]|]; [|discriminate]. apply IH in E. split; [lia|congruence].
  - inversion E; subst. simpl. auto.
Qed.
Lemma mvm_row_shows n row v y : shows (fun m => kal c n m row) (mvm_row c n row v y).
Proof.
  unfold kal. intros m a m' E.
  assert (H16 : has_avx512 c = true -> 16 <= n -> aligned_to 16 m row = true).
  { intros H5 Hn. revert E. unfold mvm_row. rewrite H5. intros E. eapply (shows_bind1 _ _ (fun m => aligned_to 16 m row = true)); [|exact E].
    cbn [when]. apply shows_bind1. apply shows_acc_first; [apply Nat.leb_le; lia|].
    apply shows_bind2; [apply stable_al|apply keeps_loadv|]. intros vs. apply shows_bind1.
    rewrite padd_0. apply shows_loadv_al. }
  split; [exact H16|]. intros HA Hn. destruct (has_avx512 c) eqn:H5.
  - destruct (Nat.le_gt_cases 16 n) as [Hb|Hs].
    + apply aligned_16_8. auto.
    + revert E. unfold mvm_row. rewrite H5, HA. intros E.
      eapply (shows_bind3 _ _ (fun m => aligned_to 8 m row = true) (fun j => j = 0)); [apply stable_al| | | |exact E].
      * es.
      * cbn [when]. intros m1 j m2 E1. unfold bind in E1. destruct (for_loop_acc _ _ _ _ _ _ m1) as [[[j' s'] m3]|] eqn:E2; [|discriminate].
        apply returns_acc_from in E2. cbn [fst] in E2. destruct E2 as [_ E2]. destruct (store _ _ m3) as [[u m4]|]; [|discriminate].
        inversion E1; subst. apply E2. apply Nat.leb_gt. lia.
      * intros j ->. apply shows_bind1. cbn [when]. apply shows_bind1. apply shows_acc_first; [apply Nat.leb_le; lia|].
        apply shows_bind2; [apply stable_al|apply keeps_loadv|]. intros vs. apply shows_bind1.
        rewrite padd_0. apply shows_loadv_al.
  - revert E. unfold mvm_row. rewrite H5, HA. intros E.
    eapply (shows_bind3 _ _ (fun m => aligned_to 8 m row = true) (fun j => j = 0)); [apply stable_al| | | |exact E].
    + es.
    + cbn [when]. intros m1 j m2 E1. inversion E1. reflexivity.
    + intros j ->. apply shows_bind1. cbn [when]. apply shows_bind1. apply shows_acc_first; [apply Nat.leb_le; lia|].
      apply shows_bind2; [apply stable_al|apply keeps_loadv|]. intros vs. apply shows_bind1.
      rewrite padd_0. apply shows_loadv_al.
Qed.
Lemma mvm_shows n_rows n p v y r : r < n_rows -> shows (fun m => kal c n m (p +! (r * n))) (matrix_vector_multiply c n_rows n p v y).
Proof.
  intros Hr. unfold matrix_vector_multiply. apply (shows_loop1 (fun i m => kal c n m (p +! (i * n)))); auto.
  - intros. apply stable_kal.
  - intros. apply keeps_mvm_row.
  - intros. apply mvm_row_shows.
Qed.

(** the derivatives that work on whole registers *)
Lemma dvec_shows d n a p : has_avx c = true -> 16 <= n -> shows (fun m => aligned_to 8 m p = true) (dvec_loops c d n a p).
Proof.
  intros HA Hn. unfold dvec_loops. rewrite HA. cbn [when]. apply shows_bind1. unfold loop_le. apply shows_first; [apply Nat.leb_le; lia|].
  unfold dvec2x8. apply shows_bind2; [apply stable_al|apply keeps_loadv_al|]. intros a0. apply shows_bind2; [apply stable_al|apply keeps_loadv_al|]. intros a1.
  apply shows_bind1. rewrite padd_0. apply shows_loadv_al.
Qed.
Lemma stable_deriv g n p : stable (fun m => deriv_pre c g m p p n).
Proof. intros m m' H. unfold deriv_pre. destruct g; auto; rewrite (aligned_bases m m' _ _ H); auto. Qed.
Lemma deriv_shows g n a p : shows (fun m => deriv_pre c g m p p n) (activation_derivative_of c g n a p).
Proof.
  unfold deriv_pre. destruct g; cbn [activation_derivative_of]; try (intros m x m' _; exact I);
    intros m x m' E HA Hn; unfold relu_derivative, sigmoid_derivative, tanh_act_derivative in E; apply dvec_shows in E; auto.
Qed.

(** the backward loop *)
Lemma keeps_backward ls acts gs : forall k, keeps (backward c ls acts gs k).
Proof.
  induction k as [|k IH]; cbn [backward]; [es|].
  destruct (nth_error ls k) as [l|]; [|es]. destruct (nth_error acts k); [|es]. destruct (nth_error acts (k + 1)); [|es].
  destruct (nth_error gs k) as [[gb gw]|]; [|es].
  apply keeps_bind. { destruct (_ =? _); [es|]. destruct (nth_error ls (k + 1)); [|es]. destruct (nth_error gs (k + 1)) as [[? ?]|]; [|es]. apply keeps_mvm. }
  intros _. apply keeps_bind. { destruct (l_deriv l); [apply keeps_deriv|es]. } intros _. apply keeps_bind; [apply keeps_outer|]. auto.
Qed.
Lemma backward_step_parts P ls acts gs k i l gb gw d : stable P ->
  nth_error ls i = Some l -> nth_error gs i = Some (gb, gw) -> l_deriv l = Some d -> i < k ->
  ((forall a_out, shows P (activation_derivative_of c d (n_output l) a_out gb)) \/
   (exists l1 gb1 gw1, nth_error ls (i + 1) = Some l1 /\ nth_error gs (i + 1) = Some (gb1, gw1) /\
      shows P (matrix_vector_multiply c (n_input l1) (n_output l1) (weight l1) gb1 gb))) ->
  shows P (backward c ls acts gs k).
Proof.
  intros S Hl Hg Hd Hk HP. induction k as [|k IH]; [lia|]. cbn [backward].
  destruct (nth_error ls k) as [lk|] eqn:Ek; [|intros m x m' E; discriminate].
  destruct (nth_error acts k) as [ai|]; [|intros m x m' E; discriminate]. destruct (nth_error acts (k + 1)) as [ao|]; [|intros m x m' E; discriminate].
  destruct (nth_error gs k) as [[gbk gwk]|] eqn:Egk; [|intros m x m' E; discriminate].
  set (mv := if k =? length ls - 1 then ret tt else match nth_error ls (k + 1) with
     | Some l1 => match nth_error gs (k + 1) with Some (gb1, _) => matrix_vector_multiply c (n_input l1) (n_output l1) (weight l1) gb1 gbk | None => fail OutOfBounds end
     | None => fail OutOfBounds end).
  assert (KM : keeps mv).
  { unfold mv. destruct (_ =? _); [es|]. destruct (nth_error ls (k + 1)); [|es]. destruct (nth_error gs (k + 1)) as [[? ?]|]; [|es]. apply keeps_mvm. }
  assert (KD : keeps (match l_deriv lk with Some d => activation_derivative_of c d (n_output lk) ao gbk | None => fail BadPointer end)).
  { destruct (l_deriv lk); [apply keeps_deriv|es]. }
  destruct (Nat.eq_dec k i) as [->|Hne].
  - rewrite Hl in Ek. inversion Ek; subst lk. rewrite Hg in Egk. inversion Egk; subst gbk gwk. destruct HP as [HP|(l1 & gb1 & gw1 & H1 & H2 & HP)].
    + apply shows_bind2; auto. intros _. apply shows_bind1. rewrite Hd. apply HP.
    + apply shows_bind1. unfold mv. assert (i + 1 < length ls) by (apply nth_error_Some; congruence).
      destruct (Nat.eqb_spec i (length ls - 1)); [lia|]. rewrite H1, H2. exact HP.
  - apply shows_bind2; auto. intros _. apply shows_bind2; auto. intros _. apply shows_bind2; auto using keeps_outer. intros _. apply IH. lia.
Qed.

Lemma aligned_app m b w p : blk p < length m -> aligned_to w (m ++ [b]) p = aligned_to w m p.
Proof. intros H. unfold aligned_to, addr. rewrite nth_error_app1 by exact H. reflexivity. Qed.
Lemma kal_app m b n p : blk p < length m -> kal c n (m ++ [b]) p -> kal c n m p.
Proof. intros H [A B]. split; intros; rewrite <- (aligned_app m b) by exact H; auto. Qed.
Lemma deriv_app m b g n p : blk p < length m -> deriv_pre c g (m ++ [b]) p p n -> deriv_pre c g m p p n.
Proof. intros H. unfold deriv_pre. destruct g; auto; rewrite (aligned_app m b) by exact H; auto. Qed.

(** a backpropagation that ends well has found everything aligned *)
Lemma backprop_shows wb nn pin pt pg m a m' : blk pg < length m ->
  Forall (fun l => blk (weight l) < length m) (nn_layers nn) -> Forall (fun l => l_deriv l <> None) (nn_layers nn) ->
  neuralnet_backpropagation c vexp wb nn pin pt pg m = Ok (a, m') -> bp_align c m (nn_layers nn) pg.
Proof.
  intros Hg HW HD E. unfold neuralnet_backpropagation in E. set (ls := nn_layers nn) in *.
  destruct (length ls =? 0); [discriminate|]. unfold bind at 1 in E. unfold is_aligned in E.
  destruct (addr m pg mod align_size c =? 0)%Z; [|discriminate].
  set (N := sum_outputs ls + _ + _) in E. unfold bind at 1 in E. cbn [assertM ret] in E. unfold bind at 1 in E. unfold alloca in E.
  set (b := mkblock wb (repeat None N)) in *.
  assert (G : forall P : mem -> Prop, stable P -> (forall acts, shows P (backward c ls acts (grad_ptrs ls pg) (length ls))) -> P (m ++ [b])).
  { intros P S HP. revert E. match goal with |- ?run (m ++ [b]) = _ -> _ => intros E; assert (SH : shows P run) end; [|eapply SH; exact E].
    apply shows_bind2; [exact S|apply keeps_setup|]. intros ps. apply shows_bind2; [exact S|apply keeps_forward|]. intros _.
    apply shows_bind2; [exact S|apply keeps_storev|]. intros _.
    destruct (nn_loss nn); [|intros ? ? ? X; discriminate]. destruct (nth_error (_ :: _) _); [|intros ? ? ? X; discriminate].
    destruct (nth_error ls _); [|intros ? ? ? X; discriminate]. destruct (nth_error (grad_ptrs _ _) _) as [[gb gw]|]; [|intros ? ? ? X; discriminate].
    apply shows_bind2; [exact S|apply keeps_loss|]. intros _. apply shows_bind1. apply HP. }
  split.
  - intros i l d Hl Hd. apply (deriv_app m b); [exact Hg|].
    apply (G (fun m => deriv_pre c d m (pg +! goff ls i) (pg +! goff ls i) (n_output l))); [apply stable_deriv|]. intros acts.
    eapply backward_step_parts; eauto using stable_deriv, grad_ptrs_nth.
    + apply nth_error_Some. congruence.
    + left. intros. apply deriv_shows.
  - intros i l r Hl Hr. rewrite Forall_forall in HW, HD. pose proof (HW _ (nth_error_In _ _ Hl)) as Hw.
    apply (kal_app m b); [exact Hw|].
    apply (G (fun m => kal c (n_output l) m (weight l +! (r * n_output l)))); [apply stable_kal|]. intros acts.
    assert (Hi : i + 1 < length ls) by (apply nth_error_Some; congruence).
    destruct (@nth_error_ex _ ls i ltac:(lia)) as [l0 Hl0].
    destruct (l_deriv l0) as [d|] eqn:Ed; [|destruct (HD _ (nth_error_In _ _ Hl0) Ed)].
    eapply (backward_step_parts _ _ _ _ _ i); eauto using stable_kal, grad_ptrs_nth; [lia|].
    right. do 3 eexists. split; [exact Hl|]. split; [eapply grad_ptrs_nth; exact Hl|]. apply mvm_shows. exact Hr.
Qed.
End BpExact.
