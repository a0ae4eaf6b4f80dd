(** NoFuel.v -- the loops of the numeric code end: no loop of the model runs out of its fuel *)
From Coq Require Import List Arith ZArith Lia Bool.
From Verif Require Import Base BaseProofs Ops Mem MemProofs Kernels Activation Loss Neuralnet Batch Optimizer Evaluate.
Import ListNotations.
Local Open Scope mem_scope.

Section NoFuel.
Context {FO : fops}.

(** [run] ends in every memory: with a result or with a fault other than the endless loop *)
Definition ends {A} (run : M A) : Prop := forall m, run m <> Fault OutOfFuel.

Lemma ends_ret A (a : A) : ends (ret a). Proof. intros m. discriminate. Qed.
Lemma ends_fail A e : e <> OutOfFuel -> ends (@fail FO A e). Proof. intros H m. unfold fail. congruence. Qed.
Lemma ends_bind A B (x : M A) (f : A -> M B) : ends x -> (forall a, ends (f a)) -> ends (bind x f).
Proof. intros H1 H2 m. unfold bind. specialize (H1 m). destruct (x m) as [[a m']|e]; [apply H2|congruence]. Qed.
Lemma ends_loadv w p : ends (loadv w p).
Proof. intros m. unfold loadv. destruct (nth_error _ _); [|discriminate]. destruct (_ <=? _); [|discriminate]. destruct (all_some _); discriminate. Qed.
Lemma ends_storev p xs : ends (storev p xs).
Proof. intros m. unfold storev. destruct (nth_error _ _); [|discriminate]. destruct (_ <=? _); discriminate. Qed.
Lemma ends_loadv_al w p : ends (loadv_al w p).
Proof. intros m. unfold loadv_al. destruct (aligned_to _ _ _); [apply ends_loadv|discriminate]. Qed.
Lemma ends_storev_al p xs : ends (storev_al p xs).
Proof. intros m. unfold storev_al. destruct (aligned_to _ _ _); [apply ends_storev|discriminate]. Qed.
Lemma ends_load p : ends (load p).
Proof. apply ends_bind; [apply ends_loadv|]. intros [|x [|? ?]]; try (apply ends_fail; discriminate). apply ends_ret. Qed.
Lemma ends_store p x : ends (store p x). Proof. apply ends_storev. Qed.
Lemma ends_is_aligned c p : ends (is_aligned c p). Proof. intros m. discriminate. Qed.
Lemma ends_assertM b : ends (assertM b). Proof. destruct b; [apply ends_ret|apply ends_fail; discriminate]. Qed.
Lemma ends_alloca b n : ends (alloca b n). Proof. intros m. discriminate. Qed.
Lemma ends_alloca_over b n o : ends (alloca_over b n o). Proof. intros m. discriminate. Qed.
Lemma ends_freea : ends freea. Proof. intros m. discriminate. Qed.
Lemma ends_when A b (x : M A) d : ends x -> ends (when b x d).
Proof. intros H. unfold when. destruct b; [exact H|apply ends_ret]. Qed.

Lemma ends_for_loop cond w n body : 1 <= w -> (forall i, cond i = true -> i < n) -> (forall i, ends (body i)) ->
  forall fuel i, 1 <= fuel -> n < i + fuel -> ends (for_loop fuel cond w i body).
Proof.
  intros Hw Hc Hb. induction fuel as [|k IH]; intros i H1 Hf; [lia|].
  cbn [for_loop]. destruct (cond i) eqn:E; [|apply ends_ret]. apply ends_bind; auto. intros _. apply Hc in E. apply IH; lia.
Qed.
Lemma ends_for_loop_acc A cond w n (body : nat -> A -> M A) : 1 <= w -> (forall i, cond i = true -> i < n) -> (forall i a, ends (body i a)) ->
  forall fuel i a, 1 <= fuel -> n < i + fuel -> ends (for_loop_acc fuel cond w i a body).
Proof.
  intros Hw Hc Hb. induction fuel as [|k IH]; intros i a H1 Hf; [lia|].
  cbn [for_loop_acc]. destruct (cond i) eqn:E; [|apply ends_ret]. apply ends_bind; auto. intros a'. apply Hc in E. apply IH; lia.
Qed.
Lemma ends_acc_le A w n i (a : A) body : 1 <= w -> (forall i a, ends (body i a)) -> ends (for_loop_acc (S n) (fun j => j + w <=? n) w i a body).
Proof. intros Hw Hb. apply ends_for_loop_acc with (n := n); auto; [|lia|lia]. intros j Hj. apply Nat.leb_le in Hj. lia. Qed.
Lemma ends_acc_lt A n i (a : A) body : (forall i a, ends (body i a)) -> ends (for_loop_acc (S n) (fun j => j <? n) 1 i a body).
Proof. intros Hb. apply ends_for_loop_acc with (n := n); auto; [|lia|lia]. intros j Hj. apply Nat.ltb_lt in Hj. lia. Qed.
Lemma ends_loop_le w n i body : 1 <= w -> (forall i, ends (body i)) -> ends (loop_le w n i body).
Proof. intros Hw Hb. apply ends_for_loop with (n := n); auto; [|lia|lia]. intros j Hj. apply Nat.leb_le in Hj. lia. Qed.
Lemma ends_loop_lt w n i body : 1 <= w -> (forall i, ends (body i)) -> ends (loop_lt w n i body).
Proof. intros Hw Hb. apply ends_for_loop with (n := n); auto; [|lia|lia]. intros j Hj. apply Nat.ltb_lt in Hj. lia. Qed.
Lemma ends_loop1 n i body : (forall i, ends (body i)) -> ends (loop1 n i body).
Proof.
  intros Hb. apply ends_bind; [|intros; apply ends_ret]. apply ends_for_loop with (n := n); auto; [|lia|lia].
  intros j Hj. apply Nat.ltb_lt in Hj. lia.
Qed.
Lemma ends_memcpy d s n : ends (memcpy d s n).
Proof. apply ends_bind; [apply ends_loadv|]. intros; apply ends_storev. Qed.

Variable c : cfg.
Variable vexp : F -> F.

Ltac e1 :=
  match goal with
  | |- forall _, _ => intro
  | |- ends (let _ := _ in _) => cbv zeta
  | |- ends (bind _ _) => apply ends_bind
  | |- ends (ret _) => apply ends_ret
  | |- ends (fail _) => apply ends_fail; discriminate
  | |- ends (loadv _ _) => apply ends_loadv
  | |- ends (storev _ _) => apply ends_storev
  | |- ends (loadv_al _ _) => apply ends_loadv_al
  | |- ends (storev_al _ _) => apply ends_storev_al
  | |- ends (load _) => apply ends_load
  | |- ends (store _ _) => apply ends_store
  | |- ends (is_aligned _ _) => apply ends_is_aligned
  | |- ends (assertM _) => apply ends_assertM
  | |- ends (alloca _ _) => apply ends_alloca
  | |- ends (alloca_over _ _ _) => apply ends_alloca_over
  | |- ends freea => apply ends_freea
  | |- ends (when _ _ _) => apply ends_when
  | |- ends (memcpy _ _ _) => apply ends_memcpy
  | |- ends (loop_le _ _ _ _) => apply ends_loop_le; [lia|]
  | |- ends (loop_lt _ _ _ _) => apply ends_loop_lt; [lia|]
  | |- ends (loop1 _ _ _) => apply ends_loop1
  | |- ends (for_loop_acc _ (fun j => j + _ <=? _) _ _ _ _) => apply ends_acc_le; [lia|]
  | |- ends (for_loop_acc _ (fun j => j <? _) _ _ _ _) => apply ends_acc_lt
  | |- ends (let '(_, _) := ?x in _) => destruct x
  | |- ends (if ?b then _ else _) => destruct b
  | |- ends (match ?x with _ => _ end) => destruct x
  end.
Ltac es := repeat (e1 || (progress (auto with ends))).

(** activation functions *)
Lemma ends_prologue n p body : (forall i, ends (body i)) -> forall fuel i, 1 <= fuel -> n < i + fuel -> ends (prologue_loop c fuel n p i body).
Proof.
  intros Hb. induction fuel as [|k IH]; intros i H1 Hf; [lia|]. cbn [prologue_loop]. apply ends_bind; [apply ends_is_aligned|].
  intros a. destruct a; cbn [negb andb]; [apply ends_ret|]. destruct (Nat.ltb_spec i n); [|apply ends_ret].
  apply ends_bind; auto. intros _. apply IH; lia.
Qed.
Lemma ends_prologue0 n p body i : (forall i, ends (body i)) -> ends (prologue_loop c (S n) n p i body).
Proof. intros. apply ends_prologue; auto; lia. Qed.
Lemma ends_softmax_max n p : forall fuel i v, 1 <= fuel -> n < i + fuel -> ends (softmax_max fuel n p i v).
Proof.
  induction fuel as [|k IH]; intros i v H1 Hf; [lia|]. cbn [softmax_max]. destruct (Nat.ltb_spec i n); [|apply ends_ret].
  apply ends_bind; [apply ends_load|]. intros x. apply IH; lia.
Qed.
Lemma ends_softmax_prologue n p v : forall fuel i s, 1 <= fuel -> n < i + fuel -> ends (softmax_prologue c fuel n p v i s).
Proof.
  induction fuel as [|k IH]; intros i s H1 Hf; [lia|]. cbn [softmax_prologue]. apply ends_bind; [apply ends_is_aligned|].
  intros a. destruct a; cbn [negb andb]; [apply ends_ret|]. destruct (Nat.ltb_spec i n); [|apply ends_ret].
  apply ends_bind; [unfold softmax_exp1; es|]. intros x. apply IH; lia.
Qed.
Hint Resolve ends_prologue0 : ends.
Lemma ends_activation g n p : ends (activation_func c vexp g n p).
Proof.
  destruct g; unfold activation_func, softplus, softsign, hard_sigmoid, exponential, linear, relu, sigmoid, tanh_act, scalar1, vec2x8;
    try (es; fail); try (apply ends_bind; [apply ends_when; apply ends_bind; [apply ends_prologue0; es|intros; es]|intros; es]).
  unfold softmax, scalar1. apply ends_bind; [es|]. intros m0. apply ends_bind; [apply ends_softmax_max; lia|]. intros mv.
  apply ends_bind. { apply ends_when. apply ends_bind; [apply ends_softmax_prologue; lia|]. es. }
  intros [j s]. apply ends_bind. { apply ends_acc_lt. unfold softmax_exp1. es. }
  intros [j' s']. apply ends_bind. { apply ends_when. apply ends_bind; [apply ends_prologue0; es|]. es. }
  es.
Qed.
Lemma ends_deriv g n a p : ends (activation_derivative_of c g n a p).
Proof.
  destruct g; cbn [activation_derivative_of]; unfold softplus_derivative, softsign_derivative, hard_sigmoid_derivative, exponential_derivative,
    linear_derivative, softmax_derivative, relu_derivative, sigmoid_derivative, tanh_act_derivative, dvec_loops, dscalar1, dvec2x8; es.
Qed.

(** kernels *)
Lemma ends_three n a b d : (forall i, ends (a i)) -> (forall i, ends (b i)) -> (forall i, ends (d i)) -> ends (three_loops c n a b d).
Proof. intros. unfold three_loops. es. Qed.
Lemma ends_three_strict n a b d : (forall i, ends (a i)) -> (forall i, ends (b i)) -> (forall i, ends (d i)) -> ends (three_loops_strict c n a b d).
Proof. intros. unfold three_loops_strict. es. Qed.
Lemma ends_two n a b : (forall i, ends (a i)) -> (forall i, ends (b i)) -> ends (two_loops c n a b).
Proof. intros. unfold two_loops. es. Qed.
Ltac k := first [apply ends_three | apply ends_three_strict | apply ends_two]; es.
Lemma ends_acc n a b : ends (vector_accumulate c n a b). Proof. unfold vector_accumulate. k. Qed.
Lemma ends_accu n a b : ends (vector_accumulate_unaligned c n a b). Proof. unfold vector_accumulate_unaligned. k. Qed.
Lemma ends_scale n a s : ends (vector_scale c n a s). Proof. unfold vector_scale. k. Qed.
Lemma ends_divide n a s : ends (vector_divide_by_scalar c n a s). Proof. unfold vector_divide_by_scalar. k. Qed.
Lemma ends_saxpy n a s b : ends (vector_saxpy c n a s b). Proof. unfold vector_saxpy. k. Qed.
Lemma ends_saxpby n a s b t : ends (vector_saxpby c n a s b t). Proof. unfold vector_saxpby. k. Qed.
Lemma ends_square n a b : ends (vector_square_elements c n a b). Proof. unfold vector_square_elements. k. Qed.
Lemma ends_vmm n m w b x y : ends (vector_matrix_multiply c n m w b x y).
Proof.
  unfold vector_matrix_multiply. apply ends_bind. { unfold vmm_copy_bias. k. } intros _. apply ends_loop1. intros i.
  apply ends_bind; [es|]. intros v. destruct (ftrue v); [|es]. destruct (feq v f1).
  - unfold vmm_row_one. k.
  - unfold vmm_row_general. k.
Qed.
Lemma ends_outer n m x y p : ends (vector_vector_outer c n m x y p).
Proof.
  unfold vector_vector_outer. apply ends_loop1. intros i. apply ends_bind; [es|]. intros v. destruct (ftrue v); [|es]. cbv zeta. k.
Qed.
Lemma ends_mvm n m p v y : ends (matrix_vector_multiply c n m p v y).
Proof. unfold matrix_vector_multiply, mvm_row. es. Qed.
Lemma ends_loss l n p r o : ends (loss_func l n p r o).
Proof. unfold loss_func. es. Qed.
Lemma ends_acc_loop n p r f : forall fuel i e, 1 <= fuel -> n < i + fuel -> ends (acc_loop fuel n p r i e f).
Proof.
  induction fuel as [|k IH]; intros i e H1 Hf; [lia|]. cbn [acc_loop]. destruct (Nat.ltb_spec i n); [|es].
  es. apply IH; lia.
Qed.
Lemma ends_argmax n p r : forall fuel i a b x y, 1 <= fuel -> n < i + fuel -> ends (argmax_loop fuel n p r i a b x y).
Proof.
  induction fuel as [|k IH]; intros i a b x y H1 Hf; [lia|]. cbn [argmax_loop]. destruct (Nat.ltb_spec i n); [|es].
  apply ends_bind; [es|]. intros u. apply ends_bind; [es|]. intros v.
  destruct (if fgt u a then (u, i) else (a, x)). destruct (if fgt v b then (v, i) else (b, y)). apply IH; lia.
Qed.
Lemma ends_metric t n p r : ends (metric_func t n p r).
Proof.
  destruct t; cbn [metric_func]; try (apply ends_bind; [apply ends_acc_loop; lia|es]).
  apply ends_bind; [es|]. intros u. apply ends_bind; [es|]. intros v. apply ends_bind; [apply ends_argmax; lia|]. es.
Qed.

(** networks *)
Lemma ends_setup : forall ls p, ends (setup_activations c ls p).
Proof. induction ls as [|l ls IH]; intros p; cbn [setup_activations]; es. Qed.
Lemma ends_forward : forall ls ps, ends (forward c vexp ls ps).
Proof.
  induction ls as [|l ls IH]; intros ps; cbn [forward]; [es|]. destruct ps as [|a [|b ps]]; try (es; fail).
  apply ends_bind; [apply ends_vmm|]. intros _. apply ends_bind; [apply ends_activation|]. intros _. apply IH.
Qed.
Lemma ends_predict wb nn a b : ends (neuralnet_predict c vexp wb nn a b).
Proof. unfold neuralnet_predict. destruct (_ =? _); es; auto using ends_setup, ends_forward. Qed.
Lemma ends_backward ls acts gs : forall k, ends (backward c ls acts gs k).
Proof.
  induction k as [|k IH]; cbn [backward]; [es|].
  destruct (nth_error ls k) as [l|]; [|es]. destruct (nth_error acts k); [|es]. destruct (nth_error acts (k + 1)); [|es].
  destruct (nth_error gs k) as [[gb gw]|]; [|es].
  apply ends_bind. { destruct (_ =? _); [es|]. destruct (nth_error ls (k + 1)); [|es]. destruct (nth_error gs (k + 1)) as [[? ?]|]; [|es]. apply ends_mvm. }
  intros _. apply ends_bind. { destruct (l_deriv l); [apply ends_deriv|es]. } intros _. apply ends_bind; [apply ends_outer|]. auto.
Qed.
Lemma ends_backprop wb nn a t g : ends (neuralnet_backpropagation c vexp wb nn a t g).
Proof.
  unfold neuralnet_backpropagation. destruct (_ =? _); [es|].
  apply ends_bind; [es|]. intros u1. apply ends_bind; [es|]. intros u2. apply ends_bind; [es|]. intros w. apply ends_bind; [apply ends_setup|]. intros ps.
  cbv zeta. apply ends_bind; [apply ends_forward|]. intros u3. apply ends_bind; [es|]. intros u4.
  destruct (nn_loss nn); [|es]. destruct (nth_error (a :: w :: ps) _); [|es]. destruct (nth_error (nn_layers nn) _); [|es].
  destruct (nth_error (grad_ptrs _ _) _) as [[gb gw]|]; [|es].
  apply ends_bind; [apply ends_loss|]. intros _. apply ends_bind; [apply ends_backward|]. es.
Qed.
Lemma ends_update_layers : forall ls p, ends (update_layers c ls p).
Proof. induction ls as [|l ls IH]; intros p; cbn [update_layers]; es; auto using ends_accu. Qed.
Lemma ends_update nn p : ends (neuralnet_update c nn p). Proof. apply ends_update_layers. Qed.
Lemma ends_get_layers : forall ls p, ends (get_layers ls p).
Proof. induction ls as [|l ls IH]; intros p; cbn [get_layers]; es. Qed.
Lemma ends_get nn p : ends (neuralnet_get_parameters nn p). Proof. apply ends_get_layers. Qed.

(** batches *)
Lemma ends_omp wbs nn a b : forall order, ends (predict_batch_omp c vexp order wbs nn a b).
Proof. induction order as [|i r IH]; cbn [predict_batch_omp]; es. apply ends_predict. Qed.
Lemma ends_fill : forall ls acts n, ends (fill_biases ls acts n).
Proof. induction ls as [|l ls IH]; intros [|b acts] n; cbn [fill_biases]; es. Qed.
Lemma ends_batch_forward sgemm : forall ls a acts n, ends (batch_forward c vexp sgemm ls a acts n).
Proof.
  induction ls as [|l ls IH]; intros a [|b acts] n; cbn [batch_forward]; try (es; fail).
  apply ends_bind; [es|]. intros va. apply ends_bind; [es|]. intros vw. apply ends_bind; [es|]. intros vc. apply ends_bind; [es|]. intros _.
  apply ends_bind; [|auto]. destruct (l_act l); try apply ends_activation. apply ends_loop1. intros j. apply ends_activation.
Qed.
Lemma ends_blas nstack sgemm wbs nn : sum_outputs (nn_layers nn) <= nstack ->
  forall n fuel a b, n < fuel -> ends (predict_batch_blas c vexp nstack sgemm fuel wbs nn n a b).
Proof.
  intros HS n. induction n as [n IH] using (well_founded_induction lt_wf). intros [|f] a b H1; [lia|].
  cbn [predict_batch_blas]. destruct (Nat.ltb_spec nstack (sum_outputs (nn_layers nn) * n)) as [Hs|Hs].
  - assert (Hn2 : 2 <= n). { destruct n as [|[|n]]; try lia. }
    assert (Hh : 1 <= n / 2 /\ n / 2 < n). { split. - apply Nat.div_le_lower_bound; lia. - apply Nat.div_lt; lia. }
    apply ends_bind; [apply IH; lia|]. intros _. apply IH; lia.
  - destruct (_ =? _); [es|]. apply ends_bind; [es|]. intros w. apply ends_bind; [apply ends_fill|]. intros _.
    apply ends_bind; [apply ends_batch_forward|]. es.
Qed.

(** gradients and optimizers *)
Lemma ends_grad_its s o X Y i acc : forall bs, ends (grad_iterations c vexp s o X Y i acc bs).
Proof.
  induction bs as [|b bs IH]; cbn [grad_iterations]; [es|]. apply ends_bind; [|auto]. unfold grad_iteration.
  destruct (o_pivot o); [|es]. destruct (nth_error _ _); [|es]. cbv zeta. apply ends_bind; [es|]. intros g.
  apply ends_bind; [apply ends_backprop|]. intros _. apply ends_bind; [apply ends_accu|]. es.
Qed.
Lemma ends_combine n a b : ends (omp_combine n a b). Proof. unfold omp_combine. es. Qed.
Lemma ends_run_tree s o X Y i : forall t, ends (run_tree c vexp s o X Y i t).
Proof.
  induction t as [b its|t1 IH1 t2 IH2]; cbn [run_tree].
  - es. apply ends_grad_its.
  - es. apply ends_combine.
Qed.
Lemma ends_run_trees s o X Y i bg : forall ts, ends (run_trees c vexp s o X Y i bg ts).
Proof. induction ts as [|t ts IH]; cbn [run_trees]; es; auto using ends_run_tree, ends_combine. Qed.
Lemma ends_batch_gradient s o n X Y i bg : ends (calc_batch_gradient c vexp s o n X Y i bg).
Proof.
  unfold calc_batch_gradient. cbv zeta. apply ends_bind; [es|]. intros _. apply ends_bind.
  { destruct (s_omp s); [apply ends_run_trees|apply ends_grad_its]. }
  intros _. apply ends_bind; [apply ends_divide|]. es.
Qed.

(** an epoch whose steps always take some samples *)
Lemma ends_epoch_loop S (step : nat -> S -> M (nat * S)) n : (forall i s, ends (step i s)) ->
  (forall i s m i' s' m', i < n -> step i s m = Ok ((i', s'), m') -> i < i') ->
  forall fuel i s, 1 <= fuel -> n < i + fuel -> ends (epoch_loop fuel step n i s).
Proof.
  intros He Hp. induction fuel as [|k IH]; intros i s H1 Hf; [lia|]. cbn [epoch_loop]. destruct (Nat.ltb_spec i n) as [Hi|Hi]; [|es].
  intros m. unfold bind. pose proof (He i s m) as N. destruct (step i s m) as [[[i' s'] m']|e] eqn:E; [|congruence].
  apply Hp in E; [|exact Hi]. apply IH; lia.
Qed.

Definition returns {A} (P : A -> Prop) (run : M A) : Prop := forall m a m', run m = Ok (a, m') -> P a.
Lemma returns_bind A B (P : B -> Prop) (x : M A) f : (forall a, returns P (f a)) -> returns P (bind x f).
Proof. intros H m b m' E. unfold bind in E. destruct (x m) as [[a m1]|]; [|discriminate]. eapply H; eauto. Qed.
Lemma returns_bind2 A B (Q : A -> Prop) (P : B -> Prop) (x : M A) f : returns Q x -> (forall a, Q a -> returns P (f a)) -> returns P (bind x f).
Proof. intros HQ H m b m' E. unfold bind in E. destruct (x m) as [[a m1]|] eqn:E1; [|discriminate]. eapply H; eauto. Qed.
Lemma returns_ret A (P : A -> Prop) a : P a -> returns P (ret a).
Proof. intros H m b m' E. inversion E; subst. exact H. Qed.
Lemma returns_cbg s o n X Y i bg : returns (fun i' => i' = i + batch_size o n i) (calc_batch_gradient c vexp s o n X Y i bg).
Proof. unfold calc_batch_gradient. cbv zeta. repeat (apply returns_bind; intros). apply returns_ret. reflexivity. Qed.

Ltac go := first [apply ends_scale | apply ends_update | apply ends_batch_gradient | apply ends_acc | apply ends_square | apply ends_saxpby
   | apply ends_saxpy | apply ends_get | (unfold compute_update, accumulate_squared_gradient, update_biased_first_moment, update_biased_second_moment,
     compute_update_adam, adam_section1, adam_section2; cbv zeta; k)].
Lemma ends_sgd_step e o n X Y i s : ends (sgd_step c vexp e o n X Y i s).
Proof. unfold sgd_step. es; go. Qed.
Lemma ends_rmsprop_step e o n X Y i s : ends (rmsprop_step c vexp e o n X Y i s).
Proof. unfold rmsprop_step. es; go. Qed.
Lemma ends_adagrad_step e o n X Y i s : ends (adagrad_step c vexp e o n X Y i s).
Proof. unfold adagrad_step. es; go. Qed.
Lemma ends_adam_step e o n X Y s i st : ends (adam_step c vexp e o n X Y s i st).
Proof. unfold adam_step. es; go. Qed.

(** every step of an epoch moves on by one batch *)
Definition moves {S} (o : opt) (n : nat) (step : nat -> S -> M (nat * S)) : Prop :=
  forall i s, returns (fun r => fst r = i + batch_size o n i) (step i s).
Ltac mv := cbv zeta; match goal with
  | |- returns _ (bind (calc_batch_gradient _ _ _ _ _ _ _ _ _) _) => eapply returns_bind2; [apply returns_cbg|intros ? ->]
  | |- returns _ (bind _ _) => apply returns_bind; intros
  | |- returns _ (ret _) => apply returns_ret; reflexivity
  end.
Lemma moves_sgd e o n X Y : moves o n (sgd_step c vexp e o n X Y). Proof. intros i s. unfold sgd_step. repeat mv. Qed.
Lemma moves_rmsprop e o n X Y : moves o n (rmsprop_step c vexp e o n X Y). Proof. intros i s. unfold rmsprop_step. repeat mv. Qed.
Lemma moves_adagrad e o n X Y : moves o n (adagrad_step c vexp e o n X Y). Proof. intros i s. unfold adagrad_step. repeat mv. Qed.
Lemma moves_adam e o n X Y s0 : moves o n (adam_step c vexp e o n X Y s0). Proof. intros i s. unfold adam_step. repeat mv. Qed.

Lemma ends_epoch S o n (step : nat -> S -> M (nat * S)) s : 1 <= o_batchsize o -> moves o n step -> (forall i s, ends (step i s)) ->
  ends (epoch_loop (Datatypes.S n) step n 0 s).
Proof.
  intros HB HM HE. apply ends_epoch_loop; [exact HE| |lia|lia]. intros i s0 m i' s' m' Hi E. apply HM in E. cbn [fst] in E. subst i'.
  unfold batch_size. destruct (Nat.ltb_spec (n - i) (o_batchsize o)); lia.
Qed.
(** with batch size 0 the loop stays where it is *)
Lemma endless_epoch S o n (step : nat -> S -> M (nat * S)) : o_batchsize o = 0 -> moves o n step ->
  forall fuel i s m r, i < n -> epoch_loop fuel step n i s m <> Ok r.
Proof.
  intros HB HM. induction fuel as [|k IH]; intros i s m r Hi; [discriminate|]. cbn [epoch_loop]. apply Nat.ltb_lt in Hi as Hi2. rewrite Hi2.
  unfold bind. destruct (step i s m) as [[[i' s'] m']|] eqn:E; [|discriminate]. apply HM in E. cbn [fst] in E.
  unfold batch_size in E. rewrite HB in E. replace (n - i <? 0) with false in E by (symmetry; apply Nat.ltb_ge; lia). rewrite Nat.add_0_r in E. subst i'. apply IH. exact Hi.
Qed.

(** evaluation *)
Lemma ends_red_its body acc : (forall a i, ends (body a i)) -> forall its, ends (red_iterations body acc its).
Proof. intros H. induction its; cbn [red_iterations]; es. Qed.
Lemma ends_red_tree n body : (forall a i, ends (body a i)) -> forall t, ends (red_tree n body t).
Proof. intros H. induction t; cbn [red_tree]; es; auto using ends_red_its, ends_combine. Qed.
Lemma ends_red_trees n body acc : (forall a i, ends (body a i)) -> forall ts, ends (red_trees n body acc ts).
Proof. intros H. induction ts; cbn [red_trees]; es; auto using ends_red_tree, ends_combine. Qed.
Lemma ends_omp_for n body omp k acc : (forall a i, ends (body a i)) -> ends (omp_for n body omp k acc).
Proof. intros H. unfold omp_for. destruct omp; auto using ends_red_trees, ends_red_its. Qed.
Lemma ends_add_metrics no : forall ts j p y acc, ends (add_metrics no ts j p y acc).
Proof. induction ts; intros; cbn [add_metrics]; es. apply ends_metric. Qed.
Lemma metric_list_fault ms e : metric_list ms = Fault e -> e <> OutOfFuel.
Proof.
  induction ms as [|[t|] ms IH]; cbn [metric_list]; try congruence. destruct (metric_list ms); [discriminate|]. intros E. inversion E; subst. auto.
Qed.
Lemma ends_evaluate s nn samples X Y ms r : ends (evaluate c vexp s nn samples X Y ms r).
Proof.
  unfold evaluate. destruct ms as [ms|]; [|es]. destruct (metric_list ms) as [ts|e] eqn:E; [|apply ends_fail; eapply metric_list_fault; eauto].
  cbv zeta. es. apply ends_omp_for. intros ac i. unfold eval_iteration. es; auto using ends_predict, ends_add_metrics. unfold store_means. es.
Qed.
Lemma ends_evaluate_blas nstack sgemm fuel wbs s nn samples X Y ms r : sum_outputs (nn_layers nn) <= nstack -> samples < fuel ->
  ends (evaluate_blas c vexp nstack sgemm fuel wbs s nn samples X Y ms r).
Proof.
  intros HS HF. unfold evaluate_blas. destruct ms as [ms|]; [|es]. destruct (metric_list ms) as [ts|e] eqn:E; [|apply ends_fail; eapply metric_list_fault; eauto].
  cbv zeta. es. - apply ends_blas; auto. - apply ends_omp_for. intros; apply ends_add_metrics. - unfold store_means. es.
Qed.
End NoFuel.
