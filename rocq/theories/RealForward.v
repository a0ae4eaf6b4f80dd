(** RealForward.v -- in exact arithmetic the forward pass is the mathematical network *)
From Coq Require Import List Arith ZArith Lia Bool Reals Lra.
From Verif Require Import Base BaseProofs Ops OpsR Mem MemProofs Kernels KernelProofs KernelProofs2
  Activation ActivationProofs Loss Neuralnet ForwardProofs BackpropProofs SpecReal.
Import ListNotations.
Local Open Scope R_scope.

(** lia, seeing R where unification left [F] *)
Ltac rlia := change (@F opsR) with R in *; lia.
Ltac rnia := change (@F opsR) with R in *; nia.

(** ** sums *)
Lemma sumf_ext n f g : (forall i, (i < n)%nat -> f i = g i) -> sumf n f = sumf n g.
Proof. induction n; intros H; simpl; auto. rewrite IHn, H; auto. Qed.
Lemma sumf_plus n f g : sumf n (fun i => f i + g i) = sumf n f + sumf n g.
Proof. induction n; simpl; lra. Qed.
Lemma sumf_scal n a f : sumf n (fun i => a * f i) = a * sumf n f.
Proof. induction n; simpl; lra. Qed.
Lemma sumf_0 n : sumf n (fun _ => 0) = 0.
Proof. induction n; simpl; lra. Qed.
Lemma sumf_add n k f : sumf (n + k) f = sumf n f + sumf k (fun i => f (n + i)%nat).
Proof. induction k; simpl; rewrite ?Nat.add_0_r; try lra. rewrite Nat.add_succ_r. simpl. rewrite IHk. lra. Qed.
Lemma sumf_S_l n f : sumf (S n) f = f 0%nat + sumf n (fun i => f (S i)).
Proof. induction n; simpl in *; lra. Qed.
Lemma sumf_swap n k (f : nat -> nat -> R) :
  sumf n (fun i => sumf k (fun j => f i j)) = sumf k (fun j => sumf n (fun i => f i j)).
Proof.
  induction n; simpl. { rewrite sumf_0; auto. }
  rewrite IHn, <- sumf_plus. reflexivity.
Qed.

Fixpoint lsum (l : list R) : R := match l with [] => 0 | x :: r => x + lsum r end.
Lemma lsum_app l1 l2 : lsum (l1 ++ l2) = lsum l1 + lsum l2.
Proof. induction l1; simpl; lra. Qed.
Lemma fold_left_lsum l : forall a, fold_left Rplus l a = a + lsum l.
Proof. induction l; intros; simpl; try lra. rewrite IHl. lra. Qed.
Lemma lsum_sumf l : lsum l = sumf (length l) (vec l).
Proof.
  induction l as [|x l IH]; auto. simpl length. rewrite sumf_S_l. simpl lsum. rewrite IH. reflexivity.
Qed.
Lemma lsum_repeat0 n : lsum (repeat 0 n) = 0.
Proof. induction n; simpl; lra. Qed.
Lemma nth_0_nil (i : nat) : nth i (@nil R) 0 = 0.
Proof. destruct i; auto. Qed.

Lemma vec_map2 (f : R -> R -> R) l1 l2 i :
  (i < length l1)%nat -> length l1 = length l2 -> vec (map2 f l1 l2) i = f (vec l1 i) (vec l2 i).
Proof.
  unfold vec. revert l2 i. induction l1; intros [|y l2] [|i] H L; simpl in *; try lia; auto.
  apply IHl1; lia.
Qed.
Lemma vec_map (f : R -> R) l i : (i < length l)%nat -> vec (map f l) i = f (vec l i).
Proof.
  unfold vec. revert i. induction l; intros [|i] H; simpl in *; try lia; auto. apply IHl; lia.
Qed.
Lemma vec_mapi (f : nat -> R -> R) l i : (i < length l)%nat -> vec (mapi f l) i = f i (vec l i).
Proof.
  intros H. unfold vec. apply nth_error_nth. rewrite nth_error_mapi.
  rewrite (nth_error_nth' l 0 H). reflexivity.
Qed.
Lemma vec_firstn k l i : (i < k)%nat -> vec (firstn k l) i = vec l i.
Proof.
  unfold vec. revert k i. induction l; intros [|k] [|i] H; simpl in *; try lia; auto. apply IHl; lia.
Qed.
Lemma vec_skipn k l i : vec (skipn k l) i = vec l (k + i)%nat.
Proof.
  unfold vec. revert l. induction k; intros [|x l]; simpl; auto.
  destruct i; auto.
Qed.
Lemma vec_app1 l1 l2 i : (i < length l1)%nat -> vec (l1 ++ l2) i = vec l1 i.
Proof. intros. unfold vec. apply app_nth1; auto. Qed.
Lemma vec_app2 l1 l2 i : vec (l1 ++ l2) (length l1 + i)%nat = vec l2 i.
Proof. intros. unfold vec. rewrite app_nth2 by lia. f_equal. lia. Qed.
Lemma vec_nil i : vec [] i = 0.
Proof. apply nth_0_nil. Qed.
Lemma vec_ext l1 l2 : length l1 = length l2 -> (forall i, (i < length l1)%nat -> vec l1 i = vec l2 i) -> l1 = l2.
Proof. intros L H. apply nth_ext with (d := 0) (d' := 0); auto. Qed.

Definition ldot (vs ms : list R) : R := lsum (map2 Rmult vs ms).
Lemma ldot_sumf vs ms : length vs = length ms -> ldot vs ms = sumf (length vs) (fun i => vec vs i * vec ms i).
Proof.
  intros L. unfold ldot. rewrite lsum_sumf, length_map2. rewrite L, Nat.min_id.
  apply sumf_ext. intros i Hi. rewrite vec_map2; auto. lia.
Qed.
Lemma ldot_app v1 v2 m1 m2 : length v1 = length m1 -> ldot (v1 ++ v2) (m1 ++ m2) = ldot v1 m1 + ldot v2 m2.
Proof.
  unfold ldot. revert m1. induction v1; intros [|y m1] L; simpl in *; try lia; try lra.
  rewrite IHv1 by lia. lra.
Qed.

Section RealForward.
Variable c : cfg.

(** ** linear part *)
Lemma madd_R n j (x y w : R) : @madd opsR c n j x y w = y + x * w.
Proof. unfold madd. simpl. destruct (_ && _); lra. Qed.

Lemma vmm_step_R (ys : list R) (x : R) (row : list R) : length row = length ys -> forall j, (j < length ys)%nat ->
  vec (@vmm_step opsR c ys (x, row)) j = vec ys j + x * vec row j.
Proof.
  intros L j Hj. unfold vmm_step. unfold ftrue. simpl feq. simpl f0. simpl f1.
  destruct (Reqb_spec x 0) as [->|]; simpl. { lra. }
  destruct (Reqb_spec x 1) as [->|].
  - change (vec (map2 Rplus ys row) j = vec ys j + 1 * vec row j). rewrite vec_map2 by lia. lra.
  - unfold vec. apply nth_error_nth. rewrite nth_error_mapi2.
    rewrite (nth_error_nth' ys 0 Hj). rewrite (nth_error_nth' row 0) by lia. rewrite madd_R. reflexivity.
Qed.

Lemma vmm_R m : forall (xs w b : list R), length w = (length xs * m)%nat -> length b = m ->
  forall j, (j < m)%nat ->
  vec (@vmm_f opsR c m w b xs) j = vec b j + sumf (length xs) (fun i => vec xs i * vec w (i * m + j)).
Proof.
  induction xs as [|x xs IH]; intros w b Lw Lb j Hj; unfold vmm_f.
  - simpl. lra.
  - simpl length in *. cbn [rows combine fold_left].
    transitivity (vec (@vmm_f opsR c m (skipn m w) (@vmm_step opsR c b (x, firstn m w)) xs) j); [reflexivity|].
    assert (LF : length (firstn m w) = m) by (rewrite firstn_length; lia).
    rewrite IH; auto.
    + rewrite vmm_step_R by lia. rewrite vec_firstn by auto.
      rewrite sumf_S_l. simpl vec at 3. rewrite Rplus_assoc. f_equal. f_equal.
      apply sumf_ext. intros i Hi. rewrite vec_skipn. f_equal. f_equal. simpl. lia.
    + rewrite skipn_length. lia.
    + etransitivity; [apply length_vmm_step; simpl; lia|]. simpl. lia.
Qed.

(** ** activations, with an exact exponential in the vector code *)
Lemma tanh_math x : tanh x = act_math1 Tanh x.
Proof.
  unfold tanh, sinh, cosh. simpl. pose proof (exp_pos x). pose proof (exp_pos (- x)). field. lra.
Qed.
Lemma tanh_v_R x : @tanh_v opsR exp x = tanh x.
Proof.
  rewrite tanh_math. unfold tanh_v. simpl.
  pose proof (exp_pos x). pose proof (exp_pos (- x)).
  replace (-(2) * x) with (- x + - x) by lra. rewrite exp_plus.
  assert (E : exp x * exp (- x) = 1) by (rewrite <- exp_plus; replace (x + - x) with 0 by lra; apply exp_0).
  assert (E1 : exp x = / exp (- x)) by (apply Rmult_eq_reg_r with (exp (- x)); [rewrite E, Rinv_l; lra|lra]).
  rewrite E1. field. split; [lra|]. nra.
Qed.
Lemma sigmoid_s_R x : @sigmoid_s opsR x = act_math1 Sigmoid x.
Proof. reflexivity. Qed.
Lemma sigmoid_v_R x : @sigmoid_v opsR exp x = @sigmoid_s opsR x.
Proof. unfold sigmoid_v, sigmoid_s. simpl. do 3 f_equal. lra. Qed.
Lemma relu_v_R x : @relu_v opsR x = @relu_s opsR x.
Proof.
  unfold relu_v, relu_s, vmax, fgt. simpl. destruct (Rltb_spec x 0).
  - rewrite Rmax_left; lra.
  - rewrite Rmax_right; lra.
Qed.
Lemma softplus_R x : @softplus_s opsR x = act_math1 Softplus x.
Proof. unfold softplus_s. simpl. f_equal. lra. Qed.
Lemma softsign_R x : @softsign_s opsR x = act_math1 Softsign x.
Proof. unfold softsign_s. simpl. f_equal. lra. Qed.
Lemma hard_sigmoid_R x : @hard_sigmoid_s opsR x = act_math1 Hard_sigmoid x.
Proof.
  unfold hard_sigmoid_s, fgt. simpl. destruct (Rltb_spec x (-5 / 2)).
  - rewrite Rmin_right by lra. rewrite Rmax_left; lra.
  - destruct (Rltb_spec (5 / 2) x).
    + rewrite Rmin_left by lra. rewrite Rmax_right; lra.
    + rewrite Rmin_right by lra. rewrite Rmax_right; lra.
Qed.

Lemma exps_R a (xs : list R) : @exps_f opsR c exp a xs = map (fun x => exp (x - @max_f opsR xs)) xs.
Proof.
  unfold exps_f. rewrite <- mapi_const. apply mapi_ext. intros. destruct (_ && _); reflexivity.
Qed.

Lemma lsum_map2_add l1 l2 : length l1 = length l2 -> lsum (map2 Rplus l1 l2) = lsum l1 + lsum l2.
Proof.
  revert l2; induction l1; intros [|y l2] L; simpl in *; try lia; try lra. rewrite IHl1 by lia. lra.
Qed.
Lemma length8 (l : list R) : length l = 8%nat -> exists a b c d e f g h, l = [a;b;c;d;e;f;g;h].
Proof.
  intros H. do 8 (destruct l as [|? l]; [discriminate|]). destruct l; [|discriminate].
  repeat eexists.
Qed.
Lemma hsum_R (l : list R) : length l = 8%nat -> @hsum256_ps_avx opsR l = lsum l.
Proof. intros H. destruct (length8 l H) as (?&?&?&?&?&?&?&?&->). simpl. lra. Qed.
Lemma horizontalsum_R (l : list R) : length l = 8%nat -> @horizontalsum_avx opsR l = lsum l.
Proof. intros H. destruct (length8 l H) as (?&?&?&?&?&?&?&?&->). simpl. lra. Qed.

Lemma chunk_sums_R (es : list R) : forall q i (acc : list R), length acc = 8%nat -> (i + 8 * q <= length es)%nat ->
  length (@chunk_sums opsR q i es acc) = 8%nat /\
  lsum (@chunk_sums opsR q i es acc) = lsum acc + lsum (slice i (8 * q) es).
Proof.
  induction q; intros i acc L H.
  - split; auto. simpl. unfold slice. simpl. lra.
  - assert (LS : length (slice i 8 es) = 8%nat) by (apply length_slice; lia).
    cbn [chunk_sums]. destruct (IHq (i + 8)%nat (map2 (@fadd opsR) acc (slice i 8 es))) as [A B].
    + rewrite length_map2. rlia.
    + lia.
    + split; auto. etransitivity; [exact B|]. change (@fadd opsR) with Rplus. rewrite lsum_map2_add by lia.
      replace (8 * S q)%nat with (8 + 8 * q)%nat by lia. rewrite slice_app_add, lsum_app. lra.
Qed.
Lemma sum_R a (es : list R) : @sum_f opsR c a es = lsum es.
Proof.
  unfold sum_f. change (@F opsR) with R. simpl f0. change (@fadd opsR) with Rplus. destruct (has_avx2 c).
  - set (n := length es). set (pro := pro_f c a n).
    assert (Hp : (pro <= n)%nat) by apply pro_f_le.
    set (q := ((n - pro) / 8)%nat).
    assert (Hq : (8 * q <= n - pro)%nat) by (apply Nat.mul_div_le; lia).
    rewrite !fold_left_lsum.
    destruct (chunk_sums_R es q pro (repeat 0 8)) as [A B]; [reflexivity|fold n; lia|].
    rewrite hsum_R by auto. change (@F opsR) with R in *. rewrite B, lsum_repeat0.
    rewrite <- (firstn_skipn (pro + 8 * q) es) at 4. rewrite lsum_app.
    rewrite <- firstn_slice_app, lsum_app. lra.
  - rewrite fold_left_lsum. lra.
Qed.

Lemma lsum_exp_shift mv xs : lsum (map (fun x => exp (x - mv)) xs) = exp (- mv) * lsum (map exp xs).
Proof.
  induction xs; simpl; try lra. rewrite IHxs. unfold Rminus. rewrite exp_plus. lra.
Qed.
Lemma lsum_exp_pos xs : xs <> [] -> 0 < lsum (map exp xs).
Proof.
  intros H. destruct xs as [|x xs]; [congruence|]. simpl. clear H. pose proof (exp_pos x).
  assert (0 <= lsum (map exp xs)). { clear. induction xs; simpl; try lra. pose proof (exp_pos a). lra. }
  lra.
Qed.

Lemma softmax_R a (xs : list R) j : (j < length xs)%nat ->
  vec (@softmax_f opsR c exp a xs) j = exp (vec xs j) / sumf (length xs) (fun k => exp (vec xs k)).
Proof.
  intros Hj. unfold softmax_f. rewrite sum_R, exps_R. set (mv := @max_f opsR xs).
  rewrite lsum_exp_shift. change (@fdiv opsR) with Rdiv.
  rewrite vec_map by (rewrite map_length; auto).
  change (@F opsR) with R.
  rewrite vec_map with (f := fun x => exp (x - mv)) by auto.
  assert (E : lsum (map exp xs) = sumf (length xs) (fun k => exp (vec xs k))).
  { rewrite lsum_sumf, map_length. apply sumf_ext. intros. apply vec_map; auto. }
  rewrite <- E.
  assert (0 < lsum (map exp xs)). { apply lsum_exp_pos. destruct xs; simpl in *; [lia|congruence]. }
  pose proof (exp_pos (- mv)). unfold Rminus. rewrite exp_plus. field. lra.
Qed.

Lemma act_R g a (xs : list R) j : (j < length xs)%nat ->
  vec (@act_f opsR c exp g a xs) j = act_math g (length xs) (vec xs) j.
Proof.
  intros Hj. destruct g; simpl act_f; unfold act_math.
  - change (@F opsR) with R. rewrite vec_map by auto. apply softplus_R.
  - change (@F opsR) with R. rewrite vec_map by auto. apply softsign_R.
  - change (@F opsR) with R. rewrite vec_map by auto. apply hard_sigmoid_R.
  - change (@F opsR) with R. rewrite vec_map by auto. reflexivity.
  - reflexivity.
  - unfold relu_f. rewrite reg_map_same by apply relu_v_R. change (@F opsR) with R. rewrite vec_map by auto. reflexivity.
  - apply softmax_R; auto.
  - unfold sigmoid_f. rewrite reg_map_same by apply sigmoid_v_R. change (@F opsR) with R. rewrite vec_map by auto. reflexivity.
  - unfold tanh_f. rewrite reg_map_same by apply tanh_v_R. change (@F opsR) with R. rewrite vec_map by auto. apply tanh_math.
Qed.

(** ** the network *)
Lemma act_math_ext g n z z' j : (j < n)%nat -> (forall k, (k < n)%nat -> z k = z' k) -> act_math g n z j = act_math g n z' j.
Proof.
  intros Hj H. destruct g; simpl; rewrite ?H by auto; auto.
  f_equal. apply sumf_ext. intros. rewrite H; auto.
Qed.

Lemma eval_ext : forall sh n th th' x x', 
  (forall k, (k < n_params sh n)%nat -> th k = th' k) -> (forall i, (i < n)%nat -> x i = x' i) ->
  forall j, (j < n_outputs sh n)%nat -> eval sh n th x j = eval sh n th' x' j.
Proof.
  induction sh as [|[m g] sh IH]; intros n th th' x x' Ht Hx j Hj; simpl in *; auto.
  apply IH; auto.
  - intros k Hk. apply Ht. rlia.
  - intros i Hi. apply act_math_ext; auto. intros k Hk. rewrite Ht by rlia. f_equal.
    apply sumf_ext. intros i' Hi'. rewrite Hx by auto. rewrite Ht; auto. rnia.
Qed.

(** shape and parameter vector of the numbers of a network *)
Definition shape_of (net : list (@flayer opsR)) : shape := map (fun l => (fn_out l, fact l)) net.
Definition params_of (net : list (@flayer opsR)) : list R := flat_map (fun l => fb l ++ fw l) net.
(** sizes fit, for n inputs *)
Fixpoint fits (n : nat) (net : list (@flayer opsR)) : Prop :=
  match net with
  | [] => True
  | l :: r => length (fw l) = (n * fn_out l)%nat /\ fits (fn_out l) r
  end.

Lemma length_params_of : forall net n, fits n net -> length (params_of net) = n_params (shape_of net) n.
Proof.
  induction net as [|l net IH]; intros n H; simpl in *; auto. destruct H as [H1 H2].
  rewrite !app_length, (IH _ H2), H1. unfold fn_out. rlia.
Qed.

Lemma layer_R a l (xs : list R) : length (fw l) = (length xs * fn_out l)%nat -> forall j, (j < fn_out l)%nat ->
  vec (@layer_f opsR c exp a l xs) j =
  act_math (fact l) (fn_out l) (fun j => vec (fb l) j + sumf (length xs) (fun i => vec xs i * vec (fw l) (i * fn_out l + j))) j.
Proof.
  intros L j Hj. unfold layer_f.
  assert (LV : length (@vmm_f opsR c (fn_out l) (fw l) (fb l) xs) = fn_out l) by (apply length_vmm_f; auto).
  rewrite act_R by rlia. change (@F opsR) with R in *. rewrite LV. apply act_math_ext; auto.
  intros k Hk. apply vmm_R; auto.
Qed.

Lemma vec_params_b l r j : (j < fn_out l)%nat -> vec (params_of (l :: r)) j = vec (fb l) j.
Proof. intros H. unfold params_of. simpl. rewrite vec_app1; [rewrite vec_app1; auto|rewrite app_length; unfold fn_out in *; rlia]. Qed.
Lemma vec_params_w l r k : (k < length (fw l))%nat -> vec (params_of (l :: r)) (fn_out l + k) = vec (fw l) k.
Proof.
  intros H. unfold params_of. simpl. unfold fn_out. rewrite vec_app1 by (rewrite app_length; rlia).
  rewrite vec_app2. auto.
Qed.
Lemma vec_params_r l r k : vec (params_of (l :: r)) (fn_out l + length (fw l) + k) = vec (params_of r) k.
Proof.
  unfold params_of. simpl. fold (params_of r). unfold fn_out. rewrite <- app_length. apply vec_app2.
Qed.

Lemma forward_R : forall net ao (xs : list R), fits (length xs) net ->
  length (@forward_f opsR c exp net ao xs) = n_outputs (shape_of net) (length xs) /\
  forall j, (j < n_outputs (shape_of net) (length xs))%nat ->
  vec (@forward_f opsR c exp net ao xs) j = eval (shape_of net) (length xs) (vec (params_of net)) (vec xs) j.
Proof.
  assert (G : forall l r a (xs : list R), length (fw l) = (length xs * fn_out l)%nat -> forall j, (j < fn_out l)%nat ->
     vec (@layer_f opsR c exp a l xs) j =
     act_math (fact l) (fn_out l) (fun j => vec (params_of (l :: r)) j +
        sumf (length xs) (fun i => vec xs i * vec (params_of (l :: r)) (fn_out l + (i * fn_out l + j)))) j).
  { intros l r a xs L j Hj. rewrite layer_R by auto. apply act_math_ext; auto.
    intros k Hk. rewrite vec_params_b by auto. f_equal. apply sumf_ext. intros i Hi.
    rewrite vec_params_w; auto. rewrite L. rnia. }
  induction net as [|l net IH]; intros ao xs H.
  - simpl. auto.
  - destruct H as [H1 H2]. simpl shape_of. cbn [n_outputs eval].
    destruct net as [|l2 net].
    + simpl. split. { rewrite length_layer_f; auto. } intros j Hj. exact (G l [] ao xs H1 j Hj).
    + assert (LL : length (@layer_f opsR c exp 0 l xs) = fn_out l) by (apply length_layer_f; auto).
      change (forward_f c exp (l :: l2 :: net) ao xs) with (forward_f c exp (l2 :: net) ao (layer_f c exp 0 l xs)).
      rewrite <- LL in H2. destruct (IH ao _ H2) as [A B]. change (@F opsR) with R in *. rewrite LL in A, B. split; auto.
      intros j Hj. rewrite B by auto. apply eval_ext; auto.
      * intros k Hk. rewrite <- H1. rewrite vec_params_r. reflexivity.
Qed.

(** ** matrix kernels *)
Lemma length16 (l : list R) : length l = 16%nat -> exists l1 l2, l = l1 ++ l2 /\ length l1 = 8%nat /\ length l2 = 8%nat.
Proof.
  intros H. exists (firstn 8 l), (skipn 8 l). rewrite firstn_skipn, firstn_length, skipn_length. repeat split; rlia.
Qed.
Lemma reduce_R (l : list R) : length l = 16%nat -> @reduce_add_512 opsR l = lsum l.
Proof.
  intros H. destruct (length16 l H) as (l1 & l2 & -> & L1 & L2).
  destruct (length8 l1 L1) as (?&?&?&?&?&?&?&?&->). destruct (length8 l2 L2) as (?&?&?&?&?&?&?&?&->).
  unfold reduce_add_512, slice. simpl. lra.
Qed.
Lemma map3_R : forall s v w : list R, length s = length v -> length v = length w ->
  length (map3 (@mvm_lane opsR c) s v w) = length s /\
  lsum (map3 (@mvm_lane opsR c) s v w) = lsum s + ldot v w.
Proof.
  induction s; intros [|y v] [|z w] L1 L2; simpl in *; try rlia; unfold ldot in *; simpl. { split; auto; lra. }
  destruct (IHs v w) as [A B]; try rlia. rewrite A. split; auto. rewrite B.
  unfold mvm_lane. simpl. destruct (cfg_fma c); lra.
Qed.
Lemma acc_chunks_R w vs ms : length vs = length ms -> forall q j0, (j0 + q * w <= length vs)%nat ->
  length (@acc_chunks opsR c w q j0 vs ms) = w /\
  lsum (@acc_chunks opsR c w q j0 vs ms) = ldot (slice j0 (q * w) vs) (slice j0 (q * w) ms).
Proof.
  intros L. induction q; intros j0 H.
  - unfold acc_chunks. simpl. rewrite repeat_length, lsum_repeat0. auto.
  - replace (S q) with (q + 1)%nat by rlia. rewrite acc_chunks_S. simpl in H.
    destruct (IHq j0 ltac:(rlia)) as [A B].
    assert (L1 : length (slice (j0 + q * w) w vs) = w) by (apply length_slice; rlia).
    assert (L2 : length (slice (j0 + q * w) w ms) = w) by (apply length_slice; rlia).
    destruct (map3_R (@acc_chunks opsR c w q j0 vs ms) (slice (j0 + q * w) w vs) (slice (j0 + q * w) w ms)) as [C D];
      [change (@F opsR) with R in *; rlia | change (@F opsR) with R in *; rlia |].
    split; [change (@F opsR) with R in *; rlia|].
    rewrite D, B. rewrite Nat.mul_add_distr_r, Nat.mul_1_l, !slice_app_add.
    rewrite ldot_app; auto. rewrite !length_slice; rlia.
Qed.

Lemma fold_dot_R : forall (vs ms : list R) y, 
  fold_left (fun y vm => y + fst vm * snd vm) (combine vs ms) y = y + ldot vs ms.
Proof.
  induction vs; intros [|z ms] y; unfold ldot in *; simpl; try lra. rewrite IHvs. lra.
Qed.

Lemma ldot_skip (vs ms : list R) k : length vs = length ms -> (k <= length vs)%nat ->
  ldot vs ms = ldot (firstn k vs) (firstn k ms) + ldot (skipn k vs) (skipn k ms).
Proof.
  intros L H. rewrite <- (firstn_skipn k vs) at 1. rewrite <- (firstn_skipn k ms) at 1.
  apply ldot_app. rewrite !firstn_length. rlia.
Qed.

Lemma dot_R (vs ms : list R) y0 : length vs = length ms ->
  @dot_f opsR c vs ms y0 = (if has_avx512 c then 0 else y0) + ldot vs ms.
Proof.
  intros L. unfold dot_f. change (@fadd opsR) with Rplus. change (@fmul opsR) with Rmult.
  change (@F opsR) with R. set (n := length vs).
  set (q16 := if has_avx512 c then (n / 16)%nat else 0%nat).
  assert (H16 : (q16 * 16 <= n)%nat).
  { unfold q16. destruct (has_avx512 c); [|rlia]. rewrite Nat.mul_comm. apply Nat.mul_div_le. rlia. }
  set (q8 := if has_avx c then ((n - 16 * q16) / 8)%nat else 0%nat).
  assert (H8 : (q8 * 8 <= n - 16 * q16)%nat).
  { unfold q8. destruct (has_avx c); [|rlia]. rewrite Nat.mul_comm. apply Nat.mul_div_le. rlia. }
  destruct (acc_chunks_R 16 vs ms L q16 0 ltac:(fold n; rlia)) as [A1 B1].
  destruct (acc_chunks_R 8 vs ms L q8 (16 * q16) ltac:(fold n; rlia)) as [A2 B2].
  rewrite fold_dot_R. rewrite (ldot_skip vs ms (16 * q16 + 8 * q8)) by (fold n; rlia).
  assert (E : ldot (firstn (16 * q16 + 8 * q8) vs) (firstn (16 * q16 + 8 * q8) ms) =
              ldot (slice 0 (q16 * 16) vs) (slice 0 (q16 * 16) ms) +
              ldot (slice (16 * q16) (q8 * 8) vs) (slice (16 * q16) (q8 * 8) ms)).
  { rewrite <- !firstn_slice_app. rewrite ldot_app by (rewrite !firstn_length; rlia).
    unfold slice. simpl skipn. rewrite (Nat.mul_comm 16 q16), (Nat.mul_comm 8 q8). reflexivity. }
  change (@F opsR) with R in *. rewrite E, <- B1, <- B2.
  rewrite reduce_R, horizontalsum_R by auto.
  unfold q16, q8. destruct (has_avx512 c) eqn:E5.
  - rewrite (has_avx512_avx c E5). lra.
  - destruct (has_avx c); unfold acc_chunks; simpl; rewrite ?lsum_repeat0; lra.
Qed.

Lemma mvm_R (vs : list R) nr (ws : list R) y0 : length ws = (nr * length vs)%nat -> forall i, (i < nr)%nat ->
  vec (@mvm_f opsR c vs (rows nr (length vs) ws) y0) i =
  (if has_avx512 c then 0 else y0) + sumf (length vs) (fun j => vec ws (i * length vs + j) * vec vs j).
Proof.
  intros L i Hi. unfold vec at 1. apply nth_error_nth. unfold mvm_f. rewrite nth_error_map.
  rewrite nth_rows by auto. simpl. f_equal.
  assert (LS : length (slice (i * length vs) (length vs) ws) = length vs) by (apply length_slice; rewrite L; rnia).
  rewrite dot_R by auto. f_equal. rewrite ldot_sumf by auto. apply sumf_ext. intros j Hj.
  rewrite Rmult_comm. f_equal. unfold slice. rewrite vec_firstn by auto. rewrite vec_skipn. reflexivity.
Qed.

Lemma outer_R (xs ys : list R) i j : (i < length xs)%nat -> (j < length ys)%nat ->
  vec (@outer_f opsR xs ys) (i * length ys + j) = vec xs i * vec ys j.
Proof.
  intros Hi Hj. unfold outer_f.
  assert (LR : forall x, length (@outer_row opsR ys x) = length ys) by apply length_outer_row.
  revert i Hi. induction xs as [|x xs IH]; intros i Hi; simpl in Hi; [rlia|].
  simpl flat_map. destruct i as [|i].
  - simpl. rewrite vec_app1 by (rewrite LR; auto). unfold outer_row, ftrue. simpl feq.
    change (vec (x :: xs) 0) with x.
    destruct (Reqb_spec x 0) as [->|]; simpl.
    + unfold vec. rewrite nth_repeat. lra.
    + change (@F opsR) with R. rewrite vec_map by auto. lra.
  - replace (S i * length ys + j)%nat with (length (@outer_row opsR ys x) + (i * length ys + j))%nat by (rewrite LR; simpl; rlia).
    rewrite vec_app2. rewrite IH by rlia. reflexivity.
Qed.

End RealForward.
