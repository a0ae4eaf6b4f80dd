(** RealGrad.v -- in exact arithmetic the backward pass computes the gradient *)
From Coq Require Import List Arith ZArith Lia Bool Reals Lra.
From Coquelicot Require Import Coquelicot.
From Verif Require Import Base BaseProofs Ops OpsR Mem MemProofs Kernels KernelProofs KernelProofs2
  Activation ActivationProofs Loss Neuralnet ForwardProofs BackpropProofs SpecReal RealForward.
Import ListNotations.
Local Open Scope R_scope.

(** ** derivatives of the activation functions, from their value *)
Lemma is_derive_locally_eq (f g : R -> R) x l (eps : posreal) :
  (forall y, Rabs (y - x) < eps -> g y = f y) -> is_derive g x l -> is_derive f x l.
Proof.
  intros H D. eapply is_derive_ext_loc; [|exact D].
  exists eps. intros y Hy. apply H. exact Hy.
Qed.

Lemma is_derive_const' (a x : R) : is_derive (fun _ => a) x 0.
Proof. apply @is_derive_const. Qed.
Lemma is_derive_id' (x : R) : is_derive (fun y => y) x 1.
Proof. apply @is_derive_id. Qed.

Lemma derive_softplus x : is_derive (act_math1 Softplus) x (@act_d opsR Softplus (act_math1 Softplus x)).
Proof.
  unfold act_d, softplus_d. cbv [act_math1]. simpl. pose proof (exp_pos x). rewrite exp_ln by lra.
  auto_derive; [repeat split; lra|]. field. lra.
Qed.
Lemma derive_sigmoid x : is_derive (act_math1 Sigmoid) x (@act_d opsR Sigmoid (act_math1 Sigmoid x)).
Proof.
  unfold act_d, sigmoid_d. cbv [act_math1]. simpl. pose proof (exp_pos (- x)). auto_derive; [repeat split; lra|]. field. lra.
Qed.
Lemma derive_tanh x : is_derive (act_math1 Tanh) x (@act_d opsR Tanh (act_math1 Tanh x)).
Proof.
  unfold act_d, tanh_d. cbv [act_math1]. simpl. pose proof (exp_pos (- x)). pose proof (exp_pos x).
  auto_derive; [repeat split; lra|]. field. lra.
Qed.
Lemma derive_exponential x : is_derive (act_math1 Exponential) x (@act_d opsR Exponential (act_math1 Exponential x)).
Proof. cbv [act_math1]. simpl. auto_derive; auto. lra. Qed.
Lemma derive_linear x : is_derive (act_math1 Linear) x (@act_d opsR Linear (act_math1 Linear x)).
Proof. cbv [act_math1]. simpl. apply is_derive_id'. Qed.

Lemma derive_relu x : x <> 0 -> is_derive (act_math1 Relu) x (@act_d opsR Relu (act_math1 Relu x)).
Proof.
  intros H. cbv [act_math1]. simpl. unfold relu_d. simpl. destruct (Rlt_dec x 0) as [Hx|Hx].
  - rewrite Rmax_left by lra. destruct (Rleb_spec 0 0); [|lra].
    assert (P : 0 < - x) by lra.
    eapply is_derive_locally_eq with (eps := mkposreal _ P); [|apply (is_derive_const' 0)].
    simpl. intros y Hy. apply Rabs_def2 in Hy. rewrite Rmax_left; lra.
  - rewrite Rmax_right by lra. destruct (Rleb_spec x 0); [lra|].
    assert (P : 0 < x) by lra.
    eapply is_derive_locally_eq with (eps := mkposreal _ P); [|apply (is_derive_id' x)].
    simpl. intros y Hy. apply Rabs_def2 in Hy. rewrite Rmax_right; lra.
Qed.
Lemma derive_hard_sigmoid x : x <> 5 / 2 -> x <> - 5 / 2 ->
  is_derive (act_math1 Hard_sigmoid) x (@act_d opsR Hard_sigmoid (act_math1 Hard_sigmoid x)).
Proof.
  intros H1 H2. cbv [act_math1]. simpl. unfold hard_sigmoid_d, fge. simpl.
  destruct (Rlt_dec x (- 5 / 2)) as [Hx|Hx]; [|destruct (Rlt_dec (5 / 2) x) as [Hx2|Hx2]].
  - rewrite Rmin_right by lra. rewrite Rmax_left by lra. destruct (Rleb_spec 0 0); [|lra].
    assert (P : 0 < - 5 / 2 - x) by lra.
    eapply is_derive_locally_eq with (eps := mkposreal _ P); [|apply (is_derive_const' 0)].
    simpl. intros y Hy. apply Rabs_def2 in Hy. rewrite Rmin_right by lra. rewrite Rmax_left; lra.
  - rewrite Rmin_left by lra. rewrite Rmax_right by lra. destruct (Rleb_spec 1 0); [lra|]. destruct (Rleb_spec 1 1); [|lra].
    assert (P : 0 < x - 5 / 2) by lra.
    eapply is_derive_locally_eq with (eps := mkposreal _ P); [|apply (is_derive_const' 1)].
    simpl. intros y Hy. apply Rabs_def2 in Hy. rewrite Rmin_left by lra. rewrite Rmax_right; lra.
  - rewrite Rmin_right by lra. rewrite Rmax_right by lra.
    destruct (Rleb_spec (x / 5 + 1 / 2) 0); [lra|]. destruct (Rleb_spec 1 (x / 5 + 1 / 2)); [lra|].
    assert (P : 0 < Rmin (x - (- 5 / 2)) (5 / 2 - x)) by (apply Rmin_pos; lra).
    eapply is_derive_locally_eq with (eps := mkposreal _ P) (g := fun y => y / 5 + 1 / 2).
    + simpl. intros y Hy. pose proof (Rmin_l (x - (- 5 / 2)) (5 / 2 - x)). pose proof (Rmin_r (x - (- 5 / 2)) (5 / 2 - x)).
      apply Rabs_def2 in Hy. rewrite Rmin_right by lra. rewrite Rmax_right; lra.
    + auto_derive; [auto|]; lra.
Qed.

Lemma softsign_val x : @softsign_d opsR (act_math1 Softsign x) = 1 / ((1 + Rabs x) * (1 + Rabs x)).
Proof.
  unfold softsign_d. simpl. pose proof (Rabs_pos x) as HA.
  assert (E : x / (1 + Rabs x) / (1 - Rabs (x / (1 + Rabs x))) = x).
  { unfold Rdiv at 3. rewrite Rabs_mult, Rabs_inv. rewrite (Rabs_right (1 + Rabs x)) by lra. field. split; lra. }
  rewrite E. reflexivity.
Qed.
Lemma derive_softsign x : is_derive (act_math1 Softsign) x (@act_d opsR Softsign (act_math1 Softsign x)).
Proof.
  unfold act_d. rewrite softsign_val. cbv [act_math1].
  destruct (Rlt_dec x 0) as [Hx|Hx]; [|destruct (Rlt_dec 0 x) as [Hx2|Hx2]].
  - assert (P : 0 < - x) by lra.
    eapply is_derive_locally_eq with (eps := mkposreal _ P) (g := fun y => y / (1 - y)).
    + simpl. intros y Hy. apply Rabs_def2 in Hy. rewrite (Rabs_left y) by lra. f_equal. 
    + rewrite Rabs_left by lra. auto_derive; [repeat split; lra|]. field. lra.
  - assert (P : 0 < x) by lra.
    eapply is_derive_locally_eq with (eps := mkposreal _ P) (g := fun y => y / (1 + y)).
    + simpl. intros y Hy. apply Rabs_def2 in Hy. rewrite (Rabs_right y) by lra. reflexivity.
    + rewrite Rabs_right by lra. auto_derive; [repeat split; lra|]. field. lra.
  - assert (x = 0) by lra. subst x. rewrite Rabs_R0. replace (1 / ((1 + 0) * (1 + 0))) with 1 by field.
    apply is_derive_Reals. intros eps Heps. exists (mkposreal _ Heps). simpl. intros h Hh Hd.
    rewrite Rplus_0_l, Rabs_R0. pose proof (Rabs_pos h).
    replace ((h / (1 + Rabs h) - 0 / (1 + 0)) / h - 1) with (- (Rabs h / (1 + Rabs h))) by (field; split; lra).
    rewrite Rabs_Ropp. rewrite Rabs_right.
    + apply Rle_lt_trans with (Rabs h); auto. apply Rmult_le_reg_r with (1 + Rabs h); [lra|].
      unfold Rdiv. rewrite Rmult_assoc, Rinv_l by lra. nra.
    + apply Rle_ge. apply Rmult_le_pos; [lra|]. apply Rlt_le, Rinv_0_lt_compat. lra.
Qed.

Lemma derive_act g x : g <> Softmax -> away g x -> is_derive (act_math1 g) x (@act_d opsR g (act_math1 g x)).
Proof.
  intros Hg Ha. destruct g; try congruence.
  - apply derive_softplus. - apply derive_softsign. - apply derive_hard_sigmoid; apply Ha.
  - apply derive_exponential. - apply derive_linear. - apply derive_relu; auto.
  - apply derive_sigmoid. - apply derive_tanh.
Qed.

Lemma deriv_R d (o e : list R) j : (j < length e)%nat -> length o = length e ->
  vec (@deriv_f opsR d o e) j = vec e j * @act_d opsR d (vec o j).
Proof.
  intros Hj L. destruct d; simpl deriv_f; try (rewrite vec_map2 by lia; reflexivity); simpl; lra.
Qed.

(** ** curves *)
Lemma is_derive_sumf n (f : R -> nat -> R) (df : nat -> R) t :
  (forall i, (i < n)%nat -> is_derive (fun s => f s i) t (df i)) ->
  is_derive (fun s => sumf n (f s)) t (sumf n df).
Proof.
  induction n; intros H; simpl. { apply is_derive_const'. }
  apply @is_derive_plus; auto.
Qed.
Lemma is_derive_mul (f g : R -> R) (t a b : R) :
  is_derive f t a -> is_derive g t b -> is_derive (fun s => f s * g s) t (a * g t + f t * b).
Proof. intros H1 H2. apply (is_derive_mult f g t a b); auto. intros; apply Rmult_comm. Qed.
Lemma is_derive_comp' (f g : R -> R) (t a b : R) :
  is_derive f (g t) a -> is_derive g t b -> is_derive (fun s => f (g s)) t (a * b).
Proof.
  intros H1 H2. rewrite Rmult_comm. exact (is_derive_comp f g t a b H1 H2).
Qed.

Definition dzf (n m : nat) (th dth x dx : nat -> R) (j : nat) : R :=
  dth j + sumf n (fun i => dx i * th (m + (i * m + j))%nat + x i * dth (m + (i * m + j))%nat).

Lemma derive_zf n m (th x : R -> nat -> R) (dth dx : nat -> R) t j :
  (j < m)%nat ->
  (forall k, (k < m + n * m)%nat -> is_derive (fun s => th s k) t (dth k)) ->
  (forall i, (i < n)%nat -> is_derive (fun s => x s i) t (dx i)) ->
  is_derive (fun s => zf n m (th s) (x s) j) t (dzf n m (th t) dth (x t) dx j).
Proof.
  intros Hj Ht Hx. unfold zf, dzf. apply @is_derive_plus. { apply Ht. lia. }
  apply is_derive_sumf with (f := fun s i => x s i * th s (m + (i * m + j))%nat).
  intros i Hi. apply (is_derive_mul (fun s => x s i) (fun s => th s (m + (i * m + j))%nat)); auto.
  apply Ht. nia.
Qed.

Section Grad.
Variable c : cfg.
Variable L : (nat -> R) -> R.     (* loss of an output vector *)
Variable e : list R.              (* what the loss function of the code returns *)

(** [L] after the last layer (activation g, derivative used d, output o) *)
Definition last_ok (g d : act) (m : nat) (o : list R) : Prop :=
  forall (z : R -> nat -> R) (dz : nat -> R) t,
    (forall j, (j < m)%nat -> is_derive (fun s => z s j) t (dz j)) ->
    (forall j, (j < m)%nat -> vec o j = act_math g m (z t) j) ->
    (forall j, (j < m)%nat -> away g (z t j)) ->
    is_derive (fun s => L (act_math g m (z s))) t (sumf m (fun j => vec (@deriv_f opsR d o e) j * dz j)).

Fixpoint net_ok (net : list (@flayer opsR * act)) (vals : list (list R)) : Prop :=
  match net, vals with
  | (l, d) :: r, _ :: ((o :: _) as vr) =>
      match r with
      | [] => last_ok (fact l) d (fn_out l) o /\ length e = fn_out l
      | _ => fact l <> Softmax /\ d = fact l /\ net_ok r vr
      end
  | _, _ => False
  end.

Lemma dz_sum n m (th dth x dx dl : nat -> R) :
  sumf m (fun j => dl j * dzf n m th dth x dx j) =
  sumf m (fun j => dl j * dth j) + sumf n (fun i => sumf m (fun j => x i * dl j * dth (m + (i * m + j))%nat)) +
  sumf n (fun i => sumf m (fun j => th (m + (i * m + j))%nat * dl j) * dx i).
Proof.
  unfold dzf.
  transitivity (sumf m (fun j => dl j * dth j +
     (sumf n (fun i => x i * dl j * dth (m + (i * m + j))%nat) + sumf n (fun i => th (m + (i * m + j))%nat * dl j * dx i)))).
  - apply sumf_ext. intros j Hj. rewrite Rmult_plus_distr_l. f_equal.
    rewrite <- sumf_plus, <- sumf_scal. apply sumf_ext. intros; lra.
  - rewrite !sumf_plus. rewrite <- Rplus_assoc. f_equal; [f_equal|].
    + rewrite sumf_swap. reflexivity.
    + rewrite sumf_swap. apply sumf_ext. intros i Hi.
      rewrite (Rmult_comm _ (dx i)), <- sumf_scal. apply sumf_ext. intros; lra.
Qed.

(** a sum over a row-major matrix *)
Lemma sumf_matrix n m (f : nat -> R) : sumf (n * m) f = sumf n (fun i => sumf m (fun j => f (i * m + j)%nat)).
Proof.
  induction n; simpl; auto. rewrite Nat.add_comm, sumf_add, IHn. reflexivity.
Qed.

Lemma bp_correct : forall (net : list (@flayer opsR * act)) (xs : list R) (th x : R -> nat -> R) (dth dx : nat -> R) t,
  let fnet := map fst net in
  let sh := shape_of fnet in
  let n := length xs in
  let vals := @vals_f opsR c exp fnet xs in
  fits n fnet -> net_ok net vals ->
  (forall k, (k < n_params sh n)%nat -> th t k = vec (params_of fnet) k) ->
  (forall i, (i < n)%nat -> x t i = vec xs i) ->
  (forall k, (k < n_params sh n)%nat -> is_derive (fun s => th s k) t (dth k)) ->
  (forall i, (i < n)%nat -> is_derive (fun s => x s i) t (dx i)) ->
  smooth sh n (th t) (x t) ->
  exists d1 w1 rest l,
    @bp_f opsR c net vals e = (d1, w1) :: rest /\ nth_error fnet 0 = Some l /\ length d1 = fn_out l /\
    length (flat (@bp_f opsR c net vals e)) = n_params sh n /\
    is_derive (fun s => L (eval sh n (th s) (x s))) t
      (sumf (n_params sh n) (fun k => vec (flat (@bp_f opsR c net vals e)) k * dth k) +
       sumf n (fun i => sumf (fn_out l) (fun j => vec (fw l) (i * fn_out l + j) * vec d1 j) * dx i)).
Proof.
  induction net as [|[l d] net IH]; intros xs th x dth dx t; cbv zeta; intros HF HN Hth Hx Dth Dx HS.
  { simpl in HN. destruct HN. }
  simpl map in *. set (fnet := map fst net) in *.
  destruct HF as [Lw HF].
  set (n := length xs) in *. set (m := fn_out l) in *.
  set (o := @layer_f opsR c exp 0 l xs).
  change (@F opsR) with R in *.
  assert (Lo : length o = m) by (unfold o; apply length_layer_f; auto).
  cbn [shape_of map n_params] in Hth, Dth.
  change (map (fun l0 : flayer => (fn_out l0, fact l0)) fnet) with (shape_of fnet) in *.
  fold m in Hth, Dth.
  cbn [shape_of map smooth] in HS. change (map (fun l0 : flayer => (fn_out l0, fact l0)) fnet) with (shape_of fnet) in *.
  fold m in HS. destruct HS as [HA HS].
  set (z := fun s => zf n m (th s) (x s)).
  set (dz := dzf n m (th t) dth (x t) dx).
  assert (Dz : forall j, (j < m)%nat -> is_derive (fun s => z s j) t (dz j)).
  { intros j Hj. apply derive_zf; auto. intros k Hk. apply Dth. lia. }
  assert (Hb : forall j, (j < m)%nat -> th t j = vec (fb l) j).
  { intros j Hj. rewrite Hth by lia. apply vec_params_b. auto. }
  assert (Hw : forall i j, (i < n)%nat -> (j < m)%nat -> th t (m + (i * m + j))%nat = vec (fw l) (i * m + j)).
  { intros i j Hi Hj. assert (i * m + j < n * m)%nat by nia. rewrite Hth by lia.
    unfold m at 1. rewrite vec_params_w; auto. rlia. }
  assert (Hz : forall j, (j < m)%nat -> z t j = vec (fb l) j + sumf n (fun i => vec xs i * vec (fw l) (i * m + j))).
  { intros j Hj. unfold z, zf. rewrite Hb by auto. f_equal. apply sumf_ext. intros i Hi. rewrite Hx, Hw; auto. }
  assert (Ho : forall j, (j < m)%nat -> vec o j = act_math (fact l) m (z t) j).
  { intros j Hj. unfold o. rewrite layer_R by auto. fold m n. apply act_math_ext; auto. intros k Hk. rewrite Hz; auto. }
  (* the common computation: from the derivative Sum_j dl_j dz_j *)
  assert (FIN : forall (dl : list R) rest lrest, length dl = m -> length rest = lrest ->
    sumf m (fun j => vec dl j * dz j) + sumf lrest (fun k => vec rest k * dth (m + n * m + k)%nat) =
    sumf (m + n * m + lrest) (fun k => vec ((dl ++ @outer_f opsR xs dl) ++ rest) k * dth k) +
    sumf n (fun i => sumf m (fun j => vec (fw l) (i * m + j) * vec dl j) * dx i)).
  { intros dl rest lrest Ld Lr. unfold dz. rewrite dz_sum.
    assert (LO : length (@outer_f opsR xs dl) = (n * m)%nat) by (rewrite length_outer_f; rlia).
    rewrite !sumf_add.
    assert (E1 : sumf m (fun k => vec ((dl ++ @outer_f opsR xs dl) ++ rest) k * dth k) = sumf m (fun j => vec dl j * dth j)).
    { apply sumf_ext. intros k Hk. rewrite vec_app1 by (rewrite app_length; rlia). rewrite vec_app1 by rlia. reflexivity. }
    assert (E2 : sumf (n * m) (fun i => vec ((dl ++ @outer_f opsR xs dl) ++ rest) (m + i)%nat * dth (m + i)%nat) =
                 sumf n (fun i => sumf m (fun j => x t i * vec dl j * dth (m + (i * m + j))%nat))).
    { rewrite sumf_matrix. apply sumf_ext. intros i Hi. apply sumf_ext. intros j Hj.
      assert (i * m + j < n * m)%nat by nia.
      rewrite vec_app1 by (rewrite app_length; rlia). rewrite <- Ld at 1. rewrite vec_app2.
      rewrite <- Ld at 1. rewrite outer_R by rlia. rewrite Hx by auto. reflexivity. }
    assert (E3 : sumf lrest (fun i => vec ((dl ++ @outer_f opsR xs dl) ++ rest) (m + n * m + i)%nat * dth (m + n * m + i)%nat) =
                 sumf lrest (fun k => vec rest k * dth (m + n * m + k)%nat)).
    { apply sumf_ext. intros k Hk. replace (m + n * m + k)%nat with (length (dl ++ @outer_f opsR xs dl) + k)%nat at 1
        by (rewrite app_length; rlia). rewrite vec_app2. reflexivity. }
    rewrite E1, E2, E3.
    assert (E4 : sumf n (fun i => sumf m (fun j => th t (m + (i * m + j))%nat * vec dl j) * dx i) =
                 sumf n (fun i => sumf m (fun j => vec (fw l) (i * m + j) * vec dl j) * dx i)).
    { apply sumf_ext. intros i Hi. f_equal. apply sumf_ext. intros j Hj. rewrite Hw; auto. }
    rewrite E4. lra. }
  destruct net as [|[l2 dd2] net].
  - (* last layer *)
    simpl in HN. fold o in HN. destruct HN as [HL Le]. fold m in HL, Le.
    simpl bp_f. fold o. set (dl := @deriv_f opsR d o e).
    assert (Ld : length dl = m). { unfold dl. rewrite length_deriv_f; rlia. }
    exists dl, (@outer_f opsR xs dl), [], l. split; [reflexivity|]. split; [reflexivity|]. split; [auto|].
    split. { cbn [flat flat_map fst snd shape_of map n_params fold_right]. fold m.
      rewrite !app_length, length_outer_f. change (@F opsR) with R in *. rewrite Ld. fold n. simpl. lia. }
    simpl shape_of. cbn [n_params eval]. fold m.
    specialize (HL z dz t Dz Ho HA). fold dl in HL.
    pose proof (FIN dl [] 0%nat Ld eq_refl) as E. 
    rewrite <- (Rplus_0_r (sumf m (fun j => vec dl j * dz j))) in HL.
    change 0 with (sumf 0 (fun k => vec [] k * dth (m + n * m + k)%nat)) in HL at 1.
    rewrite E in HL. exact HL.
  - (* hidden layer *)
    assert (HN' : fact l <> Softmax /\ d = fact l /\ net_ok ((l2, dd2) :: net) (vals_f c exp fnet o)).
    { exact HN. } clear HN. destruct HN' as (HG & Hd & HN).
    set (x' := fun s => act_math (fact l) m (z s)).
    set (th' := fun s (k : nat) => th s (m + n * m + k)%nat).
    set (dth' := fun k => dth (m + n * m + k)%nat).
    set (dx' := fun j => @act_d opsR (fact l) (vec o j) * dz j).
    assert (HF' : fits (length o) fnet) by (rewrite Lo; exact HF).
    assert (ACT : forall s j, x' s j = act_math1 (fact l) (z s j)).
    { intros s j. unfold x'. destruct (fact l); try congruence; reflexivity. }
    destruct (IH o th' x' dth' dx' t) as (d2 & w2 & rest & l2' & E & HL2 & Ld2 & LF & DD); auto.
    { intros k Hk. change (@F opsR) with R in *. unfold th'. rewrite Lo in Hk. rewrite Hth by lia.
      pose proof (vec_params_r l fnet k) as VP. change (@F opsR) with R in *. rewrite Lw in VP. exact VP. }
    { intros j Hj. change (@F opsR) with R in *. rewrite Lo in Hj. rewrite Ho by auto. reflexivity. }
    { intros k Hk. change (@F opsR) with R in *. rewrite Lo in Hk. apply Dth. lia. }
    { intros j Hj. change (@F opsR) with R in *. rewrite Lo in Hj. unfold dx'. eapply is_derive_ext; [intros s; symmetry; apply ACT|].
      rewrite (Ho j Hj). fold (x' t j). rewrite ACT.
      apply (is_derive_comp' (act_math1 (fact l)) (fun s => z s j)); auto.
      apply derive_act; auto. exact (HA j Hj). }
    { change (@F opsR) with R in *. rewrite Lo. exact HS. }
    simpl in HL2. inversion HL2; subst l2'. clear HL2. change (@F opsR) with R in *.
    rewrite Lo in LF, DD. change (map fst ((l2, dd2) :: net)) with fnet in E, LF, DD |- *.
    change (vals_f c exp (l :: fnet) xs) with (xs :: vals_f c exp fnet o).
    assert (EV : exists vr, vals_f c exp fnet o = o :: vr).
    { unfold fnet. simpl. eauto. }
    destruct EV as [vr EV]. rewrite EV in *. rewrite bp_f_cons2. change (@F opsR) with R in *. rewrite E in *. cbv zeta. fold m.
    set (mv := @mvm_f opsR c d2 (rows m (length d2) (fw l2)) 0). change (@f0 opsR) with 0 in *. fold mv.
    set (dl := @deriv_f opsR d o mv).
    assert (Lmv : length mv = m) by (unfold mv, mvm_f; rewrite map_length, length_rows; auto).
    assert (Ld : length dl = m) by (unfold dl; rewrite length_deriv_f; rlia).
    assert (Lw2 : length (fw l2) = (m * length d2)%nat).
    { destruct HF as [HF _]. cbn [fst] in HF. change (@F opsR) with R in *. rewrite Ld2. exact HF. }
    assert (Edl : forall j, (j < m)%nat -> vec dl j * dz j =
              sumf (fn_out l2) (fun k => vec (fw l2) (j * fn_out l2 + k) * vec d2 k) * dx' j).
    { intros j Hj. unfold dl. rewrite deriv_R by rlia. unfold mv. rewrite mvm_R by auto.
      unfold dx'. rewrite Hd.
      change (@F opsR) with R in *. rewrite Ld2. destruct (has_avx512 c); rewrite Rplus_0_l; lra. }
    exists dl, (@outer_f opsR xs dl), ((d2, w2) :: rest), l.
    split; [reflexivity|]. split; [reflexivity|]. split; [auto|].
    assert (FL : flat ((dl, @outer_f opsR xs dl) :: (d2, w2) :: rest) =
                 (dl ++ @outer_f opsR xs dl) ++ flat ((d2, w2) :: rest)) by reflexivity.
    change (shape_of (l :: fnet)) with ((m, fact l) :: shape_of fnet). cbn [n_params eval].
    split.
    { etransitivity; [apply (f_equal (@length R) FL)|].
      rewrite !app_length, length_outer_f. change (@F opsR) with R in *. rewrite Ld. fold n. lia. }
    pose proof (FIN dl (flat ((d2, w2) :: rest)) (n_params (shape_of fnet) m) Ld LF) as FE.
    rewrite Rplus_comm in DD. rewrite <- (sumf_ext m _ _ Edl) in DD.
    assert (D3 : is_derive (fun s => L (eval (shape_of fnet) m (th' s) (x' s))) t
      (sumf m (fun j => vec dl j * dz j) + sumf (n_params (shape_of fnet) m) (fun k => vec (flat ((d2, w2) :: rest)) k * dth (m + n * m + k)%nat)))
      by exact DD.
    rewrite FE in D3. exact D3.
Qed.

End Grad.
