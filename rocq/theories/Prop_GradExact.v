(** Prop_GradExact.v -- C18: exactly when the backpropagation works *)
From Coq Require Import List Arith ZArith Lia Bool.
From Verif Require Import Base BaseProofs Ops Mem MemProofs Kernels KernelProofs Activation ActivationProofs
  Loss Neuralnet ForwardProofs BackpropProofs GradProofs GradPropProofs PredictProofs BpExact SpecMem Ex_Mem Prop_Exact.
Import ListNotations.
Local Open Scope nat_scope.
Local Open Scope mem_scope.

(** the number of parameters of the layers before layer i: where its bias gradient starts *)
Definition params_before (ls : list layer) (i : nat) : nat :=
  list_sum (map (fun l => (n_input l + 1) * n_output l) (firstn i ls)).
(** the derivatives that work on two whole registers of 8 floats: relu, tanh and sigmoid, unless the loss absorbs it *)
Definition in_registers (lf : loss) (is_last : bool) (g : act) : bool :=
  match g with
  | Relu | Tanh => true
  | Sigmoid => negb (is_last && match lf with BCE => true | _ => false end)
  | _ => false
  end.
(** what the build and the network have to satisfy *)
Definition suits_backprop {FO : fops} (c : cfg) (lf : loss) (nn : neuralnet) (m : mem) : Prop :=
  forall i l, nth_error (nn_layers nn) i = Some l ->
    (cfg_isa c <> SSE -> 16 <= n_output l -> in_registers lf (i =? length (nn_layers nn) - 1) (l_act l) = true ->
       params_before (nn_layers nn) i mod 8 = 0) /\
    (1 <= i -> suits_rows c (n_input l) (n_output l) (addr m (weight l))).

Lemma params_goff : forall ls i, params_before ls i = goff ls i.
Proof.
  unfold params_before. induction ls as [|l ls IH]; intros [|i]; try reflexivity.
  cbn [firstn map goff]. rewrite <- IH.
  match goal with |- list_sum (?x :: ?r) = _ => change (list_sum (x :: r)) with (x + list_sum r) end. lia.
Qed.
Lemma goff_lsd lf : forall ls i, goff (lsd lf ls) i = goff ls i.
Proof.
  intros ls. pose proof (lsd_same lf ls) as H. induction H as [|a b l1 l2 (E1 & E2 & _) H IH]; intros [|i]; try reflexivity. cbn [goff]. rewrite E1, E2, IH. reflexivity.
Qed.
Lemma addr_padd {FO : fops} m p k : blk p < length m -> addr m (p +! k) = (addr m p + 4 * Z.of_nat k)%Z.
Proof. intros H. unfold addr, padd. cbn [blk off]. destruct (nth_error m (blk p)) eqn:E; [lia|]. apply nth_error_None in E. lia. Qed.
Lemma aligned_8_off {FO : fops} c m p k : blk p < length m -> cfg_isa c <> SSE -> al c (addr m p) 0 = true ->
  (aligned_to 8 m (p +! k) = true <-> k mod 8 = 0).
Proof.
  intros H HS HA. unfold aligned_to. rewrite (addr_padd m p k H). rewrite Z.eqb_eq. change (4 * Z.of_nat 8)%Z with 32%Z.
  unfold al, align_size in HA. rewrite Z.add_0_r in HA. apply Z.eqb_eq in HA.
  assert (D : (32 | addr m p)%Z).
  { destruct (cfg_isa c); try congruence; apply Z.mod_divide in HA; try lia; auto. destruct HA as [q ->]. exists (2 * q)%Z. lia. }
  rewrite Z.mod_divide by lia. split.
  - intros D2. apply Nat.mod_divides; [lia|]. apply (Z.divide_add_cancel_r _ _ _ D) in D2. destruct D2 as [q Hq]. exists (Z.to_nat q). lia.
  - intros E. apply Nat.mod_divides in E; [|lia]. destruct E as [q ->]. apply Z.divide_add_r; [exact D|]. exists (Z.of_nat q). lia.
Qed.

Lemma suits_align {FO : fops} (c : cfg) (lf : loss) nn m pg : blk pg < length m -> al c (addr m pg) 0 = true ->
  Forall (fun l => blk (weight l) < length m) (nn_layers nn) ->
  (suits_backprop c lf nn m <-> bp_align c m (nn_layers (neuralnet_set_loss nn (Some lf))) pg).
Proof.
  intros Hg HA HW. rewrite set_loss_layers. unfold suits_backprop, bp_align. rewrite Forall_forall in HW.
  assert (NS : has_avx c = true <-> cfg_isa c <> SSE) by (unfold has_avx; destruct (cfg_isa c); split; congruence).
  assert (NTH : forall i l, nth_error (lsd lf (nn_layers nn)) i = Some l -> exists l', nth_error (nn_layers nn) i = Some l' /\
    l = set_d l' (if i =? length (nn_layers nn) - 1 then last_deriv lf (l_act l') else l_act l')).
  { intros i l Hl. destruct (nth_error (nn_layers nn) i) as [l'|] eqn:E.
    - exists l'. split; auto. rewrite (nth_lsd lf _ _ _ E) in Hl. congruence.
    - apply nth_error_None in E. assert (i < length (lsd lf (nn_layers nn))) by (apply nth_error_Some; congruence). rewrite length_lsd in H. lia. }
  split.
  - intros S. split.
    + intros i l d Hl Hd. destruct (NTH _ _ Hl) as (l' & Hl' & ->). clear Hl. cbn [set_d l_deriv n_output] in *. inversion Hd; subst d; clear Hd.
      destruct (S _ _ Hl') as [S1 _]. rewrite goff_lsd, <- params_goff.
      assert (G : forall (HS : has_avx c = true) (Hn : 16 <= n_output l') (Hr : in_registers lf (i =? length (nn_layers nn) - 1) (l_act l') = true),
        aligned_to 8 m (pg +! params_before (nn_layers nn) i) = true /\ aligned_to 8 m (pg +! params_before (nn_layers nn) i) = true).
      { intros HS Hn Hr. apply NS in HS. rewrite (aligned_8_off c m pg _ Hg HS HA). auto. }
      unfold deriv_pre, last_deriv, in_registers in *. destruct (i =? length (nn_layers nn) - 1), (l_act l'), lf; auto.
    + intros i l r Hl Hr. destruct (NTH _ _ Hl) as (l' & Hl' & ->). cbn [set_d n_output n_input weight] in *.
      destruct (S _ _ Hl') as [_ S2]. apply suits_kal. rewrite (addr_padd _ _ _ (HW _ (nth_error_In _ _ Hl'))).
      apply (proj1 (suits_rows_all c (n_input l') (n_output l') (addr m (weight l')))); auto. apply S2. lia.
  - intros [A1 A2] i l Hl. split.
    + intros HS Hn Hr. pose proof (A1 i _ _ (nth_lsd lf _ _ _ Hl) eq_refl) as D. cbn [n_output set_d] in D. rewrite goff_lsd, <- params_goff in D.
      rewrite <- (aligned_8_off c m pg _ Hg HS HA). apply NS in HS.
      unfold deriv_pre, last_deriv, in_registers in *. destruct (i =? length (nn_layers nn) - 1), (l_act l), lf; try discriminate; destruct (D HS Hn); auto.
    + intros Hi. apply suits_rows_all. intros r Hr. rewrite <- (addr_padd _ _ _ (HW _ (nth_error_In _ _ Hl))). apply suits_kal.
      destruct i as [|i]; [lia|]. replace (S i) with (i + 1) in Hl by lia.
      apply (A2 i _ r (nth_lsd lf _ _ _ Hl)). exact Hr.
Qed.

(** C18, exactly: with correct arguments neuralnet_backpropagation writes a gradient if and only if the shape of the network suits the
    registers: the bias gradients of the layers with at least 16 neurons whose derivative works on registers start at a multiple of 8
    floats, and the rows of all weight matrices but the first are aligned.  Otherwise it faults. *)
Theorem backprop_every_shape_exact (FO : fops) (c : cfg) (vexp : F -> F) wb nn net lf m pin pt pg xs ts :
  (forall a b : F, fmul a b = fmul b a) ->
  bp_args c wb nn net m pin pt pg xs ts ->
  let run := neuralnet_backpropagation c vexp wb (neuralnet_set_loss nn (Some lf)) pin pt pg in
  (suits_backprop c lf nn m -> exists g, length g = total_n_parameters nn /\ writes_only run m pg g) /\
  (~ suits_backprop c lf nn m -> exists e, run m = Fault e).
Proof.
  intros HC HA run. pose proof HA as (Hne & HB & HN & Hin & Ht & Lt & Hal & V & D1 & D2 & Off).
  assert (Hg : blk pg < length m). { destruct V as (b & Hb & _). apply nth_error_Some. congruence. }
  assert (HW : Forall (fun l => blk (weight l) < length m) (nn_layers nn)).
  { pose proof (net_holds_in_m c _ _ _ _ HN) as IM. eapply Forall_impl; [|exact IM]. cbn beta. intros l [X _]. exact X. }
  pose proof (suits_align c lf nn m pg Hg Hal HW) as SA. split.
  - intros S. apply SA in S. eexists. split; [eapply length_bp_grad; split; eauto|]. apply backprop_writes; auto. split; auto.
  - intros NS. destruct (run m) as [[u m']|e] eqn:E; [|eauto]. destruct NS. apply SA. eapply backprop_shows; eauto.
    + rewrite set_loss_layers. apply Forall_forall. intros l Hl. apply In_nth_error in Hl. destruct Hl as [i Hi].
      destruct (Forall2_nth _ _ _ _ _ (lsd_same lf (nn_layers nn)) _ _ Hi) as (l' & Hl' & (_ & _ & -> & _)).
      rewrite Forall_forall in HW. apply HW. eapply nth_error_In; eauto.
    + rewrite set_loss_layers. apply Forall_forall. intros l Hl. apply In_nth_error in Hl. destruct Hl as [i Hi].
      destruct (nth_error (nn_layers nn) i) as [l'|] eqn:El.
      * rewrite (nth_lsd lf _ _ _ El) in Hi. inversion Hi. discriminate.
      * apply nth_error_None in El. assert (i < length (lsd lf (nn_layers nn))) by (apply nth_error_Some; congruence). rewrite length_lsd in H. lia.
Qed.
Print Assumptions backprop_every_shape_exact.

(** layers 1 -> 8 -> 16 with relu outputs meet the conditions of the AVX build, layers 1 -> 1 -> 16 do not: there the bias gradient
    of the second layer starts at float 2 *)
Definition gx_nn (h : nat) : neuralnet :=
  {| nn_layers := [Build_layer 1 h (mkptr 0 0) (mkptr 1 0) Linear None; Build_layer h 16 (mkptr 2 0) (mkptr 3 0) Relu None]; nn_loss := None |}.
Definition gx_m (h : nat) : @mem opsZ :=
  [@mkblock opsZ 1024 (repeat (Some 1%Z) h); @mkblock opsZ 2048 (repeat (Some 2%Z) h); @mkblock opsZ 4096 (repeat (Some 3%Z) (h * 16));
   @mkblock opsZ 8192 (repeat (Some 4%Z) 16); @mkblock opsZ 10240 [Some 5%Z]; @mkblock opsZ 12288 (repeat (Some 6%Z) 16);
   @mkblock opsZ 16384 (repeat None (h + h + (h + 1) * 16))].
Definition gx_c : cfg := {| cfg_isa := AVX; cfg_fma := false |}.
Example grad_exact_case :
  suits_backprop gx_c MSE (gx_nn 8) (gx_m 8) /\ ~ suits_backprop gx_c MSE (gx_nn 1) (gx_m 1) /\
  match @neuralnet_backpropagation opsZ gx_c (fun x => x) 32768 (neuralnet_set_loss (gx_nn 8) (Some MSE)) (mkptr 4 0) (mkptr 5 0) (mkptr 6 0) (gx_m 8) with
  | Ok (_, m) => negb (match @loadv opsZ 160 (mkptr 6 0) m with Ok (xs, _) => forallb (Z.eqb 0) xs | _ => true end)
  | Fault _ => false
  end = true /\
  @neuralnet_backpropagation opsZ gx_c (fun x => x) 32768 (neuralnet_set_loss (gx_nn 1) (Some MSE)) (mkptr 4 0) (mkptr 5 0) (mkptr 6 0) (gx_m 1) = Fault Misaligned.
Proof.
  split; [|split; [|split]].
  - intros [|[|[|i]]] l Hl; cbn in Hl; inversion Hl; subst; clear Hl; split; intros; try reflexivity; try lia.
    right. cbn. split; [reflexivity|right; reflexivity].
  - intros S. destruct (S 1 _ eq_refl) as [A _]. assert (E : 2 mod 8 = 0) by (apply A; [discriminate|cbn; lia|reflexivity]). discriminate.
  - vm_compute. reflexivity.
  - vm_compute. reflexivity.
Qed.
