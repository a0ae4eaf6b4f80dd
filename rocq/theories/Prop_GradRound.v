(** Prop_GradRound.v -- C78: a float32 gradient is close to the exact one *)
From Coquelicot Require Import Coquelicot.
From Flocq Require Import Core BinarySingleNaN.
From Coq Require Import ZArith Bool List Arith Reals Lia Lra.
From Verif Require Import Base BaseProofs Ops OpsR Mem MemProofs Kernels KernelProofs Activation ActivationProofs Loss Neuralnet
  ForwardProofs BackpropProofs OpsB32 B32Facts MetricB32 SpecReal RealForward RealGrad LossGrad GradProofs SpecBits BitsProofs SpecMem PredictProofs Prop_Predict GradPropProofs
  Ex_Mem Exp256B32 SpecLibm SpecRound RoundProofs RoundNet LibmCase Prop_Round SpecGradRound SlopeRound LossRound GradRound GradSample.
Import ListNotations.
Local Open Scope R_scope.

(** In every build, for every network with finite parameters, finite input and target, if libm is accurate where it is
    used, the magnitudes stay in range and the point is further from kinks and poles than the rounding errors reach:
    the gradient written is finite, and every component is within [grad_bound] of the exact partial derivative of the
    loss. *)
Theorem backprop_rounding_error (lm : libm) (c : cfg) (wb : Z) (nn : neuralnet) (net : list (@flayer (opsB32 lm))) (lf : loss)
    (m : @mem (opsB32 lm)) (pin pt pg : ptr) (xs ts : list b32) :
  @bp_ready (opsB32 lm) c wb nn net lf m pin pt pg xs ts ->
  covered_net lm (triples net) -> Forall (fun v : b32 => fin v = true) xs -> Forall (fun v : b32 => fin v = true) ts ->
  let sh := shape_b32 (triples net) in
  let n := length xs in
  let th := vec (params_b32 (triples net)) in
  let x := vec (map (@B2R 24 128) xs) in
  let t := vec (map (@B2R 24 128) ts) in
  let no := n_outputs sh n in
  trainable lf sh -> (lf = CCE -> sumf no t = 1) ->
  in_range sh n 0 th (fun i => Rabs (x i)) (fun _ => 0) ->
  safe lf t sh n 0 th (fun i => Rabs (x i)) (fun _ => 0) x ->
  exists g : list b32,
    writes_only (@neuralnet_backpropagation (opsB32 lm) c (@exp256_lane (opsB32 lm)) wb (neuralnet_set_loss nn (Some lf)) pin pt pg) m pg g /\
    length g = n_params sh n /\
    forall k, (k < n_params sh n)%nat ->
      fin (nth k g b32_zero) = true /\
      exists D, is_derive (fun v => loss_math lf no t (eval sh n (upd th k v) x)) (th k) D /\
                Rabs (bv (nth k g b32_zero) - D) <= grad_bound lf sh n th x t k.
Proof.
  intros H CN FX FT sh n th x t no HT HC HR HS.
  exists (@bp_grad (opsB32 lm) c (@exp256_lane (opsB32 lm)) (derivs lf net) lf xs ts).
  split. { apply (backprop_writes (FO := opsB32 lm)); [exact (mulC_B32 lm)|exact H]. }
  destruct H as ((Hne & HB & HN & Hin & Ht & Lt & _) & _).
  pose proof (net_holds_fits_f c m _ _ _ HN) as HF.
  destruct (@nth_error_ex _ (nn_layers nn) (length (nn_layers nn) - 1)) as [l Hl].
  { destruct (nn_layers nn); simpl; [congruence|lia]. }
  destruct (net_holds_fits_len (FO := opsB32 lm) c m _ _ _ HN Hne l Hl) as (f & Hf & Ef & Hf1).
  destruct (outputs_fits lm net n f HF Hf) as (NO & NO1). fold sh in NO. fold no in NO.
  assert (LT : length ts = no) by (etransitivity; [exact (Lt l Hl)|]; lia).
  destruct (bp_grad_near lm c lf net xs ts) as (_ & LG & NG); try assumption.
  { intros E. unfold sh in HT. rewrite E in HT. exact HT. }
  split; [exact LG|]. intros k Hk. destruct (NG k Hk) as (FG & D & ID & (_ & NE)). split; [exact FG|]. exists D. split; [exact ID|exact NE].
Qed.
Print Assumptions backprop_rounding_error.

(** two builds, two machines: gradients that differ by at most twice the bound *)
Theorem gradients_agree (lm lm' : libm) (c c' : cfg) (wb wb' : Z) (nn nn' : neuralnet) (net : list (@flayer (opsB32 lm))) (net' : list (@flayer (opsB32 lm')))
    (lf : loss) (m : @mem (opsB32 lm)) (m' : @mem (opsB32 lm')) (pin pt pg pin' pt' pg' : ptr) (xs ts : list b32) :
  @bp_ready (opsB32 lm) c wb nn net lf m pin pt pg xs ts -> @bp_ready (opsB32 lm') c' wb' nn' net' lf m' pin' pt' pg' xs ts ->
  triples net' = triples net -> covered_net lm (triples net) -> covered_net lm' (triples net) ->
  Forall (fun v : b32 => fin v = true) xs -> Forall (fun v : b32 => fin v = true) ts ->
  let sh := shape_b32 (triples net) in
  let n := length xs in
  let th := vec (params_b32 (triples net)) in
  let x := vec (map (@B2R 24 128) xs) in
  let t := vec (map (@B2R 24 128) ts) in
  trainable lf sh -> (lf = CCE -> sumf (n_outputs sh n) t = 1) ->
  in_range sh n 0 th (fun i => Rabs (x i)) (fun _ => 0) ->
  safe lf t sh n 0 th (fun i => Rabs (x i)) (fun _ => 0) x ->
  exists g g' : list b32,
    writes_only (@neuralnet_backpropagation (opsB32 lm) c (@exp256_lane (opsB32 lm)) wb (neuralnet_set_loss nn (Some lf)) pin pt pg) m pg g /\
    writes_only (@neuralnet_backpropagation (opsB32 lm') c' (@exp256_lane (opsB32 lm')) wb' (neuralnet_set_loss nn' (Some lf)) pin' pt' pg') m' pg' g' /\
    forall k, (k < n_params sh n)%nat -> Rabs (bv (nth k g b32_zero) - bv (nth k g' b32_zero)) <= 2 * grad_bound lf sh n th x t k.
Proof.
  intros H H' ET CN CN' FX FT sh n th x t HT HC HR HS.
  destruct (backprop_rounding_error lm c wb nn net lf m pin pt pg xs ts H CN FX FT HT HC HR HS) as (g & W & _ & E).
  destruct (backprop_rounding_error lm' c' wb' nn' net' lf m' pin' pt' pg' xs ts H') as (g' & W' & _ & E'); rewrite ?ET; try assumption.
  rewrite ET in E'. exists g, g'. split; [exact W|]. split; [exact W'|]. intros k Hk.
  destruct (E k Hk) as (_ & D & ID & B). destruct (E' k Hk) as (_ & D' & ID' & B').
  assert (EQ : D' = D) by (etransitivity; [symmetry; exact (is_derive_unique _ _ _ ID')|exact (is_derive_unique _ _ _ ID)]). subst D'.
  fold sh n th x t in B, B'. replace (bv (nth k g b32_zero) - bv (nth k g' b32_zero)) with ((bv (nth k g b32_zero) - D) - (bv (nth k g' b32_zero) - D)) by ring.
  eapply Rle_trans; [apply Rabs_triang|]. rewrite Rabs_Ropp. lra.
Qed.
Print Assumptions gradients_agree.

(** a partial derivative that is larger than the bound has the right sign in float32: a step against the computed
    component goes downhill *)
Theorem gradient_sign (lm : libm) (c : cfg) (wb : Z) (nn : neuralnet) (net : list (@flayer (opsB32 lm))) (lf : loss)
    (m : @mem (opsB32 lm)) (pin pt pg : ptr) (xs ts : list b32) :
  @bp_ready (opsB32 lm) c wb nn net lf m pin pt pg xs ts ->
  covered_net lm (triples net) -> Forall (fun v : b32 => fin v = true) xs -> Forall (fun v : b32 => fin v = true) ts ->
  let sh := shape_b32 (triples net) in
  let n := length xs in
  let th := vec (params_b32 (triples net)) in
  let x := vec (map (@B2R 24 128) xs) in
  let t := vec (map (@B2R 24 128) ts) in
  let no := n_outputs sh n in
  trainable lf sh -> (lf = CCE -> sumf no t = 1) ->
  in_range sh n 0 th (fun i => Rabs (x i)) (fun _ => 0) ->
  safe lf t sh n 0 th (fun i => Rabs (x i)) (fun _ => 0) x ->
  exists g : list b32,
    writes_only (@neuralnet_backpropagation (opsB32 lm) c (@exp256_lane (opsB32 lm)) wb (neuralnet_set_loss nn (Some lf)) pin pt pg) m pg g /\
    forall k D, (k < n_params sh n)%nat ->
      is_derive (fun v => loss_math lf no t (eval sh n (upd th k v) x)) (th k) D ->
      grad_bound lf sh n th x t k < Rabs D -> 0 < D * bv (nth k g b32_zero).
Proof.
  intros H CN FX FT sh n th x t no HT HC HR HS.
  destruct (backprop_rounding_error lm c wb nn net lf m pin pt pg xs ts H CN FX FT HT HC HR HS) as (g & W & _ & E).
  exists g. split; [exact W|]. intros k D Hk ID HB. destruct (E k Hk) as (_ & D' & ID' & B).
  assert (EQ : D' = D) by (etransitivity; [symmetry; exact (is_derive_unique _ _ _ ID')|exact (is_derive_unique _ _ _ ID)]). subst D'.
  fold sh n th x t in B.
  destruct (Rcase_abs D) as [N|P].
  - rewrite (Rabs_left D N) in HB. apply Rabs_le_between in B. assert (bv (nth k g b32_zero) < 0) by lra.
    replace (D * bv (nth k g b32_zero)) with ((- D) * (- bv (nth k g b32_zero))) by ring. apply Rmult_lt_0_compat; lra.
  - rewrite (Rabs_right D P) in HB. apply Rabs_le_between in B. apply Rmult_lt_0_compat; [|lra].
    destruct P as [P|P]; [exact P|]. subst D. lra.
Qed.
Print Assumptions gradient_sign.

(** ** a case: 1 input, 2 tanh units, softmax of 2 outputs, categorical crossentropy, AVX-512 with FMA; parameters of
    magnitude at most 1, here 0 and 1; the bound is below 1 / 10000 for every component *)
Definition within (b : near) (M E : R) : Prop := 0 <= mag b <= M /\ 0 <= err b <= E.
Lemma within_value k a d A D P : 0 <= a <= A -> 0 <= d <= D -> (1 + u32) ^ k - 1 <= P -> within (value k a d) A (P * A + D).
Proof.
  intros HA HD HP. pose proof (up1 k) as U. unfold within, value. cbn [mag err]. split; [exact HA|].
  assert (0 <= ((1 + u32) ^ k - 1) * a) by (apply Rmult_le_pos; lra). assert (((1 + u32) ^ k - 1) * a <= P * A) by (apply Rmult_le_compat; lra). lra.
Qed.
Lemma within_rounded k b M E P : within b M E -> (1 + u32) ^ k - 1 <= P -> within (SpecGradRound.rounded k b) M (E + P * (M + E) + INR k * eta32).
Proof.
  intros (HM & HE) HP. pose proof (up1 k) as U. pose proof eta32_pos as ET. pose proof (pos_INR k) as K. unfold within, SpecGradRound.rounded, cap. cbn [mag err]. split; [exact HM|].
  assert (0 <= ((1 + u32) ^ k - 1) * (mag b + err b)) by (apply Rmult_le_pos; lra).
  assert (((1 + u32) ^ k - 1) * (mag b + err b) <= P * (M + E)) by (apply Rmult_le_compat; lra).
  assert (0 <= INR k * eta32) by (apply Rmult_le_pos; lra). lra.
Qed.
Lemma within_times b c M E M' E' : within b M E -> within c M' E' -> within (times b c) (M * M') (M * E' + E * M' + E * E').
Proof.
  intros (HM & HE) (HM' & HE'). unfold within, times. cbn [mag err].
  assert (A1 : 0 <= mag b * mag c) by (apply Rmult_le_pos; lra). assert (A2 : 0 <= mag b * err c) by (apply Rmult_le_pos; lra).
  assert (A3 : 0 <= err b * mag c) by (apply Rmult_le_pos; lra). assert (A4 : 0 <= err b * err c) by (apply Rmult_le_pos; lra).
  assert (mag b * mag c <= M * M') by (apply Rmult_le_compat; lra). assert (mag b * err c <= M * E') by (apply Rmult_le_compat; lra).
  assert (err b * mag c <= E * M') by (apply Rmult_le_compat; lra). assert (err b * err c <= E * E') by (apply Rmult_le_compat; lra). lra.
Qed.
Lemma within_dot2 w b M E P : (forall i, Rabs (w i) <= 1) -> (forall i, within (b i) M E) -> (1 + u32) ^ 10 - 1 <= P ->
  within (dot 2 w b) (2 * M) (2 * E + P * (2 * M + 2 * E) + (1 + P) * (2 * eta32)).
Proof.
  intros HW HB HP. pose proof (up1 10) as U. pose proof eta32_pos as ET. unfold dot. change (2 + 8)%nat with 10%nat. change (INR 2) with 2. cbn [sumf].
  assert (X : forall i v V, 0 <= v <= V -> 0 <= Rabs (w i) * v <= V).
  { intros i v V Hv. pose proof (Rabs_pos (w i)). specialize (HW i). split; [apply Rmult_le_pos; lra|]. rewrite <- (Rmult_1_l V). apply Rmult_le_compat; lra. }
  destruct (HB 0%nat) as (M0 & E0). destruct (HB 1%nat) as (M1 & E1).
  pose proof (X 0%nat _ _ M0) as X0. pose proof (X 1%nat _ _ M1) as X1. pose proof (X 0%nat _ _ E0) as Y0. pose proof (X 1%nat _ _ E1) as Y1.
  set (m0 := Rabs (w 0%nat) * mag (b 0%nat)) in *. set (m1 := Rabs (w 1%nat) * mag (b 1%nat)) in *. set (e0 := Rabs (w 0%nat) * err (b 0%nat)) in *. set (e1 := Rabs (w 1%nat) * err (b 1%nat)) in *.
  clearbody m0 m1 e0 e1. unfold within. cbn [mag err]. split; [lra|].
  assert (0 <= ((1 + u32) ^ 10 - 1) * (0 + m0 + m1 + (0 + e0 + e1))) by (apply Rmult_le_pos; lra).
  assert (((1 + u32) ^ 10 - 1) * (0 + m0 + m1 + (0 + e0 + e1)) <= P * (2 * M + 2 * E)) by (apply Rmult_le_compat; lra).
  assert (0 <= (1 + u32) ^ 10 * (2 * eta32)) by (apply Rmult_le_pos; lra).
  assert ((1 + u32) ^ 10 * (2 * eta32) <= (1 + P) * (2 * eta32)) by (apply Rmult_le_compat_r; lra). lra.
Qed.
Lemma within_le b M E M' E' : within b M E -> M <= M' -> E <= E' -> within b M' E'.
Proof. intros (A & B) C D. unfold within. lra. Qed.
Lemma pow_small k : (k <= 10)%nat -> (1 + u32) ^ k - 1 <= INR k * (12 / 10 ^ 8).
Proof.
  intros Hk. assert (KB : INR k <= 10) by (apply (le_INR k 10) in Hk; cbn in Hk |- *; lra). pose proof (pos_INR k) as KP. pose proof u32_val as U.
  pose proof (relative_part_small k) as R. rewrite U in *. specialize (R ltac:(lra)). lra.
Qed.
Lemma case_small (th x t : nat -> R) : (forall q, Rabs (th q) <= 1) -> (forall i, Rabs (x i) <= 1) -> (forall j, Rabs (t j) <= 1) ->
  let sh := [(2%nat, Tanh); (2%nat, Softmax)] in
  in_range sh 1 0 th (fun i => Rabs (x i)) (fun _ => 0) /\ safe CCE t sh 1 0 th (fun i => Rabs (x i)) (fun _ => 0) x /\
  forall q, grad_bound CCE sh 1 th x t q <= 1 / 10 ^ 4.
Proof.
  intros HT HX HTG sh. pose proof u32_val as UV. pose proof u32_pos as UP. pose proof eta32_pos as EP. pose proof eta32_tiny as ET. pose proof big127 as BG.
  assert (BG2 : 1000 <= 2 ^ 126) by (replace 126%nat with (10 + 116)%nat by lia; rewrite pow_add; assert (1 <= 2 ^ 116) by (apply pow_R1_Rle; lra); lra).
  assert (BG3 : 1000 <= 2 ^ 125) by (replace 125%nat with (10 + 115)%nat by lia; rewrite pow_add; assert (1 <= 2 ^ 115) by (apply pow_R1_Rle; lra); lra).
  assert (HT2 : forall q, 0 <= Rabs (th q) <= 1) by (intros q; split; [apply Rabs_pos|apply HT]).
  assert (HX2 : forall i, 0 <= Rabs (x i) <= 1) by (intros i; split; [apply Rabs_pos|apply HX]).
  assert (PR : forall a b A, 0 <= a <= A -> 0 <= b <= 1 -> 0 <= a * b <= A).
  { intros a b A Ha Hb. split; [apply Rmult_le_pos; lra|]. rewrite <- (Rmult_1_r A). apply Rmult_le_compat; lra. }
  assert (P2 : (1 + u32) ^ 2 - 1 <= 24 / 10 ^ 8) by (pose proof (pow_small 2 ltac:(lia)); cbn [INR] in *; lra).
  assert (P3 : (1 + u32) ^ 3 - 1 <= 36 / 10 ^ 8) by (pose proof (pow_small 3 ltac:(lia)); cbn [INR] in *; lra).
  assert (P5 : (1 + u32) ^ 5 - 1 <= 60 / 10 ^ 8) by (pose proof (pow_small 5 ltac:(lia)); cbn [INR] in *; lra).
  assert (P10 : (1 + u32) ^ 10 - 1 <= 120 / 10 ^ 8) by (pose proof (pow_small 10 ltac:(lia)); cbn [INR] in *; lra).
  assert (P1 : (1 + u32) ^ 1 - 1 <= 12 / 10 ^ 8) by (pose proof (pow_small 1 ltac:(lia)); cbn [INR] in *; lra).
  assert (P0 : (1 + u32) ^ 0 - 1 <= 0) by (cbn [pow]; lra).
  pose proof (up1 2) as U2. pose proof (up1 3) as U3. pose proof (up1 5) as U5.
  set (A1 := abs_lin 1 2 th (fun i => Rabs (x i))). set (D1 := low_lin 1 2 th (fun _ => 0)).
  assert (HA1 : forall j, 0 <= A1 j <= 2).
  { intros j. unfold A1, abs_lin. cbn [sumf]. pose proof (HT2 j). pose proof (PR _ _ _ (HX2 0%nat) (HT2 (2 + (0 * 2 + j))%nat)). lra. }
  assert (HD1 : forall j, 0 <= D1 j <= 1 / 10 ^ 20).
  { intros j. unfold D1, low_lin. cbn [sumf]. rewrite Rmult_0_l, !Rplus_0_l. change (1 + 1)%nat with 2%nat.
    assert (0 <= (1 + u32) ^ 2 * eta32) by (apply Rmult_le_pos; lra). assert ((1 + u32) ^ 2 * eta32 <= 2 * (1 / 10 ^ 40)) by (apply Rmult_le_compat; lra). lra. }
  set (a2 := abs_act Tanh 2 A1). set (d2 := low_act Tanh 2 A1 D1). set (th2 := fun q => th (2 + 1 * 2 + q)%nat).
  assert (HA2 : forall j, 0 <= a2 j <= 2) by exact HA1.
  assert (HD2 : forall j, 0 <= d2 j <= 61 / 10 ^ 8) by (intros j; unfold d2, low_act; pose proof (HD1 j); lra).
  assert (HT3 : forall q, 0 <= Rabs (th2 q) <= 1) by (intros q; apply HT2).
  set (A2 := abs_lin 2 2 th2 a2). set (D2 := low_lin 2 2 th2 d2).
  assert (HA3 : forall j, 0 <= A2 j <= 5).
  { intros j. unfold A2, abs_lin. cbn [sumf]. pose proof (HT3 j). pose proof (PR _ _ _ (HA2 0%nat) (HT3 (2 + (0 * 2 + j))%nat)). pose proof (PR _ _ _ (HA2 1%nat) (HT3 (2 + (1 * 2 + j))%nat)). lra. }
  assert (HD3 : forall j, 0 <= D2 j <= 13 / 10 ^ 7).
  { intros j. unfold D2, low_lin. cbn [sumf]. change (2 + 1)%nat with 3%nat. pose proof (PR _ _ _ (HD2 0%nat) (HT3 (2 + (0 * 2 + j))%nat)) as K0. pose proof (PR _ _ _ (HD2 1%nat) (HT3 (2 + (1 * 2 + j))%nat)) as K1.
    set (k0 := d2 0%nat * _) in *. set (k1 := d2 1%nat * _) in *. clearbody k0 k1.
    assert (0 <= (1 + u32) ^ 3 * (0 + (k0 + eta32) + (k1 + eta32))) by (apply Rmult_le_pos; lra).
    assert ((1 + u32) ^ 3 * (0 + (k0 + eta32) + (k1 + eta32)) <= (1 + 36 / 10 ^ 8) * (123 / 10 ^ 8)) by (apply Rmult_le_compat; lra). lra. }
  assert (MX : forall f V, 0 <= V -> (forall j, 0 <= f j <= V) -> 0 <= maxf 2 f <= V).
  { intros f V HV Hf. cbn [maxf]. pose proof (Hf 0%nat). pose proof (Hf 1%nat). unfold Rmax. destruct (Rle_dec 0 (f 0%nat)), (Rle_dec _ (f 1%nat)); lra. }
  assert (O1 : forall j, within (out_near 1 2 Tanh 0 th (fun i => Rabs (x i)) (fun _ => 0) j) 2 (12 / 10 ^ 7)).
  { intros j. unfold out_near. fold A1 D1. cbn [act_roundings]. change (0 + 1 + 1 + 0)%nat with 2%nat.
    eapply within_le; [apply (within_value 2 _ _ _ _ _ (HA2 j) (HD2 j) P2)|lra|lra]. }
  assert (X0 : forall i, within (value 0 (Rabs (x i)) 0) 1 0).
  { intros i. eapply within_le; [apply (within_value 0 _ _ 1 0 0 (HX2 i)); [lra|exact P0]|lra|lra]. }
  assert (V2 : forall i, within (value 2 (a2 i) (d2 i)) 2 (12 / 10 ^ 7)).
  { intros i. eapply within_le; [apply (within_value 2 _ _ _ _ _ (HA2 i) (HD2 i) P2)|lra|lra]. }
  assert (O2 : forall j, within (out_near 2 2 Softmax 2 th2 a2 d2 j) (7 / 2) (46 / 10 ^ 7)).
  { intros j. unfold out_near. fold A2 D2. cbn [act_roundings abs_act low_act]. change (2 + 2 + 1 + 0)%nat with 5%nat. change (INR 2) with 2.
    pose proof (MX A2 5 ltac:(lra) HA3). pose proof (MX D2 (13 / 10 ^ 7) ltac:(lra) HD3).
    eapply within_le; [apply (within_value 5 _ _ (7 / 2) (23 / 10 ^ 7) (60 / 10 ^ 8)); [lra|lra|exact P5]|lra|lra]. }
  assert (DL2 : forall j, within (delta CCE t [(2%nat, Softmax)] 2 2 th2 a2 d2 j) (9 / 2) (7 / 10 ^ 6)).
  { intros j. cbn [delta last_through through loss_slope]. destruct (O2 j) as (M2 & E2). pose proof (Rabs_pos (t j)). pose proof (HTG j).
    eapply within_le; [apply (within_rounded 3 _ (9 / 2) (46 / 10 ^ 7) (36 / 10 ^ 8))|lra|].
    - unfold within. cbn [mag err]. lra.
    - exact P3.
    - cbn [INR]. lra. }
  assert (DT : forall j, within (dot 2 (fun i => th2 (2 + (j * 2 + i))%nat) (delta CCE t [(2%nat, Softmax)] 2 2 th2 a2 d2)) 9 (26 / 10 ^ 6)).
  { intros j. eapply within_le; [apply (within_dot2 _ _ (9 / 2) (7 / 10 ^ 6) (120 / 10 ^ 8))|lra|].
    - intros i. apply HT3.
    - exact DL2.
    - exact P10.
    - lra. }
  assert (DL1 : forall j, within (delta CCE t sh 1 0 th (fun i => Rabs (x i)) (fun _ => 0) j) 9 (60 / 10 ^ 6)).
  { intros j.
    change (within (through Tanh (out_near 1 2 Tanh 0 th (fun i => Rabs (x i)) (fun _ => 0) j)
       (dot 2 (fun i => th2 (2 + (j * 2 + i))%nat) (delta CCE t [(2%nat, Softmax)] 2 2 th2 a2 d2))) 9 (60 / 10 ^ 6)).
    unfold through. destruct (O1 j) as (M1 & E1). set (e := err (out_near _ _ _ _ _ _ _ j)) in *. 
    assert (SL : within (slope Tanh (out_near 1 2 Tanh 0 th (fun i => Rabs (x i)) (fun _ => 0) j)) 1 (3 / 10 ^ 6)).
    { unfold slope. fold e. eapply within_le; [apply (within_rounded 3 _ 1 (25 / 10 ^ 7) (36 / 10 ^ 8))|lra|].
      - unfold within. cbn [mag err]. assert (0 <= e * (2 + e)) by (apply Rmult_le_pos; lra). assert (e * (2 + e) <= 12 / 10 ^ 7 * (2 + 12 / 10 ^ 7)) by (apply Rmult_le_compat; lra). lra.
      - exact P3.
      - cbn [INR]. lra. }
    eapply within_le; [apply (within_rounded 1 _ _ _ _ (within_times _ _ _ _ _ _ (DT j) SL) P1)|lra|]. cbn [INR]. lra. }
  assert (G1 : forall i j, within (SpecGradRound.rounded 1 (times (value 0 (Rabs (x i)) 0) (delta CCE t sh 1 0 th (fun i => Rabs (x i)) (fun _ => 0) j))) 9 (70 / 10 ^ 6)).
  { intros i j. eapply within_le; [apply (within_rounded 1 _ _ _ _ (within_times _ _ _ _ _ _ (X0 i) (DL1 j)) P1)|lra|]. cbn [INR]. lra. }
  assert (G2 : forall i j, within (SpecGradRound.rounded 1 (times (value 2 (a2 i) (d2 i)) (delta CCE t [(2%nat, Softmax)] 2 2 th2 a2 d2 j))) 9 (70 / 10 ^ 6)).
  { intros i j. eapply within_le; [apply (within_rounded 1 _ _ _ _ (within_times _ _ _ _ _ _ (V2 i) (DL2 j)) P1)|lra|]. cbn [INR]. lra. }
  assert (CP : forall b M E, within b M E -> M + E <= 1000 -> cap b <= 2 ^ 127) by (intros b M E (A & B) H; unfold cap; lra).
  split; [|split].
  - unfold sh. cbn [in_range]. split; [exact I|]. split.
    { intros j _. fold A1 D1. change (0 + 1 + 1)%nat with 2%nat. pose proof (HA1 j). pose proof (HD1 j). cbn [top].
      assert ((1 + u32) ^ 2 * A1 j <= 2 * 2) by (apply Rmult_le_compat; lra). lra. }
    split. { cbn [width_ok]. change (INR 2) with 2. lra. }
    split; [|exact I]. intros j _. change (abs_lin 2 2 _ _ j) with (A2 j). change (low_lin 2 2 _ _ j) with (D2 j). cbn [act_roundings]. change (0 + 1 + 1 + 0 + 2 + 1)%nat with 5%nat.
    pose proof (HA3 j). pose proof (HD3 j). cbn [top]. assert ((1 + u32) ^ 5 * A2 j <= 2 * 5) by (apply Rmult_le_compat; lra). lra.
  - split.
    { intros j _. split; [exact (CP _ _ _ (DL1 j) ltac:(lra))|]. cbn [clear]. destruct (O1 j) as (_ & E1). lra. }
    split. { intros i j _ _. exact (CP _ _ _ (G1 i j) ltac:(lra)). }
    split. { intros j _. exact (CP _ _ _ (DT j) ltac:(lra)). }
    split. { intros j _. split; [exact (CP _ _ _ (DL2 j) ltac:(lra))|exact I]. }
    split. { intros i j _ _. exact (CP _ _ _ (G2 i j) ltac:(lra)). }
    intros j _. unfold clear_loss. destruct (O2 j) as (M2 & E2). split; [change (INR 2) with 2; lra|]. split; [|exact I].
    change (out_near 2 2 Softmax _ _ _ _ j) with (out_near 2 2 Softmax 2 th2 a2 d2 j). unfold cap. pose proof (HTG j). lra.
  - intros q. unfold grad_bound, sh. cbn [grad_near]. fold sh. fold th2.
    change (grad_near CCE t [] _ _ _ _ _ _) with (mk_near 0 0).
    destruct (Nat.ltb q 2). { destruct (DL1 q) as (_ & E). lra. }
    destruct (Nat.ltb q (2 + 1 * 2)). { destruct (G1 ((q - 2) / 2)%nat ((q - 2) mod 2)) as (_ & E). unfold sh in *. lra. }
    destruct (Nat.ltb (q - (2 + 1 * 2)) 2). { destruct (DL2 (q - (2 + 1 * 2))%nat) as (_ & E). change (err (delta CCE t [(2%nat, Softmax)] 2 2 th2 a2 d2 (q - (2 + 1 * 2))%nat) <= 1 / 10 ^ 4). lra. }
    destruct (Nat.ltb (q - (2 + 1 * 2)) (2 + 2 * 2)).
    { destruct (G2 ((q - (2 + 1 * 2) - 2) / 2)%nat ((q - (2 + 1 * 2) - 2) mod 2)) as (_ & E). apply Rle_trans with (70 / 10 ^ 6); [exact (proj2 E)|lra]. }
    cbn [err]. lra.
Qed.

Definition rcase_nn : neuralnet :=
  {| nn_layers := [Build_layer 1 2 (mkptr 0 0) (mkptr 1 0) Tanh None; Build_layer 2 2 (mkptr 2 0) (mkptr 3 0) Softmax None]; nn_loss := None |}.
Section CaseMem.
  Variable FO : fops.
  Definition rcase_net : list flayer :=
    [@Build_flayer FO [f1; f0] [f0; f1] Tanh; @Build_flayer FO [f1; f0; f0; f1] [f1; f1] Softmax].
  Definition rcase_m : mem :=
    [mkblock 1024 [Some f1; Some f0]; mkblock 2048 [Some f0; Some f1]; mkblock 3072 [Some f1; Some f0; Some f0; Some f1]; mkblock 4096 [Some f1; Some f1];
     mkblock 5120 [Some f1]; mkblock 6144 [Some f0; Some f1]; mkblock 7168 (repeat None 10)].
  Lemma rcase_ready : bp_ready case_c 8192 rcase_nn rcase_net CCE rcase_m (mkptr 4 0) (mkptr 5 0) (mkptr 6 0) [f1] [f0; f1].
  Proof.
    split.
    - unfold bp_args. cbv zeta. split; [discriminate|]. split; [reflexivity|].
      split. { simpl. unfold layer_holds, kal. mem_tac; simpl; try lia. }
      split. { mem_tac. } split. { mem_tac. }
      split. { intros l Hl. inversion Hl; subst. reflexivity. }
      split; [reflexivity|]. split. { mem_tac. } split. { left. simpl. lia. } split. { left. simpl. lia. }
      constructor; [|constructor; [|constructor]]; split; left; simpl; lia.
    - split.
      + intros [|[|[|i]]] l d Hl Hd; inversion Hl; subst; inversion Hd; subst; [intros _ H; cbn in H; lia|exact I].
      + intros i l r H1 H2. destruct i as [|[|[|i]]]; try discriminate. inversion H1; subst; split; intros _ H; cbn in H; lia.
  Qed.
End CaseMem.
Example backprop_rounding_case :
  let lm := lm_rounded in
  let OP := opsB32 lm in
  let net := rcase_net OP in
  let sh := shape_b32 (triples net) in
  let th := vec (params_b32 (triples net)) in
  let x := vec (map (@B2R 24 128) [@f1 OP]) in
  let t := vec (map (@B2R 24 128) [@f0 OP; @f1 OP]) in
  @bp_ready OP case_c 8192 rcase_nn net CCE (rcase_m OP) (mkptr 4 0) (mkptr 5 0) (mkptr 6 0) [@f1 OP] [@f0 OP; @f1 OP] /\
  covered_net lm (triples net) /\ Forall (fun v : b32 => fin v = true) [@f1 OP] /\ Forall (fun v : b32 => fin v = true) [@f0 OP; @f1 OP] /\
  trainable CCE sh /\ sumf (n_outputs sh 1) t = 1 /\
  in_range sh 1 0 th (fun i => Rabs (x i)) (fun _ => 0) /\ safe CCE t sh 1 0 th (fun i => Rabs (x i)) (fun _ => 0) x /\
  forall q, grad_bound CCE sh 1 th x t q <= 1 / 10 ^ 4.
Proof.
  intros lm OP net sh th x t.
  assert (O1 : Rabs (bv (@f1 OP)) <= 1) by (change (@f1 OP) with (b32_ofZ 1); rewrite one_R, Rabs_R1; lra).
  assert (O0 : Rabs (bv (@f0 OP)) <= 1) by (change (bv (@f0 OP)) with 0; rewrite Rabs_R0; lra).
  assert (VB : forall l : list R, Forall (fun r => Rabs r <= 1) l -> forall q, Rabs (vec l q) <= 1).
  { intros l F q. unfold vec. destruct (lt_dec q (length l)) as [L|L].
    - rewrite Forall_forall in F. apply F. apply nth_In. exact L.
    - rewrite nth_overflow by lia. rewrite Rabs_R0. lra. }
  split; [apply rcase_ready|].
  split. { repeat apply Forall_cons; try apply Forall_nil; cbn [fst snd]; (split; [first [exact rounded_tanh|exact rounded_exp]|split; repeat constructor]). }
  split. { repeat constructor. } split. { repeat constructor. }
  split. { split; [discriminate|reflexivity]. }
  split. { change (n_outputs sh 1) with 2%nat. unfold t. cbn [sumf]. rewrite !vec_bv. cbn [nth]. change (bv (@f0 OP)) with 0. change (@f1 OP) with (b32_ofZ 1). rewrite one_R. lra. }
  apply case_small; apply VB.
  - change (Forall (fun r => Rabs r <= 1) (map bv ([@f0 OP; @f1 OP] ++ [@f1 OP; @f0 OP] ++ [@f1 OP; @f1 OP] ++ [@f1 OP; @f0 OP; @f0 OP; @f1 OP]))). cbn [app map]. repeat (apply Forall_cons; [assumption|]). apply Forall_nil.
  - cbn [map]. repeat (apply Forall_cons; [assumption|]). apply Forall_nil.
  - cbn [map]. repeat (apply Forall_cons; [assumption|]). apply Forall_nil.
Qed.
