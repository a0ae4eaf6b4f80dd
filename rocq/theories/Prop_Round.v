(** Prop_Round.v -- C61: a float32 prediction is close to the exact one *)
From Coquelicot Require Import Coquelicot.
From Flocq Require Import Core BinarySingleNaN.
From Coq Require Import ZArith Bool List Arith Reals Lia Lra.
From Verif Require Import Base BaseProofs Ops Mem MemProofs Kernels KernelProofs Activation ActivationProofs Loss Neuralnet
  ForwardProofs OpsB32 B32Facts MetricB32 SpecReal RealForward SpecBits BitsProofs SpecMem PredictProofs Prop_Predict Ex_Mem SpecLibm SpecRound RoundProofs RoundNet LibmCase ExpB32Proofs.
Import ListNotations.
Local Open Scope R_scope.

Lemma vec_bv (l : list b32) i : vec (map (@B2R 24 128) l) i = bv (nth i l b32_zero).
Proof. unfold vec. rewrite <- (map_nth (@B2R 24 128)). reflexivity. Qed.
Lemma params_par (net : list (act * list b32 * list b32)) : forall n (th : nat -> R),
  (forall k, th k = vec (params_b32 net) k) ->
  (fix fits (n : nat) (net : list (act * list b32 * list b32)) : Prop :=
     match net with [] => True | (g, w, b) :: r => length w = (n * length b)%nat /\ fits (length b) r end) n net ->
  net_par net n th.
Proof.
  induction net as [|[[g w] b] net IH]; intros n th HT HF; [exact I|]. destruct HF as (LW & HF). cbn [net_par].
  assert (E : params_b32 ((g, w, b) :: net) = map (@B2R 24 128) b ++ map (@B2R 24 128) w ++ params_b32 net) by (unfold params_b32; cbn [flat_map fst snd]; rewrite <- app_assoc; reflexivity).
  split; [|split].
  - intros j Hj. rewrite HT, E. rewrite vec_app1 by (rewrite map_length; exact Hj). apply vec_bv.
  - intros q Hq. rewrite HT, E. replace (length b + q)%nat with (length (map (@B2R 24 128) b) + q)%nat by (rewrite map_length; reflexivity).
    assert (QW : (q < length (map (@B2R 24 128) w))%nat) by (rewrite map_length; exact (eq_ind_r (fun z => (q < z)%nat) Hq LW)).
    rewrite vec_app2, vec_app1 by exact QW. apply vec_bv.
  - apply IH; [|exact HF]. intros k. rewrite HT, E.
    replace (length b + n * length b + k)%nat with (length (map (@B2R 24 128) b) + (length (map (@B2R 24 128) w) + k))%nat by (rewrite !map_length, Nat.add_assoc; exact (f_equal (fun z => (length b + z + k)%nat) LW)).
    rewrite !vec_app2. reflexivity.
Qed.

(** In every build, for every network with finite parameters, if libm is accurate
    where it is used and the magnitudes stay in range: the prediction is finite and its distance from the exact one is
    at most [error_bound]. *)
Theorem predict_rounding_error (lm : libm) (c : cfg) (wb : Z) (nn : neuralnet) (net : list (@flayer (opsB32 lm)))
    (m : @mem (opsB32 lm)) (pin po : ptr) (xs : list b32) :
  nn_layers nn <> [] -> aligned_base c wb ->
  net_holds c m (length xs) (nn_layers nn) net -> @holds (opsB32 lm) m pin xs ->
  out_pre c m (nn_layers nn) pin (length xs) po ->
  covered_net lm (triples net) -> Forall (fun x : b32 => fin x = true) xs ->
  let sh := shape_b32 (triples net) in
  let n := length xs in
  let th := vec (params_b32 (triples net)) in
  let x := vec (map (@B2R 24 128) xs) in
  in_range sh n 0 th (fun i => Rabs (x i)) (fun _ => 0) ->
  exists ys : list b32,
    writes_only (@neuralnet_predict (opsB32 lm) c (@exp256_lane (opsB32 lm)) wb nn pin po) m po ys /\
    length ys = n_outputs sh n /\
    forall j, (j < n_outputs sh n)%nat ->
      fin (nth j ys b32_zero) = true /\ Rabs (bv (nth j ys b32_zero) - eval sh n th x j) <= error_bound sh n th x j.
Proof.
  intros Hne HB HN Hin HO PN FX sh n th x HR.
  destruct (predict_float32 lm c wb nn net m pin po xs Hne HB HN Hin HO) as (ys & HW & HREL & _).
  exists ys. split; [exact HW|].
  destruct (net_err lm (cfg_fma c) (triples net) 0 xs ys th (fun i => Rabs (x i)) (fun _ => 0) x HREL PN FX) as (LY & FY & EY).
  - apply params_par; [reflexivity|]. pose proof (net_holds_fits_f c m _ _ _ HN) as HF. clear - HF. change (@F (opsB32 lm)) with b32 in *.
    revert HF. generalize (length xs). induction net as [|l net IH]; intros k HF; [exact I|]. destruct HF as (LW & _ & HF).
    split; [exact LW|]. exact (IH _ HF).
  - intros i Hi. split; [lra|]. unfold x. rewrite vec_bv. apply approx_exact.
  - exact HR.
  - split; [exact LY|]. intros j Hj. split.
    + apply finite_nth. exact FY.
    + exact (proj2 (EY j Hj)).
Qed.
Print Assumptions predict_rounding_error.

(** two builds, two machines: the same network and input, predictions that differ by at most twice the bound *)
Theorem builds_agree (lm lm' : libm) (c c' : cfg) (wb wb' : Z) (nn nn' : neuralnet) (net : list (@flayer (opsB32 lm))) (net' : list (@flayer (opsB32 lm')))
    (m : @mem (opsB32 lm)) (m' : @mem (opsB32 lm')) (pin po pin' po' : ptr) (xs : list b32) :
  nn_layers nn <> [] -> aligned_base c wb -> net_holds c m (length xs) (nn_layers nn) net -> @holds (opsB32 lm) m pin xs ->
  out_pre c m (nn_layers nn) pin (length xs) po ->
  nn_layers nn' <> [] -> aligned_base c' wb' -> net_holds c' m' (length xs) (nn_layers nn') net' -> @holds (opsB32 lm') m' pin' xs ->
  out_pre c' m' (nn_layers nn') pin' (length xs) po' ->
  triples net' = triples net -> covered_net lm (triples net) -> covered_net lm' (triples net) -> Forall (fun x : b32 => fin x = true) xs ->
  let sh := shape_b32 (triples net) in
  let n := length xs in
  let th := vec (params_b32 (triples net)) in
  let x := vec (map (@B2R 24 128) xs) in
  in_range sh n 0 th (fun i => Rabs (x i)) (fun _ => 0) ->
  exists ys ys' : list b32,
    writes_only (@neuralnet_predict (opsB32 lm) c (@exp256_lane (opsB32 lm)) wb nn pin po) m po ys /\
    writes_only (@neuralnet_predict (opsB32 lm') c' (@exp256_lane (opsB32 lm')) wb' nn' pin' po') m' po' ys' /\
    forall j, (j < n_outputs sh n)%nat ->
      Rabs (bv (nth j ys b32_zero) - bv (nth j ys' b32_zero)) <= 2 * error_bound sh n th x j.
Proof.
  intros A1 A2 A3 A4 A5 B1 B2 B3 B4 B5 ET PN PN' FX sh n th x HR.
  destruct (predict_rounding_error lm c wb nn net m pin po xs A1 A2 A3 A4 A5 PN FX HR) as (ys & W & _ & E).
  destruct (predict_rounding_error lm' c' wb' nn' net' m' pin' po' xs B1 B2 B3 B4 B5) as (ys' & W' & _ & E').
  - rewrite ET. exact PN'.
  - exact FX.
  - rewrite ET. exact HR.
  - rewrite ET in E'. exists ys, ys'. split; [exact W|]. split; [exact W'|]. intros j Hj. destruct (E j Hj) as (_ & D). destruct (E' j Hj) as (_ & D').
    fold sh n th x in D, D'. replace (bv (nth j ys b32_zero) - bv (nth j ys' b32_zero)) with
      ((bv (nth j ys b32_zero) - eval sh n th x j) - (bv (nth j ys' b32_zero) - eval sh n th x j)) by ring.
    eapply Rle_trans; [apply Rabs_triang|]. rewrite Rabs_Ropp. lra.
Qed.
Print Assumptions builds_agree.

(** the relative part of the bound is at most 2 * roundings * 2^-24 for up to 2^23 roundings *)
Theorem relative_part_small k : INR k * u32 <= 1 / 2 -> (1 + u32) ^ k - 1 <= 2 * INR k * u32.
Proof.
  pose proof u32_pos as U. induction k as [|k IH]; intros H; [cbn; lra|]. rewrite up_S. rewrite S_INR in H |- *.
  assert (HK : INR k * u32 <= 1 / 2) by lra. specialize (IH HK). pose proof (pos_INR k) as P. assert (0 <= INR k * u32) by (apply Rmult_le_pos; lra).
  assert (((1 + u32) ^ k) * (1 + u32) <= (1 + 2 * INR k * u32) * (1 + u32)) by (apply Rmult_le_compat_r; lra). nra.
Qed.
Print Assumptions relative_part_small.

(** ** a case: 2 inputs, 16 tanh units, softmax of 3 outputs, AVX-512 with FMA; weights 1, inputs 0 and 1; a correctly
    rounding libm *)
Definition case_nn2 : neuralnet :=
  {| nn_layers := [Build_layer 2 16 (mkptr 0 0) (mkptr 1 0) Tanh None; Build_layer 16 3 (mkptr 2 0) (mkptr 3 0) Softmax None];
     nn_loss := None |}.
Section CaseMem.
  Variable FO : fops.
  Definition case_net2 : list flayer :=
    [@Build_flayer FO (repeat f1 32) (repeat f0 16) Tanh; @Build_flayer FO (repeat f1 48) (repeat f1 3) Softmax].
  Lemma case_holds2 : nn_layers case_nn2 <> [] /\ aligned_base case_c 128 /\ net_holds case_c (case_m FO f1) 2 (nn_layers case_nn2) case_net2 /\
    holds (case_m FO f1) (mkptr 4 0) [f0; f1] /\ out_pre case_c (case_m FO f1) (nn_layers case_nn2) (mkptr 4 0) 2 (mkptr 5 0).
  Proof.
    split; [discriminate|]. split; [reflexivity|].
    split. { simpl. unfold layer_holds, kal. mem_tac; simpl; try lia. }
    split. { mem_tac. }
    intros l Hl. inversion Hl; subst l. unfold off_params, kal. simpl. mem_tac; try lia; auto.
  Qed.
End CaseMem.
Section Case.
  Let lm : libm := lm_rounded.
  Notation OP := (opsB32 lm).
  Lemma case_params q : Rabs (vec (params_b32 (triples (case_net2 OP))) q) <= 1.
  Proof.
    assert (F : Forall (fun r => Rabs r <= 1) (params_b32 (triples (case_net2 OP)))).
    { assert (O1 : Rabs (bv (@f1 OP)) <= 1) by (change (@f1 OP) with (b32_ofZ 1); rewrite one_R, Rabs_R1; lra).
      assert (O0 : Rabs (bv (@f0 OP)) <= 1) by (change (bv (@f0 OP)) with 0; rewrite Rabs_R0; lra).
      unfold params_b32, triples, case_net2. cbn [map flat_map fst snd fact fw fb]. rewrite app_nil_r, !Forall_app.
      assert (RP : forall (v : b32) k, Rabs (bv v) <= 1 -> Forall (fun r => Rabs r <= 1) (map (@B2R 24 128) (repeat v k))).
      { intros v k Hv. induction k as [|k IH]; constructor; assumption. }
      repeat split; apply RP; assumption. }
    unfold vec. destruct (lt_dec q (length (params_b32 (triples (case_net2 OP))))) as [L|L].
    - rewrite Forall_forall in F. apply F. apply nth_In. exact L.
    - rewrite nth_overflow by lia. rewrite Rabs_R0. lra.
  Qed.
  Lemma sumf_bound n (f : nat -> R) b : (forall i, (i < n)%nat -> f i <= b) -> sumf n f <= INR n * b.
  Proof.
    induction n as [|n IH]; intros H; [cbn; lra|]. rewrite S_INR. cbn [sumf]. pose proof (H n (Nat.lt_succ_diag_r n)). specialize (IH (fun i Hi => H i ltac:(lia))). lra.
  Qed.
  Lemma case_range (th x : nat -> R) : (forall q, Rabs (th q) <= 1) -> (forall i, 0 <= x i <= 1) ->
    in_range [(16%nat, Tanh); (3%nat, Softmax)] 2 0 th x (fun _ => 0).
  Proof.
      intros CP XB.
      pose proof u32_pos as U. pose proof u32_small as US. pose proof eta32_small as ES. pose proof eta32_pos as EP. pose proof big127 as BG.
      assert (P23 : forall k, (k <= 23)%nat -> (1 + u32) ^ k <= 2).
      { intros k Hk. pose proof (relative_part_small k) as R. assert (KB : INR k <= 23) by (apply (le_INR k 23) in Hk; cbn in Hk |- *; lra). pose proof (pos_INR k). nra. }
      assert (A1 : forall j, 0 <= abs_lin 2 16 th x j <= 3).
      { intros j. unfold abs_lin. split.
        - cbn [sumf]. assert (forall q i, 0 <= x i * Rabs (th q)) by (intros q i; apply Rmult_le_pos; [apply XB|apply Rabs_pos]). pose proof (Rabs_pos (th j)).
          pose proof (H (16 + (0 * 16 + j))%nat 0%nat). pose proof (H (16 + (1 * 16 + j))%nat 1%nat). lra.
        - pose proof (sumf_bound 2 (fun i => x i * Rabs (th (16 + (i * 16 + j))%nat)) 1) as SB. cbn [INR] in SB. pose proof (CP j).
          assert (sumf 2 (fun i => x i * Rabs (th (16 + (i * 16 + j))%nat)) <= (1 + 1) * 1).
          { apply SB. intros i _. pose proof (XB i). pose proof (CP (16 + (i * 16 + j))%nat). pose proof (Rabs_pos (th (16 + (i * 16 + j))%nat)). nra. }
          lra. }
      assert (D1 : forall j, 0 <= low_lin 2 16 th (fun _ => 0) j <= 1).
      { intros j. split; [apply low_lin_pos; intros; lra|]. unfold low_lin. pose proof (P23 (2 + 1)%nat ltac:(lia)) as P3. pose proof (up1 (2 + 1)).
        cbn [sumf]. rewrite !Rmult_0_l, !Rplus_0_l. nra. }
      cbn [in_range]. split; [exact I|]. split.
      + intros j _. pose proof (A1 j). pose proof (D1 j). pose proof (P23 (0 + 2 + 1)%nat ltac:(lia)). pose proof (up1 (0 + 2 + 1)). cbn [top]. nra.
      + split; [cbn; lra|]. split; [|exact I]. intros j Hj. 
        set (a := abs_act Tanh 16 (abs_lin 2 16 th x)). set (d := low_act Tanh 16 (abs_lin 2 16 th x) (low_lin 2 16 th (fun _ => 0))). set (th2 := fun q => th (16 + 2 * 16 + q)%nat).
        assert (DB : forall i, 0 <= d i <= 2). { intros i. unfold d, low_act. pose proof (D1 i). lra. }
        assert (A2 : abs_lin 16 3 th2 a j <= 49 /\ 0 <= abs_lin 16 3 th2 a j).
        { unfold abs_lin. assert (CT : forall q, 0 <= Rabs (th2 q) <= 1) by (intros q; split; [apply Rabs_pos|apply CP]).
          assert (PI : forall i, 0 <= a i * Rabs (th2 (3 + (i * 3 + j))%nat) <= 3).
          { intros i. pose proof (A1 i). pose proof (CT (3 + (i * 3 + j))%nat). unfold a. cbn [abs_act]. nra. }
          split.
          - pose proof (sumf_bound 16 (fun i => a i * Rabs (th2 (3 + (i * 3 + j))%nat)) 3 (fun i _ => proj2 (PI i))) as SB.
            replace (INR 16) with 16 in SB by (cbn; lra). pose proof (CT j). lra.
          - pose proof (CT j). assert (0 <= sumf 16 (fun i => a i * Rabs (th2 (3 + (i * 3 + j))%nat))).
            { generalize 16%nat. intros k. induction k as [|k IH]; cbn [sumf]; [lra|]. pose proof (PI k). lra. } lra. }
        assert (D2 : low_lin 16 3 th2 d j <= 100).
        { unfold low_lin. pose proof (P23 (16 + 1)%nat ltac:(lia)) as P17. pose proof (up1 (16 + 1)).
          pose proof (sumf_bound 16 (fun i => d i * Rabs (th2 (3 + (i * 3 + j))%nat) + eta32) 3) as SB. replace (INR 16) with 16 in SB by (cbn; lra).
          assert (SS : sumf 16 (fun i => d i * Rabs (th2 (3 + (i * 3 + j))%nat) + eta32) <= 16 * 3).
          { apply SB. intros i _. pose proof (DB i). pose proof (CP (16 + 2 * 16 + (3 + (i * 3 + j)))%nat) as C1. pose proof (Rabs_pos (th (16 + 2 * 16 + (3 + (i * 3 + j)))%nat)).
            unfold th2. nra. }
          nra. }
        pose proof (P23 (0 + 2 + 1 + 0 + 16 + 1)%nat ltac:(lia)). pose proof (up1 (0 + 2 + 1 + 0 + 16 + 1)). cbn [act_roundings top].
        assert (1000 <= 2 ^ 126) by (replace 126%nat with (10 + 116)%nat by lia; rewrite pow_add; assert (1 <= 2 ^ 116) by (apply pow_R1_Rle; lra); nra). nra.
  Qed.
  Example predict_rounding_case :
    net_holds case_c (case_m OP f1) 2 (nn_layers case_nn2) (case_net2 OP) /\
    covered_net lm (triples (case_net2 OP)) /\ Forall (fun x : b32 => fin x = true) [@f0 OP; @f1 OP] /\
    in_range (shape_b32 (triples (case_net2 OP))) 2 0 (vec (params_b32 (triples (case_net2 OP))))
      (fun i => Rabs (vec (map (@B2R 24 128) [@f0 OP; @f1 OP]) i)) (fun _ => 0).
  Proof.
    assert (FR : forall (v : b32) k, fin v = true -> Forall (fun x : b32 => fin x = true) (repeat v k)).
    { intros v k Hv. induction k as [|k IH]; constructor; assumption. }
    split; [|split; [|split]].
    - apply (case_holds2 OP).
    - unfold covered_net, triples, case_net2. cbn [map fact fw fb]. repeat apply Forall_cons; try apply Forall_nil; cbn [fst snd];
        (split; [first [exact rounded_tanh|exact rounded_exp]|split; apply FR; reflexivity]).
    - repeat apply Forall_cons; try apply Forall_nil; reflexivity.
    - apply case_range; [exact case_params|]. intros i. split; [apply Rabs_pos|]. change (@f1 OP) with (b32_ofZ 1). change (@f0 OP) with b32_zero.
      rewrite vec_bv. destruct i as [|[|[|i]]]; cbn [nth].
      + change (bv b32_zero) with 0. rewrite Rabs_R0. lra.
      + rewrite one_R, Rabs_R1. lra.
      + change (bv b32_zero) with 0. rewrite Rabs_R0. lra.
      + change (bv b32_zero) with 0. rewrite Rabs_R0. lra.
  Qed.
End Case.

(** with the exponential: parameters and inputs up to 1 in magnitude, 2 inputs, 16 units with the exponential, 3 linear
    outputs; the bound is 1/100 where the outputs may be as large as 300 *)
Example exponential_rounding_case (th x : nat -> R) : (forall q, Rabs (th q) <= 1) -> (forall i, Rabs (x i) <= 1) ->
  in_range [(16%nat, Exponential); (3%nat, Linear)] 2 0 th (fun i => Rabs (x i)) (fun _ => 0) /\
  forall j, error_bound [(16%nat, Exponential); (3%nat, Linear)] 2 th x j <= 1 / 100.
Proof.
  intros CP XB. pose proof u32_pos as U. assert (UV : u32 = / 16777216) by (unfold u32; f_equal; lra). pose proof eta32_small as ES. pose proof eta32_pos as EP. pose proof big127 as BG. pose proof exp_le_3 as E3.
  assert (EL : exp 3 <= 27). { replace 3 with (1 + 1 + 1) by ring. rewrite !exp_plus. pose proof (exp_pos 1). nra. }
  assert (ET : eta32 <= 1 / 10 ^ 30).
  { unfold eta32, Rdiv. rewrite Rmult_1_l. apply Rinv_le; [lra|]. apply Rle_trans with (2 ^ 110); [lra|apply Rle_pow; [lra|lia]]. }
  assert (P23 : forall k, (k <= 20)%nat -> 0 <= (1 + u32) ^ k - 1 <= 13 / 10 ^ 7).
  { intros k Hk. pose proof (up1 k). pose proof (up_le k 20 Hk) as L. split; [lra|]. eapply Rle_trans; [apply Rplus_le_compat_r; exact L|]. rewrite UV. lra. }
  set (ax := fun i => Rabs (x i)).
  assert (XP : forall i q, 0 <= ax i * Rabs (th q) <= 1).
  { intros i q. pose proof (XB i). pose proof (Rabs_pos (x i)). pose proof (CP q). pose proof (Rabs_pos (th q)). unfold ax. split; [apply Rmult_le_pos; lra|].
    rewrite <- (Rmult_1_r 1). apply Rmult_le_compat; lra. }
  assert (A1 : forall j, 0 <= abs_lin 2 16 th ax j <= 3).
  { intros j. unfold abs_lin. cbn [sumf]. pose proof (XP 0%nat (16 + (0 * 16 + j))%nat). pose proof (XP 1%nat (16 + (1 * 16 + j))%nat). pose proof (CP j). pose proof (Rabs_pos (th j)). lra. }
  assert (D1 : forall j, 0 <= low_lin 2 16 th (fun _ => 0) j <= 1 / 10 ^ 8).
  { intros j. split; [apply low_lin_pos; intros; lra|]. unfold low_lin. pose proof (P23 (2 + 1)%nat ltac:(lia)) as P3.
    cbn [sumf]. rewrite !Rmult_0_l, !Rplus_0_l. assert ((1 + u32) ^ (2 + 1) * (eta32 + eta32) <= 2 * (eta32 + eta32)) by (apply Rmult_le_compat_r; lra). lra. }
  set (a := abs_act Exponential 16 (abs_lin 2 16 th ax)). set (d := low_act Exponential 16 (abs_lin 2 16 th ax) (low_lin 2 16 th (fun _ => 0))). set (th2 := fun q => th (16 + 2 * 16 + q)%nat).
  assert (CT : forall q, 0 <= Rabs (th2 q) <= 1) by (intros q; split; [apply Rabs_pos|apply CP]).
  assert (AB : forall i, 0 <= a i <= 189).
  { intros i. unfold a, abs_act. pose proof (A1 i). pose proof (exp_pos (abs_lin 2 16 th ax i)). assert (exp (abs_lin 2 16 th ax i) <= exp 3) by (apply exp_mono; lra).
    split; [apply Rmult_le_pos; lra|]. replace 189 with (27 * 7) by ring. apply Rmult_le_compat; lra. }
  assert (DB : forall i, 0 <= d i <= 28 / 10 ^ 6).
  { intros i. unfold d, low_act. pose proof (A1 i). pose proof (D1 i). pose proof (exp_pos (abs_lin 2 16 th ax i)). assert (exp (abs_lin 2 16 th ax i) <= exp 3) by (apply exp_mono; lra).
    split; [apply Rmult_le_pos; lra|]. apply Rle_trans with (27 * (102 / 10 ^ 8)); [apply Rmult_le_compat; lra|lra]. }
  assert (A2 : forall j, 0 <= abs_lin 16 3 th2 a j <= 3025).
  { intros j. unfold abs_lin. assert (PI : forall i, 0 <= a i * Rabs (th2 (3 + (i * 3 + j))%nat) <= 189).
    { intros i. pose proof (AB i). pose proof (CT (3 + (i * 3 + j))%nat). split; [apply Rmult_le_pos; lra|]. replace 189 with (189 * 1) by ring. apply Rmult_le_compat; lra. }
    split.
    - pose proof (CT j). assert (0 <= sumf 16 (fun i => a i * Rabs (th2 (3 + (i * 3 + j))%nat))).
      { generalize 16%nat. intros k. induction k as [|k IH]; cbn [sumf]; [lra|]. pose proof (PI k). lra. } lra.
    - pose proof (sumf_bound 16 (fun i => a i * Rabs (th2 (3 + (i * 3 + j))%nat)) 189 (fun i _ => proj2 (PI i))) as SB.
      replace (INR 16) with 16 in SB by (cbn; lra). pose proof (CT j). lra. }
  assert (D2 : forall j, 0 <= low_lin 16 3 th2 d j <= 1 / 1000).
  { intros j. split; [apply low_lin_pos; intros; apply DB|]. unfold low_lin. pose proof (P23 (16 + 1)%nat ltac:(lia)) as P17.
    assert (PI : forall i, 0 <= d i * Rabs (th2 (3 + (i * 3 + j))%nat) <= 28 / 10 ^ 6).
    { intros i. pose proof (DB i). pose proof (CT (3 + (i * 3 + j))%nat). split; [apply Rmult_le_pos; lra|]. replace (28 / 10 ^ 6) with (28 / 10 ^ 6 * 1) by ring. apply Rmult_le_compat; lra. }
    assert (SS : 0 <= sumf 16 (fun i => d i * Rabs (th2 (3 + (i * 3 + j))%nat) + eta32)).
    { generalize 16%nat. intros k. induction k as [|k IH]; cbn [sumf]; [lra|]. pose proof (PI k). lra. }
    pose proof (sumf_bound 16 (fun i => d i * Rabs (th2 (3 + (i * 3 + j))%nat) + eta32) (29 / 10 ^ 6)) as SB. replace (INR 16) with 16 in SB by (cbn; lra).
    assert (S2 : sumf 16 (fun i => d i * Rabs (th2 (3 + (i * 3 + j))%nat) + eta32) <= 16 * (29 / 10 ^ 6)) by (apply SB; intros i _; pose proof (PI i); lra).
    apply Rle_trans with ((1 + 13 / 10 ^ 7) * (16 * (29 / 10 ^ 6))); [apply Rmult_le_compat; lra|lra]. }
  split.
  - cbn [in_range act_roundings]. fold ax a d th2. split.
    { cbn [width_ok]. intros j _. pose proof (A1 j). pose proof (D1 j). pose proof (P23 (0 + 2 + 1)%nat ltac:(lia)) as P.
      assert (((1 + u32) ^ (0 + 2 + 1) - 1) * abs_lin 2 16 th ax j <= 13 / 10 ^ 7 * 3) by (apply Rmult_le_compat; lra). lra. }
    split.
    { intros j _. pose proof (A1 j). pose proof (D1 j). pose proof (P23 (0 + 2 + 1)%nat ltac:(lia)) as P. cbn [top].
      assert ((1 + u32) ^ (0 + 2 + 1) * abs_lin 2 16 th ax j <= 2 * 3) by (apply Rmult_le_compat; lra). lra. }
    split; [exact I|]. split; [|exact I]. intros j _. pose proof (A2 j). pose proof (D2 j). cbn [top]. change (0 + 2 + 1 + 0 + 16 + 1)%nat with 20%nat. pose proof (P23 20%nat ltac:(lia)) as P.
    assert ((1 + u32) ^ 20 * abs_lin 16 3 th2 a j <= 2 * 3025) by (apply Rmult_le_compat; lra). lra.
  - intros j. unfold error_bound. cbn [roundings abs_eval low_eval act_roundings]. fold ax a d th2. change (2 + 1 + 0 + (16 + 1 + 0 + 0))%nat with 20%nat.
    cbn [abs_act low_act act_roundings pow]. pose proof (A2 j). pose proof (D2 j). pose proof (P23 20%nat ltac:(lia)) as P.
    assert (((1 + u32) ^ 20 - 1) * abs_lin 16 3 th2 a j <= 13 / 10 ^ 7 * 3025) by (apply Rmult_le_compat; lra). lra.
Qed.
