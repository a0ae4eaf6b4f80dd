(** Prop_Undo.v -- C14: what is left of the parameters in float32 when an update is undone *)
From Flocq Require Import Core BinarySingleNaN.
From Coq Require Import List Arith ZArith Lia Bool Reals Lra.
From Verif Require Import Base BaseProofs Ops Mem MemProofs Activation
  Loss Neuralnet SpecMem ForwardProofs ParamProofs OpsB32 B32Facts MetricB32 SpecRound RoundProofs Prop_Params.
Import ListNotations.
Local Open Scope nat_scope.
Local Open Scope mem_scope.

(** one parameter x: the two additions are rounded once each *)
Lemma undo_one (x d : b32) : fin x = true -> fin d = true -> (Rabs (bv x) <= 2 ^ 126)%R -> (Rabs (bv d) <= 2 ^ 126)%R ->
  let y := Bplus mode_NE (Bplus mode_NE x d) (Bopp d) in
  fin y = true /\
  (Rabs (bv y - bv x) <= / 2 ^ 24 * (Rabs (bv x) + (1 + / 2 ^ 24) * Rabs (bv x + bv d)))%R /\
  (forall z : b32, bv z = (bv x + bv d)%R -> bv y = bv x).
Proof.
  intros Fx Fd Bx Bd y. change (/ 2 ^ 24)%R with u32. pose proof u32_pos as U0. pose proof u32_small as U1.
  assert (T : (2 ^ 127 = 2 ^ 126 + 2 ^ 126)%R) by (replace 127 with (S 126) by lia; cbn [pow]; ring).
  pose proof (Rabs_triang (bv x) (bv d)) as T1.
  destruct (add_R x d Fx Fd) as (F1 & E1); [lra|].
  set (s := Bplus mode_NE x d) in *.
  assert (Fo : fin (Bopp d) = true) by (rewrite is_finite_Bopp; exact Fd).
  assert (Bo : bv (Bopp d) = (- bv d)%R) by apply B2R_Bopp.
  assert (S1 : (Rabs (bv s + bv (Bopp d)) <= Rabs (bv x) + u32 * Rabs (bv x + bv d))%R).
  { rewrite Bo. replace (bv s + - bv d)%R with (bv x + (bv s - (bv x + bv d)))%R by ring.
    eapply Rle_trans; [apply Rabs_triang|]. lra. }
  destruct (add_R s (Bopp d) F1 Fo) as (F2 & E2). { assert (2 <= 2 ^ 126)%R by (replace 126 with (S 125) by lia; cbn [pow]; assert (1 <= 2 ^ 125)%R by (apply pow_R1_Rle; lra); lra). nra. }
  fold y in F2, E2. split; [exact F2|]. split.
  - rewrite Bo in E2, S1. replace (bv y - bv x)%R with ((bv y - (bv s + - bv d)) + (bv s - (bv x + bv d)))%R by ring.
    eapply Rle_trans; [apply Rabs_triang|]. assert (u32 * Rabs (bv s + - bv d) <= u32 * (Rabs (bv x) + u32 * Rabs (bv x + bv d)))%R by (apply Rmult_le_compat_l; lra). lra.
  - intros z Z.
    assert (V : forall a b : b32, fin a = true -> fin b = true -> (Rabs (bv a + bv b) <= 2 ^ 127 + 1)%R ->
        forall r : b32, bv r = (bv a + bv b)%R -> bv (Bplus mode_NE a b) = bv r).
    { intros a b Fa Fb Hab r Hr. pose proof (Bplus_correct 24 128 _ _ mode_NE a b Fa Fb) as C.
      rewrite Rlt_bool_true in C by (apply rnd_range; exact Hab). destruct C as (C1 & _). refine (eq_trans C1 _).
      rewrite <- Hr. apply round_generic; [apply valid_rnd_N|]. exact (generic_format_B2R 24 128 r). }
    assert (Es : bv s = (bv x + bv d)%R) by (rewrite <- Z; apply V; auto; lra).
    apply V; auto. { rewrite Es, Bo. replace (bv x + bv d + - bv d)%R with (bv x) by ring. pose proof (pow_lt 2 126 ltac:(lra)). lra. }
    rewrite Es, Bo. ring.
Qed.

(** C14 in float32: after the update with d and the update with -d a parameter x is finite and differs from its old
    value by at most 2^-24 (|x| + (1 + 2^-24) |x + d|); if x + d is a float, x is restored. *)
Theorem undo_update_close_partial (lm : libm) (c : cfg) (m : @mem (opsB32 lm)) (nn : neuralnet) (n : nat)
    (net : list (@flayer (opsB32 lm))) (p p' q : ptr) (ds : list b32) :
  net_holds c m n (nn_layers nn) net -> @holds (opsB32 lm) m p ds -> length ds = total_n_parameters nn ->
  @holds (opsB32 lm) m p' (map Bopp ds) ->
  Forall (off_params p (length ds)) (nn_layers nn) -> Forall (off_params p' (length ds)) (nn_layers nn) ->
  ForallOrdPairs dis (regions (nn_layers nn)) ->
  valid m q (total_n_parameters nn) -> Forall (off_params q (total_n_parameters nn)) (nn_layers nn) ->
  let moderate (x : b32) := fin x = true /\ (Rabs (bv x) <= 2 ^ 126)%R in
  let ps : list b32 := flat_map (fun l => @fb (opsB32 lm) l ++ fw l) net in
  Forall moderate ps -> Forall moderate ds ->
  exists (m' : @mem (opsB32 lm)) (ys : list b32), update_twice c nn p p' q m = Ok (tt, m') /\ @holds (opsB32 lm) m' q ys /\ length ys = length ps /\
    forall k x d, nth_error ps k = Some x -> nth_error ds k = Some d ->
      exists y : b32, nth_error ys k = Some y /\ fin y = true /\
        (Rabs (bv y - bv x) <= / 2 ^ 24 * (Rabs (bv x) + (1 + / 2 ^ 24) * Rabs (bv x + bv d)))%R /\
        (forall z : b32, bv z = (bv x + bv d)%R -> bv y = bv x).
Proof.
  intros HN H1 L1 H2 O1 O2 PD V OQ moderate ps MP MD. set (O := opsB32 lm) in *.
  destruct (@update_twice_ok O c m nn n net p p' q ds (map Bopp ds)) as (m' & RU & H); auto.
  { rewrite map_length. auto. } { rewrite map_length. auto. }
  assert (L : length ds = length ps).
  { rewrite L1. symmetry. destruct nn. eapply (length_params (FO := O)); eauto. }
  eexists m', _. split; [exact RU|]. split; [exact H|]. fold ps.
  clear - L MP MD. clearbody ps. change (@F O) with b32.
  revert ds L MD. induction ps as [|x ps IH]; intros [|d ds] L MD; try discriminate.
  - split; [reflexivity|]. intros k ? ? E. destruct k; discriminate.
  - inversion MP as [|? ? Mx MP']; inversion MD as [|? ? Md MD']; subst. destruct (IH MP' ds ltac:(simpl in L; lia) MD') as (IL & IN).
    split; [simpl; f_equal; exact IL|]. intros [|k] a b Ea Eb.
    + simpl in Ea, Eb. injection Ea as <-. injection Eb as <-. eexists. split; [reflexivity|]. exact (undo_one x d (proj1 Mx) (proj1 Md) (proj2 Mx) (proj2 Md)).
    + apply IN; [exact Ea|exact Eb].
Qed.
Print Assumptions undo_update_close_partial.

(** A case that meets the hypotheses: the network of [params_case] with all parameters 1 and all deltas 2^30, where
    nothing is left of the parameters: the distance is 1, and the bound is below 65. *)
Example undo_update_close_case (lm : libm) :
  let O := opsB32 lm in let one := b32_ofZ 1 in let d := b32_ofZ 1073741824 in
  net_holds pcase_c (pcase_m O one d) 2 (nn_layers pcase_nn) (pcase_net O one) /\
  @holds O (pcase_m O one d) (mkptr 4 0) (repeat d 13) /\ @holds O (pcase_m O one d) (mkptr 5 0) (map Bopp (repeat d 13)) /\
  (fin one = true /\ Rabs (bv one) <= 2 ^ 126)%R /\ (fin d = true /\ Rabs (bv d) <= 2 ^ 126)%R /\
  (bv (Bplus mode_NE (Bplus mode_NE one d) (Bopp d)) = 0)%R /\
  (/ 2 ^ 24 * (Rabs (bv one) + (1 + / 2 ^ 24) * Rabs (bv one + bv d)) <= 65)%R.
Proof.
  cbv zeta. destruct (params_case_holds (opsB32 lm) (b32_ofZ 1) (b32_ofZ 1073741824)) as (A & B & _ & C & _).
  split; [exact A|]. split; [exact B|]. split; [exact C|].
  assert (E1 : (fin (b32_ofZ 1) = true /\ bv (b32_ofZ 1) = 1)%R) by (split; [reflexivity|vm_compute; lra]).
  assert (E2 : (fin (b32_ofZ 1073741824) = true /\ bv (b32_ofZ 1073741824) = 1073741824)%R) by (split; [reflexivity|vm_compute; lra]).
  destruct E1 as (F1 & V1). destruct E2 as (F2 & V2).
  assert (T : (1073741824 <= 2 ^ 126)%R).
  { replace 126 with (30 + 96) by lia. rewrite pow_add. assert (1 <= 2 ^ 96)%R by (apply pow_R1_Rle; lra).
    replace 1073741824%R with (2 ^ 30 * 1)%R by (simpl; ring). apply Rmult_le_compat_l; [apply pow_le; lra|lra]. }
  split; [split; [exact F1|rewrite V1, Rabs_pos_eq by lra; lra]|]. split; [split; [exact F2|rewrite V2, Rabs_pos_eq by lra; lra]|].
  split; [vm_compute; reflexivity|]. rewrite V1, V2. rewrite !(Rabs_pos_eq _) by lra. simpl. lra.
Qed.
