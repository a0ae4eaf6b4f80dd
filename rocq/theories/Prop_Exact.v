(** Prop_Exact.v -- C02, C08, C09: exactly when prediction and batch prediction work *)
From Coq Require Import List Arith ZArith Lia Bool Permutation.
From Verif Require Import Base BaseProofs Ops Mem MemProofs Kernels KernelProofs Activation ActivationProofs
  Loss Neuralnet ForwardProofs PredictProofs BitsProofs GradProofs SpecMem ParamProofs Batch BatchProofs ExactProofs BlasExact NoFuel Ex_Mem Prop_Predict Prop_Batch.
Import ListNotations.
Local Open Scope nat_scope.
Local Open Scope mem_scope.

(** the address a of an array of n floats suits the registers the build uses for n floats *)
Definition suits (c : cfg) (n : nat) (a : Z) : Prop :=
  (cfg_isa c = AVX512 -> 16 <= n -> (a mod 64 = 0)%Z) /\ (cfg_isa c <> SSE -> 8 <= n -> (a mod 32 = 0)%Z).

Lemma suits_kal {FO : fops} c n m p : suits c n (addr m p) <-> kal c n m p.
Proof.
  unfold suits, kal, aligned_to, has_avx512, has_avx. rewrite !Z.eqb_eq. change (4 * Z.of_nat 16)%Z with 64%Z. change (4 * Z.of_nat 8)%Z with 32%Z.
  destruct (cfg_isa c); split; intros [A B]; split; intros; try discriminate; try congruence; auto; try (apply A; auto; discriminate); try (apply B; auto; discriminate).
Qed.

(** C02, exactly: neuralnet_predict fills an output array that overlaps nothing if and only if its address suits the
    registers; for every other address it faults on an aligned access. *)
Theorem predict_any_output_buffer_exact (FO : fops) (c : cfg) (vexp : F -> F) (wb : Z) (nn : neuralnet) (net : list flayer)
    (m : mem) (pin po : ptr) (xs : list F) :
  (forall a b : F, fmul a b = fmul b a) ->
  nn_layers nn <> [] -> aligned_base c wb ->
  net_holds c m (length xs) (nn_layers nn) net -> holds m pin xs ->
  (forall l, nth_error (nn_layers nn) (length (nn_layers nn) - 1) = Some l ->
     valid m po (n_output l) /\ off_params po (n_output l) l /\ disjoint po (n_output l) pin (length xs)) ->
  ((exists ys, length ys = out_size nn /\ writes_only (neuralnet_predict c vexp wb nn pin po) m po ys) <-> suits c (out_size nn) (addr m po)) /\
  (~ suits c (out_size nn) (addr m po) -> neuralnet_predict c vexp wb nn pin po m = Fault Misaligned).
Proof.
  intros HC Hne HB HN Hin HO.
  destruct (@nth_error_ex _ (nn_layers nn) (length (nn_layers nn) - 1)) as [l Hl]. { destruct (nn_layers nn); simpl; [congruence|lia]. }
  pose proof (out_size_nth nn l Hl) as E. rewrite E. destruct (HO l Hl) as (V & OP & DI). rewrite suits_kal.
  assert (NF : ~ kal c (n_output l) m po -> neuralnet_predict c vexp wb nn pin po m = Fault Misaligned).
  { intros NK. apply (predict_fault c vexp HC wb nn net m pin po xs l); auto. destruct V as (b & Hb & _). apply nth_error_Some. congruence. }
  split; [|exact NF]. split.
  - intros (ys & _ & m' & R & _). destruct (kalb c (n_output l) m po) eqn:K; [apply kalb_spec in K; exact K|].
    rewrite NF in R; [discriminate|]. intros K'. apply kalb_spec in K'. congruence.
  - intros K. destruct (net_holds_fits_len c m _ _ _ HN Hne l Hl) as (f & Hf & E2 & _).
    exists (forward_f c vexp net (addr m po) xs).
    assert (LF : length (forward_f c vexp net (addr m po) xs) = n_output l).
    { rewrite (forward_f_length c vexp net _ xs f); auto. eapply net_holds_fits_f; eauto. }
    split; [exact LF|]. apply writes_only_intro; [rewrite LF; exact V|]. apply predict_ok; auto.
    intros l' Hl'. assert (l' = l) by congruence. subst l'. split; [exact V|]. split; [exact K|]. split; [apply kal_act_pre; exact K|]. split; auto.
Qed.
Print Assumptions predict_any_output_buffer_exact.

(** the width of the registers used for rows of n floats *)
Definition reg_width (c : cfg) (n : nat) : option nat :=
  match cfg_isa c with
  | SSE => None
  | AVX512 => if 16 <=? n then Some 16 else if 8 <=? n then Some 8 else None
  | _ => if 8 <=? n then Some 8 else None
  end.
(** the address a suits a matrix of k rows of n floats: it is a multiple of the register size, and so is the length of a row,
    unless there is only one *)
Definition suits_rows (c : cfg) (k n : nat) (a : Z) : Prop :=
  k = 0 \/ match reg_width c n with
           | None => True
           | Some w => (a mod (4 * Z.of_nat w) = 0)%Z /\ (k = 1 \/ n mod w = 0)
           end.

Lemma suits_width c n a : suits c n a <-> match reg_width c n with None => True | Some w => (a mod (4 * Z.of_nat w) = 0)%Z end.
Proof.
  assert (D : (a mod 64 = 0 -> a mod 32 = 0)%Z).
  { intros H. apply Z.mod_divide in H; [|lia]. apply Z.mod_divide; [lia|]. destruct H as [q ->]. exists (2 * q)%Z. lia. }
  unfold suits, reg_width. destruct (cfg_isa c) eqn:E; destruct (Nat.leb_spec 16 n), (Nat.leb_spec 8 n); try lia;
    (split; [intros [A B] | intros A; split; intros]); try exact I; try discriminate; try congruence; try lia;
    try (apply B; [discriminate|lia]); try (apply A; [reflexivity|lia]); try exact A; try (apply D; exact A).
Qed.

Lemma suits_rows_all c k n a : suits_rows c k n a <-> forall i, i < k -> suits c n (a + 4 * Z.of_nat (i * n)).
Proof.
  unfold suits_rows. setoid_rewrite suits_width. destruct (reg_width c n) as [w|] eqn:W; [|split; [intros; exact I|intros; right; exact I]].
  assert (Hw : 1 <= w). { unfold reg_width in W. destruct (cfg_isa c), (16 <=? n), (8 <=? n); inversion W; lia. }
  split.
  - intros [->|[A B]] i Hi; [lia|]. apply Z.mod_divide in A; [|lia]. apply Z.mod_divide; [lia|]. apply Z.divide_add_r; [exact A|].
    destruct B as [->|B]; [replace i with 0 by lia; apply Z.divide_0_r|].
    apply Nat.mod_divides in B; [|lia]. destruct B as [q ->]. exists (Z.of_nat (i * q)). rewrite !Nat2Z.inj_mul. ring.
  - intros H. destruct k as [|k]; [left; reflexivity|right]. pose proof (H 0 ltac:(lia)) as H0. cbn [Nat.mul] in H0. rewrite Z.mul_0_r, Z.add_0_r in H0.
    split; [exact H0|]. destruct k as [|k]; [left; reflexivity|right]. pose proof (H 1 ltac:(lia)) as H1. rewrite Nat.mul_1_l in H1.
    apply Z.mod_divide in H0; [|lia]. apply Z.mod_divide in H1; [|lia]. apply (Z.divide_add_cancel_r _ _ _ H0) in H1.
    apply Nat.mod_divides; [lia|]. destruct H1 as [q Hq]. exists (Z.to_nat q). assert (0 <= q)%Z by nia. apply Nat2Z.inj. rewrite Nat2Z.inj_mul, Z2Nat.id by lia. nia.
Qed.

(** C09, exactly (OpenMP build): in every order of the iterations the batch fills the output matrix if and only if its address and
    the number of outputs suit the registers; otherwise it faults on an aligned access. *)
Theorem predict_batch_every_shape_exact (FO : fops) (c : cfg) (vexp : F -> F) (wbs : nat -> Z) (nn : neuralnet) (net : list flayer)
    (m : mem) (pin po : ptr) (X : list (list F)) (order : list nat) :
  (forall a b : F, fmul a b = fmul b a) -> (forall i, aligned_base c (wbs i)) ->
  batch_mem c nn net m pin po X -> Permutation order (seq 0 (length X)) ->
  ((exists ys, length ys = length X * out_size nn /\ writes_only (predict_batch_omp c vexp order wbs nn pin po) m po ys)
     <-> suits_rows c (length X) (out_size nn) (addr m po)) /\
  (~ suits_rows c (length X) (out_size nn) (addr m po) -> predict_batch_omp c vexp order wbs nn pin po m = Fault Misaligned).
Proof.
  intros HC HB HM HP. pose proof HM as (Hne & HN & HX & Hin & V & OFF & DI).
  assert (HX' : forall i x, nth_error X i = Some x -> length x = in_size nn) by (intros i x Hi; apply HX; eapply nth_error_In; eauto).
  assert (HI : forall i, In i order -> i < length X).
  { intros i Hi. apply (Permutation_in _ HP) in Hi. apply in_seq in Hi. lia. }
  assert (HJ : forall i, i < length X -> In i order).
  { intros i Hi. apply (Permutation_in _ (Permutation_sym HP)). apply in_seq. lia. }
  assert (AD : forall i, addr m (po +! (i * out_size nn)) = (addr m po + 4 * Z.of_nat (i * out_size nn))%Z).
  { intros i. destruct V as (b & Hb & _). unfold addr. cbn [blk off padd]. rewrite Hb. lia. }
  assert (SR : suits_rows c (length X) (out_size nn) (addr m po) <-> forall i, In i order -> kal c (out_size nn) m (po +! (i * out_size nn))).
  { rewrite suits_rows_all. split; intros H i Hi.
    - apply suits_kal. rewrite AD. apply H. apply HI. exact Hi.
    - rewrite <- AD. apply suits_kal. apply H. apply HJ. exact Hi. }
  destruct (omp_cases c vexp HC nn net m pin po X wbs Hne HB HN HX' Hin V OFF DI order m (oci_refl m _) HI) as [(m'' & R & K)|(R & i & Hi & NK)].
  - split; [|intros NS; exfalso; apply NS; apply SR; exact K]. split; [intros _; apply SR; exact K|]. intros _.
    destruct (predict_batch_omp_rows FO c vexp wbs nn net m pin po X order HC HB HM) as (ys & W & L & _); auto; [|exists ys; auto].
    intros i l Hi Hl. pose proof (K i (HJ i Hi)) as Ki. rewrite (out_size_nth nn l Hl) in *. split; [exact Ki|apply kal_act_pre; exact Ki].
  - split; [|intros _; exact R]. split.
    + intros (ys & _ & m' & R' & _). congruence.
    + intros S. exfalso. apply NK. apply SR; auto.
Qed.
Print Assumptions predict_batch_every_shape_exact.

(** C08, exactly (BLAS build): in a well-formed memory a batch of at least one sample recurses for ever if and only if the network has
    more outputs in total than the stack array has floats.  Otherwise the recursion is not deeper than the number of samples. *)
Theorem predict_batch_blas_terminates_exact (FO : fops) (vexp : F -> F) (c : cfg) (nstack : nat)
    (sgemm : nat -> nat -> nat -> list F -> list F -> list F -> list F) (wbs : nat -> ptr -> Z) (nn : neuralnet) (net : list flayer)
    (m : mem) (pin po : ptr) (X : list (list F)) :
  (forall m n k A B C, length C = m * n -> length (sgemm m n k A B C) = m * n) ->
  batch_mem c nn net m pin po X -> 1 <= length X ->
  ((forall fuel, predict_batch_blas c vexp nstack sgemm fuel wbs nn (length X) pin po m = Fault OutOfFuel) <-> nstack < sum_outputs (nn_layers nn)) /\
  (sum_outputs (nn_layers nn) <= nstack -> forall fuel, length X < fuel ->
     predict_batch_blas c vexp nstack sgemm fuel wbs nn (length X) pin po m <> Fault OutOfFuel).
Proof.
  intros SL (Hne & HN & HX & Hin & V & OFF & DI) H1.
  assert (T : sum_outputs (nn_layers nn) <= nstack -> forall fuel, length X < fuel ->
     predict_batch_blas c vexp nstack sgemm fuel wbs nn (length X) pin po m <> Fault OutOfFuel).
  { intros HS fuel HF. apply ends_blas; auto. }
  split; [|exact T]. split.
  - intros H. destruct (le_lt_dec (sum_outputs (nn_layers nn)) nstack) as [L|L]; [|exact L]. exfalso. apply (T L (S (length X))); [lia|apply H].
  - intros HS fuel. apply (endless c vexp nstack sgemm SL wbs nn net (in_size nn) m Hne HN HS); auto.
    + destruct Hin as (b & Hb & HL & _). exists b. split; auto. lia.
    + destruct V as (b & Hb & HL). exists b. split; auto. lia.
Qed.
Print Assumptions predict_batch_blas_terminates_exact.

(** cases: the batch of Prop_Batch (3 rows of 3 outputs) works at every address; rows of 16 and of 9 floats in an AVX build; an output
    array of 16 floats at address 96 *)
Example exact_case :
  let a := {| cfg_isa := AVX; cfg_fma := false |} in
  let c := {| cfg_isa := AVX512; cfg_fma := true |} in
  @batch_mem opsZ c bcase_nn (bcase_net opsZ) (bcase_m opsZ) (mkptr 4 0) (mkptr 5 0) [[0; 1]%Z; [1; 1]%Z; [1; 0]%Z] /\
  suits_rows c 3 (out_size bcase_nn) 6660 /\ sum_outputs (nn_layers bcase_nn) = 19 /\
  suits_rows a 5 16 96 /\ ~ suits_rows a 5 16 100 /\ suits_rows a 1 9 96 /\ ~ suits_rows a 2 9 96 /\ suits a 16 96 /\ ~ suits c 16 96.
Proof.
  split; [apply (bcase_holds opsZ)|]. split; [right; exact I|]. split; [reflexivity|].
  split; [right; split; [reflexivity|right; reflexivity]|].
  split. { intros [H|[H _]]; discriminate. }
  split; [right; split; [reflexivity|left; reflexivity]|].
  split. { intros [H|[_ [H|H]]]; discriminate. }
  split. { split; intros; [discriminate|reflexivity]. }
  intros [H _]. specialize (H eq_refl ltac:(lia)). discriminate.
Qed.
