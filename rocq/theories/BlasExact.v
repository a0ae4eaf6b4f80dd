(** BlasExact.v -- when batch prediction with BLAS never ends *)
From Coq Require Import List Arith ZArith Lia Bool.
From Verif Require Import Base BaseProofs Ops Mem MemProofs Kernels KernelProofs Activation ActivationProofs
  Loss Neuralnet ForwardProofs GradProofs SpecMem ParamProofs Batch BatchProofs ExactProofs BlasProofs.
Import ListNotations.
Local Open Scope mem_scope.

Section BlasExact.
Context {FO : fops}.
Variable c : cfg.
Variable vexp : F -> F.
Variable nstack : nat.
Variable sgemm : nat -> nat -> nat -> list F -> list F -> list F -> list F.
Hypothesis SL : forall m n k A B C, length C = m * n -> length (sgemm m n k A B C) = m * n.
Variable wbs : nat -> ptr -> Z.

Lemma prologue0 p body m : prologue_loop c 1 0 p 0 body m = Ok (0, m).
Proof. cbn [prologue_loop]. unfold bind, is_aligned. cbn [Nat.ltb Nat.leb]. rewrite andb_false_r. reflexivity. Qed.
Lemma act0 g p m : g <> Softmax -> activation_func c vexp g 0 p m = Ok (tt, m).
Proof.
  intros H. destruct g; try congruence; try reflexivity.
  - cbn [activation_func]. unfold relu, when. destruct (has_avx c); [|reflexivity]. unfold bind at 1 2. rewrite prologue0. reflexivity.
  - cbn [activation_func]. unfold sigmoid, when. destruct (has_avx2 c); [|reflexivity]. unfold bind at 1 2. rewrite prologue0. reflexivity.
  - cbn [activation_func]. unfold tanh_act, when. destruct (has_avx2 c); reflexivity.
Qed.

Lemma forward0 m : forall ls net k a acts, net_holds c m k ls net -> length acts = length ls -> valid m a 0 -> Forall (fun p => valid m p 0) acts ->
  batch_forward c vexp sgemm ls a acts 0 m = Ok (tt, m).
Proof.
  induction ls as [|l ls IH]; intros [|f net] k a [|b acts] HN HL Ha HA; cbn [net_holds] in HN; cbn [length] in HL; try reflexivity; try tauto; try discriminate.
  destruct HN as [(E1 & E2 & E3 & E4 & E5 & E6 & E7 & E8) HN]. inversion HA as [|? ? Hb HA']; subst.
  assert (Z0 : forall p, valid m p 0 -> loadv 0 p m = Ok ([], m)).
  { intros p (bl & B1 & B2). apply loadv_holds0; [|reflexivity]. exists bl. split; auto. }
  cbn [batch_forward]. rewrite !Nat.mul_0_l, Nat.mul_0_r.
  erewrite bind_ok by (apply Z0; exact Ha).
  erewrite bind_ok by (apply (loadv_holds0 (xs := fw f)); [exact E6|rewrite E5, E3; reflexivity]).
  erewrite bind_ok by (apply Z0; exact Hb).
  pose proof (SL 0 (n_output l) (n_input l) [] (fw f) [] eq_refl) as L0. destruct (sgemm 0 _ _ _ _ _); [|discriminate L0].
  assert (S0 : storev b [] m = Ok (tt, m)).
  { pose proof (@storev_valid FO m b 0 0 [] Hb) as S0. rewrite padd_0, writem_nil in S0. apply S0; simpl; lia. }
  erewrite bind_ok by exact S0. erewrite bind_ok with (a := tt) (m' := m).
  - apply (IH net (n_output l)); auto.
  - destruct (l_act l); try reflexivity; apply act0; discriminate.
Qed.
Lemma fill0 m : forall ls acts, length acts = length ls -> fill_biases ls acts 0 m = Ok (tt, m).
Proof.
  induction ls as [|l ls IH]; intros [|b acts] H; try discriminate; [reflexivity|]. cbn [fill_biases]. erewrite bind_ok by reflexivity. apply IH. cbn [length] in H. lia.
Qed.
Lemma bacts0 m out L : valid m out 0 -> forall ls, valid m (mkptr L 0) 0 -> Forall (fun p => valid m p 0) (bacts ls 0 (mkptr L 0) out).
Proof.
  intros Ho. induction ls as [|l ls IH]; intros HL; [constructor|]. destruct ls as [|l2 ls]; [repeat constructor; auto|].
  change (bacts (l :: l2 :: ls) 0 (mkptr L 0) out) with (mkptr L 0 :: bacts (l2 :: ls) 0 (mkptr L 0 +! (n_output l * 0)) out).
  constructor; auto. rewrite Nat.mul_0_r, padd_0. apply IH. auto.
Qed.

(** a call with no samples does nothing *)
Lemma zero_call nn net k m pin po fuel : nn_layers nn <> [] -> net_holds c m k (nn_layers nn) net -> valid m pin 0 -> valid m po 0 -> 1 <= fuel ->
  predict_batch_blas c vexp nstack sgemm fuel wbs nn 0 pin po m = Ok (tt, m).
Proof.
  intros Hne HN Hp Ho Hf. destruct fuel as [|f]; [lia|]. cbn [predict_batch_blas]. rewrite Nat.mul_0_r.
  replace (nstack <? 0) with false by (symmetry; apply Nat.ltb_ge; lia).
  destruct (Nat.eqb_spec (length (nn_layers nn)) 0) as [E|E]; [destruct (nn_layers nn); [congruence|discriminate]|].
  erewrite bind_ok by reflexivity. set (b := mkblock _ _). rewrite batch_acts_eq by exact Hne.
  assert (V : forall p, valid m p 0 -> valid (m ++ [b]) p 0).
  { intros p (bl & B1 & B2). exists bl. split; [|exact B2]. rewrite nth_error_app1; [exact B1|]. apply nth_error_Some. congruence. }
  erewrite bind_ok by (apply fill0; apply length_bacts).
  erewrite bind_ok.
  2:{ apply (forward0 (m ++ [b]) _ net k).
      - clear - HN. revert net k HN. induction (nn_layers nn) as [|l ls IH]; intros [|f net] k HN; cbn [net_holds] in *; auto. destruct HN. split; auto. apply layer_holds_app_l. auto.
      - apply length_bacts. - auto.
      - apply bacts0; [auto|]. exists b. split; [|simpl; lia]. cbn [blk]. rewrite nth_error_app2 by lia. rewrite Nat.sub_diag. reflexivity. }
  unfold freea. rewrite removelast_last. reflexivity.
Qed.

Lemma endless nn net k m : nn_layers nn <> [] -> net_holds c m k (nn_layers nn) net -> nstack < sum_outputs (nn_layers nn) ->
  forall fuel n pin po, 1 <= n -> valid m pin 0 -> valid m po 0 ->
  predict_batch_blas c vexp nstack sgemm fuel wbs nn n pin po m = Fault OutOfFuel.
Proof.
  intros Hne HN HS. induction fuel as [|f IH]; intros n pin po Hn Hp Ho; [reflexivity|]. cbn [predict_batch_blas].
  replace (nstack <? sum_outputs (nn_layers nn) * n) with true.
  2:{ symmetry. apply Nat.ltb_lt. apply Nat.lt_le_trans with (sum_outputs (nn_layers nn) * 1); [lia|]. apply Nat.mul_le_mono_l. exact Hn. }
  destruct (Nat.eq_dec n 1) as [->|N1].
  - change (1 / 2) with 0. destruct f as [|f]; [reflexivity|]. erewrite bind_ok by (eapply zero_call; eauto; lia).
    cbn [Nat.mul]. rewrite !padd_0. apply IH; auto.
  - apply bind_fault. apply IH; auto. apply Nat.div_le_lower_bound; lia.
Qed.
End BlasExact.
