(** EvalRound.v -- rounding errors of the mean of a metric over the samples *)
From Flocq Require Import Core BinarySingleNaN.
From Coq Require Import ZArith Bool List Arith Reals Lia Lra Permutation.
From Verif Require Import Base BaseProofs Ops Mem Optimizer Activation Loss OpsB32 B32Facts MetricB32 SpecReal RealForward SpecOpt EvalProofs
  SpecLibm SpecRound RoundProofs SpecGradRound GradRound SlopeRound LossRound SpecStepRound SumRound StepRound SpecEvalRound MetricRound.
Import ListNotations.
Local Open Scope R_scope.
Local Notation NZ := b32_zero.

Lemma len_map2_e (f : b32 -> b32 -> b32) (a b : list b32) n : length a = n -> length b = n -> length (map2 f a b) = n.
Proof. intros. rewrite length_map2. lia. Qed.

Section Red.
  Variables (lm : libm) (n k : nat) (g : nat -> list b32) (j : nat).
  Hypothesis Hg : forall i, (i < k)%nat -> length (g i) = n.
  Hypothesis Hj : (j < n)%nat.
  Notation OP := (opsB32 lm).
  Let h (i : nat) : b32 := nth j (g i) NZ.
  Lemma red_adds : forall its (a : list b32) l0, length a = n -> adds h l0 (nth j a NZ) -> (forall i, In i its -> (i < k)%nat) ->
    length (@red_f OP g a its) = n /\ adds h (l0 ++ its) (nth j (@red_f OP g a its) NZ).
  Proof.
    induction its as [|b its IH]; intros a l0 La HA Hb.
    - cbn. rewrite app_nil_r. split; [exact La|exact HA].
    - assert (Lb : length (g b) = n) by (apply Hg, Hb; left; reflexivity).
      replace (l0 ++ b :: its) with ((l0 ++ [b]) ++ its) by (rewrite <- app_assoc; reflexivity).
      change (@red_f OP g a (b :: its)) with (@red_f OP g (map2 (Bplus mode_NE) a (g b)) its).
      apply IH.
      + apply len_map2_e; [exact La|exact Lb].
      + rewrite nth_map2 by (rewrite ?La; auto). apply adds_plus; [exact HA|apply (adds_one h)].
      + intros b' Hb'. apply Hb. right. exact Hb'.
  Qed.
  Lemma zero_adds : adds h [] (nth j (repeat NZ n) NZ).
  Proof. rewrite nth_repeat. constructor. Qed.
  Lemma rtree_adds : forall t, (forall b, In b (tree_its t) -> (b < k)%nat) ->
    length (@rtree_f OP n g t) = n /\ adds h (tree_its t) (nth j (@rtree_f OP n g t) NZ).
  Proof.
    induction t as [base its|t1 IH1 t2 IH2]; intros Hb.
    - apply (red_adds its (repeat NZ n) []); [apply repeat_length|exact zero_adds|exact Hb].
    - cbn [tree_its] in Hb |- *. destruct IH1 as [A1 B1]; [intros; apply Hb; apply in_or_app; auto|]. destruct IH2 as [A2 B2]; [intros; apply Hb; apply in_or_app; auto|].
      change (@rtree_f OP n g (Comb t1 t2)) with (map2 (Bplus mode_NE) (@rtree_f OP n g t1) (@rtree_f OP n g t2)).
      change (@F OP) with b32 in *.
      split; [apply len_map2_e; assumption|]. rewrite nth_map2 by (rewrite ?A1; auto). apply adds_plus; assumption.
  Qed.
  Lemma omp_adds omp : omp_covers omp k -> exists l, Permutation l (seq 0 k) /\ length (@omp_f OP n g omp k) = n /\ adds h l (nth j (@omp_f OP n g omp k) NZ).
  Proof.
    unfold omp_covers, omp_f. destruct omp as [trs|]; intros SO.
    - exists (flat_map tree_its trs). split; [exact SO|].
      assert (IB : forall b, In b (flat_map tree_its trs) -> (b < k)%nat). { intros b Hb. apply (Permutation_in _ SO) in Hb. apply in_seq in Hb. lia. }
      change (@fadd OP) with (Bplus mode_NE : b32 -> b32 -> b32). change (@f0 OP) with NZ.
      assert (G : forall trs (a : list b32) l0, length a = n -> adds h l0 (nth j a NZ) -> (forall b, In b (flat_map tree_its trs) -> (b < k)%nat) ->
        length (fold_left (map2 (Bplus mode_NE)) (map (@rtree_f OP n g) trs) a) = n /\
        adds h (l0 ++ flat_map tree_its trs) (nth j (fold_left (map2 (Bplus mode_NE)) (map (@rtree_f OP n g) trs) a) NZ)).
      { clear trs SO IB. induction trs as [|t trs IH]; intros a l0 La HA Hb; cbn [flat_map map fold_left]; [rewrite app_nil_r; auto|].
        destruct (rtree_adds t) as [A1 B1]. { intros b H. apply Hb. cbn [flat_map]. apply in_or_app. auto. } change (@F OP) with b32 in *.
        rewrite app_assoc. apply IH.
        - apply len_map2_e; assumption.
        - rewrite nth_map2 by (rewrite ?La; auto). apply adds_plus; assumption.
        - intros b H. apply Hb. cbn [flat_map]. apply in_or_app. auto. }
      apply (G trs (repeat NZ n) []); [apply repeat_length|exact zero_adds|exact IB].
    - exists (seq 0 k). split; [apply Permutation_refl|]. apply (red_adds (seq 0 k) (repeat NZ n) []); [apply repeat_length|exact zero_adds|].
      intros b Hb. apply in_seq in Hb. lia.
  Qed.
  (** the mean *)
  Lemma mean_red omp (b : nat -> near) (s : nat -> R) : (0 < k)%nat -> omp_covers omp k ->
    (forall i, (i < k)%nat -> fin (h i) = true /\ is_near (b i) (bv (h i)) (s i)) -> mean_fits (map b (seq 0 k)) ->
    let r := Bdiv mode_NE (nth j (@omp_f OP n g omp k) NZ) (b32_ofZ (Z.of_nat k)) in
    fin r = true /\ Rabs (bv r - rsum (map s (seq 0 k)) / INR k) <= err (mean_near (map b (seq 0 k))).
  Proof.
    intros Hk CV HN MF r. destruct (omp_adds omp CV) as (l & P & _ & A). pose proof (fits_sum _ MF) as HC.
    assert (B127 : 2 ^ 126 <= 2 ^ 127) by (apply Rle_pow; [lra|lia]).
    destruct (sum_is_near h b s l (seq 0 k) _ A P) as (FS & NS); [|lra|].
    { intros i Hi. apply HN. apply (Permutation_in _ P) in Hi. apply in_seq in Hi. lia. }
    destruct (over_near k _ _ _ ltac:(destruct MF as (M & _); rewrite map_length, seq_length in M; exact M) Hk FS NS ltac:(lra)) as (FR & NR).
    split; [exact FR|]. rewrite mean_split, map_length, seq_length. exact (proj2 NR).
  Qed.
End Red.
