(** CallbackProofs.v -- lemmas about the callbacks of Callbacks.v. *)
From Coq Require Import ZArith Bool String List Reals Lia Lra.
From Flocq Require Import Core BinarySingleNaN.
From Verif Require Import Base BaseProofs Ops OpsB32 Callbacks SpecCallback.
Import ListNotations.
Local Open Scope nat_scope.

(** ** an order embedding of the floats that are numbers *)
Definition key (x : b32) : R :=
  match x with
  | B754_infinity false => bpow radix2 128
  | B754_infinity true => (- bpow radix2 128)%R
  | _ => B2R x
  end.

Lemma B2R_bounds (x : b32) : (- bpow radix2 128 < B2R x < bpow radix2 128)%R.
Proof. pose proof (Rabs_def2 _ _ (abs_B2R_lt_emax 24 128 x)). lra. Qed.

Lemma big_pos : (0 < bpow radix2 128)%R.
Proof. apply bpow_gt_0. Qed.

Lemma Bltb_key (x y : b32) : is_nan x = false -> is_nan y = false -> Bltb x y = Rlt_bool (key x) (key y).
Proof.
  intros Hx Hy. symmetry. pose proof big_pos as BP. pose proof (B2R_bounds x) as Bx. pose proof (B2R_bounds y) as By.
  destruct (is_finite x) eqn:Fx, (is_finite y) eqn:Fy.
  - rewrite (Bltb_correct 24 128 x y Fx Fy). destruct x, y; simpl in Fx, Fy; try discriminate; reflexivity.
  - destruct y as [|[]| |]; try discriminate.
    + replace (Bltb x _) with false by (destruct x as [|[]| |[]]; try discriminate; reflexivity).
      apply Rlt_bool_false. replace (key x) with (B2R x) by (destruct x; try discriminate; reflexivity). cbn [key]. lra.
    + replace (Bltb x _) with true by (destruct x as [|[]| |[]]; try discriminate; reflexivity).
      apply Rlt_bool_true. replace (key x) with (B2R x) by (destruct x; try discriminate; reflexivity). cbn [key]. lra.
  - destruct x as [|[]| |]; try discriminate.
    + replace (Bltb _ y) with true by (destruct y as [|[]| |[]]; try discriminate; reflexivity).
      apply Rlt_bool_true. replace (key y) with (B2R y) by (destruct y; try discriminate; reflexivity). cbn [key]. lra.
    + replace (Bltb _ y) with false by (destruct y as [|[]| |[]]; try discriminate; reflexivity).
      apply Rlt_bool_false. replace (key y) with (B2R y) by (destruct y; try discriminate; reflexivity). cbn [key]. lra.
  - destruct x as [|[]| |]; try discriminate; destruct y as [|[]| |]; try discriminate; cbn [key];
      try (apply Rlt_bool_true; lra); apply Rlt_bool_false; lra.
Qed.

Lemma Bltb_nan_r (x y : b32) : is_nan y = true -> Bltb x y = false.
Proof. destruct y; try discriminate. destruct x as [|[]| |[]]; reflexivity. Qed.
Lemma Bltb_nan_l (x y : b32) : is_nan x = true -> Bltb x y = false.
Proof. destruct x; try discriminate. reflexivity. Qed.

Lemma better_irrefl g x : better g x x = false.
Proof.
  destruct (is_nan x) eqn:N; [destruct g; simpl; auto using Bltb_nan_l|].
  destruct g; simpl; rewrite Bltb_key by assumption; apply Rlt_bool_false; lra.
Qed.

Lemma better_trans g x y z : is_nan x = false -> is_nan y = false -> is_nan z = false ->
  better g x y = true -> better g z y = false -> better g x z = true.
Proof.
  intros Nx Ny Nz. destruct g; simpl; rewrite !Bltb_key by assumption;
    repeat (match goal with |- context[Rlt_bool ?a ?b] => destruct (Rlt_bool_spec a b) end); try discriminate; auto; lra.
Qed.

Lemma better_asym g x y : better g x y = true -> better g y x = false.
Proof.
  destruct (is_nan x) eqn:Nx; [destruct g; simpl; intros; auto using Bltb_nan_l, Bltb_nan_r|].
  destruct (is_nan y) eqn:Ny; [destruct g; simpl; intros; auto using Bltb_nan_l, Bltb_nan_r|].
  destruct g; simpl; rewrite !Bltb_key by assumption;
    repeat (match goal with |- context[Rlt_bool ?a ?b] => destruct (Rlt_bool_spec a b) end); try discriminate; auto; lra.
Qed.

(** ** must_stop after one more epoch *)
Lemma nth_error_snoc {A} (s : list A) x : nth_error (s ++ [x]) (length s) = Some x.
Proof. rewrite nth_error_app2 by lia. rewrite Nat.sub_diag. reflexivity. Qed.

Lemma firstn_snoc {A} (s : list A) x i : i <= length s -> firstn i (s ++ [x]) = firstn i s.
Proof. intros H. rewrite firstn_app. replace (i - length s) with 0 by lia. simpl. apply app_nil_r. Qed.

Lemma improves_snoc g s x i : i < length s -> improves g (s ++ [x]) i = improves g s i.
Proof. intros H. unfold improves. rewrite nth_error_app1 by lia. rewrite firstn_snoc by lia. reflexivity. Qed.
Lemma improves_any_snoc s x i : i < length s -> improves_any (s ++ [x]) i = improves_any s i.
Proof. intros H. unfold improves_any. rewrite nth_error_app1 by lia. rewrite firstn_snoc by lia. reflexivity. Qed.

(** trailing imp k c: of k epochs the last c did not improve, and the one before them did *)
Definition trailing (imp : nat -> bool) (k c : nat) : Prop :=
  c <= k /\ (forall i, k - c <= i < k -> imp i = false) /\ (c < k -> imp (k - c - 1) = true).

Lemma must_stop_ext imp imp' k p : (forall i, i < k -> imp i = imp' i) -> must_stop imp k p -> must_stop imp' k p.
Proof.
  intros E (a & b & H & P & N). exists a, b. split; [exact H|]. split; [exact P|].
  intros i Hi. rewrite <- E by lia. apply N; exact Hi.
Qed.

Lemma must_stop_step imp k c p : trailing imp k c ->
  (must_stop imp (S k) p <-> must_stop imp k p \/ (imp k = false /\ (p < Z.of_nat (S c))%Z)).
Proof.
  intros (Lc & T & U). split.
  - intros (a & b & H & P & N). destruct (Nat.eq_dec b (S k)) as [->|NE].
    + right. split; [apply N; lia|].
      assert (k - c <= a).
      { destruct (le_lt_dec (k - c) a) as [L|L]; [exact L|exfalso].
        assert (Q : imp (k - c - 1) = true) by (apply U; lia).
        rewrite N in Q by lia. discriminate. }
      lia.
    + left. exists a, b. split; [lia|]. split; [exact P|exact N].
  - intros [(a & b & H & P & N)|(N & P)].
    + exists a, b. split; [lia|]. split; [exact P|exact N].
    + exists (k - c), (S k). split; [lia|]. split; [lia|].
      intros i Hi. destruct (Nat.eq_dec i k) as [->|NE]; [exact N|]. apply T. lia.
Qed.

Lemma trailing_step imp k c : trailing imp k c -> trailing imp (S k) (if imp k then 0 else S c).
Proof.
  intros (Lc & T & U). destruct (imp k) eqn:E.
  - split; [lia|]. split; [intros; lia|]. intros _. replace (S k - 0 - 1) with k by lia. exact E.
  - split; [lia|]. split.
    + intros i Hi. destruct (Nat.eq_dec i k) as [->|NE]; [exact E|]. apply T; lia.
    + intros H. replace (S k - S c - 1) with (k - c - 1) by lia. apply U. lia.
Qed.

(** ** the result that is looked at *)
Lemma result_at_ok m n e x : monitored_score m n e x -> result_at (fst e) (monitored m n (snd e)) = Ok x.
Proof.
  unfold result_at, monitored. intros [[H E]|[(H & V & E)|(H & V & E)]].
  - destruct (m <? 0)%Z eqn:L; [apply Z.ltb_lt in L; lia|]. rewrite L, E. reflexivity.
  - apply Z.ltb_lt in H. rewrite H, V. destruct (Z.of_nat n <? 0)%Z eqn:L; [apply Z.ltb_lt in L; lia|].
    rewrite Nat2Z.id, E. reflexivity.
  - apply Z.ltb_lt in H. rewrite H, V. simpl. simpl in E. rewrite E. reflexivity.
Qed.

Lemma es_runs_app cb st n e1 e2 : es_runs cb st n (e1 ++ e2) =
  rbind (es_runs cb st n e1) (fun p => es_runs (fst p) (snd p) n e2).
Proof.
  revert cb st. induction e1 as [|[r v] e1 IH]; intros; [reflexivity|].
  simpl. destruct (es_run cb st n r v) as [p|]; [|reflexivity]. simpl. apply IH.
Qed.

Lemma mcp_runs_app {Net FS} (save : Net -> string -> FS -> FS) cb best fs n e1 e2 :
  mcp_runs save cb best fs n (e1 ++ e2) =
  rbind (mcp_runs save cb best fs n e1) (fun p => mcp_runs save cb (fst p) (snd p) n e2).
Proof.
  revert best fs. induction e1 as [|[nn [r v]] e1 IH]; intros; [reflexivity|].
  simpl. destruct (mcp_run save cb best fs nn n r v) as [p|]; [|reflexivity]. simpl. apply IH.
Qed.

Lemma Forall2_len {A B} (P : A -> B -> Prop) l1 l2 : Forall2 P l1 l2 -> length l1 = length l2.
Proof. induction 1; simpl; congruence. Qed.

(** ** the static variable holds the best score *)
Section Best.
  Variable g : bool.
  Variable imp : list b32 -> nat -> bool.
  Variable fine : b32 -> Prop.
  Variable Best : list b32 -> b32 -> Prop.
  Hypothesis imp_snoc : forall s x i, i < length s -> imp (s ++ [x]) i = imp s i.
  Hypothesis best_nil : Best [] flt_max.
  Hypothesis best_step : forall s b x, Best s b -> fine x ->
    improved g b x = imp (s ++ [x]) (length s) /\ Best (s ++ [x]) (if improved g b x then x else b).

  Lemma es_runs_spec n p m : forall epochs s,
    Forall2 (monitored_score m n) epochs s -> Forall fine s -> (Z.of_nat (length s) <= int_max)%Z ->
    exists f st c, es_runs (es_new p m g) es_start n epochs = Ok (mk_es p m g f, st)
      /\ (f = true <-> must_stop (imp s) (length s) p)
      /\ es_since st = Z.of_nat c /\ trailing (imp s) (length s) c /\ Best s (es_best st).
  Proof.
    intros epochs. induction epochs as [|e epochs IH] using rev_ind; intros s HM HF HL.
    - inversion HM; subst. exists false, es_start, 0. simpl. split; [reflexivity|].
      split; [|split; [reflexivity|split; [|exact best_nil]]].
      + split; [discriminate|]. intros (a & b & H & _). lia.
      + split; [lia|]. split; intros; lia.
    - apply Forall2_app_inv_l in HM. destruct HM as (s1 & s2 & M1 & M2 & ->).
      inversion M2 as [|? x ? ? Mx Mn]; subst. inversion Mn; subst. clear M2 Mn.
      rewrite app_length in HL. simpl in HL.
      apply Forall_app in HF. destruct HF as [F1 F2]. inversion F2 as [|? ? Fx _]; subst.
      destruct (IH s1 M1 F1 ltac:(lia)) as (f & st & c & E & Ff & Es & T & B).
      destruct (best_step s1 (es_best st) x B Fx) as [I B'].
      rewrite es_runs_app, E. cbn [rbind fst snd].
      destruct e as [r v]. cbn [es_runs].
      assert (RA := result_at_ok _ _ _ _ Mx). cbn [fst snd] in RA.
      unfold es_run. cbn [es_monitor_idx es_greater es_patience]. rewrite RA. cbn [rbind].
      assert (T' : trailing (imp (s1 ++ [x])) (length s1) c).
      { destruct T as (Lc & T1 & T2). split; [exact Lc|]. split.
        - intros i Hi. rewrite imp_snoc by lia. apply T1; exact Hi.
        - intros Hc. rewrite imp_snoc by lia. apply T2; exact Hc. }
      assert (MS : must_stop (imp (s1 ++ [x])) (length s1) p <-> must_stop (imp s1) (length s1) p).
      { split; apply must_stop_ext; intros i Hi; [|symmetry]; apply imp_snoc; exact Hi. }
      pose proof (must_stop_step (imp (s1 ++ [x])) (length s1) c p T') as SS.
      pose proof (trailing_step (imp (s1 ++ [x])) (length s1) c T') as TS.
      rewrite app_length. simpl (length [x]). rewrite Nat.add_1_r.
      destruct (improved g (es_best st) x) eqn:EI.
      + rewrite <- I in TS. exists f, (mk_es_static x 0), 0. cbn [rbind fst snd es_runs es_since es_best].
        split; [reflexivity|]. split; [|split; [reflexivity|split; [exact TS|exact B']]].
        rewrite SS, MS, Ff, <- I. split; [tauto|]. intros [H|[H _]]; [exact H|discriminate H].
      + rewrite <- I in TS.
        destruct (es_since st =? int_max)%Z eqn:EM.
        { apply Z.eqb_eq in EM. rewrite Es in EM. destruct T as (Lc & _). unfold int_max in *. exfalso. lia. }
        destruct (p <? es_since st + 1)%Z eqn:EP.
        * apply Z.ltb_lt in EP. exists true, (mk_es_static (es_best st) (es_since st + 1)), (S c).
          cbn [rbind fst snd es_runs es_since es_best]. split; [reflexivity|].
          split; [|split; [rewrite Es; lia|split; [exact TS|exact B']]].
          rewrite SS. split; [intros _|reflexivity]. right. split; [rewrite <- I; reflexivity|rewrite Es in EP; lia].
        * apply Z.ltb_ge in EP. exists f, (mk_es_static (es_best st) (es_since st + 1)), (S c).
          cbn [rbind fst snd es_runs es_since es_best]. split; [reflexivity|].
          split; [|split; [rewrite Es; lia|split; [exact TS|exact B']]].
          rewrite SS, MS, Ff. split; [tauto|]. intros [H|[_ H]]; [exact H|rewrite Es in EP; lia].
  Qed.

  Lemma mcp_runs_spec {Net FS} (save : Net -> string -> FS -> FS) n m fn fs : forall epochs s,
    Forall2 (monitored_score m n) (map snd epochs) s -> Forall fine s ->
    exists best, mcp_runs save (mk_mcp fn m g) flt_max fs n epochs
      = Ok (best, fold_left (fun fs nn => save nn (match fn with Some f => f | None => "checkpoint.npz"%string end) fs)
                    (map fst (map snd (filter (fun q => imp s (fst q)) (combine (seq 0 (length s)) epochs)))) fs)
      /\ Best s best.
  Proof.
    intros epochs. induction epochs as [|e epochs IH] using rev_ind; intros s HM HF.
    - inversion HM; subst. exists flt_max. split; [reflexivity|exact best_nil].
    - rewrite map_app in HM. apply Forall2_app_inv_l in HM. destruct HM as (s1 & s2 & M1 & M2 & ->).
      inversion M2 as [|? x ? ? Mx Mn]; subst. inversion Mn; subst. clear M2 Mn.
      apply Forall_app in HF. destruct HF as [F1 F2]. inversion F2 as [|? ? Fx _]; subst.
      destruct (IH s1 M1 F1) as (b & E & B).
      destruct (best_step s1 b x B Fx) as [I B'].
      assert (Len : length epochs = length s1).
      { apply Forall2_len in M1. rewrite map_length in M1. exact M1. }
      rewrite mcp_runs_app, E. cbn [rbind fst snd].
      destruct e as [nn [r v]]. cbn [mcp_runs].
      assert (RA := result_at_ok _ _ _ _ Mx). cbn [fst snd] in RA.
      unfold mcp_run. cbn [mcp_monitor_idx mcp_greater mcp_filename]. rewrite RA. cbn [rbind].
      rewrite app_length, seq_app. simpl (length [x]). simpl (seq (0 + length s1) 1).
      assert (CA : forall (l1 : list nat) (l2 : list (Net * (list b32 * bool))) a2 b2, length l1 = length l2 ->
                 combine (l1 ++ a2) (l2 ++ b2) = combine l1 l2 ++ combine a2 b2).
      { clear. induction l1 as [|a l1 IH]; destruct l2; simpl; intros; try discriminate; [reflexivity|].
        f_equal. apply IH. lia. }
      rewrite CA by (rewrite seq_length; symmetry; exact Len). rewrite filter_app, !map_app, fold_left_app.
      assert (FE : filter (fun q => imp (s1 ++ [x]) (fst q)) (combine (seq 0 (length s1)) epochs)
                 = filter (fun q => imp s1 (fst q)) (combine (seq 0 (length s1)) epochs)).
      { apply filter_ext_in. intros [i q] Hin. apply in_combine_l in Hin. apply in_seq in Hin. apply imp_snoc. simpl. lia. }
      rewrite FE. simpl (combine [length s1] _). cbn [filter fst]. rewrite <- I.
      destruct (improved g b x) eqn:EI; cbn [rbind fst snd mcp_runs map fold_left]; [exists x|exists b]; split;
        first [reflexivity|exact B'].
  Qed.
End Best.

(** the two instances *)
Definition best_of (g : bool) (s : list b32) (b : b32) : Prop :=
  match s with
  | [] => b = flt_max
  | _ => In b s /\ usable g b /\ Forall (fun y => better g y b = false) s
  end.

Lemma forallb_firstn_all {A} (f : A -> bool) s x : forallb f (firstn (length s) (s ++ [x])) = forallb f s.
Proof. rewrite firstn_snoc by lia. rewrite firstn_all. reflexivity. Qed.

Lemma best_of_step g s b x : Forall (usable g) s -> best_of g s b -> usable g x ->
  improved g b x = improves g (s ++ [x]) (length s) /\ best_of g (s ++ [x]) (if improved g b x then x else b).
Proof.
  intros US HB Ux. unfold improves. rewrite nth_error_snoc, forallb_firstn_all.
  destruct s as [|y0 s'].
  - simpl in HB. subst b. destruct Ux as (Nx & NE & LT).
    assert (EI : improved g flt_max x = true).
    { unfold improved. destruct g; [|apply LT; reflexivity].
      replace (Beqb flt_max flt_max) with true by (vm_compute; reflexivity). apply orb_true_r. }
    rewrite EI. split; [reflexivity|]. simpl. split; [left; reflexivity|]. split; [split; [exact Nx|split; [exact NE|exact LT]]|].
    constructor; [apply better_irrefl|constructor].
  - destruct HB as (Hin & Ub & HF). set (s := y0 :: s') in *.
    assert (EI : improved g b x = better g x b).
    { unfold improved, better. destruct g; [|reflexivity]. destruct Ub as (_ & NE & _).
      change flt_max with flt_max_val. rewrite NE. apply orb_false_r. }
    rewrite EI.
    assert (EF : better g x b = forallb (better g x) s).
    { apply Bool.eq_iff_eq_true. rewrite forallb_forall. split.
      - intros Hb y Hy. rewrite Forall_forall in HF, US.
        apply (better_trans g x b y); [exact (proj1 Ux)|exact (proj1 Ub)|exact (proj1 (US y Hy))|exact Hb|exact (HF y Hy)].
      - intros H. apply H. exact Hin. }
    split; [exact EF|]. unfold best_of. destruct (s ++ [x]) eqn:Es; [destruct s; discriminate|]. rewrite <- Es. clear Es.
    destruct (better g x b) eqn:Eb.
    + split; [apply in_or_app; right; left; reflexivity|]. split; [exact Ux|].
      apply Forall_app. split; [|constructor; [apply better_irrefl|constructor]].
      apply Forall_forall. intros y Hy. symmetry in EF. rewrite forallb_forall in EF. apply better_asym. apply EF. exact Hy.
    + split; [apply in_or_app; left; exact Hin|]. split; [exact Ub|].
      apply Forall_app. split; [exact HF|constructor; [exact Eb|constructor]].
Qed.

(** less is better, any floats: below FLT_MAX and below every number *)
Definition best_any (s : list b32) (b : b32) : Prop :=
  is_nan b = false /\ forall x, Bltb x b = Bltb x flt_max && forallb (fun y => is_nan y || Bltb x y) s.

Lemma Rlt_bool_and a b c : (b <= c)%R -> Rlt_bool a b = Rlt_bool a c && Rlt_bool a b.
Proof. intros H. destruct (Rlt_bool_spec a b), (Rlt_bool_spec a c); try reflexivity. lra. Qed.

Lemma best_any_step s b x : best_any s b ->
  improved false b x = improves_any (s ++ [x]) (length s) /\ best_any (s ++ [x]) (if improved false b x then x else b).
Proof.
  intros (Nb & HB). unfold improves_any. rewrite nth_error_snoc, forallb_firstn_all. unfold improved.
  split; [apply HB|].
  destruct (Bltb x b) eqn:E.
  - assert (Nx : is_nan x = false). { destruct (is_nan x) eqn:Q; [rewrite Bltb_nan_l in E by exact Q; discriminate|reflexivity]. }
    split; [exact Nx|]. intros z. rewrite forallb_app. simpl. rewrite Nx, andb_true_r. simpl.
    rewrite andb_assoc. rewrite <- HB.
    destruct (is_nan z) eqn:Nz; [rewrite !Bltb_nan_l by exact Nz; reflexivity|].
    rewrite Bltb_key in E by assumption. rewrite !Bltb_key by assumption.
    destruct (Rlt_bool_spec (key x) (key b)); [|discriminate].
    apply Rlt_bool_and. lra.
  - split; [exact Nb|]. intros z. rewrite forallb_app. simpl. rewrite andb_true_r, andb_assoc. rewrite <- HB.
    destruct (is_nan x) eqn:Nx; [simpl; rewrite andb_true_r; reflexivity|]. simpl.
    destruct (is_nan z) eqn:Nz; [rewrite !Bltb_nan_l by exact Nz; reflexivity|].
    rewrite Bltb_key in E by assumption. rewrite !Bltb_key by assumption.
    destruct (Rlt_bool_spec (key x) (key b)) as [|Hge]; [discriminate|].
    rewrite andb_comm. apply Rlt_bool_and. lra.
Qed.

Lemma best_any_nil : best_any [] flt_max.
Proof. split; [vm_compute; reflexivity|]. intros x. simpl. rewrite andb_true_r. reflexivity. Qed.

Lemma best_of_step' g s b x : Forall (usable g) s /\ best_of g s b -> usable g x ->
  improved g b x = improves g (s ++ [x]) (length s)
  /\ Forall (usable g) (s ++ [x]) /\ best_of g (s ++ [x]) (if improved g b x then x else b).
Proof.
  intros (U & B) Ux. destruct (best_of_step g s b x U B Ux) as [I B']. split; [exact I|].
  split; [|exact B']. apply Forall_app. split; [exact U|constructor; [exact Ux|constructor]].
Qed.
