(** Prop_Pivot.v -- C21, C22: the sample order *)
From Coq Require Import List Arith Lia Bool Permutation.
From Verif Require Import Base BaseProofs Pivot.
Import ListNotations.

Lemma perm_swap_nth (l : list nat) i j x y : nth_error l i = Some x -> nth_error l j = Some y ->
  Permutation l (set_nth (set_nth l j x) i y).
Proof.
  intros Hi Hj. apply Permutation_nth_error. rewrite !length_set_nth. split; auto.
  pose proof (proj1 (nth_error_Some l i) ltac:(congruence)) as Li. pose proof (proj1 (nth_error_Some l j) ltac:(congruence)) as Lj.
  exists (fun k => if k =? i then j else if k =? j then i else k). split.
  - intros a b. destruct (Nat.eqb_spec a i), (Nat.eqb_spec b i), (Nat.eqb_spec a j), (Nat.eqb_spec b j); lia.
  - intros k. rewrite !nth_error_set_nth, !length_set_nth.
    rewrite (proj2 (Nat.ltb_lt _ _) Li), (proj2 (Nat.ltb_lt _ _) Lj), !andb_true_r.
    destruct (Nat.eqb_spec k i); subst; auto. destruct (Nat.eqb_spec k j); subst; auto.
Qed.

Lemma loop_perm draws : forall i l, i < length l -> exists l', fisher_yates_loop draws i l = Ok l' /\ Permutation l l' /\
  (forall k, i < k -> nth_error l' k = nth_error l k).
Proof.
  induction i as [|i IH]; intros l Hl; [exists l; auto|]. cbn [fisher_yates_loop].
  set (j := draws (S i) mod (S i + 1)). assert (Hj : j < S i + 1) by (apply Nat.mod_upper_bound; lia).
  destruct (nth_error l j) as [y|] eqn:Ej; [|apply nth_error_None in Ej; lia].
  destruct (nth_error l (S i)) as [x|] eqn:Ei; [|apply nth_error_None in Ei; lia].
  destruct (IH (set_nth (set_nth l j x) (S i) y)) as (l' & E & P & K). { rewrite !length_set_nth. lia. }
  exists l'. split; [exact E|]. split.
  - rewrite <- P. apply perm_swap_nth; auto.
  - intros k Hk. rewrite K by lia. rewrite !nth_error_set_nth.
    destruct (Nat.eqb_spec k (S i)), (Nat.eqb_spec k j); simpl; auto; lia.
Qed.

(** C21, first part: for n >= 1 the shuffle of an array of n numbers does not access memory outside of the
    array, and its result is a permutation, whatever rand() returns. *)
Theorem shuffle_permutes (draws : nat -> nat) (l : list nat) : 1 <= length l ->
  exists l', fisher_yates_shuffle draws (Some l) (length l) = Ok (Some l') /\ Permutation l l'.
Proof.
  intros H. destruct (loop_perm draws (length l - 1) l) as (l' & E & P & _); [lia|].
  unfold fisher_yates_shuffle. destruct (length l) as [|[|k]] eqn:L; [lia|exists l; auto|].
  rewrite E. eauto.
Qed.
Print Assumptions shuffle_permutes.
Example shuffle_case : fisher_yates_shuffle (fun i => 7 * i) (Some [0; 1; 2; 3; 4]) 5 = Ok (Some [0; 4; 2; 1; 3]).
Proof. reflexivity. Qed.

(** draws that are already reduced modulo i + 1 *)
Definition reduced (n : nat) (draws : nat -> nat) : Prop := forall i, 1 <= i < n -> draws i <= i.

Lemma loop_ext d1 d2 : forall i l, (forall k, 1 <= k <= i -> d1 k = d2 k) -> fisher_yates_loop d1 i l = fisher_yates_loop d2 i l.
Proof.
  induction i as [|i IH]; intros l H; auto. cbn [fisher_yates_loop]. rewrite <- H by lia.
  destruct (nth_error l (d1 (S i) mod (S i + 1))); auto. destruct (nth_error l (S i)) as [x|]; auto; apply IH; intros; apply H; lia.
Qed.

Lemma loop_onto : forall i l l', i < length l -> Permutation l l' -> (forall k, i < k -> nth_error l' k = nth_error l k) ->
  exists draws, (forall k, 1 <= k <= i -> draws k <= k) /\ fisher_yates_loop draws i l = Ok l'.
Proof.
  induction i as [|i IH]; intros l l' Hl P K.
  - exists (fun _ => 0). split; [lia|]. simpl. f_equal.
    assert (Hlen : length l = length l') by (apply Permutation_length; auto).
    destruct l as [|a r]; [simpl in Hl; lia|]. destruct l' as [|b r']; [discriminate|].
    assert (r = r'). { apply nth_error_ext. intros k. specialize (K (S k) ltac:(lia)). simpl in K. auto. }
    subst r'. f_equal. 
    assert (In a (b :: r)) by (eapply Permutation_in; [exact P|left; auto]).
    pose proof (Permutation_count_occ Nat.eq_dec (a :: r) (b :: r)) as [C _]. specialize (C P a). simpl in C.
    destruct (Nat.eq_dec a a); [|congruence]. destruct (Nat.eq_dec b a); auto. lia.
  - assert (Hlen : length l = length l') by (apply Permutation_length; auto).
    destruct (nth_error l' (S i)) as [y|] eqn:Ey; [|apply nth_error_None in Ey; lia].
    destruct (nth_error l (S i)) as [x|] eqn:Ex; [|apply nth_error_None in Ex; lia].
    (* y is among the first S i + 1 elements of l *)
    assert (exists j, j <= S i /\ nth_error l j = Some y) as (j & Hj & Ej).
    { assert (P1 : Permutation (firstn (S i + 1) l) (firstn (S i + 1) l')).
      { assert (ES : skipn (S i + 1) l = skipn (S i + 1) l').
        { apply nth_error_ext. intros k. rewrite !nth_error_skipn. symmetry. apply K. lia. }
        apply Permutation_app_inv_r with (l := skipn (S i + 1) l). rewrite firstn_skipn, ES, firstn_skipn. auto. }
      assert (I1 : In y (firstn (S i + 1) l')).
      { eapply nth_error_In with (n := S i). rewrite nth_error_firstn by lia. auto. }
      apply Permutation_sym in P1. apply (Permutation_in _ P1) in I1. apply In_nth_error in I1. destruct I1 as [j Ej].
      assert (Hj : j < S i + 1).
      { assert (j < length (firstn (S i + 1) l)) by (apply nth_error_Some; congruence). rewrite firstn_length in H. lia. }
      rewrite nth_error_firstn in Ej by lia. exists j. split; [lia|auto]. }
    set (l1 := set_nth (set_nth l j x) (S i) y).
    assert (P1 : Permutation l l1) by (apply perm_swap_nth; auto).
    destruct (IH l1 l') as (d & Hd & E).
    + unfold l1. rewrite !length_set_nth. lia.
    + rewrite <- P1. auto.
    + intros k Hk. unfold l1. rewrite !nth_error_set_nth, !length_set_nth.
      destruct (Nat.eqb_spec k (S i)).
      * subst k. rewrite (proj2 (Nat.ltb_lt (S i) (length l)) Hl). simpl. auto.
      * simpl. destruct (Nat.eqb_spec k j); [lia|]. simpl. apply K. lia.
    + exists (fun k => if k =? S i then j else d k). split.
      * intros k Hk. destruct (Nat.eqb_spec k (S i)); [lia|]. apply Hd. lia.
      * cbn [fisher_yates_loop]. cbv beta. rewrite Nat.eqb_refl, Nat.mod_small by lia. rewrite Ej, Ex. fold l1. rewrite <- E.
        apply loop_ext. intros k Hk. destruct (Nat.eqb_spec k (S i)); [lia|auto].
Qed.

Lemma loop_inj : forall i l d1 d2 l', NoDup l -> i < length l -> (forall k, 1 <= k <= i -> d1 k <= k) -> (forall k, 1 <= k <= i -> d2 k <= k) ->
  fisher_yates_loop d1 i l = Ok l' -> fisher_yates_loop d2 i l = Ok l' -> forall k, 1 <= k <= i -> d1 k = d2 k.
Proof.
  induction i as [|i IH]; intros l d1 d2 l' ND Hl H1 H2 E1 E2 k Hk; [lia|].
  cbn [fisher_yates_loop] in E1, E2. rewrite Nat.mod_small in E1 by (specialize (H1 (S i)); lia). rewrite Nat.mod_small in E2 by (specialize (H2 (S i)); lia).
  pose proof (H1 (S i) ltac:(lia)) as B1. pose proof (H2 (S i) ltac:(lia)) as B2.
  destruct (nth_error l (d1 (S i))) as [y1|] eqn:Y1; [|discriminate]. destruct (nth_error l (d2 (S i))) as [y2|] eqn:Y2; [|discriminate].
  destruct (nth_error l (S i)) as [x|] eqn:Ex; [|discriminate].
  set (m1 := set_nth (set_nth l (d1 (S i)) x) (S i) y1) in *. set (m2 := set_nth (set_nth l (d2 (S i)) x) (S i) y2) in *.
  assert (Lm1 : i < length m1) by (unfold m1; rewrite !length_set_nth; lia).
  assert (Lm2 : i < length m2) by (unfold m2; rewrite !length_set_nth; lia).
  destruct (loop_perm d1 i m1 Lm1) as (l1 & F1 & _ & K1). destruct (loop_perm d2 i m2 Lm2) as (l2 & F2 & _ & K2).
  assert (l1 = l') by congruence. assert (l2 = l') by congruence. subst l1 l2.
  assert (TOP : forall m j y, m = set_nth (set_nth l j x) (S i) y -> nth_error m (S i) = Some y).
  { intros m j y ->. rewrite nth_error_set_nth, Nat.eqb_refl, length_set_nth, (proj2 (Nat.ltb_lt (S i) (length l)) Hl). reflexivity. }
  pose proof (K1 (S i) ltac:(lia)) as T1. rewrite (TOP m1 _ _ eq_refl) in T1. pose proof (K2 (S i) ltac:(lia)) as T2. rewrite (TOP m2 _ _ eq_refl) in T2.
  assert (y1 = y2) by congruence. subst y2.
  assert (EJ : d1 (S i) = d2 (S i)). { eapply NoDup_nth_error; eauto. { apply nth_error_Some. congruence. } congruence. }
  destruct (Nat.eq_dec k (S i)) as [->|Hk']; auto.
  assert (m1 = m2) by (unfold m1, m2; rewrite EJ; auto).
  apply (IH m1 d1 d2 l').
  - eapply Permutation_NoDup; [|exact ND]. apply perm_swap_nth; auto.
  - exact Lm1.
  - intros q Hq. apply H1. lia.
  - intros q Hq. apply H2. lia.
  - exact E1.
  - rewrite H. exact E2.
  - lia.
Qed.

(** C21, second part: each permutation of an array of different numbers is the result of exactly one
    sequence of reduced draws.  (So if each draw i is uniform on 0..i and they are independent, all
    permutations are equally likely.  rand() % (i+1) is only approximately uniform.) *)
Theorem shuffle_bijective (l l' : list nat) : NoDup l -> Permutation l l' -> 2 <= length l ->
  exists draws, reduced (length l) draws /\ fisher_yates_shuffle draws (Some l) (length l) = Ok (Some l') /\
    forall draws', reduced (length l) draws' -> fisher_yates_shuffle draws' (Some l) (length l) = Ok (Some l') ->
      forall i, 1 <= i < length l -> draws' i = draws i.
Proof.
  intros ND P HL. assert (Hlen : length l = length l') by (apply Permutation_length; auto).
  assert (EQ : forall d x, fisher_yates_shuffle d (Some l) (length l) = Ok (Some x) <-> fisher_yates_loop d (length l - 1) l = Ok x).
  { intros d x. unfold fisher_yates_shuffle. destruct (length l) as [|[|k]]; [lia|lia|].
    destruct (fisher_yates_loop d (S (S k) - 1) l); split; intros H; inversion H; subst; auto. }
  destruct (loop_onto (length l - 1) l l') as (d & Hd & E); auto; try lia.
  { intros k Hk. rewrite !(proj2 (nth_error_None _ _)); auto; lia. }
  exists d. split; [intros i Hi; apply Hd; lia|]. split; [apply EQ; auto|].
  intros d' Rd E' i Hi. apply EQ in E'. eapply (loop_inj (length l - 1) l d' d l'); eauto; try lia.
  intros k Hk. apply Rd. lia.
Qed.
Print Assumptions shuffle_bijective.
Example shuffle_bijective_case : NoDup [3; 1; 2] /\ Permutation [3; 1; 2] [2; 3; 1] /\
  fisher_yates_shuffle (fun i => 1) (Some [3; 1; 2]) 3 = Ok (Some [3; 2; 1]).
Proof.
  split; [repeat constructor; simpl; lia|]. split; [|reflexivity].
  apply Permutation_sym. exact (perm_trans (Permutation_cons_append [3; 1] 2) (perm_trans (Permutation_refl _) (Permutation_refl _))).
Qed.
(** n = 0 (no training samples): division by zero *)
Theorem shuffle_empty_refuted : exists draws, fisher_yates_shuffle draws (Some []) 0 = Fault DivByZero.
Proof. exists (fun _ => 0). reflexivity. Qed.
Print Assumptions shuffle_empty_refuted.

(** ** C22 *)
(** before its epoch the optimizer of call k has a valid sample order *)
Definition valid_order (k : call) (w : world) : Prop :=
  exists l, w_pivot w (c_opt k) = Some l /\ Permutation (seq 0 (c_n k)) l.

(** C22 is false.  (1) Two optimizers, both with 3 samples and shuffling: the second one shuffles NULL.
    (2) Without shuffling it trains with NULL.  (3) Optimizer 0 with 4 samples, optimizer 1 with 3 samples, optimizer 0
    with 3 samples: the last epoch visits sample 3 of 0..2. *)
Definition mkcall (o n : nat) (sh : bool) : call := {| c_opt := o; c_n := n; c_shuffle := sh; c_draws := fun _ => 0; c_alloc := true |}.
Theorem valid_order_refuted :
  run_calls [mkcall 0 3 true; mkcall 1 3 true] world0 = Fault BadPointer /\
  (exists w, run_calls [mkcall 0 3 false; mkcall 1 3 false] world0 = Ok w /\ w_pivot w 1 = None) /\
  (exists w, run_calls [mkcall 0 4 false; mkcall 1 3 false; mkcall 0 3 false] world0 = Ok w /\ w_pivot w 0 = Some [0; 1; 2; 3] /\
     ~ valid_order (mkcall 0 3 false) w).
Proof.
  split; [reflexivity|]. split; [eexists; split; reflexivity|].
  eexists. split; [reflexivity|]. split; [reflexivity|]. intros (l & E & P). apply Permutation_length in P. simpl in *.
  inversion E; subst. discriminate.
Qed.
Print Assumptions valid_order_refuted.

(** the calls in which it goes wrong are excluded: two consecutive calls with the same number of samples are
    by the same optimizer *)
Fixpoint no_interference (last : option call) (ks : list call) : Prop :=
  match ks with
  | [] => True
  | k :: r => 1 <= c_n k /\ c_alloc k = true /\
      match last with Some k0 => c_n k0 = c_n k -> c_opt k0 = c_opt k | None => True end /\ no_interference (Some k) r
  end.

Lemma start_ok k w last : 1 <= c_n k -> c_alloc k = true ->
  match last with Some k0 => c_n k0 = c_n k -> c_opt k0 = c_opt k | None => True end ->
  match last with Some k0 => w_static w = c_n k0 /\ valid_order k0 w | None => w_static w = 0 end ->
  exists w', start_epoch k w = Ok w' /\ w_static w' = c_n k /\ valid_order k w'.
Proof.
  intros Hn Ha HI HL.
  assert (PP : exists l, prepare_shuffle_pivot (c_alloc k) (w_static w) (w_pivot w (c_opt k)) (c_n k) = (c_n k, Some l) /\ Permutation (seq 0 (c_n k)) l).
  { unfold prepare_shuffle_pivot. rewrite Ha. destruct (Nat.eqb_spec (c_n k) (w_static w)) as [E|E]; [|eauto].
    destruct last as [k0|]; [|lia]. destruct HL as [S0 (l & El & Pl)]. rewrite S0 in E. rewrite (HI (eq_sym E)) in El. rewrite El.
    exists l. split; [congruence|]. rewrite E. auto. }
  destruct PP as (l & E & P). unfold start_epoch. rewrite E.
  assert (LL : length l = c_n k) by (apply Permutation_length in P; rewrite seq_length in P; auto).
  destruct (c_shuffle k).
  - rewrite <- LL. destruct (shuffle_permutes (c_draws k) l) as (l' & E' & P'); [lia|]. rewrite E'.
    eexists. split; [reflexivity|]. split; [simpl; lia|]. exists l'. simpl. rewrite Nat.eqb_refl. split; auto. rewrite P. auto.
  - eexists. split; [reflexivity|]. split; auto. exists l. simpl. rewrite Nat.eqb_refl. auto.
Qed.

(** C22 for every history of calls without interference: all calls succeed and each epoch works on a
    permutation of its samples.  This includes a process with a single optimizer and changing sample counts. *)
Theorem valid_order_partial (ks : list call) (k : call) (r : list call) : no_interference None (ks ++ k :: r) ->
  exists w w', run_calls ks world0 = Ok w /\ start_epoch k w = Ok w' /\ valid_order k w'.
Proof.
  assert (G : forall ks last w, no_interference last (ks ++ k :: r) ->
    match last with Some k0 => w_static w = c_n k0 /\ valid_order k0 w | None => w_static w = 0 end ->
    exists w1 w', run_calls ks w = Ok w1 /\ start_epoch k w1 = Ok w' /\ valid_order k w').
  { clear ks. induction ks as [|k1 ks IH]; intros last w (H1 & H2 & H3 & H4) HL.
    - destruct (start_ok k w last H1 H2 H3 HL) as (w' & E & _ & V). exists w, w'. auto.
    - destruct (start_ok k1 w last H1 H2 H3 HL) as (w1 & E & S1 & V). simpl. rewrite E. apply (IH (Some k1) w1); auto. }
  intros H. apply (G ks None world0 H). reflexivity.
Qed.
Print Assumptions valid_order_partial.
Theorem valid_order_single_optimizer (ks : list call) (k : call) (o : nat) :
  (forall k', In k' (ks ++ [k]) -> c_opt k' = o /\ 1 <= c_n k' /\ c_alloc k' = true) ->
  exists w w', run_calls ks world0 = Ok w /\ start_epoch k w = Ok w' /\ valid_order k w'.
Proof.
  intros H. apply (valid_order_partial ks k []).
  assert (G : forall l last, (match last with Some k0 => c_opt k0 = o | None => True end) ->
    (forall k', In k' l -> c_opt k' = o /\ 1 <= c_n k' /\ c_alloc k' = true) -> no_interference last l).
  { induction l as [|a l IH]; intros last HL HA; simpl; auto. destruct (HA a (or_introl eq_refl)) as (A & B & C).
    split; auto. split; auto. split. { destruct last; auto. congruence. } apply IH; auto. intros; apply HA; right; auto. }
  apply G; auto.
Qed.
Print Assumptions valid_order_single_optimizer.
Example valid_order_case : no_interference None [mkcall 0 3 true; mkcall 0 3 true; mkcall 1 5 true; mkcall 0 2 false].
Proof. simpl. repeat split; auto; intros; discriminate. Qed.
