(** CallbackShared.v -- lemmas about several callbacks of one kind in a process, which share the static variables *)
From Coq Require Import ZArith Bool String List Lia.
From Flocq Require Import Core BinarySingleNaN.
From Verif Require Import Base BaseProofs Ops OpsB32 Callbacks SpecCallback CallbackProofs.
Import ListNotations.
Local Open Scope nat_scope.

Lemma stop_seen_ext imp imp' (mine mine' : nat -> Prop) k p : (forall i, i < k -> imp i = imp' i) -> (forall i, i < k -> mine i -> mine' i) ->
  stop_seen imp mine k p -> stop_seen imp' mine' k p.
Proof.
  intros E M (a & b & H & Hm & P & N). exists a, b. split; [exact H|]. split; [apply M; [lia|exact Hm]|]. split; [exact P|].
  intros i Hi. rewrite <- E by lia. apply N; exact Hi.
Qed.
Lemma stop_seen_step imp mine k c p : trailing imp k c ->
  (stop_seen imp mine (S k) p <-> stop_seen imp mine k p \/ (mine k /\ imp k = false /\ (p < Z.of_nat (S c))%Z)).
Proof.
  intros (Lc & T & U). split.
  - intros (a & b & H & M & P & N). destruct (Nat.eq_dec b k) as [->|NE].
    + right. split; [exact M|]. split; [apply N; lia|].
      assert (k - c <= a).
      { destruct (le_lt_dec (k - c) a) as [L|L]; [exact L|exfalso].
        assert (Q : imp (k - c - 1) = true) by (apply U; lia). rewrite N in Q by lia. discriminate. }
      lia.
    + left. exists a, b. split; [lia|]. split; [exact M|]. split; [exact P|exact N].
  - intros [(a & b & H & M & P & N)|(M & N & P)].
    + exists a, b. split; [lia|]. split; [exact M|]. split; [exact P|exact N].
    + exists (k - c), k. split; [lia|]. split; [exact M|]. split; [lia|].
      intros i Hi. destruct (Nat.eq_dec i k) as [->|NE]; [exact N|]. apply T. lia.
Qed.

Lemma es_calls_app n : forall c1 c2 cbs st, es_calls cbs st n (c1 ++ c2) = rbind (es_calls cbs st n c1) (fun p => es_calls (fst p) (snd p) n c2).
Proof.
  induction c1 as [|[k [r v]] c1 IH]; intros; [reflexivity|]. simpl. destruct (nth_error cbs k) as [cb|]; [|reflexivity].
  destruct (es_run cb st n r v) as [p|]; [|reflexivity]. simpl. apply IH.
Qed.
Lemma mcp_calls_app {Net FS} (save : Net -> string -> FS -> FS) cbs n : forall c1 c2 best fs,
  mcp_calls save cbs best fs n (c1 ++ c2) = rbind (mcp_calls save cbs best fs n c1) (fun p => mcp_calls save cbs (fst p) (snd p) n c2).
Proof.
  induction c1 as [|[k [nn [r v]]] c1 IH]; intros; [reflexivity|]. simpl. destruct (nth_error cbs k) as [cb|]; [|reflexivity].
  destruct (mcp_run save cb best fs nn n r v) as [p|]; [|reflexivity]. simpl. apply IH.
Qed.

(** the monitored score of a call of one of several callbacks *)
Definition es_call_score (cbs : list es_cb) (n : nat) (call : nat * (list b32 * bool)) (x : b32) : Prop :=
  exists cb, nth_error cbs (fst call) = Some cb /\ monitored_score (es_monitor_idx cb) n (snd call) x.
Definition mcp_call_score {Net} (cbs : list mcp_cb) (n : nat) (call : nat * (Net * (list b32 * bool))) (x : b32) : Prop :=
  exists cb, nth_error cbs (fst call) = Some cb /\ monitored_score (mcp_monitor_idx cb) n (snd (snd call)) x.
Definition mcp_name (cbs : list mcp_cb) (k : nat) : string :=
  match nth_error cbs k with Some (mk_mcp (Some f) _ _) => f | _ => "checkpoint.npz"%string end.

Section Best.
  Variable g : bool.
  Variable imp : list b32 -> nat -> bool.
  Variable fine : b32 -> Prop.
  Variable Best : list b32 -> b32 -> Prop.
  Hypothesis imp_snoc : forall s x i, i < length s -> imp (s ++ [x]) i = imp s i.
  Hypothesis best_nil : Best [] flt_max.
  Hypothesis best_step : forall s b x, Best s b -> fine x ->
    improved g b x = imp (s ++ [x]) (length s) /\ Best (s ++ [x]) (if improved g b x then x else b).

  Lemma es_calls_spec n cbs0 : Forall (fun cb => es_greater cb = g /\ es_flag cb = false) cbs0 -> forall calls s,
    Forall2 (es_call_score cbs0 n) calls s -> Forall fine s -> (Z.of_nat (length s) <= int_max)%Z ->
    exists cbs st c, es_calls cbs0 es_start n calls = Ok (cbs, st) /\
      (forall k, match nth_error cbs0 k with
                 | Some cb => exists f, nth_error cbs k = Some (mk_es (es_patience cb) (es_monitor_idx cb) g f) /\
                     (f = true <-> stop_seen (imp s) (fun b => nth_error (map fst calls) b = Some k) (length s) (es_patience cb))
                 | None => nth_error cbs k = None
                 end) /\
      es_since st = Z.of_nat c /\ trailing (imp s) (length s) c /\ Best s (es_best st).
  Proof.
    intros H0 calls. induction calls as [|e calls IH] using rev_ind; intros s HM HF HL.
    - inversion HM; subst. exists cbs0, es_start, 0. split; [reflexivity|]. split; [|split; [reflexivity|split; [|exact best_nil]]].
      + intros k. destruct (nth_error cbs0 k) as [cb|] eqn:E; [|reflexivity]. exists false. rewrite Forall_forall in H0.
        destruct (H0 cb (nth_error_In _ _ E)) as (G1 & G2). split; [destruct cb; cbn in *; subst; reflexivity|].
        split; [discriminate|]. intros (a & b & H & _). simpl in H. lia.
      + split; [lia|]. split; intros; simpl in *; lia.
    - apply Forall2_app_inv_l in HM. destruct HM as (s1 & s2 & M1 & M2 & ->).
      inversion M2 as [|? x ? ? Mx Mn]; subst. inversion Mn; subst. clear M2 Mn.
      rewrite app_length in HL. simpl in HL.
      apply Forall_app in HF. destruct HF as [F1 F2]. inversion F2 as [|? ? Fx _]; subst.
      destruct (IH s1 M1 F1 ltac:(lia)) as (cbs & st & c & E & Ff & Es & T & B).
      destruct (best_step s1 (es_best st) x B Fx) as [I B'].
      assert (LC : length calls = length s1) by exact (Forall2_len _ _ _ M1).
      rewrite es_calls_app, E. cbn [rbind fst snd].
      destruct e as [j [r v]]. destruct Mx as (cb & Ej & Mx). cbn [fst snd] in Ej, Mx.
      pose proof (Ff j) as Fj. rewrite Ej in Fj. destruct Fj as (f & Nj & Hf).
      assert (RA := result_at_ok _ _ _ _ Mx). cbn [fst snd] in RA.
      assert (T' : trailing (imp (s1 ++ [x])) (length s1) c).
      { destruct T as (Lc & T1 & T2). split; [exact Lc|]. split.
        - intros i Hi. rewrite imp_snoc by lia. apply T1; exact Hi.
        - intros Hc. rewrite imp_snoc by lia. apply T2; exact Hc. }
      pose proof (trailing_step (imp (s1 ++ [x])) (length s1) c T') as TS.
      assert (MI : forall k i, i < length s1 -> nth_error (map fst (calls ++ [(j, (r, v))])) i = Some k <-> nth_error (map fst calls) i = Some k).
      { intros k i Hi. rewrite map_app, nth_error_app1 by (rewrite map_length; lia). tauto. }
      assert (ML : forall k, nth_error (map fst (calls ++ [(j, (r, v))])) (length s1) = Some k <-> k = j).
      { intros k. rewrite map_app, nth_error_app2 by (rewrite map_length; lia). rewrite map_length, LC, Nat.sub_diag. simpl.
        split; [intros Q; inversion Q; reflexivity|intros ->; reflexivity]. }
      assert (MS : forall k p, stop_seen (imp (s1 ++ [x])) (fun b => nth_error (map fst (calls ++ [(j, (r, v))])) b = Some k) (length s1) p <->
                               stop_seen (imp s1) (fun b => nth_error (map fst calls) b = Some k) (length s1) p).
      { intros k p. split; apply stop_seen_ext; intros i Hi; [|apply MI; exact Hi|symmetry|apply MI; exact Hi]; apply imp_snoc; exact Hi. }
      assert (SS : forall k p, stop_seen (imp (s1 ++ [x])) (fun b => nth_error (map fst (calls ++ [(j, (r, v))])) b = Some k) (S (length s1)) p <->
                 stop_seen (imp s1) (fun b => nth_error (map fst calls) b = Some k) (length s1) p \/
                 (k = j /\ improved g (es_best st) x = false /\ (p < Z.of_nat (S c))%Z)).
      { intros k p. rewrite (stop_seen_step (imp (s1 ++ [x])) _ (length s1) c p T'), MS. cbv beta. rewrite (ML k), <- I. tauto. }
      rewrite app_length. simpl (length [x]). rewrite Nat.add_1_r.
      cbn [es_calls]. rewrite Nj. unfold es_run. cbn [es_monitor_idx es_greater es_patience]. rewrite RA. cbn [rbind].
      assert (LJ : j < length cbs) by (apply nth_error_Some; rewrite Nj; discriminate).
      rewrite <- I in TS.
      destruct (improved g (es_best st) x) eqn:EI.
      + cbn [rbind fst snd]. rewrite set_nth_id by exact Nj.
        exists cbs, (mk_es_static x 0), 0. split; [reflexivity|]. split; [|split; [reflexivity|split; [exact TS|exact B']]].
        intros k. pose proof (Ff k) as Fk. destruct (nth_error cbs0 k) as [ck|]; [|exact Fk]. destruct Fk as (fk & Nk & Hk).
        exists fk. split; [exact Nk|]. rewrite SS, Hk. split; [tauto|]. intros [H|(_ & H & _)]; [exact H|discriminate H].
      + destruct (es_since st =? int_max)%Z eqn:EM.
        { apply Z.eqb_eq in EM. rewrite Es in EM. destruct T as (Lc & _). unfold int_max in *. exfalso. lia. }
        cbn [rbind fst snd]. eexists _, (mk_es_static (es_best st) (es_since st + 1)), (S c). split; [reflexivity|].
        split; [|split; [cbn; rewrite Es; lia|split; [exact TS|exact B']]].
        intros k. pose proof (Ff k) as Fk. rewrite nth_error_set_nth. destruct (Nat.eqb_spec k j) as [->|NE].
        * rewrite Ej. apply Nat.ltb_lt in LJ. rewrite LJ. cbn [andb].
          destruct (es_patience cb <? es_since st + 1)%Z eqn:EP.
          -- exists true. split; [reflexivity|]. split; [intros _|reflexivity]. apply SS. right.
             apply Z.ltb_lt in EP. split; [reflexivity|]. split; [reflexivity|]. rewrite Es in EP. lia.
          -- exists f. split; [reflexivity|]. rewrite SS, Hf. apply Z.ltb_ge in EP. rewrite Es in EP.
             split; [tauto|]. intros [H|(_ & _ & H)]; [exact H|lia].
        * cbn [andb]. destruct (nth_error cbs0 k) as [ck|]; [|exact Fk]. destruct Fk as (fk & Nk & Hk).
          exists fk. split; [exact Nk|]. rewrite SS, Hk. split; [tauto|]. intros [H|(H & _)]; [exact H|congruence].
  Qed.

  Lemma mcp_calls_spec {Net FS} (save : Net -> string -> FS -> FS) n cbs fs : Forall (fun cb => mcp_greater cb = g) cbs -> forall calls s,
    Forall2 (mcp_call_score cbs n) calls s -> Forall fine s ->
    exists best, mcp_calls save cbs flt_max fs n calls
      = Ok (best, fold_left (fun fs q => save (fst (snd q)) (mcp_name cbs (fst q)) fs)
                    (map snd (filter (fun q => imp s (fst q)) (combine (seq 0 (length s)) calls))) fs)
      /\ Best s best.
  Proof.
    intros H0 calls. induction calls as [|e calls IH] using rev_ind; intros s HM HF.
    - inversion HM; subst. exists flt_max. split; [reflexivity|exact best_nil].
    - apply Forall2_app_inv_l in HM. destruct HM as (s1 & s2 & M1 & M2 & ->).
      inversion M2 as [|? x ? ? Mx Mn]; subst. inversion Mn; subst. clear M2 Mn.
      apply Forall_app in HF. destruct HF as [F1 F2]. inversion F2 as [|? ? Fx _]; subst.
      destruct (IH s1 M1 F1) as (b & E & B).
      destruct (best_step s1 b x B Fx) as [I B'].
      assert (Len : length calls = length s1) by exact (Forall2_len _ _ _ M1).
      rewrite mcp_calls_app, E. cbn [rbind fst snd].
      destruct e as [j [nn [r v]]]. cbn [mcp_calls]. destruct Mx as (cb & Ej & Mx). cbn [fst snd] in Ej, Mx. rewrite Ej.
      assert (RA := result_at_ok _ _ _ _ Mx). cbn [fst snd] in RA.
      rewrite Forall_forall in H0. pose proof (H0 cb (nth_error_In _ _ Ej)) as G.
      unfold mcp_run. rewrite G, RA. cbn [rbind].
      rewrite app_length, seq_app. simpl (length [x]). simpl (seq (0 + length s1) 1).
      assert (CA : forall (l1 : list nat) (l2 : list (nat * (Net * (list b32 * bool)))) a2 b2, length l1 = length l2 ->
                 combine (l1 ++ a2) (l2 ++ b2) = combine l1 l2 ++ combine a2 b2).
      { clear. induction l1 as [|a l1 IH]; destruct l2; simpl; intros; try discriminate; [reflexivity|].
        f_equal. apply IH. lia. }
      rewrite CA by (rewrite seq_length; symmetry; exact Len). rewrite filter_app, !map_app, fold_left_app.
      assert (FE : filter (fun q => imp (s1 ++ [x]) (fst q)) (combine (seq 0 (length s1)) calls)
                 = filter (fun q => imp s1 (fst q)) (combine (seq 0 (length s1)) calls)).
      { apply filter_ext_in. intros [i q] Hin. apply in_combine_l in Hin. apply in_seq in Hin. apply imp_snoc. simpl. lia. }
      rewrite FE. simpl (combine [length s1] _). cbn [filter fst]. rewrite <- I.
      assert (NM : mcp_name cbs j = match mcp_filename cb with Some f => f | None => "checkpoint.npz"%string end)
        by (unfold mcp_name; rewrite Ej; destruct cb as [[f|] ? ?]; reflexivity).
      destruct (improved g b x) eqn:EI; cbn [rbind fst snd mcp_calls map fold_left]; [rewrite NM; exists x|exists b]; split;
        first [reflexivity|exact B'].
  Qed.
End Best.
