(** Prop_Callbacks.v -- C35, C36, C37: early stopping and model checkpoints. *)
From Coq Require Import ZArith Bool String List Reals Lia Lra.
From Flocq Require Import Core BinarySingleNaN.
From Verif Require Import Base BaseProofs Ops OpsB32 Callbacks SpecCallback CallbackProofs.
Import ListNotations.
Local Open Scope nat_scope.

(** ** C35 *)

(** the flag of one callback in a fresh process, for all scores below FLT_MAX that are not NaN *)
Theorem early_stopping_partial : forall g p m n epochs s,
  Forall2 (monitored_score m n) epochs s -> Forall (usable g) s -> (Z.of_nat (length s) <= 2147483647)%Z ->
  exists cb st, es_runs (es_new p m g) es_start n epochs = Ok (cb, st)
    /\ (es_do_stop (Some cb) = true <-> must_stop (improves g s) (length s) p).
Proof.
  intros g p m n epochs s HM HF HL.
  destruct (es_runs_spec g (improves g) (usable g) (fun s b => Forall (usable g) s /\ best_of g s b)
              (fun s x i => improves_snoc g s x i) (conj (Forall_nil _) eq_refl) (best_of_step' g) n p m epochs s HM HF HL)
    as (f & st & c & E & Ff & _).
  exists (mk_es p m g f), st. split; [exact E|exact Ff].
Qed.
Print Assumptions early_stopping_partial.

(** when less is better: every sequence of floats, NaN and infinities included *)
Theorem early_stopping_less_exact : forall p m n epochs s,
  Forall2 (monitored_score m n) epochs s -> (Z.of_nat (length s) <= 2147483647)%Z ->
  exists cb st, es_runs (es_new p m false) es_start n epochs = Ok (cb, st)
    /\ (es_do_stop (Some cb) = true <-> must_stop (improves_any s) (length s) p).
Proof.
  intros p m n epochs s HM HL.
  assert (HF : Forall (fun _ : b32 => True) s) by (apply Forall_forall; intros; exact I).
  destruct (es_runs_spec false improves_any (fun _ => True) best_any
              (fun s x i => improves_any_snoc s x i) best_any_nil (fun s b x B _ => best_any_step s b x B)
    n p m epochs s HM HF HL) as (f & st & c & E & Ff & _).
  exists (mk_es p m false f), st. split; [exact E|exact Ff].
Qed.
Print Assumptions early_stopping_less_exact.

(** once set, the flag stays set, whatever the callback is run with and whatever ran in between *)
Theorem early_stopping_stays : forall cb st n r v cb' st',
  es_do_stop (Some cb) = true -> es_run cb st n r v = Ok (cb', st') -> es_do_stop (Some cb') = true.
Proof.
  intros cb st n r v cb' st' F E. unfold es_run in E.
  destruct (result_at r (monitored (es_monitor_idx cb) n v)) as [x|]; [|discriminate]. cbn [rbind] in E.
  destruct (improved _ _ _); [inversion E; subst; exact F|].
  destruct (es_since st =? int_max)%Z; [discriminate|]. inversion E; subst.
  destruct (es_patience cb <? es_since st + 1)%Z; [reflexivity|exact F].
Qed.
Print Assumptions early_stopping_stays.

(** a NULL callback never stops the training *)
Theorem early_stopping_null : es_do_stop None = false.
Proof. reflexivity. Qed.
Print Assumptions early_stopping_null.

Definition scores1 (l : list b32) : list (list b32 * bool) := map (fun x => ([x], false)) l.
Definition stop_after (p m : Z) (g : bool) (n : nat) epochs : option bool :=
  match es_runs (es_new p m g) es_start n epochs with Ok (cb, _) => Some (es_do_stop (Some cb)) | Fault _ => None end.

(** as stated, for all results, the property is false: FLT_MAX is also the mark for "no score yet" *)
Theorem early_stopping_refuted : exists g p m n epochs s,
  Forall2 (monitored_score m n) epochs s /\ Forall (fun x => is_finite x = true) s
  /\ must_stop (improves g s) (length s) p /\ stop_after p m g n epochs = Some false.
Proof.
  exists true, 0%Z, 0%Z, 1, (scores1 [flt_max; b32_ofZ 1]), [flt_max; b32_ofZ 1].
  split; [|split; [|split]].
  - repeat constructor; vm_compute; discriminate.
  - repeat constructor; vm_compute; reflexivity.
  - exists 1, 2. split; [simpl; lia|]. split; [reflexivity|]. intros i Hi.
    assert (i = 1) as -> by lia. vm_compute. reflexivity.
  - vm_compute. reflexivity.
Qed.
Print Assumptions early_stopping_refuted.

(** the theorems apply: losses 3, 2, 2, 5 and patience 1 stop after the fourth epoch, not after the third *)
Example early_stopping_case :
  let z := b32_ofZ in
  Forall2 (monitored_score (-1) 1) [([z 9; z 3], true); ([z 8; z 2], true); ([z 7; z 2], true); ([z 6; z 5], true)]%Z
    [z 3; z 2; z 2; z 5]%Z
  /\ Forall (usable false) [z 3; z 2; z 2; z 5]%Z
  /\ stop_after 1 (-1) false 1 [([z 9; z 3], true); ([z 8; z 2], true); ([z 7; z 2], true)]%Z = Some false
  /\ stop_after 1 (-1) false 1 [([z 9; z 3], true); ([z 8; z 2], true); ([z 7; z 2], true); ([z 6; z 5], true)]%Z = Some true.
Proof.
  cbv zeta. split; [|split; [|split]].
  - repeat (constructor; [right; left; repeat split|]). constructor.
  - repeat (constructor; [split; [|split; [|intros _]]; vm_compute; reflexivity|]). constructor.
  - vm_compute. reflexivity.
  - vm_compute. reflexivity.
Qed.

(** ** C36 *)

(** The flag of callback k after a history of calls, as a function of the process state at the start. *)
Definition flag_after (cbs : list es_cb) (n : nat) (calls : list (nat * (list b32 * bool))) (k : nat) : option bool :=
  match es_calls cbs es_start n calls with
  | Ok (cbs', _) => option_map es_flag (nth_error cbs' k)
  | Fault _ => None
  end.

(** the calls of callback k among all calls *)
Definition calls_of (k : nat) (calls : list (nat * (list b32 * bool))) : list (list b32 * bool) :=
  map snd (filter (fun c => fst c =? k) calls).

(** two histories in which the first callback is run with the same results, with different flags *)
Theorem early_stopping_independent_refuted : exists cbs n calls1 calls2,
  calls_of 0 calls1 = calls_of 0 calls2
  /\ flag_after cbs n calls1 0 = Some false /\ flag_after cbs n calls2 0 = Some true.
Proof.
  exists [es_new 0 0 false; es_new 0 0 false], 1, [(0, ([b32_ofZ 1], false))],
    [(1, ([b32_ofZ 1], false)); (0, ([b32_ofZ 1], false))].
  split; [reflexivity|]. split; vm_compute; reflexivity.
Qed.
Print Assumptions early_stopping_independent_refuted.

(** true as long as no other callback is run: then the flag depends on the callback's results alone *)
Lemma es_calls_one cbs k cb st n : forall calls, nth_error cbs k = Some cb ->
  (forall c, In c calls -> fst c = k) ->
  es_calls cbs st n calls = rbind (es_runs cb st n (map snd calls)) (fun p => Ok (set_nth cbs k (fst p), snd p)).
Proof.
  revert cbs cb st. intros cbs cb st calls. revert cbs cb st.
  induction calls as [|[j [r v]] calls IH]; intros cbs cb st Hk HA.
  - simpl. rewrite set_nth_id by exact Hk. reflexivity.
  - assert (j = k) as -> by (exact (HA (j, (r, v)) (or_introl eq_refl))).
    simpl. rewrite Hk. destruct (es_run cb st n r v) as [[cb' st']|]; [|reflexivity]. cbn [rbind fst snd].
    assert (L : k < length cbs) by (apply nth_error_Some; rewrite Hk; discriminate).
    rewrite (IH (set_nth cbs k cb') cb' st').
    + destruct (es_runs cb' st' n (map snd calls)) as [p|]; [|reflexivity]. cbn [rbind]. f_equal. f_equal.
      apply set_nth_set_nth.
    + rewrite nth_error_set_nth. rewrite Nat.eqb_refl. apply Nat.ltb_lt in L. rewrite L. reflexivity.
    + intros c Hc. apply HA. right. exact Hc.
Qed.

Theorem early_stopping_independent_partial : forall cbs1 cbs2 k1 k2 n calls1 calls2 cb,
  nth_error cbs1 k1 = Some cb -> nth_error cbs2 k2 = Some cb ->
  (forall c, In c calls1 -> fst c = k1) -> (forall c, In c calls2 -> fst c = k2) ->
  calls_of k1 calls1 = calls_of k2 calls2 ->
  flag_after cbs1 n calls1 k1 = flag_after cbs2 n calls2 k2.
Proof.
  assert (Q : forall k calls, (forall c, In c calls -> fst c = k) -> calls_of k calls = map snd calls).
  { intros k calls H. unfold calls_of. f_equal. induction calls as [|c calls IH]; [reflexivity|]. simpl.
    rewrite (H c (or_introl eq_refl)), Nat.eqb_refl. f_equal. apply IH. intros d Hd. apply H. right. exact Hd. }
  intros cbs1 cbs2 k1 k2 n calls1 calls2 cb H1 H2 A1 A2 E.
  rewrite (Q _ _ A1), (Q _ _ A2) in E. unfold flag_after.
  rewrite (es_calls_one cbs1 k1 cb es_start n calls1 H1 A1), (es_calls_one cbs2 k2 cb es_start n calls2 H2 A2), E.
  destruct (es_runs cb es_start n (map snd calls2)) as [p|]; [|reflexivity]. cbn [rbind].
  rewrite !nth_error_set_nth, !Nat.eqb_refl.
  assert (L1 : k1 < length cbs1) by (apply nth_error_Some; rewrite H1; discriminate).
  assert (L2 : k2 < length cbs2) by (apply nth_error_Some; rewrite H2; discriminate).
  apply Nat.ltb_lt in L1, L2. rewrite L1, L2. reflexivity.
Qed.
Print Assumptions early_stopping_independent_partial.

Example early_stopping_independent_case :
  flag_after [es_new 0 0 false] 1 [(0, ([b32_ofZ 1], false)); (0, ([b32_ofZ 1], false))] 0 = Some true
  /\ flag_after [es_new 7 2 true; es_new 0 0 false] 1 [(1, ([b32_ofZ 1], false)); (1, ([b32_ofZ 1], false))] 1 = Some true.
Proof. split; vm_compute; reflexivity. Qed.

(** ** C37 *)

Section Files.
  Context {Net FS : Type}.
  Variable save : Net -> string -> FS -> FS.
  Variable content : FS -> string -> option Net.

  Lemma last_improving g : forall (epochs : list (Net * (list b32 * bool))) s,
    length epochs = length s -> Forall (usable g) s -> s <> [] ->
    exists l b e, filter (fun q => improves g s (fst q)) (combine (seq 0 (length s)) epochs) = l ++ [(b, e)]
      /\ first_best g s b /\ nth_error epochs b = Some e.
  Proof.
    intros epochs. induction epochs as [|e epochs IH] using rev_ind; intros s HL HF HN.
    - destruct s; [congruence|discriminate].
    - destruct s as [|x s _] using rev_ind; [congruence|].
      rewrite !app_length in HL. simpl in HL. assert (L : length epochs = length s) by lia.
      apply Forall_app in HF. destruct HF as [F1 F2]. inversion F2 as [|? ? Ux _]; subst.
      rewrite app_length, seq_app. simpl (length [x]). simpl (seq (0 + length s) 1).
      assert (CA : forall (l1 : list nat) (l2 : list (Net * (list b32 * bool))) a2 b2, length l1 = length l2 ->
                 combine (l1 ++ a2) (l2 ++ b2) = combine l1 l2 ++ combine a2 b2).
      { clear. induction l1 as [|a l1 IH]; destruct l2; simpl; intros; try discriminate; [reflexivity|].
        f_equal. apply IH. lia. }
      rewrite CA by (rewrite seq_length; symmetry; exact L). rewrite filter_app.
      assert (FE : filter (fun q => improves g (s ++ [x]) (fst q)) (combine (seq 0 (length s)) epochs)
                 = filter (fun q => improves g s (fst q)) (combine (seq 0 (length s)) epochs)).
      { apply filter_ext_in. intros [i q] Hin. apply in_combine_l in Hin. apply in_seq in Hin. apply improves_snoc. simpl. lia. }
      rewrite FE. simpl (combine [length s] [e]). cbn [filter fst].
      assert (EI : improves g (s ++ [x]) (length s) = forallb (better g x) s).
      { unfold improves. rewrite nth_error_snoc, forallb_firstn_all. reflexivity. }
      rewrite EI. destruct (forallb (better g x) s) eqn:EB.
      + eexists. exists (length s), e. split; [reflexivity|]. rewrite forallb_forall in EB. split.
        * exists x. split; [apply nth_error_snoc|]. split.
          -- intros j y Hy. apply nth_error_In in Hy. apply in_app_or in Hy. destruct Hy as [Hy|[<-|[]]];
               [apply better_asym; apply EB; exact Hy|apply better_irrefl].
          -- intros j y Hj Hy. rewrite nth_error_app1 in Hy by exact Hj. apply EB. apply nth_error_In in Hy. exact Hy.
        * rewrite <- L. apply nth_error_snoc.
      + destruct s as [|y0 s']; [discriminate|]. set (s := y0 :: s') in *.
        destruct (IH s L F1 ltac:(discriminate)) as (l & b & eb & El & (xb & Hb & B1 & B2) & Ne).
        rewrite El, app_nil_r. exists l, b, eb. split; [reflexivity|].
        assert (Lb : b < length s) by (apply nth_error_Some; rewrite Hb; discriminate).
        split; [|rewrite nth_error_app1 by lia; exact Ne].
        exists xb. split; [rewrite nth_error_app1 by exact Lb; exact Hb|]. split.
        * intros j y Hy. destruct (Nat.lt_ge_cases j (length s)) as [Lj|Lj].
          -- rewrite nth_error_app1 in Hy by exact Lj. exact (B1 j y Hy).
          -- rewrite nth_error_app2 in Hy by exact Lj. destruct (j - length s) as [|d]; [|destruct d; discriminate].
             inversion Hy; subst y. destruct (better g x xb) eqn:Q; [exfalso|reflexivity].
             assert (FA : forallb (better g x) s = true); [|congruence].
             apply forallb_forall. intros z Hz. rewrite Forall_forall in F1.
             apply In_nth_error in Hz as Hz'. destruct Hz' as [jz Hjz].
             apply (better_trans g x xb z); [exact (proj1 Ux)| |exact (proj1 (F1 z Hz))|exact Q|exact (B1 jz z Hjz)].
             apply nth_error_In in Hb. exact (proj1 (F1 xb Hb)).
        * intros j y Hj Hy. rewrite nth_error_app1 in Hy by lia. exact (B2 j y Hj Hy).
  Qed.

  (** saving a network makes it the content of the file *)
  Hypothesis content_save : forall nn f fs, content (save nn f fs) f = Some nn.

  (** the file holds the network of the best epoch, the first among equals *)
  Theorem checkpoint_best_partial : forall g m n fn fs epochs s,
    Forall2 (monitored_score m n) (map snd epochs) s -> Forall (usable g) s -> s <> [] ->
    exists best fs' b nn r, mcp_runs save (mk_mcp fn m g) flt_max fs n epochs = Ok (best, fs')
      /\ first_best g s b /\ nth_error epochs b = Some (nn, r)
      /\ content fs' (match fn with Some f => f | None => "checkpoint.npz"%string end) = Some nn.
  Proof.
    intros g m n fn fs epochs s HM HF HN.
    assert (L : length epochs = length s) by (apply Forall2_len in HM; rewrite map_length in HM; exact HM).
    destruct (mcp_runs_spec g (improves g) (usable g) (fun s b => Forall (usable g) s /\ best_of g s b)
                (fun s x i => improves_snoc g s x i) (conj (Forall_nil _) eq_refl) (best_of_step' g)
      save n m fn fs epochs s HM HF) as (best & E & _).
    destruct (last_improving g epochs s L HF HN) as (l & b & [nn r] & El & FB & Ne).
    rewrite El, !map_app, fold_left_app in E. cbn [map fold_left fst snd] in E.
    eexists best, _, b, nn, r. split; [exact E|]. split; [exact FB|]. split; [exact Ne|]. apply content_save.
  Qed.
End Files.
Print Assumptions checkpoint_best_partial.

(** the writes, as a list: one for every epoch that improves on all epochs before, and no other *)
Definition record_write {Net} (nn : Net) (f : string) (trace : list (string * Net)) := trace ++ [(f, nn)].

Theorem checkpoint_writes_partial : forall (Net : Type) g m n fn (epochs : list (Net * (list b32 * bool))) s,
  Forall2 (monitored_score m n) (map snd epochs) s -> Forall (usable g) s ->
  exists best trace, mcp_runs record_write (mk_mcp fn m g) flt_max [] n epochs = Ok (best, trace)
    /\ trace = map (fun q => (match fn with Some f => f | None => "checkpoint.npz"%string end, fst (snd q)))
                 (filter (fun q => improves g s (fst q)) (combine (seq 0 (length epochs)) epochs)).
Proof.
  intros Net g m n fn epochs s HM HF.
  assert (L : length epochs = length s) by (apply Forall2_len in HM; rewrite map_length in HM; exact HM).
  destruct (mcp_runs_spec g (improves g) (usable g) (fun s b => Forall (usable g) s /\ best_of g s b)
              (fun s x i => improves_snoc g s x i) (conj (Forall_nil _) eq_refl) (best_of_step' g)
    (@record_write Net) n m fn [] epochs s HM HF) as (best & E & _).
  exists best. eexists. split; [exact E|]. rewrite L.
  generalize (filter (fun q => improves g s (fst q)) (combine (seq 0 (length s)) epochs)). intros l.
  assert (G : forall l t, fold_left (fun fs nn => record_write nn (match fn with Some f => f | None => "checkpoint.npz"%string end) fs)
      (map fst (map snd l)) t
    = t ++ map (fun q : nat * (Net * (list b32 * bool)) => (match fn with Some f => f | None => "checkpoint.npz"%string end, fst (snd q))) l).
  { clear. induction l as [|q l IH]; intros t; simpl; [rewrite app_nil_r; reflexivity|]. rewrite IH. unfold record_write at 1.
    rewrite <- app_assoc. reflexivity. }
  exact (G l []).
Qed.
Print Assumptions checkpoint_writes_partial.

(** refuted as stated: a first loss of +infinity is never saved, though it is the best so far ... *)
Definition saved {Net} fn m g n (epochs : list (Net * (list b32 * bool))) : option (list (string * Net)) :=
  match mcp_runs record_write (mk_mcp fn m g) flt_max [] n epochs with Ok (_, t) => Some t | Fault _ => None end.

Theorem checkpoint_first_refuted : exists (epochs : list (nat * (list b32 * bool))) s,
  Forall2 (monitored_score 0 1) (map snd epochs) s /\ Forall (fun x => is_nan x = false) s
  /\ first_best false s 0 /\ saved None 0 false 1 epochs = Some [].
Proof.
  exists [(7, ([b32_inf], false))], [b32_inf]. split; [|split; [|split]].
  - repeat constructor; vm_compute; discriminate.
  - repeat constructor.
  - exists b32_inf. split; [reflexivity|]. split; [|intros; lia].
    intros j y Hy. apply nth_error_In in Hy. destruct Hy as [<-|[]]. apply better_irrefl.
  - vm_compute. reflexivity.
Qed.
Print Assumptions checkpoint_first_refuted.

(** ... and when greater is better a worse network overwrites one with the score FLT_MAX *)
Theorem checkpoint_best_refuted : exists (epochs : list (nat * (list b32 * bool))) s,
  Forall2 (monitored_score 0 1) (map snd epochs) s /\ Forall (fun x => is_finite x = true) s
  /\ first_best true s 0 /\ improves true s 1 = false
  /\ saved None 0 true 1 epochs = Some [("checkpoint.npz"%string, 7); ("checkpoint.npz"%string, 8)].
Proof.
  exists [(7, ([flt_max], false)); (8, ([b32_ofZ 1], false))], [flt_max; b32_ofZ 1]. split; [|split; [|split; [|split]]].
  - repeat constructor; vm_compute; discriminate.
  - repeat constructor; vm_compute; reflexivity.
  - exists flt_max. split; [reflexivity|]. split; [|intros; lia].
    intros j y Hy. apply nth_error_In in Hy. destruct Hy as [<-|[<-|[]]]; vm_compute; reflexivity.
  - vm_compute. reflexivity.
  - vm_compute. reflexivity.
Qed.
Print Assumptions checkpoint_best_refuted.

(** the theorems apply: losses 3, 2, 2, 5 with networks numbered 10 to 13: written after epochs 0 and 1 *)
Example checkpoint_case :
  let z := b32_ofZ in
  Forall (usable false) [z 3; z 2; z 2; z 5]%Z
  /\ saved (Some "best.npz"%string) 0 false 1
       [(10, ([z 3%Z], false)); (11, ([z 2%Z], false)); (12, ([z 2%Z], false)); (13, ([z 5%Z], false))]
     = Some [("best.npz"%string, 10); ("best.npz"%string, 11)].
Proof.
  cbv zeta. split.
  - repeat (constructor; [split; [|split; [|intros _]]; vm_compute; reflexivity|]). constructor.
  - vm_compute. reflexivity.
Qed.
