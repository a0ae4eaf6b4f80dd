(** Prop_Callbacks2.v -- C35, C36, C37, C87: scores that are NaN, and several callbacks in one process *)
From Coq Require Import ZArith Bool String List Lia.
From Flocq Require Import Core BinarySingleNaN.
From Verif Require Import Base BaseProofs Ops OpsB32 Callbacks SpecCallback CallbackProofs CallbackShared Prop_Callbacks.
Import ListNotations.
Local Open Scope nat_scope.

(** C36, several callbacks with the same direction: callback k is stopped exactly if at one of its own calls more than
    its patience of consecutive calls, of whatever callback, brought no improvement over all calls before, of whatever
    callback. *)
Theorem early_stopping_shared : forall g n (cbs : list es_cb) calls s,
  Forall (fun cb => es_greater cb = g /\ es_flag cb = false) cbs ->
  Forall2 (fun call x => exists cb, nth_error cbs (fst call) = Some cb /\ monitored_score (es_monitor_idx cb) n (snd call) x) calls s ->
  Forall (usable g) s -> (Z.of_nat (length s) <= 2147483647)%Z ->
  exists cbs' st, es_calls cbs es_start n calls = Ok (cbs', st) /\
    forall k cb, nth_error cbs k = Some cb ->
      exists cb', nth_error cbs' k = Some cb' /\
        (es_do_stop (Some cb') = true <-> stop_seen (improves g s) (fun b => nth_error (map fst calls) b = Some k) (length s) (es_patience cb)).
Proof.
  intros g n cbs calls s H0 HM HF HL.
  destruct (es_calls_spec g (improves g) (usable g) (fun s b => Forall (usable g) s /\ best_of g s b)
              (fun s x i => improves_snoc g s x i) (conj (Forall_nil _) eq_refl) (best_of_step' g) n cbs H0 calls s HM HF HL)
    as (cbs' & st & c & E & Ff & _).
  exists cbs', st. split; [exact E|]. intros k cb Hk. pose proof (Ff k) as Fk. rewrite Hk in Fk. destruct Fk as (f & Nk & Hf).
  eexists. split; [exact Nk|exact Hf].
Qed.
Print Assumptions early_stopping_shared.

(** two callbacks with patience 1 and 0, called in turn with the losses 3, 3, 2, 2: the second one is stopped after its
    first call, although it has seen one loss only *)
Example early_stopping_shared_case :
  let z := b32_ofZ in let c k x := (k, ([x], false)) in
  let cbs := [es_new 1 0 false; es_new 0 0 false] in
  let calls := [c 0 (z 3%Z); c 1 (z 3%Z); c 0 (z 2%Z); c 1 (z 2%Z)] in
  Forall (fun cb => es_greater cb = false /\ es_flag cb = false) cbs /\
  Forall2 (fun call x => exists cb, nth_error cbs (fst call) = Some cb /\ monitored_score (es_monitor_idx cb) 1 (snd call) x)
    calls [z 3; z 3; z 2; z 2]%Z /\
  Forall (usable false) [z 3; z 3; z 2; z 2]%Z /\
  stop_seen (improves false [z 3; z 3; z 2; z 2]%Z) (fun b => nth_error (map fst calls) b = Some 1) 4 0.
Proof.
  cbv zeta. split; [repeat constructor|]. split; [|split].
  - repeat (constructor; [eexists; split; [reflexivity|]; left; split; [vm_compute; discriminate|reflexivity]|]). constructor.
  - repeat (constructor; [split; [|split; [|intros _]]; vm_compute; reflexivity|]). constructor.
  - exists 1, 1. split; [lia|]. split; [reflexivity|]. split; [reflexivity|]. intros i Hi. assert (i = 1) as -> by lia. vm_compute. reflexivity.
Qed.

(** ** C87: several checkpoint callbacks *)

(** the writes of a process with several checkpoint callbacks *)
Definition saved_by {Net} (cbs : list mcp_cb) n (calls : list (nat * (Net * (list b32 * bool)))) : option (list (string * Net)) :=
  match mcp_calls record_write cbs flt_max [] n calls with Ok (_, t) => Some t | Fault _ => None end.

(** C87 is false: two callbacks that watch the loss of the training and of the validation set.  Both improve in both epochs;
    the loss of the validation set is the greater one, and its file is never written. *)
Theorem checkpoint_own_refuted :
  exists (cbs : list mcp_cb) (calls : list (nat * (nat * (list b32 * bool)))) (s0 s1 : list b32),
    Forall2 (fun call x => exists cb, nth_error cbs 0 = Some cb /\ monitored_score (mcp_monitor_idx cb) 1 (snd (snd call)) x)
      (filter (fun c => fst c =? 0) calls) s0 /\
    Forall2 (fun call x => exists cb, nth_error cbs 1 = Some cb /\ monitored_score (mcp_monitor_idx cb) 1 (snd (snd call)) x)
      (filter (fun c => fst c =? 1) calls) s1 /\
    Forall (usable false) s0 /\ Forall (usable false) s1 /\
    map (improves false s0) [0; 1] = [true; true] /\ map (improves false s1) [0; 1] = [true; true] /\
    saved_by cbs 1 calls = Some [("train.npz"%string, 7); ("train.npz"%string, 8)].
Proof.
  set (z := b32_ofZ).
  exists [mk_mcp (Some "train.npz"%string) 0 false; mk_mcp (Some "valid.npz"%string) 1 false],
    [(0, (7, ([z 2%Z; z 5%Z], true))); (1, (7, ([z 2%Z; z 5%Z], true)));
     (0, (8, ([z 1%Z; z 4%Z], true))); (1, (8, ([z 1%Z; z 4%Z], true)))], [z 2; z 1]%Z, [z 5; z 4]%Z.
  split. { cbn [filter fst Nat.eqb]. repeat (constructor; [eexists; split; [reflexivity|]; left; split; [vm_compute; discriminate|reflexivity]|]). constructor. }
  split. { cbn [filter fst Nat.eqb]. repeat (constructor; [eexists; split; [reflexivity|]; left; split; [vm_compute; discriminate|reflexivity]|]). constructor. }
  split. { repeat (constructor; [split; [|split; [|intros _]]; vm_compute; reflexivity|]). constructor. }
  split. { repeat (constructor; [split; [|split; [|intros _]]; vm_compute; reflexivity|]). constructor. }
  split; [vm_compute; reflexivity|]. split; vm_compute; reflexivity.
Qed.
Print Assumptions checkpoint_own_refuted.

(** C87, what happens: with several callbacks with the same direction a file is written in exactly the calls whose score
    improves on the scores of all calls before, of whatever callback. *)
Theorem checkpoint_shared : forall (Net : Type) g n (cbs : list mcp_cb) (calls : list (nat * (Net * (list b32 * bool)))) s,
  Forall (fun cb => mcp_greater cb = g) cbs ->
  Forall2 (fun call x => exists cb, nth_error cbs (fst call) = Some cb /\ monitored_score (mcp_monitor_idx cb) n (snd (snd call)) x) calls s ->
  Forall (usable g) s ->
  saved_by cbs n calls = Some
    (map (fun q => (match nth_error cbs (fst (snd q)) with Some (mk_mcp (Some f) _ _) => f | _ => "checkpoint.npz"%string end, fst (snd (snd q))))
       (filter (fun q => improves g s (fst q)) (combine (seq 0 (length calls)) calls))).
Proof.
  intros Net g n cbs calls s H0 HM HF.
  destruct (mcp_calls_spec g (improves g) (usable g) (fun s b => Forall (usable g) s /\ best_of g s b)
              (fun s x i => improves_snoc g s x i) (conj (Forall_nil _) eq_refl) (best_of_step' g)
    (@record_write Net) n cbs [] H0 calls s HM HF) as (best & E & _).
  unfold saved_by. rewrite E. f_equal. rewrite (Forall2_len _ _ _ HM).
  generalize (filter (fun q => improves g s (fst q)) (combine (seq 0 (length s)) calls)). intros l.
  assert (G : forall l t, fold_left (fun fs q => record_write (fst (snd q)) (mcp_name cbs (fst q)) fs) (map snd l) t
    = t ++ map (fun q : nat * (nat * (Net * (list b32 * bool))) => (mcp_name cbs (fst (snd q)), fst (snd (snd q)))) l).
  { clear. induction l as [|q l IH]; intros t; simpl; [rewrite app_nil_r; reflexivity|]. rewrite IH. unfold record_write at 1.
    rewrite <- app_assoc. reflexivity. }
  exact (G l []).
Qed.
Print Assumptions checkpoint_shared.

(** C87 for callbacks whose scores are never in each other's way: if every call of another callback before has a score that
    this one beats, callback k writes as if it were alone. *)
Theorem checkpoint_own_partial : forall (Net : Type) g n (cbs : list mcp_cb) (calls : list (nat * (Net * (list b32 * bool)))) s k i nn r x,
  Forall (fun cb => mcp_greater cb = g) cbs ->
  Forall2 (fun call x => exists cb, nth_error cbs (fst call) = Some cb /\ monitored_score (mcp_monitor_idx cb) n (snd (snd call)) x) calls s ->
  Forall (usable g) s -> nth_error calls i = Some (k, (nn, r)) -> nth_error s i = Some x ->
  (forall j l q y, j < i -> nth_error calls j = Some (l, q) -> nth_error s j = Some y -> l <> k -> better g x y = true) ->
  (improves g s i = true <-> forall j q y, j < i -> nth_error calls j = Some (k, q) -> nth_error s j = Some y -> better g x y = true).
Proof.
  intros Net g n cbs calls s k i nn r x H0 HM HF Hc Hs HO. unfold improves. rewrite Hs, forallb_forall.
  assert (L : length calls = length s) by exact (Forall2_len _ _ _ HM).
  split.
  - intros H j q y Hj Ec Ey. apply H. apply nth_error_In with (n := j). rewrite <- (firstn_skipn i s) in Ey. rewrite nth_error_app1 in Ey; [exact Ey|].
    rewrite firstn_length. assert (j < length s) by (rewrite <- L; apply nth_error_Some; rewrite Ec; discriminate). lia.
  - intros H y Hy. apply In_nth_error in Hy. destruct Hy as (j & Ey).
    assert (Lj : j < length (firstn i s)) by (apply nth_error_Some; rewrite Ey; discriminate). rewrite firstn_length in Lj.
    assert (Ey' : nth_error s j = Some y) by (rewrite <- (firstn_skipn i s), nth_error_app1 by (rewrite firstn_length; lia); exact Ey).
    destruct (nth_error calls j) as [[l q]|] eqn:Ec; [|apply nth_error_None in Ec; lia].
    destruct (Nat.eq_dec l k) as [->|NE]; [exact (H j q y ltac:(lia) Ec Ey')|exact (HO j l q y ltac:(lia) Ec Ey' NE)].
Qed.
Print Assumptions checkpoint_own_partial.

(** the theorems apply to the run of [checkpoint_own_refuted]; the merged scores are 2, 5, 1, 4 *)
Example checkpoint_shared_case :
  let z := b32_ofZ in
  let cbs := [mk_mcp (Some "train.npz"%string) 0 false; mk_mcp (Some "valid.npz"%string) 1 false] in
  let calls := [(0, (7, ([z 2%Z; z 5%Z], true))); (1, (7, ([z 2%Z; z 5%Z], true)));
     (0, (8, ([z 1%Z; z 4%Z], true))); (1, (8, ([z 1%Z; z 4%Z], true)))] in
  let s := [z 2; z 5; z 1; z 4]%Z in
  Forall (fun cb => mcp_greater cb = false) cbs /\
  Forall2 (fun call x => exists cb, nth_error cbs (fst call) = Some cb /\ monitored_score (mcp_monitor_idx cb) 1 (snd (snd call)) x) calls s /\
  Forall (usable false) s /\ map (improves false s) [0; 1; 2; 3] = [true; false; true; false] /\
  (forall j l q y, j < 2 -> nth_error calls j = Some (l, q) -> nth_error s j = Some y -> l <> 0 -> better false (z 1%Z) y = true).
Proof.
  cbv zeta. split; [repeat constructor|]. split.
  { repeat (constructor; [eexists; split; [reflexivity|]; left; split; [vm_compute; discriminate|reflexivity]|]). constructor. }
  split. { repeat (constructor; [split; [|split; [|intros _]]; vm_compute; reflexivity|]). constructor. }
  split; [vm_compute; reflexivity|].
  intros [|[|j]] l q y Hj Ec Ey NE; [| |lia]; cbn in Ec, Ey; injection Ec as El Eq; injection Ey as <-; [congruence|vm_compute; reflexivity].
Qed.

(** ** every float *)

(** C37, less is better: for every sequence of scores, NaN and infinities included, the file is written in exactly the epochs
    whose score is below FLT_MAX and below every earlier score that is a number *)
Theorem checkpoint_writes_less_exact : forall (Net : Type) m n fn (epochs : list (Net * (list b32 * bool))) s,
  Forall2 (monitored_score m n) (map snd epochs) s ->
  saved fn m false n epochs = Some
    (map (fun q => (match fn with Some f => f | None => "checkpoint.npz"%string end, fst (snd q)))
       (filter (fun q => improves_any s (fst q)) (combine (seq 0 (length epochs)) epochs))).
Proof.
  intros Net m n fn epochs s HM.
  assert (L : length epochs = length s) by (apply Forall2_len in HM; rewrite map_length in HM; exact HM).
  assert (HF : Forall (fun _ : b32 => True) s) by (apply Forall_forall; intros; exact I).
  destruct (mcp_runs_spec false improves_any (fun _ => True) best_any
              (fun s x i => improves_any_snoc s x i) best_any_nil (fun s b x B _ => best_any_step s b x B)
    (@record_write Net) n m fn [] epochs s HM HF) as (best & E & _).
  unfold saved. rewrite E. f_equal. rewrite L.
  generalize (filter (fun q => improves_any s (fst q)) (combine (seq 0 (length s)) epochs)). intros l.
  assert (G : forall l t, fold_left (fun fs nn => record_write nn (match fn with Some f => f | None => "checkpoint.npz"%string end) fs)
      (map fst (map snd l)) t
    = t ++ map (fun q : nat * (Net * (list b32 * bool)) => (match fn with Some f => f | None => "checkpoint.npz"%string end, fst (snd q))) l).
  { clear. induction l as [|q l IH]; intros t; simpl; [rewrite app_nil_r; reflexivity|]. rewrite IH. unfold record_write at 1.
    rewrite <- app_assoc. reflexivity. }
  exact (G l []).
Qed.
Print Assumptions checkpoint_writes_less_exact.

Lemma improved_nan (b x : b32) : is_nan b = true -> improved true b x = false.
Proof. intros H. unfold improved. rewrite Bltb_nan_l by exact H. destruct b; try discriminate. reflexivity. Qed.
Lemma improved_start (x : b32) : improved true flt_max x = true.
Proof. unfold improved. replace (Beqb flt_max flt_max) with true by (vm_compute; reflexivity). apply orb_true_r. Qed.

(** C35, greater is better and the first score is NaN: no later score, however good, counts as an improvement *)
Theorem early_stopping_nan_first : forall p m n epochs x s,
  Forall2 (monitored_score m n) epochs (x :: s) -> is_nan x = true -> (Z.of_nat (length s) <= 2147483647)%Z ->
  exists cb st, es_runs (es_new p m true) es_start n epochs = Ok (cb, st)
    /\ (es_do_stop (Some cb) = true <-> s <> [] /\ (p < Z.of_nat (length s))%Z).
Proof.
  intros p m n epochs x s HM NX HL. inversion HM as [|[r v] ? epochs' ? M1 M2]; subst. clear HM.
  cbn [es_runs]. unfold es_run. assert (RA := result_at_ok _ _ _ _ M1). cbn [fst snd] in RA.
  cbn [es_new es_monitor_idx es_greater es_best es_start]. rewrite RA. cbn [rbind]. rewrite improved_start. cbn [rbind fst snd].
  assert (G : forall epochs s, Forall2 (monitored_score m n) epochs s -> forall f st, is_nan (es_best st) = true -> (0 <= es_since st)%Z ->
     (es_since st + Z.of_nat (length s) <= 2147483647)%Z ->
     exists f' st', es_runs (mk_es p m true f) st n epochs = Ok (mk_es p m true f', st') /\
       (f' = true <-> f = true \/ s <> [] /\ (p < es_since st + Z.of_nat (length s))%Z)).
  { clear - NX. induction 1 as [|[r v] y epochs s M1 M2 IH]; intros f st NB S0 SL.
    - exists f, st. split; [reflexivity|]. split; [tauto|]. intros [H|(H & _)]; [exact H|congruence].
    - cbn [es_runs]. unfold es_run. assert (RA := result_at_ok _ _ _ _ M1). cbn [fst snd] in RA.
      cbn [es_monitor_idx es_greater]. rewrite RA. cbn [rbind]. rewrite improved_nan by exact NB.
      cbn [length] in SL |- *. unfold int_max. destruct (Z.eqb_spec (es_since st) 2147483647) as [Q|Q]; [lia|].
      cbn [rbind fst snd es_patience].
      destruct (Z.ltb_spec p (es_since st + 1)) as [P|P].
      + destruct (IH true (mk_es_static (es_best st) (es_since st + 1)) NB) as (f' & st' & E & Hf); [cbn; lia|cbn; lia|].
        exists f', st'. split; [exact E|]. rewrite Hf. split; [|tauto]. intros _. right. split; [discriminate|lia].
      + destruct (IH f (mk_es_static (es_best st) (es_since st + 1)) NB) as (f' & st' & E & Hf); [cbn; lia|cbn; lia|].
        exists f', st'. split; [exact E|]. rewrite Hf. cbn [es_since].
        split; [intros [H|(H & H')]; [tauto|right; split; [discriminate|lia]]|].
        intros [H|(_ & H)]; [tauto|]. right. destruct s; [cbn [length] in H; lia|]. split; [discriminate|lia]. }
  destruct (G epochs' s M2 false (mk_es_static x 0) NX ltac:(cbn; lia) ltac:(cbn; lia)) as (f' & st' & E & Hf).
  exists (mk_es p m true f'), st'. split; [exact E|]. cbn [es_do_stop es_flag]. rewrite Hf. cbn [es_since]. rewrite Z.add_0_l.
  split; [intros [H|H]; [discriminate|exact H]|tauto].
Qed.
Print Assumptions early_stopping_nan_first.

(** C37, greater is better and the first score is NaN: the network of the first epoch is written, and no other *)
Theorem checkpoint_nan_first : forall (Net : Type) m n fn nn r (epochs : list (Net * (list b32 * bool))) x s,
  Forall2 (monitored_score m n) (map snd ((nn, r) :: epochs)) (x :: s) -> is_nan x = true ->
  saved fn m true n ((nn, r) :: epochs) = Some [(match fn with Some f => f | None => "checkpoint.npz"%string end, nn)].
Proof.
  intros Net m n fn nn r epochs x s HM NX. cbn [map snd] in HM. inversion HM as [|[r0 v] ? ? ? M1 M2]; subst. clear HM.
  unfold saved. cbn [mcp_runs]. unfold mcp_run at 1. assert (RA := result_at_ok _ _ _ _ M1). cbn [fst snd] in RA.
  cbn [mcp_monitor_idx mcp_greater mcp_filename]. rewrite RA. cbn [rbind]. rewrite improved_start. cbn [rbind fst snd].
  assert (G : forall (epochs : list (Net * (list b32 * bool))) s, Forall2 (monitored_score m n) (map snd epochs) s ->
     forall t, mcp_runs record_write (mk_mcp fn m true) x t n epochs = Ok (x, t)).
  { clear - NX. induction epochs as [|[nn [r v]] epochs IH]; intros s H t; [reflexivity|]. inversion H as [|? ? ? s' M1 M2]; subst.
    cbn [mcp_runs]. unfold mcp_run. assert (RA := result_at_ok _ _ _ _ M1). cbn [fst snd] in RA.
    cbn [mcp_monitor_idx mcp_greater]. rewrite RA. cbn [rbind]. rewrite improved_nan by exact NX. cbn [rbind fst snd].
    exact (IH s' M2 t). }
  rewrite (G epochs s M2). reflexivity.
Qed.
Print Assumptions checkpoint_nan_first.

(** a case for the last three theorems: NaN, then better and better scores *)
Example nan_first_case :
  let z := b32_ofZ in
  Forall2 (monitored_score 0 1) [([b32_nan], false); ([z 1%Z], false); ([z 2%Z], false)] [b32_nan; z 1; z 2]%Z /\
  stop_after 1 0 true 1 [([b32_nan], false); ([z 1%Z], false); ([z 2%Z], false)] = Some true /\
  saved None 0 false 1 [(10, ([b32_nan], false)); (11, ([z 3%Z], false)); (12, ([z 2%Z], false))]
    = Some [("checkpoint.npz"%string, 11); ("checkpoint.npz"%string, 12)].
Proof.
  cbv zeta. split; [|split; vm_compute; reflexivity].
  repeat (constructor; [left; split; [vm_compute; discriminate|reflexivity]|]). constructor.
Qed.
