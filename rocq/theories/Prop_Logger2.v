(** Prop_Logger2.v -- C75: starting a logger on an existing text file *)
From Coq Require Import ZArith Bool String Ascii List Lia.
From Verif Require Import Base BaseProofs Ops Loss Names Logger SpecLog LoggerProofs Ex_Mem.
Import ListNotations.
Local Open Scope nat_scope.

(** ** Specification *)
Definition text := list ascii.
(** the last n characters, or all of them if there are fewer *)
Definition last_bytes (n : nat) (f : text) : text := rev (firstn n (rev f)).
(** without the newline at the end, if there is one *)
Definition unterminated (t : text) : text := match rev t with c :: r => if ascii_dec c newline then rev r else t | [] => [] end.
Definition one_line (s : text) : Prop := ~ In newline s.
Definition last_line (s l : text) : Prop := exists a, s = a ++ newline :: l /\ one_line l.
Definition mentions (l w : text) : Prop := exists a b, l = a ++ w ++ b.
Definition is_dig (c : ascii) : Prop := (48 <= nat_of_ascii c <= 57)%nat.
(** n digits in a row *)
Definition digit_run (n : nat) (l : text) : Prop := exists a d b, l = a ++ d ++ b /\ length d = n /\ Forall is_dig d.

(** ** Proofs *)
Lemma window_last f : window f = last_bytes 255 f.
Proof.
  unfold window, last_bytes, max_buffer. destruct (length f <? 255) eqn:E.
  - apply Nat.ltb_lt in E. rewrite firstn_all2 by (rewrite rev_length; lia). rewrite rev_involutive. reflexivity.
  - apply Nat.ltb_ge in E. rewrite firstn_rev, rev_involutive. reflexivity.
Qed.
Lemma last_bytes_suffix n f : exists p, f = p ++ last_bytes n f.
Proof.
  exists (rev (skipn n (rev f))). unfold last_bytes. rewrite <- rev_app_distr, firstn_skipn, rev_involutive. reflexivity.
Qed.
Lemma last_bytes_nil n f : 0 < n -> last_bytes n f = [] -> f = [].
Proof.
  intros Hn H. apply (f_equal (@length ascii)) in H. unfold last_bytes in H. rewrite rev_length, firstn_length, rev_length in H. simpl in H.
  destruct f; [reflexivity|simpl in H; lia].
Qed.

Lemma is_prefix_spec p : forall s, is_prefix p s = true <-> exists b, s = p ++ b.
Proof.
  induction p as [|a p IH]; intros s; simpl.
  - split; [intros _; exists s; reflexivity|reflexivity].
  - destruct s as [|b s]; [split; [discriminate|intros [c E]; discriminate]|].
    rewrite andb_true_iff, IH, Ascii.eqb_eq. split.
    + intros [-> [c ->]]. exists c. reflexivity.
    + intros [c E]. inversion E; subst. split; [reflexivity|exists c; reflexivity].
Qed.
Lemma strstr_none p : forall s, strstr s p = None -> ~ mentions s p.
Proof.
  induction s as [|c s IH]; cbn [strstr]; intros H (a & b & E).
  - destruct (is_prefix p []) eqn:P; [discriminate|]. destruct a; [|discriminate]. simpl in E.
    assert (is_prefix p [] = true) by (apply is_prefix_spec; exists b; exact E). congruence.
  - destruct (is_prefix p (c :: s)) eqn:P; [discriminate|]. destruct (strstr s p) eqn:S; [discriminate|].
    destruct a as [|x a]; simpl in E.
    + assert (is_prefix p (c :: s) = true) by (apply is_prefix_spec; exists b; exact E). congruence.
    + inversion E; subst. apply (IH eq_refl). exists a, b. reflexivity.
Qed.
Lemma strstr_some p : forall s k, strstr s p = Some k -> exists b, s = firstn k s ++ p ++ b /\ skipn (k + length p) s = b.
Proof.
  induction s as [|c s IH]; cbn [strstr]; intros k H.
  - destruct (is_prefix p []) eqn:P; [|discriminate]. inversion H; subst. apply is_prefix_spec in P. destruct P as [b E]. exists b. split; [exact E|].
    rewrite E. simpl. rewrite skipn_app, skipn_all, Nat.sub_diag. reflexivity.
  - destruct (is_prefix p (c :: s)) eqn:P.
    + inversion H; subst. apply is_prefix_spec in P. destruct P as [b E]. exists b. split; [exact E|].
      rewrite E. simpl. rewrite skipn_app, skipn_all, Nat.sub_diag. reflexivity.
    + destruct (strstr s p) as [j|] eqn:S; [|discriminate]. inversion H; subst. destruct (IH _ eq_refl) as (b & E1 & E2).
      exists b. split; [|exact E2]. simpl. rewrite <- E1. reflexivity.
Qed.
Lemma strrchr_cases s c : (strrchr s c = None /\ ~ In c s) \/ exists a l, s = a ++ c :: l /\ ~ In c l /\ strrchr s c = Some (length a).
Proof.
  induction s as [|d s [[E N]|(a & l & E1 & N & E2)]].
  - left. split; [reflexivity|]. intros [].
  - simpl. rewrite E. destruct (Ascii.eqb_spec d c) as [->|D].
    + right. exists [], s. repeat split; auto.
    + left. split; [reflexivity|]. intros [H|H]; auto.
  - right. exists (d :: a), l. subst s. split; [reflexivity|]. split; [exact N|]. simpl. rewrite E2. reflexivity.
Qed.

Lemma digit_of_dig c : match digit_of c with Some d => is_dig c /\ (0 <= d <= 9)%Z | None => ~ is_dig c end.
Proof.
  unfold digit_of, is_dig. cbv zeta. destruct (_ && _) eqn:E.
  - apply andb_prop in E. destruct E as [E1 E2]. apply Nat.leb_le in E1, E2. split; [|]; lia.
  - intros [H1 H2]. apply Nat.leb_le in H1, H2. rewrite H1, H2 in E. discriminate.
Qed.
(** more than n digits in front, or the number is below 10^n *)
Lemma parse_cases : forall s n acc, (0 <= acc)%Z ->
  (exists d b, s = d ++ b /\ Forall is_dig d /\ length d = S n) \/ (acc <= parse acc s < (acc + 1) * 10 ^ Z.of_nat n)%Z.
Proof.
  induction s as [|c s IH]; intros n acc Ha; pose proof (Z.pow_pos_nonneg 10 (Z.of_nat n) ltac:(lia) ltac:(lia)) as P.
  - right. simpl. nia.
  - cbn [parse]. pose proof (digit_of_dig c) as D. destruct (digit_of c) as [d|].
    + destruct D as [D R]. destruct n as [|n].
      { left. exists [c], s. repeat split; auto. }
      destruct (IH n (acc * 10 + d)%Z ltac:(lia)) as [(e & b & -> & He & L)|B].
      * left. exists (c :: e), b. repeat split; auto. simpl. lia.
      * right. clear P. rewrite Nat2Z.inj_succ, Z.pow_succ_r by lia. pose proof (Z.pow_pos_nonneg 10 (Z.of_nat n) ltac:(lia) ltac:(lia)). nia.
    + right. nia.
Qed.
Lemma digit_run_cons n c l : digit_run n l -> digit_run n (c :: l).
Proof. intros (a & d & b & -> & H). exists (c :: a), d, b. split; [reflexivity|exact H]. Qed.
Lemma small_number s : digit_run 10 s \/ (0 <= parse 0 s < 1000000000)%Z.
Proof.
  destruct (parse_cases s 9 0 ltac:(lia)) as [(d & b & -> & H & L)|B]; [left|right; exact B].
  exists [], d, b. repeat split; auto.
Qed.
Lemma skip_run s : digit_run 10 (skip_space s) -> digit_run 10 s.
Proof. induction s as [|c s IH]; simpl; auto. destruct (is_space c); auto. intros H. apply digit_run_cons. auto. Qed.
Lemma atoi_small s : digit_run 10 s \/ exists z, atoi s = Ok z /\ (-1000000000 < z < 1000000000)%Z.
Proof.
  unfold atoi. pose proof (skip_run s) as K. destruct (skip_space s) as [|c r]; [right; exists 0%Z; split; [reflexivity|lia]|].
  destruct (small_number r) as [D|B1]; [left; apply K; apply digit_run_cons; exact D|].
  destruct (small_number (c :: r)) as [D|B2]; [left; apply K; exact D|]. right.
  assert (T : forall z, (-1000000000 < z < 1000000000)%Z -> to_int z = Ok z).
  { intros z B. unfold to_int. replace (_ && _) with true; [reflexivity|]. symmetry. apply andb_true_iff. split; apply Z.leb_le; lia. }
  destruct (Ascii.eqb c "-"); [|destruct (Ascii.eqb c "+")]; (eexists; split; [apply T|]; lia).
Qed.
Lemma atoi_kinds s f : atoi s = Fault f -> f = IntOverflow.
Proof.
  unfold atoi, to_int. destruct (skip_space s) as [|c r]; [discriminate|].
  destruct (Ascii.eqb c "-"); [|destruct (Ascii.eqb c "+")]; (destruct (_ && _); [discriminate|]; congruence).
Qed.

Lemma last_split (a a' l l' : text) : a ++ newline :: l = a' ++ newline :: l' -> ~ In newline l -> ~ In newline l' -> a = a' /\ l = l'.
Proof.
  intros E N N'. revert a' E. induction a as [|b a IH]; intros [|b' a'] E; simpl in E; inversion E; subst; auto.
  - exfalso. apply N. apply in_or_app. right. left. reflexivity.
  - exfalso. apply N'. apply in_or_app. right. left. reflexivity.
  - destruct (IH _ H1) as [-> ->]. auto.
Qed.

(** the text the parser works on: the last 255 bytes t, s without the newline, [e] the newline or nothing *)
Lemma unterminated_cases t : t <> [] -> (t = unterminated t ++ [newline]) \/ (t = unterminated t /\ exists q c, t = q ++ [c] /\ c <> newline).
Proof.
  intros H. unfold unterminated. destruct (rev t) as [|c r] eqn:E.
  - apply (f_equal (@rev ascii)) in E. rewrite rev_involutive in E. contradiction.
  - apply (f_equal (@rev ascii)) in E. rewrite rev_involutive in E. simpl in E. destruct (ascii_dec c newline) as [->|D].
    + left. exact E.
    + right. split; [reflexivity|]. exists (rev r), c. auto.
Qed.
Lemma set_last (a : bytes) x y z : set_nth (a ++ [x; y]) (length a) z = a ++ [z; y].
Proof. induction a as [|b a IH]; [reflexivity|]. simpl. f_equal. exact IH. Qed.
Lemma nth_last (a : bytes) x y : nth_error (a ++ [x; y]) (length a) = Some x.
Proof. rewrite nth_error_app2 by lia. rewrite Nat.sub_diag. reflexivity. Qed.

Definition after_epoch (line : bytes) : res Z :=
  match strstr line (chars "Epoch") with
  | None => Fault BadPointer
  | Some k => rbind (atoi (skipn (k + 5) line)) (fun z => to_int (z + 1))
  end.
Lemma scan_cases c f : Forall (fun a => a <> nul) f -> f <> [] ->
  let s := unterminated (last_bytes 255 f) in
  (one_line s -> scan_log c f = Ok c) /\
  (forall l, last_line s l -> exists e, (e = [] \/ e = [newline]) /\ scan_log c f = after_epoch (l ++ e)).
Proof.
  intros HN HF s.
  assert (HT : last_bytes 255 f <> []) by (intros E; apply HF; apply (last_bytes_nil 255); [lia|exact E]).
  destruct (last_bytes_suffix 255 f) as [p EP].
  assert (NT : Forall (fun a => a <> nul) (last_bytes 255 f)) by (rewrite EP in HN; apply Forall_app in HN; exact (proj2 HN)).
  unfold scan_log. rewrite window_last. set (t := last_bytes 255 f) in *. cbv zeta.
  assert (LT : length t <> 0) by (destruct t; [contradiction|simpl; lia]). apply Nat.eqb_neq in LT. rewrite LT.
  assert (NLE : nl = newline) by reflexivity. rewrite NLE.
  destruct (unterminated_cases t HT) as [E|(E & q & x & Eq & Hx)]; fold s in E.
  - assert (NS : Forall (fun a => a <> nul) s) by (rewrite E in NT; apply Forall_app in NT; exact (proj1 NT)).
    rewrite E. rewrite <- app_assoc. cbn [app]. replace (length (s ++ [newline]) - 1) with (length s) by (rewrite app_length; simpl; lia).
    rewrite nth_last. rewrite Ascii.eqb_refl. rewrite set_last. rewrite (cstr_app s [nul] NS). rewrite nth_last, Ascii.eqb_refl, set_last.
    destruct (strrchr_cases s newline) as [[-> N]|(a & l & Es & N & ->)].
    + split; [reflexivity|]. intros l (a & Ea & _). exfalso. apply N. rewrite Ea. apply in_or_app. right. left. reflexivity.
    + split; [intros O; exfalso; apply O; rewrite Es; apply in_or_app; right; left; reflexivity|].
      intros l' (a' & Es' & O'). assert (a = a' /\ l = l') as [<- <-].
      { rewrite Es in Es'. exact (last_split _ _ _ _ Es' N O'). }
      exists [newline]. split; [auto|].
      assert (SK : skipn (S (length a)) (s ++ [newline; nul]) = (l ++ [newline]) ++ [nul]).
      { rewrite Es. rewrite <- !app_assoc. cbn [app]. rewrite skipn_app. rewrite skipn_all2 by lia. replace (S (length a) - length a) with 1 by lia. reflexivity. }
      rewrite SK. rewrite cstr_app; [reflexivity|]. apply Forall_app. split; [|constructor; [discriminate|constructor]].
      rewrite Es in NS. apply Forall_app in NS. destruct NS as [_ NS]. inversion NS; auto.
  - clearbody s. subst s. rewrite Eq. rewrite <- app_assoc. cbn [app]. replace (length (q ++ [x]) - 1) with (length q) by (rewrite app_length; simpl; lia).
    rewrite nth_last. apply Ascii.eqb_neq in Hx. rewrite Hx.
    assert (Hx0 : Ascii.eqb x nul = false). { apply Ascii.eqb_neq. rewrite Eq in NT. apply Forall_app in NT. destruct NT as [_ NT]. inversion NT; auto. }
    replace (q ++ [x; nul]) with ((q ++ [x]) ++ nul :: []) by (rewrite <- app_assoc; reflexivity). rewrite <- Eq. rewrite (cstr_app t [] NT).
    assert (NTH : nth_error (t ++ [nul]) (length q) = Some x) by (rewrite Eq, <- app_assoc; apply nth_last). rewrite NTH, Hx0.
    destruct (strrchr_cases t newline) as [[-> N]|(a & l & Es & N & ->)].
    + split; [reflexivity|]. intros l (a & Ea & _). exfalso. apply N. rewrite Ea. apply in_or_app. right. left. reflexivity.
    + split; [intros O; exfalso; apply O; rewrite Es; apply in_or_app; right; left; reflexivity|].
      intros l' (a' & Es' & O'). assert (a = a' /\ l = l') as [<- <-].
      { rewrite Es in Es'. exact (last_split _ _ _ _ Es' N O'). }
      exists []. split; [auto|].
      assert (SK : skipn (S (length a)) (t ++ [nul]) = l ++ nul :: []).
      { rewrite Es. rewrite <- !app_assoc. cbn [app]. rewrite skipn_app. rewrite skipn_all2 by lia. replace (S (length a) - length a) with 1 by lia. reflexivity. }
      rewrite SK. rewrite app_nil_r. rewrite cstr_app; [reflexivity|].
      rewrite Es in NT. apply Forall_app in NT. destruct NT as [_ NS]. inversion NS; auto.
Qed.

Lemma mentions_newline l w e : ~ In newline w -> w <> [] -> (e = [] \/ e = [newline]) -> mentions (l ++ e) w -> mentions l w.
Proof.
  intros HW HW0 [-> | ->] (a & b & E).
  - rewrite app_nil_r in E. exists a, b. exact E.
  - destruct b as [|b0 b] using rev_ind.
    + exfalso. destruct (exists_last HW0) as (w' & x & ->). rewrite app_nil_r, app_assoc in E. apply app_inj_tail in E. destruct E as [_ <-].
      apply HW. apply in_or_app. right. left. reflexivity.
    + rewrite !app_assoc in E. apply app_inj_tail in E. destruct E as [-> _]. exists a, b. rewrite app_assoc. reflexivity.
Qed.

Definition start (f : text) : res logger := logger_new 0 true (Some f) true.
Lemma start_scan f : start f = rbind (scan_log 0 f) (fun e => Ok (mk_logger e true)).
Proof. reflexivity. Qed.

(** C75: as stated, for every text file, the property is false: a note behind the last entry *)
Theorem logger_start_safe_refuted : exists f, Forall (fun c => c <> "000"%char) f /\ f <> [] /\
  logger_new 0 true (Some f) true = Fault BadPointer.
Proof.
  exists (txt "[12:34:56] Epoch   0 mean_squared_error: 1.00000e+00 " ++ [newline] ++ txt "stopped by hand" ++ [newline]).
  split; [repeat constructor; discriminate|]. split; [discriminate|]. vm_compute. reflexivity.
Qed.
Print Assumptions logger_start_safe_refuted.

(** Exactly what happens with every text file f.  s: the last 255 bytes without the newline at the end. *)
Theorem logger_start_exact : forall f, Forall (fun c => c <> "000"%char) f ->
  let s := unterminated (last_bytes 255 f) in
  (logger_new 0 true (Some f) true = Fault OutOfBounds <-> f = []) /\
  (logger_new 0 true (Some f) true = Fault BadPointer <-> exists l, last_line s l /\ ~ mentions l (txt "Epoch")) /\
  (f <> [] -> one_line s -> logger_new 0 true (Some f) true = Ok (mk_logger 0 true)) /\
  (forall l, last_line s l -> mentions l (txt "Epoch") ->
     (exists e, logger_new 0 true (Some f) true = Ok (mk_logger e true)) \/ logger_new 0 true (Some f) true = Fault IntOverflow /\ digit_run 10 (l ++ [newline])).
Proof.
  intros f HN s. change (logger_new 0 true (Some f) true) with (start f). rewrite start_scan.
  assert (DEC : f = [] \/ f <> []) by (destruct f; [left; reflexivity|right; discriminate]).
  assert (LL : f = [] -> forall l, ~ last_line s l).
  { intros -> l (a & E & _). unfold s in E. cbn in E. destruct a; discriminate. }
  assert (SL : one_line s \/ exists l, last_line s l).
  { destruct (strrchr_cases s newline) as [[_ N]|(a & l & Es & N & _)]; [left; exact N|right]. exists l, a. auto. }
  assert (UN : forall l l', last_line s l -> last_line s l' -> l = l').
  { intros l l' (a & Es & N) (a' & Es' & N'). rewrite Es in Es'. exact (proj2 (last_split _ _ _ _ Es' N N')). }
  assert (AE : forall l e, (e = [] \/ e = [newline]) ->
    (~ mentions l (txt "Epoch") /\ after_epoch (l ++ e) = Fault BadPointer) \/
    (mentions l (txt "Epoch") /\ ((exists z, after_epoch (l ++ e) = Ok z) \/ after_epoch (l ++ e) = Fault IntOverflow /\ digit_run 10 (l ++ [newline])))).
  { intros l e He. unfold after_epoch. destruct (strstr (l ++ e) (chars "Epoch")) as [k|] eqn:S.
    - right. destruct (strstr_some _ _ _ S) as (b & E1 & E2). split.
      + eapply mentions_newline; [| |exact He|].
        * intros H. simpl in H. repeat (destruct H as [H|H]; [discriminate|]). exact H.
        * discriminate.
        * exists (firstn k (l ++ e)), b. exact E1.
      + simpl in E2. rewrite E2. set (dl := digit_run 10 (l ++ [newline])).
        assert (DR : digit_run 10 b -> dl).
        { intros (x & d & y & -> & Ld & Fd). unfold dl. destruct He as [-> | ->].
          - rewrite app_nil_r in E1. exists (firstn k l ++ chars "Epoch" ++ x), d, (y ++ [newline]). split; [|auto].
            rewrite E1 at 1. rewrite <- !app_assoc. reflexivity.
          - exists (firstn k (l ++ [newline]) ++ chars "Epoch" ++ x), d, y. split; [|auto]. rewrite E1 at 1. rewrite <- !app_assoc. reflexivity. }
        destruct (atoi_small b) as [X|(z & A & BB)].
        * destruct (atoi b) as [z|g] eqn:A.
          -- cbn [rbind]. unfold to_int. destruct (_ && _); [left; eexists; reflexivity|]. right. split; [reflexivity|apply DR; exact X].
          -- right. rewrite (atoi_kinds _ _ A). split; [reflexivity|apply DR; exact X].
        * rewrite A. cbn [rbind]. left. eexists. unfold to_int. replace (_ && _) with true; [reflexivity|].
          symmetry. apply andb_true_iff. split; apply Z.leb_le; lia.
    - left. split; [|reflexivity]. intros (a & b & E). apply (strstr_none _ _ S). exists a, (b ++ e). rewrite E, <- !app_assoc. reflexivity. }
  destruct DEC as [E0|NE].
  - rewrite E0 in *. split; [|split; [|split]].
    + split; reflexivity.
    + split; [discriminate|]. intros (l & H & _). destruct (LL eq_refl l H).
    + contradiction.
    + intros l H. destruct (LL eq_refl l H).
  - destruct (scan_cases 0 f HN NE) as [S1 S2]. fold s in S1, S2.
    destruct SL as [O|[l HL]].
    + rewrite (S1 O). assert (NL : forall l, ~ last_line s l).
      { intros l (a & E & _). apply O. rewrite E. apply in_or_app. right. left. reflexivity. }
      split; [|split; [|split]].
      * split; [discriminate|contradiction].
      * split; [discriminate|]. intros (l & H & _). destruct (NL l H).
      * reflexivity.
      * intros l H. destruct (NL l H).
    + destruct (S2 l HL) as (e & He & ->). destruct (AE l e He) as [[NM E]|[M E]].
      * rewrite E. split; [|split; [|split]].
        -- split; [discriminate|contradiction].
        -- split; [|reflexivity]. intros _. exists l. auto.
        -- intros _ O. destruct HL as (a & Ea & _). exfalso. apply O. rewrite Ea. apply in_or_app. right. left. reflexivity.
        -- intros l' H' M. rewrite (UN l' l H' HL) in M. contradiction.
      * split; [|split; [|split]].
        -- split; [|contradiction]. destruct E as [[z E]|[E _]]; rewrite E; discriminate.
        -- split; [destruct E as [[z E]|[E _]]; rewrite E; discriminate|]. intros (l' & H' & NM). rewrite (UN l' l H' HL) in NM. contradiction.
        -- intros _ O. destruct HL as (a & Ea & _). exfalso. apply O. rewrite Ea. apply in_or_app. right. left. reflexivity.
        -- intros l' H' _. rewrite (UN l' l H' HL). destruct E as [[z E]|[E D]]; rewrite E; [left; eexists; reflexivity|right; split; [reflexivity|exact D]].
Qed.
Print Assumptions logger_start_exact.

(** each case occurs *)
Example logger_start_case :
  let entry := txt "[12:34:56] Epoch   7 mean_squared_error: 1.00000e+00 " in
  last_line (unterminated (last_bytes 255 (entry ++ newline :: entry ++ [newline]))) entry /\ mentions entry (txt "Epoch") /\
  start (entry ++ newline :: entry ++ [newline]) = Ok (mk_logger 8 true) /\
  start (entry ++ newline :: entry) = Ok (mk_logger 8 true) /\
  start (entry ++ [newline; newline]) = Fault BadPointer /\
  start (entry ++ newline :: txt "Epoch 2147483647") = Fault IntOverflow /\
  start (entry ++ newline :: txt "Epoch?") = Ok (mk_logger 1 true).
Proof.
  cbv zeta. split. { exists (txt "[12:34:56] Epoch   7 mean_squared_error: 1.00000e+00 "). split; [vm_compute; reflexivity|]. intros H. simpl in H. repeat (destruct H as [H|H]; [discriminate|]). exact H. }
  split; [exists (txt "[12:34:56] "), (txt "   7 mean_squared_error: 1.00000e+00 "); reflexivity|].
  repeat split; vm_compute; reflexivity.
Qed.
