(** LoggerProofs.v -- lemmas about the logger of Logger.v. *)
From Coq Require Import ZArith Bool String Ascii List Lia.
From Verif Require Import Base BaseProofs Ops Loss Names Logger SpecLog.
Import ListNotations.
Local Open Scope nat_scope.

(** ** numbers *)
Lemma digit_char d : d < 10 -> nat_of_ascii (ascii_of_nat (48 + d)) = 48 + d.
Proof. intros H. apply nat_ascii_embedding. lia. Qed.

Lemma mod10 z : Z.to_nat (z mod 10) < 10.
Proof. pose proof (Z.mod_pos_bound z 10 ltac:(lia)). lia. Qed.

Definition is_digit (c : ascii) : bool := let n := nat_of_ascii c in (48 <=? n) && (n <=? 57).

Lemma digits_are f : forall z, Forall (fun c => is_digit c = true) (digits f z).
Proof.
  induction f as [|f IH]; intros z; [constructor|]. cbn [digits]. apply Forall_app. split.
  - destruct (z <? 10)%Z; [constructor|apply IH].
  - constructor; [|constructor]. unfold is_digit. rewrite digit_char by apply mod10. pose proof (mod10 z).
    apply andb_true_intro. split; apply Nat.leb_le; lia.
Qed.

Lemma digits_value_snoc : forall l acc v c, digits_value acc l = Some v -> is_digit c = true ->
  digits_value acc (l ++ [c]) = Some (10 * v + Z.of_nat (nat_of_ascii c) - 48)%Z.
Proof.
  induction l as [|d l IH]; intros acc v c H D.
  - simpl in H. inversion H; subst. unfold is_digit in D. cbn [app digits_value]. cbv zeta. rewrite D. reflexivity.
  - cbn [app digits_value] in *. cbv zeta in *. destruct (_ && _); [|discriminate]. apply IH; assumption.
Qed.

Lemma digits_val f : forall z, (0 <= z < 10 ^ Z.of_nat f)%Z -> 0 < f -> digits_value 0 (digits f z) = Some z.
Proof.
  induction f as [|f IH]; intros z H Hf; [lia|]. cbn [digits].
  pose proof (mod10 z) as M. pose proof (Z.mod_pos_bound z 10 ltac:(lia)) as MB.
  assert (D : is_digit (ascii_of_nat (48 + Z.to_nat (z mod 10))) = true).
  { unfold is_digit. rewrite digit_char by exact M. apply andb_true_intro. split; apply Nat.leb_le; lia. }
  destruct (z <? 10)%Z eqn:E.
  - apply Z.ltb_lt in E. rewrite (digits_value_snoc [] 0%Z 0%Z _ eq_refl D). rewrite digit_char by exact M.
    rewrite Z.mod_small by lia. f_equal. lia.
  - apply Z.ltb_ge in E. assert (Hf' : 0 < f). { destruct f; [simpl in H; lia|lia]. }
    assert (HD : (0 <= z / 10 < 10 ^ Z.of_nat f)%Z).
    { split; [apply Z.div_pos; lia|]. apply Z.div_lt_upper_bound; [lia|].
      replace (10 * 10 ^ Z.of_nat f)%Z with (10 ^ Z.of_nat (S f))%Z; [lia|]. rewrite Nat2Z.inj_succ, Z.pow_succ_r by lia. reflexivity. }
    rewrite (digits_value_snoc _ 0%Z (z / 10)%Z _ (IH _ HD Hf') D). rewrite digit_char by exact M. f_equal.
    pose proof (Z.div_mod z 10 ltac:(lia)). lia.
Qed.

Lemma digits_nonempty f z : 0 < f -> digits f z <> [].
Proof. destruct f; [lia|]. intros _. cbn [digits]. destruct (if (z <? 10)%Z then [] else digits f (z / 10)); discriminate. Qed.

Lemma fmt_d_numeral z : (-2147483648 <= z <= 2147483647)%Z -> numeral z (fmt_d z).
Proof.
  intros H. unfold fmt_d, numeral. destruct (z <? 0)%Z eqn:E.
  - apply Z.ltb_lt in E. right. split; [exact E|]. eexists. split; [reflexivity|]. split; [apply digits_nonempty; lia|].
    apply digits_val; [|lia]. change (10 ^ Z.of_nat 11)%Z with 100000000000%Z. lia.
  - apply Z.ltb_ge in E. left. split; [exact E|]. split; [apply digits_nonempty; lia|].
    apply digits_val; [|lia]. change (10 ^ Z.of_nat 11)%Z with 100000000000%Z. lia.
Qed.

Lemma parse_value : forall s acc v r, digits_value acc s = Some v -> parse acc (s ++ " "%char :: r) = v.
Proof.
  induction s as [|c s IH]; intros acc v r H.
  - simpl in H. inversion H; subst. reflexivity.
  - cbn [app parse]. cbn [digits_value] in H. cbv zeta in H. unfold digit_of. cbv zeta.
    destruct ((48 <=? nat_of_ascii c) && (nat_of_ascii c <=? 57)) eqn:E; [|discriminate].
    apply IH. rewrite <- H. f_equal. apply andb_prop in E. destruct E as [E _]. apply Nat.leb_le in E. lia.
Qed.

Lemma skip_repeat k s : skip_space (repeat " "%char k ++ s) = skip_space s.
Proof. induction k; [reflexivity|]. simpl. exact IHk. Qed.

Lemma value_digit acc c s v : digits_value acc (c :: s) = Some v -> is_digit c = true.
Proof. cbn [digits_value]. cbv zeta. unfold is_digit. destruct (_ && _); [reflexivity|discriminate]. Qed.

Lemma digit_not c : is_digit c = true -> is_space c = false /\ Ascii.eqb c "-" = false /\ Ascii.eqb c "+" = false.
Proof.
  unfold is_digit, is_space. cbv zeta. intros H. apply andb_prop in H. destruct H as [H1 H2]. apply Nat.leb_le in H1, H2.
  split; [|split].
  - apply orb_false_intro; [apply Nat.eqb_neq; lia|]. apply andb_false_intro2. apply Nat.leb_gt. lia.
  - apply Ascii.eqb_neq. intros ->. change (nat_of_ascii "-") with 45 in *. lia.
  - apply Ascii.eqb_neq. intros ->. change (nat_of_ascii "+") with 43 in *. lia.
Qed.

Lemma atoi_numeral z num k r : (-2147483648 <= z <= 2147483647)%Z -> numeral z num ->
  atoi (repeat " "%char k ++ num ++ " "%char :: r) = Ok z.
Proof.
  intros HZ HN. unfold atoi. rewrite skip_repeat.
  assert (TI : to_int z = Ok z).
  { unfold to_int. destruct HZ as [H1 H2]. apply Z.leb_le in H1, H2. rewrite H1, H2. reflexivity. }
  destruct HN as [(Hz & NE & V)|(Hz & s & -> & NE & V)].
  - destruct num as [|c num]; [congruence|]. pose proof (value_digit _ _ _ _ V) as D.
    destruct (digit_not c D) as (S1 & S2 & S3). cbn [app skip_space]. rewrite S1, S2, S3.
    change (c :: num ++ " "%char :: r) with ((c :: num) ++ " "%char :: r). rewrite (parse_value _ _ _ _ V). exact TI.
  - cbn [app skip_space]. change (is_space "-") with false. cbv iota. change (Ascii.eqb "-" "-") with true. cbv iota.
    rewrite (parse_value _ _ _ _ V). rewrite Z.opp_involutive. exact TI.
Qed.

(** ** strings *)
Lemma cstr_app s r : Forall (fun c => c <> nul) s -> cstr (s ++ nul :: r) = Some s.
Proof.
  induction 1 as [|c s Hc H IH]; [reflexivity|]. cbn [app cstr]. apply Ascii.eqb_neq in Hc. rewrite Hc, IH. reflexivity.
Qed.

Lemma strrchr_none s c : Forall (fun d => d <> c) s -> strrchr s c = None.
Proof. induction 1 as [|d s Hd H IH]; [reflexivity|]. simpl. rewrite IH. apply Ascii.eqb_neq in Hd. rewrite Hd. reflexivity. Qed.

Lemma strrchr_app s r c : Forall (fun d => d <> c) r -> strrchr (s ++ c :: r) c = Some (length s).
Proof.
  intros H. induction s as [|d s IH]; simpl.
  - rewrite strrchr_none by exact H. rewrite Ascii.eqb_refl. reflexivity.
  - rewrite IH. reflexivity.
Qed.

Lemma is_prefix_app p s : is_prefix p (p ++ s) = true.
Proof. induction p as [|a p IH]; [reflexivity|]. simpl. rewrite Ascii.eqb_refl, IH. reflexivity. Qed.

Lemma strstr_stamp stamp p s : Forall (fun c => c <> "E"%char) stamp ->
  strstr (stamp ++ "E"%char :: p ++ s) ("E"%char :: p) = Some (length stamp).
Proof.
  induction 1 as [|c stamp Hc H IH].
  - cbn [app]. change ("E"%char :: p ++ s) with (("E"%char :: p) ++ s).
    destruct (("E"%char :: p) ++ s) eqn:Q; [discriminate|]. cbn [strstr]. rewrite <- Q, is_prefix_app. reflexivity.
  - cbn [app strstr is_prefix]. destruct (Ascii.eqb "E" c) eqn:E; [apply Ascii.eqb_eq in E; congruence|].
    cbn [andb]. rewrite IH. reflexivity.
Qed.

Lemma window_app pre x : length x <= max_buffer -> exists pre', window (pre ++ x) = pre' ++ x /\ (exists q, pre = q ++ pre').
Proof.
  intros H. unfold window. destruct (length (pre ++ x) <? max_buffer) eqn:E.
  - exists pre. split; [reflexivity|]. exists []. reflexivity.
  - apply Nat.ltb_ge in E. rewrite app_length in *.
    exists (skipn (length pre + length x - max_buffer) pre). split.
    + rewrite skipn_app. f_equal. replace (_ - length pre) with 0 by lia. reflexivity.
    + exists (firstn (length pre + length x - max_buffer) pre). symmetry. apply firstn_skipn.
Qed.

(** ** C38: the scan *)
Lemma scan_entry c pre e line : Forall (fun a => a <> nul) pre -> log_entry e line -> length line < max_buffer ->
  (-2147483648 <= e < 2147483647)%Z -> scan_log c (pre ++ nl :: line) = Ok (e + 1)%Z.
Proof.
  intros HP (stamp & k & num & rest & EL & HN & HR & HS) HL HE.
  destruct (window_app pre (nl :: line)) as (pre' & EW & q & EQ); [simpl; unfold max_buffer in *; lia|].
  assert (HP' : Forall (fun a => a <> nul) pre') by (rewrite EQ in HP; apply Forall_app in HP; exact (proj2 HP)).
  set (body := stamp ++ list_ascii_of_string "Epoch " ++ repeat " "%char k ++ num ++ " "%char :: rest).
  assert (EB : line = body ++ [nl]). { rewrite EL. unfold body. rewrite <- !app_assoc. cbn [app]. reflexivity. }
  assert (NB : Forall inline body).
  { unfold body. apply Forall_app. split; [|apply Forall_app; split; [|apply Forall_app; split; [|apply Forall_app; split]]].
    - apply Forall_forall. intros a Ha. rewrite Forall_forall in HS. exact (proj1 (HS a Ha)).
    - repeat constructor; discriminate.
    - apply Forall_forall. intros a Ha. apply repeat_spec in Ha. subst. split; discriminate.
    - assert (DV : forall s acc v, digits_value acc s = Some v -> Forall inline s).
      { clear. induction s as [|a s IH]; intros acc v H; constructor.
        - apply value_digit in H. split; intros ->; discriminate.
        - cbn [digits_value] in H. cbv zeta in H. destruct (_ && _); [|discriminate]. exact (IH _ _ H). }
      destruct HN as [(_ & _ & V)|(_ & s & -> & _ & V)]; [exact (DV _ _ _ V)|].
      constructor; [split; discriminate|exact (DV _ _ _ V)].
    - constructor; [split; discriminate|exact HR]. }
  assert (NB1 : Forall (fun a => a <> nl) body) by (eapply Forall_impl; [|exact NB]; intros a Ha; exact (proj1 Ha)).
  assert (NB2 : Forall (fun a => a <> nul) body) by (eapply Forall_impl; [|exact NB]; intros a Ha; exact (proj2 Ha)).
  unfold scan_log. rewrite EW, EB. cbv zeta.
  set (w := pre' ++ nl :: body ++ [nl]).
  assert (LW : length w = length pre' + length body + 2).
  { unfold w. rewrite app_length. simpl. rewrite app_length. simpl. lia. }
  rewrite LW. destruct (_ =? 0) eqn:EZ; [apply Nat.eqb_eq in EZ; lia|].
  set (a0 := pre' ++ nl :: body).
  assert (LA : length a0 = length pre' + length body + 2 - 1).
  { unfold a0. rewrite app_length. simpl. lia. }
  assert (EWA : w ++ [nul] = a0 ++ nl :: [nul]).
  { unfold w, a0. rewrite <- !app_assoc. cbn [app]. rewrite <- !app_assoc. reflexivity. }
  rewrite EWA, <- LA. rewrite nth_error_app2 by lia. rewrite Nat.sub_diag. cbn [nth_error].
  change (Ascii.eqb nl nl) with true. cbv iota.
  assert (SN : forall x, set_nth (a0 ++ x :: [nul]) (length a0) nul = a0 ++ nul :: [nul]).
  { intros x. clear. induction a0 as [|b a0 IH]; [reflexivity|]. simpl. f_equal. exact IH. }
  assert (SN' : forall x, set_nth (a0 ++ x :: [nul]) (length a0) nl = a0 ++ nl :: [nul]).
  { intros x. clear. induction a0 as [|b a0 IH]; [reflexivity|]. simpl. f_equal. exact IH. }
  rewrite SN. rewrite cstr_app.
  2:{ unfold a0. apply Forall_app. split; [exact HP'|]. constructor; [discriminate|exact NB2]. }
  unfold a0 at 1. rewrite strrchr_app by exact NB1.
  rewrite nth_error_app2 by lia. rewrite Nat.sub_diag. cbn [nth_error].
  change (Ascii.eqb nul nul) with true. cbv iota. rewrite SN'.
  assert (SK : skipn (S (length pre')) (a0 ++ [nl; nul]) = (body ++ [nl]) ++ nul :: []).
  { unfold a0. rewrite <- !app_assoc. cbn [app]. rewrite skipn_app.
    rewrite skipn_all2 by lia. replace (S (length pre') - length pre') with 1 by lia. reflexivity. }
  rewrite SK. rewrite cstr_app.
  2:{ apply Forall_app. split; [exact NB2|]. constructor; [discriminate|constructor]. }
  assert (ES : body ++ [nl] = stamp ++ "E"%char :: chars "poch" ++ (" "%char :: repeat " "%char k ++ num ++ " "%char :: (rest ++ [nl]))).
  { unfold body. rewrite <- !app_assoc. cbn [app list_ascii_of_string chars]. reflexivity. }
  rewrite ES. change (chars "Epoch") with ("E"%char :: chars "poch").
  rewrite strstr_stamp.
  2:{ eapply Forall_impl; [|exact HS]. intros a Ha; exact (proj2 Ha). }
  rewrite skipn_app. rewrite skipn_all2 by lia. replace (length stamp + 5 - length stamp) with 5 by lia. cbn [app chars list_ascii_of_string skipn].
  change (" "%char :: repeat " "%char k ++ num ++ " "%char :: rest ++ [nl])
    with (repeat " "%char (S k) ++ num ++ " "%char :: (rest ++ [nl])).
  rewrite (atoi_numeral e num (S k) (rest ++ [nl]) ltac:(lia) HN). cbn [rbind]. unfold to_int.
  destruct (Z.leb_spec (-2147483648) (e + 1)); [|lia]. destruct (Z.leb_spec (e + 1) 2147483647); [|lia]. reflexivity.
Qed.

(** ** C39: the line *)
Lemma put_if line s : put line s = if length line + length s <=? 255 then Ok (line ++ s) else Fault OutOfBounds.
Proof.
  unfold put, max_buffer. destruct (_ <=? _) eqn:E; symmetry.
  - apply Nat.leb_le in E. replace (_ <=? 255) with true by (symmetry; apply Nat.leb_le; lia). reflexivity.
  - apply Nat.leb_gt in E. replace (_ <=? 255) with false by (symmetry; apply Nat.leb_gt; lia). reflexivity.
Qed.

Lemma txt_chars s : chars s = txt s. Proof. reflexivity. Qed.

Section Line.
  Context {FO : fops}.
  Variable fmt_e : F -> bytes.

  Lemma put_metrics_exact phase : forall metrics vals line results k,
    length vals = length metrics -> (forall i, i < length vals -> nth_error results (k + i) = nth_error vals i) ->
    length line <= 255 ->
    let text := concat (map (result_text (if phase =? 1 then "val_" else ""))
                          (combine (map get_metric_name metrics) (map fmt_e vals))) in
    put_metrics fmt_e line phase metrics results k
    = if length line + length text <=? 255 then Ok (line ++ text) else Fault OutOfBounds.
  Proof.
    induction metrics as [|t metrics IH]; intros vals line results k HL HR HB; cbv zeta.
    - destruct vals; [|discriminate]. simpl. rewrite app_nil_r, Nat.add_0_r. apply Nat.leb_le in HB. rewrite HB. reflexivity.
    - destruct vals as [|x vals]; [discriminate|]. simpl in HL. cbn [put_metrics].
      rewrite <- (Nat.add_0_r k). rewrite (HR 0) by (simpl; lia). cbn [nth_error].
      cbn [map combine concat].
      set (one := (if phase =? 1 then chars "val_" else []) ++ _).
      assert (E1 : one = result_text (if phase =? 1 then "val_" else "") (get_metric_name t, fmt_e x)).
      { unfold one, result_text. destruct (phase =? 1); reflexivity. }
      rewrite <- E1. rewrite put_if. destruct (length line + length one <=? 255) eqn:EL.
      + apply Nat.leb_le in EL. cbn [rbind]. specialize (IH vals (line ++ one) results (S k)). cbv zeta in IH.
        rewrite Nat.add_0_r. rewrite IH.
        * rewrite !app_length, <- app_assoc, Nat.add_assoc. reflexivity.
        * lia.
        * intros i Hi. specialize (HR (S i)). cbn [nth_error length] in HR. rewrite <- HR by lia. f_equal. lia.
        * rewrite app_length. lia.
      + apply Nat.leb_gt in EL. cbn [rbind]. rewrite app_length.
        replace (_ <=? 255) with false by (symmetry; apply Nat.leb_gt; lia). reflexivity.
  Qed.

  Lemma digits_len f : forall k z, (z < 10 ^ Z.of_nat k)%Z -> 0 < k -> length (digits f z) <= k.
  Proof.
    induction f as [|f IH]; intros k z H Hk; [simpl; lia|]. cbn [digits]. rewrite app_length. simpl (length [_]).
    destruct (z <? 10)%Z eqn:E; [simpl; lia|]. apply Z.ltb_ge in E.
    destruct k as [|k]; [lia|]. destruct k as [|k]; [change (10 ^ Z.of_nat 1)%Z with 10%Z in H; lia|].
    specialize (IH (S k) (z / 10)%Z). assert (HD : (z / 10 < 10 ^ Z.of_nat (S k))%Z).
    { apply Z.div_lt_upper_bound; [lia|]. rewrite (Nat2Z.inj_succ (S k)), Z.pow_succ_r in H by lia. lia. }
    specialize (IH HD ltac:(lia)). lia.
  Qed.

  Lemma fmt_d_len z : (-2147483648 <= z <= 2147483647)%Z -> length (fmt_d z) <= 11.
  Proof.
    intros H. unfold fmt_d. destruct (z <? 0)%Z.
    - cbn [length]. pose proof (digits_len 11 10 (- z)%Z). change (10 ^ Z.of_nat 10)%Z with 10000000000%Z in *. lia.
    - pose proof (digits_len 11 10 z). change (10 ^ Z.of_nat 10)%Z with 10000000000%Z in *. lia.
  Qed.
  Lemma fmt_3d_len z : (-2147483648 <= z <= 2147483647)%Z -> length (fmt_3d z) <= 11.
  Proof. intros H. unfold fmt_3d. rewrite app_length, repeat_length. pose proof (fmt_d_len z H). lia. Qed.
  Lemma fmt_02d_len n : n < 100 -> length (fmt_02d n) = 2.
  Proof.
    intros H. unfold fmt_02d. rewrite app_length, repeat_length.
    assert (length (fmt_d (Z.of_nat n)) <= 2); [|lia].
    unfold fmt_d. destruct (Z.of_nat n <? 0)%Z eqn:E; [apply Z.ltb_lt in E; lia|].
    apply digits_len; [change (10 ^ Z.of_nat 2)%Z with 100%Z|]; lia.
  Qed.

  Lemma inline_digit c : is_digit c = true -> inline c /\ c <> "E"%char.
  Proof. intros H. repeat split; intros ->; discriminate H. Qed.

  Lemma fmt_d_inline z : Forall (fun c => inline c /\ c <> "E"%char) (fmt_d z).
  Proof.
    assert (D : forall f y, Forall (fun c => inline c /\ c <> "E"%char) (digits f y)).
    { intros f y. eapply Forall_impl; [|apply digits_are]. intros c; exact (inline_digit c). }
    unfold fmt_d. destruct (z <? 0)%Z; [constructor; [repeat split; discriminate|]|]; apply D.
  Qed.
  Lemma fmt_02d_inline n : Forall (fun c => inline c /\ c <> "E"%char) (fmt_02d n).
  Proof.
    unfold fmt_02d. apply Forall_app. split; [|apply fmt_d_inline].
    apply Forall_forall. intros c Hc. apply repeat_spec in Hc. subst. repeat split; discriminate.
  Qed.

  Hypothesis fmt_e_inline : forall x, Forall inline (fmt_e x).

  Lemma name_inline t : Forall inline (chars (get_metric_name t)).
  Proof. destruct t; repeat constructor; discriminate. Qed.

  Lemma put_ok line s l : put line s = Ok l -> l = line ++ s.
  Proof. rewrite put_if. destruct (_ <=? _); [|discriminate]. intros E. inversion E. reflexivity. Qed.

  Lemma put_metrics_app phase : forall metrics line results k l, put_metrics fmt_e line phase metrics results k = Ok l ->
    exists t, l = line ++ t /\ Forall inline t.
  Proof.
    induction metrics as [|t metrics IH]; intros line results k l E.
    - inversion E; subst. exists []. rewrite app_nil_r. split; [reflexivity|constructor].
    - cbn [put_metrics] in E. destruct (nth_error results k) as [x|]; [|discriminate].
      match type of E with rbind (put line ?s) _ = _ => set (one := s) in *; destruct (put line one) as [l1|] eqn:E1 end; [|discriminate].
      cbn [rbind] in E. apply put_ok in E1. subst l1. destruct (IH _ _ _ _ E) as (u & -> & HU).
      exists (one ++ u). rewrite app_assoc. split; [reflexivity|]. apply Forall_app. split; [|exact HU].
      unfold one. apply Forall_app. split; [destruct (phase =? 1); repeat constructor; discriminate|].
      apply Forall_app. split; [apply name_inline|]. apply Forall_app. split; [repeat constructor; discriminate|].
      apply Forall_app. split; [apply fmt_e_inline|repeat constructor; discriminate].
  Qed.

  (** a run that succeeds appends one line to the file *)
  Lemma run_appends log metrics h m s results v file log' file' :
    (-2147483648 <= lg_epoch log)%Z -> lg_filename log = true ->
    logger_run fmt_e log metrics h m s results v file true = Ok (log', file') ->
    exists line, file' = Some (match file with Some f => f | None => [] end ++ line)
      /\ log_entry (lg_epoch log) line /\ length line < max_buffer
      /\ lg_epoch log' = (lg_epoch log + 1)%Z /\ (lg_epoch log < 2147483647)%Z /\ lg_filename log' = true.
  Proof.
    intros HI HF E. unfold logger_run in E.
    match type of E with rbind (put [] ?x) _ = _ => set (a := x) in *; destruct (put [] a) as [l1|] eqn:E1 end; [|discriminate].
    cbn [rbind] in E. apply put_ok in E1. subst l1. cbn [app] in E.
    match type of E with rbind (put a ?x) _ = _ => set (b := x) in *; destruct (put a b) as [l1|] eqn:E1 end; [|discriminate].
    cbn [rbind] in E. apply put_ok in E1. subst l1.
    unfold to_int in E. destruct ((-2147483648 <=? lg_epoch log + 1) && (lg_epoch log + 1 <=? 2147483647))%Z eqn:EI; [|discriminate].
    cbn [rbind] in E. apply andb_prop in EI. destruct EI as [EI1 EI2]. apply Z.leb_le in EI1, EI2.
    destruct (put_metrics fmt_e (a ++ b) 0 metrics results 0) as [l1|] eqn:E1; [|discriminate]. cbn [rbind] in E.
    apply put_metrics_app in E1. destruct E1 as (t1 & -> & I1).
    match type of E with rbind ?x _ = _ =>
      assert (E2 : exists t2 l2, x = Ok l2 /\ l2 = ((a ++ b) ++ t1) ++ t2 /\ Forall inline t2) end.
    { destruct v.
      - destruct (put_metrics fmt_e ((a ++ b) ++ t1) 1 metrics results (length metrics)) as [l1|] eqn:E1; [|discriminate].
        apply put_metrics_app in E1 as Q. destruct Q as (t2 & -> & I2). eexists t2, _. split; [reflexivity|]. split; [reflexivity|exact I2].
      - exists [], ((a ++ b) ++ t1). rewrite app_nil_r. split; [reflexivity|]. split; [reflexivity|constructor]. }
    destruct E2 as (t2 & l2 & E2 & -> & I2). rewrite E2 in E. cbn [rbind] in E.
    match type of E with rbind (put ?y ?x) _ = _ => destruct (put y x) as [l1|] eqn:E1 end; [|discriminate].
    cbn [rbind] in E. apply put_ok in E1. subst l1.
    set (line := (((a ++ b) ++ t1) ++ t2) ++ [nl]) in *.
    destruct (length line <? max_buffer) eqn:EL; [|discriminate]. apply Nat.ltb_lt in EL.
    rewrite HF in E. cbn [andb] in E. inversion E; subst log' file'. clear E.
    exists line. split; [reflexivity|]. split; [|split; [exact EL|split; [reflexivity|split; [lia|reflexivity]]]].
    exists a, (3 - length (fmt_d (lg_epoch log))), (fmt_d (lg_epoch log)), (t1 ++ t2).
    split; [|split; [|split]].
    - unfold line, b, fmt_3d. rewrite <- !app_assoc. cbn [app chars list_ascii_of_string].
      reflexivity.
    - apply fmt_d_numeral. lia.
    - apply Forall_app. split; assumption.
    - unfold a. repeat (apply Forall_app; split; [first [apply fmt_02d_inline|repeat constructor; discriminate]|]).
      repeat constructor; discriminate.
  Qed.

  Lemma runs_append metrics : forall epochs log file log' file',
    (-2147483648 <= lg_epoch log)%Z -> lg_filename log = true ->
    logger_runs fmt_e log metrics epochs file = Ok (log', file') ->
    lg_epoch log' = (lg_epoch log + Z.of_nat (length epochs))%Z /\ lg_filename log' = true
    /\ (epochs = [] -> file' = file)
    /\ (forall e0 es, epochs = e0 :: es ->
          exists pre line, file' = Some (match file with Some f => f | None => [] end ++ pre ++ line)
            /\ log_entry (lg_epoch log' - 1) line /\ length line < max_buffer /\ (lg_epoch log' - 1 < 2147483647)%Z
            /\ Forall (fun c => c <> nul) pre /\ (es <> [] -> exists q, pre = q ++ [nl]) /\ (es = [] -> pre = [])).
  Proof.
    induction epochs as [|[[[[h m] s] r] v] epochs IH]; intros log file log' file' HI HF E.
    - inversion E; subst. simpl. split; [lia|]. split; [exact HF|]. split; [reflexivity|]. intros; discriminate.
    - cbn [logger_runs] in E.
      destruct (logger_run fmt_e log metrics h m s r v file true) as [[log1 file1]|] eqn:E1; [|discriminate].
      cbn [rbind fst snd] in E. apply run_appends in E1; [|exact HI|exact HF].
      destruct E1 as (line & Ef & EN & LL & EE & LE & HF1).
      destruct (IH log1 file1 log' file' ltac:(lia) HF1 E) as (A & B & C & D).
      split; [rewrite A, EE; simpl length; lia|]. split; [exact B|]. split; [intros Q; discriminate Q|].
      intros e0 es Q. injection Q as _ <-.
      destruct epochs as [|e1 es].
      + rewrite (C eq_refl). exists [], line. simpl in A. rewrite A, EE. split; [exact Ef|].
        replace (lg_epoch log + 1 + 0 - 1)%Z with (lg_epoch log) by lia.
        split; [exact EN|]. split; [exact LL|]. split; [exact LE|]. split; [constructor|]. split; [congruence|reflexivity].
      + destruct (D e1 es eq_refl) as (pre & line' & Ef' & EN' & LL' & LE' & NP & P1 & P2).
        exists (line ++ pre), line'. rewrite Ef', Ef. split; [rewrite <- !app_assoc; reflexivity|].
        split; [exact EN'|]. split; [exact LL'|]. split; [exact LE'|].
        assert (NL : Forall (fun c => c <> nul) line /\ exists q, line = q ++ [nl]).
        { destruct EN as (stamp & k & num & rest & EL & HN & HR & HS). split.
          - rewrite EL. apply Forall_app. split; [eapply Forall_impl; [|exact HS]; intros c Hc; exact (proj2 (proj1 Hc))|].
            apply Forall_app. split; [repeat constructor; discriminate|].
            apply Forall_app. split; [apply Forall_forall; intros c Hc; apply repeat_spec in Hc; subst; discriminate|].
            apply Forall_app. split.
            + assert (DV : forall s acc v, digits_value acc s = Some v -> Forall (fun c => c <> nul) s).
              { clear. induction s as [|a s IH]; intros acc v H; constructor.
                - apply value_digit in H. intros ->; discriminate.
                - cbn [digits_value] in H. cbv zeta in H. destruct (_ && _); [|discriminate]. exact (IH _ _ H). }
              destruct HN as [(_ & _ & V)|(_ & s0 & -> & _ & V)]; [exact (DV _ _ _ V)|].
              constructor; [discriminate|exact (DV _ _ _ V)].
            + constructor; [discriminate|]. apply Forall_app. split; [eapply Forall_impl; [|exact HR]; intros c Hc; exact (proj2 Hc)|].
              repeat constructor; discriminate.
          - rewrite EL. eexists (stamp ++ list_ascii_of_string "Epoch " ++ repeat " "%char k ++ num ++ " "%char :: rest).
            rewrite <- !app_assoc. cbn [app]. reflexivity. }
        destruct NL as [NL (q & Q)]. split; [apply Forall_app; split; assumption|]. split; [|congruence].
        intros _. destruct es as [|e2 es].
        * rewrite (P2 eq_refl), app_nil_r. exists q. exact Q.
        * destruct (P1 ltac:(discriminate)) as (q' & ->). exists (line ++ q'). rewrite app_assoc. reflexivity.
  Qed.
End Line.
