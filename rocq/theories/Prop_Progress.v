(** Prop_Progress.v -- C58: the progress bar. *)
From Coq Require Import ZArith Bool String Ascii List Reals Lia Lra.
From Flocq Require Import Core BinarySingleNaN.
From Verif Require Import Base BaseProofs Ops OpsB32 Logger SpecLog LoggerProofs Progress.
Import ListNotations.
Local Open Scope Z_scope.

Definition rnd (r : R) : R := round radix2 (SpecFloat.fexp 24 128) (round_mode mode_NE) r.

Lemma rnd_le a b : (a <= b)%R -> (rnd a <= rnd b)%R.
Proof. intros H. apply round_le; [apply fexp_correct; reflexivity|apply valid_rnd_N|exact H]. Qed.

Lemma rnd_Z k : Z.abs k < 2 ^ 24 -> rnd (IZR k) = IZR k.
Proof.
  intros H. apply round_generic; [apply valid_rnd_N|].
  change (SpecFloat.fexp 24 128) with (FLT_exp (-149) 24). apply generic_format_FLT.
  apply (FLT_spec radix2 (-149) 24 (IZR k) (Float radix2 k 0)).
  - unfold F2R. simpl. rewrite Rmult_1_r. reflexivity.
  - exact H.
  - simpl. lia.
Qed.

Lemma rnd_pow : rnd (IZR (2 ^ 31)) = IZR (2 ^ 31).
Proof.
  apply round_generic; [apply valid_rnd_N|]. change (IZR (2 ^ 31)) with (bpow radix2 31).
  apply generic_format_bpow. vm_compute. discriminate.
Qed.

Lemma big_pow z : z <= 2 ^ 31 -> (IZR z < bpow radix2 128)%R.
Proof. intros H. change (bpow radix2 128) with (IZR (2 ^ 128)). apply IZR_lt. lia. Qed.

(** int to float *)
Lemma ofZ_R z : 0 <= z <= 2 ^ 31 ->
  B2R (b32_ofZ z) = rnd (IZR z) /\ is_finite (b32_ofZ z) = true /\ (0 <= rnd (IZR z) <= IZR (2 ^ 31))%R.
Proof.
  intros H.
  assert (B : (0 <= rnd (IZR z) <= IZR (2 ^ 31))%R).
  { split.
    - change 0%R with (IZR 0). rewrite <- (rnd_Z 0) at 1 by reflexivity. apply rnd_le. apply IZR_le. lia.
    - rewrite <- rnd_pow at 1. apply rnd_le. apply IZR_le. lia. }
  pose proof (binary_normalize_correct 24 128 prec_gt_0_32 prec_lt_emax_32 mode_NE z 0 false) as C. cbv zeta in C.
  replace (F2R {| Fnum := z; Fexp := 0 |}) with (IZR z) in C by (unfold F2R; simpl; rewrite Rmult_1_r; reflexivity).
  fold (rnd (IZR z)) in C. rewrite Rlt_bool_true in C.
  - destruct C as (C1 & C2 & _). split; [exact C1|]. split; [exact C2|exact B].
  - rewrite Rabs_pos_eq by lra. apply Rle_lt_trans with (1 := proj2 B). apply big_pow. lia.
Qed.

(** the quotient *)
Lemma ratio_R x n : 0 <= x <= n -> 0 < n <= 2 ^ 31 ->
  B2R (Bdiv mode_NE (b32_ofZ x) (b32_ofZ n)) = rnd (rnd (IZR x) / rnd (IZR n))
  /\ is_finite (Bdiv mode_NE (b32_ofZ x) (b32_ofZ n)) = true
  /\ (1 <= rnd (IZR n))%R
  /\ (0 <= rnd (rnd (IZR x) / rnd (IZR n)) <= 1)%R.
Proof.
  intros Hx Hn. destruct (ofZ_R x ltac:(lia)) as (Ex & Fx & Bx). destruct (ofZ_R n ltac:(lia)) as (En & Fn & Bn).
  assert (L1 : (1 <= rnd (IZR n))%R).
  { rewrite <- (rnd_Z 1) at 1 by reflexivity. apply rnd_le. apply IZR_le. lia. }
  assert (Lxn : (rnd (IZR x) <= rnd (IZR n))%R) by (apply rnd_le; apply IZR_le; lia).
  assert (Q : (0 <= rnd (IZR x) / rnd (IZR n) <= 1)%R).
  { split; [apply Rmult_le_pos; [lra|]; left; apply Rinv_0_lt_compat; lra|].
    apply (Rmult_le_reg_r (rnd (IZR n))); [lra|]. unfold Rdiv. rewrite Rmult_assoc, Rinv_l by lra. lra. }
  assert (B : (0 <= rnd (rnd (IZR x) / rnd (IZR n)) <= 1)%R).
  { split.
    - change 0%R with (IZR 0). rewrite <- (rnd_Z 0) at 1 by reflexivity. apply rnd_le. exact (proj1 Q).
    - rewrite <- (rnd_Z 1) at 1 by reflexivity. apply rnd_le. exact (proj2 Q). }
  pose proof (Bdiv_correct 24 128 _ _ mode_NE (b32_ofZ x) (b32_ofZ n)) as C. rewrite Ex, En in C.
  specialize (C ltac:(lra)). fold (rnd (rnd (IZR x) / rnd (IZR n))) in C. rewrite Rlt_bool_true in C.
  - destruct C as (C1 & C2 & _). rewrite Fx in C2. split; [exact C1|]. split; [exact C2|]. split; [exact L1|exact B].
  - rewrite Rabs_pos_eq by lra. apply Rle_lt_trans with (1 := proj2 B). apply (big_pow 1). lia.
Qed.

(** ratio * w, truncated *)
Definition cells (x n w : Z) : Z := Ztrunc (rnd (rnd (rnd (IZR x) / rnd (IZR n)) * IZR w)).

Lemma cells_bounds x n w : 0 <= x <= n -> 0 < n <= 2 ^ 31 -> 0 <= w < 2 ^ 24 ->
  0 <= cells x n w <= w /\ int_of_float (Bmult mode_NE (Bdiv mode_NE (b32_ofZ x) (b32_ofZ n)) (b32_ofZ w)) = Ok (cells x n w).
Proof.
  intros Hx Hn Hw. destruct (ratio_R x n Hx Hn) as (Er & Fr & _ & Br). destruct (ofZ_R w ltac:(lia)) as (Ew & Fw & _).
  rewrite rnd_Z in Ew by lia. set (q := rnd (rnd (IZR x) / rnd (IZR n))) in *.
  assert (W0 : (0 <= IZR w)%R) by (apply IZR_le; lia).
  assert (B : (0 <= rnd (q * IZR w) <= IZR w)%R).
  { split.
    - change 0%R with (IZR 0). rewrite <- (rnd_Z 0) at 1 by reflexivity. apply rnd_le. apply Rmult_le_pos; [exact (proj1 Br)|exact W0].
    - rewrite <- (rnd_Z w) at 2 by lia. apply rnd_le.
      rewrite <- (Rmult_1_l (IZR w)) at 2. apply Rmult_le_compat_r; [exact W0|exact (proj2 Br)]. }
  assert (BC : 0 <= cells x n w <= w).
  { unfold cells. fold q. split.
    - rewrite <- (Ztrunc_IZR 0). apply Ztrunc_le. exact (proj1 B).
    - rewrite <- (Ztrunc_IZR w) at 2. apply Ztrunc_le. exact (proj2 B). }
  split; [exact BC|].
  pose proof (Bmult_correct 24 128 _ _ mode_NE (Bdiv mode_NE (b32_ofZ x) (b32_ofZ n)) (b32_ofZ w)) as C.
  rewrite Er, Ew in C. fold (rnd (q * IZR w)) in C. rewrite Rlt_bool_true in C.
  2:{ rewrite Rabs_pos_eq by lra. apply Rle_lt_trans with (1 := proj2 B). apply big_pow. lia. }
  destruct C as (C1 & C2 & _). rewrite Fr, Fw in C2. cbn [andb] in C2.
  set (p := Bmult mode_NE (Bdiv mode_NE (b32_ofZ x) (b32_ofZ n)) (b32_ofZ w)) in *.
  assert (T : Btrunc p = cells x n w).
  { apply eq_IZR. rewrite (Btrunc_correct 24 128 _ p), C1. unfold round, F2R, scaled_mantissa, cexp, FIX_exp. simpl.
    rewrite !Rmult_1_r. reflexivity. }
  unfold int_of_float. destruct p as [sp|sp| |sp mp ep Hp]; try discriminate C2.
  - rewrite <- T. reflexivity.
  - rewrite T. unfold to_int. destruct (Z.leb_spec (-2147483648) (cells x n w)); [|lia].
    destruct (Z.leb_spec (cells x n w) 2147483647); [reflexivity|lia].
Qed.

Lemma cells_mono x y n w : 0 <= x <= y -> y <= n -> 0 < n <= 2 ^ 31 -> 0 <= w -> cells x n w <= cells y n w.
Proof.
  intros H Hy Hn Hw. unfold cells. apply Ztrunc_le, rnd_le. apply Rmult_le_compat_r; [apply IZR_le; lia|].
  apply rnd_le. destruct (ratio_R x n ltac:(lia) Hn) as (_ & _ & L & _).
  apply Rmult_le_compat_r; [left; apply Rinv_0_lt_compat; lra|]. apply rnd_le. apply IZR_le. lia.
Qed.

Lemma cells_full n w : 0 < n <= 2 ^ 31 -> 0 <= w < 2 ^ 24 -> cells n n w = w.
Proof.
  intros Hn Hw. destruct (ratio_R n n ltac:(lia) Hn) as (_ & _ & L & _). unfold cells.
  unfold Rdiv. rewrite Rinv_r by lra. change 1%R with (IZR 1). rewrite (rnd_Z 1) by reflexivity.
  rewrite Rmult_1_l, rnd_Z by lia. apply Ztrunc_IZR.
Qed.

(** the percentage takes three characters *)
Lemma pct_three z : 0 <= z <= 100 -> length (fmt_3d z) = 3%nat.
Proof.
  intros H. unfold fmt_3d. rewrite app_length, repeat_length.
  assert (length (fmt_d z) <= 3)%nat; [|lia]. unfold fmt_d. destruct (z <? 0) eqn:E; [apply Z.ltb_lt in E; lia|].
  apply digits_len; [change (10 ^ Z.of_nat 3) with 1000|]; lia.
Qed.

(** C58: between the brackets there are exactly w characters, # and then -; the line is as wide as the terminal;
    it is ended by a newline at x = n and by a carriage return before that *)
Theorem progress_width : forall cols x n label,
  1 <= cols <= 65535 -> 0 < n <= 2147483647 -> 0 <= x <= n ->
  let w := cols - 7 - Z.of_nat (length label) in
  exists out, progress_ascii (Some cols) x n label = Ok out
  /\ (w < 1 -> out = [])
  /\ (1 <= w -> exists hashes dashes pct,
        out = label ++ ["["%char] ++ repeat "#"%char hashes ++ repeat "-"%char dashes
                    ++ ["]"%char; " "%char] ++ pct ++ ["%"%char; if x =? n then "010"%char else "013"%char]
        /\ Z.of_nat (hashes + dashes) = w /\ length pct = 3%nat /\ Z.of_nat (length out) = cols + 1
        /\ (exists v, padded 3 " " v pct /\ 0 <= v <= 100 /\ (x = n -> v = 100))
        /\ (x = n -> dashes = 0%nat)).
Proof.
  intros cols x n label Hc Hn Hx w. unfold progress_ascii.
  assert (EG : getcols (Some cols) = cols). { unfold getcols. destruct (Z.eqb_spec cols 0); [lia|reflexivity]. }
  rewrite EG. fold w. destruct (Z.ltb_spec w 1) as [Lw|Lw].
  - exists []. split; [reflexivity|]. split; [reflexivity|lia].
  - assert (Bw : 0 <= w < 2 ^ 24). { unfold w in *. change (2 ^ 24) with 16777216. lia. }
    destruct (cells_bounds x n w Hx ltac:(lia) Bw) as (B1 & E1).
    destruct (cells_bounds x n 100 Hx ltac:(lia) ltac:(lia)) as (B2 & E2).
    rewrite E1. cbn [rbind]. rewrite E2. cbn [rbind].
    eexists. split; [reflexivity|]. split; [lia|]. intros _.
    exists (Z.to_nat (cells x n w)), (Z.to_nat (w - cells x n w)), (fmt_3d (cells x n 100)).
    split; [reflexivity|]. split; [lia|]. split; [apply pct_three; exact B2|]. split; [|split].
    + rewrite !app_length, !repeat_length, (pct_three _ B2). cbn [length chars list_ascii_of_string]. unfold w in *. lia.
    + exists (cells x n 100). split; [exists (fmt_d (cells x n 100)); split; [apply fmt_d_numeral; lia|reflexivity]|].
      split; [exact B2|]. intros ->. apply cells_full; lia.
    + intros ->. rewrite cells_full by lia. rewrite Z.sub_diag. reflexivity.
Qed.
Print Assumptions progress_width.

(** nothing is printed if stdout is not a terminal *)
Theorem progress_notty : forall x n label, progress_ascii None x n label = Ok [].
Proof.
  intros x n label. unfold progress_ascii. cbn [getcols]. destruct (Z.ltb_spec (0 - 7 - Z.of_nat (length label)) 1); [reflexivity|lia].
Qed.
Print Assumptions progress_notty.

(** a terminal that does not know its width counts as one of 80 columns *)
Theorem progress_unknown_width : forall x n label, progress_ascii (Some 0) x n label = progress_ascii (Some 80) x n label.
Proof. reflexivity. Qed.
Print Assumptions progress_unknown_width.

(** the bar never shrinks while x grows *)
Definition hash_count (r : res bytes) : nat :=
  match r with Ok out => count_occ Ascii.ascii_dec out "#"%char | Fault _ => 0 end.

Theorem progress_monotone : forall cols x y n label,
  1 <= cols <= 65535 -> 0 < n <= 2147483647 -> 0 <= x <= y -> y <= n ->
  (hash_count (progress_ascii (Some cols) x n label) <= hash_count (progress_ascii (Some cols) y n label))%nat.
Proof.
  assert (CR : forall a k, count_occ Ascii.ascii_dec (repeat a k) "#"%char = if Ascii.ascii_dec a "#" then k else 0%nat).
  { intros a k. induction k; simpl; destruct (Ascii.ascii_dec a "#"); congruence. }
  assert (CD : forall z, count_occ Ascii.ascii_dec (fmt_3d z) "#"%char = 0%nat).
  { intros z. apply count_occ_not_In. unfold fmt_3d. intros Hin. apply in_app_or in Hin. destruct Hin as [Hin|Hin].
    - apply repeat_spec in Hin. discriminate.
    - unfold fmt_d in Hin. assert (D : forall f y, ~ In "#"%char (digits f y)).
      { intros f y Q. pose proof (digits_are f y) as D. rewrite Forall_forall in D. apply D in Q. discriminate. }
      destruct (z <? 0); [destruct Hin as [Hin|Hin]; [discriminate|]|]; exact (D _ _ Hin). }
  intros cols x y n label Hc Hn Hxy Hy. unfold progress_ascii.
  assert (EG : getcols (Some cols) = cols). { unfold getcols. destruct (Z.eqb_spec cols 0); [lia|reflexivity]. }
  rewrite EG. set (w := cols - 7 - Z.of_nat (length label)). destruct (Z.ltb_spec w 1) as [Lw|Lw]; [apply le_n|].
  assert (Bw : 0 <= w < 2 ^ 24). { unfold w in *. change (2 ^ 24) with 16777216. lia. }
  rewrite (proj2 (cells_bounds x n w ltac:(lia) ltac:(lia) Bw)), (proj2 (cells_bounds y n w ltac:(lia) ltac:(lia) Bw)).
  cbn [rbind].
  rewrite (proj2 (cells_bounds x n 100 ltac:(lia) ltac:(lia) ltac:(lia))), (proj2 (cells_bounds y n 100 ltac:(lia) ltac:(lia) ltac:(lia))).
  cbn [rbind hash_count]. rewrite !count_occ_app, !CR, !CD.
  assert (EE : forall a b, count_occ Ascii.ascii_dec [if a =? b then nl else cr] "#"%char = 0%nat).
  { intros a b. destruct (a =? b); reflexivity. }
  rewrite !EE. destruct (Ascii.ascii_dec "#" "#"); [|congruence]. destruct (Ascii.ascii_dec "-" "#"); [discriminate|].
  pose proof (cells_mono x y n w Hxy Hy ltac:(lia) ltac:(lia)). lia.
Qed.
Print Assumptions progress_monotone.

(** n = 0 is undefined behaviour: 0/0 is NaN and is converted to int *)
Example progress_zero : progress_ascii (Some 80) 0 0 [] = Fault IntOverflow.
Proof. vm_compute. reflexivity. Qed.

Example progress_case :
  progress_ascii (Some 24) 2 3 (chars "Train ")
  = Ok (chars "Train [#######----]  66%" ++ [cr]).
Proof. vm_compute. reflexivity. Qed.
