(** Prop_Idx.v -- C96, C97 and C98: the reader of the MNIST files, examples/example_03.c. *)
From Flocq Require Import Core BinarySingleNaN.
From Coq Require Import Reals ZArith Bool String Ascii List Lia Lra Psatz.
From Verif Require Import Base BaseProofs Ops OpsB32 Logger Idx SpecIdx IdxProofs.
Import ListNotations.
Local Open Scope nat_scope.

Section Idx.
  Variable lm : libm.
  Notation OP := (opsB32 lm).
  Variable alloc : Z -> bool.

  (** the float32 number for a byte: b / 255, rounded once, never negative zero *)
  Definition pixel_value (c : ascii) (x : b32) : Prop :=
    is_finite x = true /\ Bsign x = false
    /\ B2R x = round radix2 (SpecFloat.fexp 24 128) ZnearestE (IZR (Z.of_nat (nat_of_ascii c)) / 255).

  Lemma ofZ_small z : (0 <= z <= 255)%Z -> B2R (b32_ofZ z) = IZR z /\ is_finite (b32_ofZ z) = true /\ Bsign (b32_ofZ z) = false.
  Proof.
    intros H. unfold b32_ofZ, b32_of.
    pose proof (binary_normalize_correct 24 128 prec_gt_0_32 prec_lt_emax_32 mode_NE z 0 false) as C. cbv zeta in C.
    assert (E : F2R (Float radix2 z 0) = IZR z) by (unfold F2R; cbn; ring).
    assert (R : round radix2 (SpecFloat.fexp 24 128) (round_mode mode_NE) (F2R (Float radix2 z 0)) = IZR z).
    { rewrite E. apply round_generic; [apply valid_rnd_N|].
      destruct (Z.eq_dec z 0) as [->|NZ]; [apply generic_format_0|]. rewrite <- E.
      apply generic_format_F2R. intros _. unfold cexp. rewrite E. unfold SpecFloat.fexp, SpecFloat.emin.
      assert (mag radix2 (IZR z) <= 8)%Z; [|lia].
      apply mag_le_bpow; [apply IZR_neq; exact NZ|]. rewrite Rabs_pos_eq by (apply IZR_le; lia).
      change (bpow radix2 8) with (IZR 256). apply IZR_lt. lia. }
    rewrite R in C. rewrite Rlt_bool_true in C.
    - destruct C as (C1 & C2 & C3). split; [exact C1|]. split; [exact C2|]. rewrite C3, E.
      destruct (Rcompare_spec (IZR z) 0) as [Q|Q|Q]; try reflexivity. apply lt_IZR in Q. lia.
    - rewrite Rabs_pos_eq by (apply IZR_le; lia). apply Rlt_trans with (bpow radix2 8).
      + change (bpow radix2 8) with (IZR 256). apply IZR_lt. lia.
      + apply bpow_lt. reflexivity.
  Qed.

  Lemma pixel_ok c : pixel_value c (@pixel OP c).
  Proof.
    unfold pixel_value, pixel. cbn [fdiv fofZ opsB32]. fold (uchar c). pose proof (uchar_range c) as RC.
    destruct (ofZ_small (uchar c) ltac:(lia)) as (A1 & A2 & A3). destruct (ofZ_small 255 ltac:(lia)) as (B1 & B2 & B3).
    assert (NZ : B2R (b32_ofZ 255) <> 0%R) by (rewrite B1; apply IZR_neq; lia).
    pose proof (Bdiv_correct 24 128 prec_gt_0_32 prec_lt_emax_32 mode_NE (b32_ofZ (uchar c)) (b32_ofZ 255) NZ) as C.
    rewrite A1, B1 in C.
    assert (Q : (0 <= IZR (uchar c) / 255 <= 1)%R).
    { assert (0 <= IZR (uchar c) <= 255)%R by (split; apply IZR_le; lia). split; [apply Rmult_le_pos; lra|].
      apply Rmult_le_reg_r with 255%R; [lra|]. unfold Rdiv. rewrite Rmult_assoc, Rinv_l by lra. lra. }
    assert (RB : (Rabs (round radix2 (SpecFloat.fexp 24 128) (round_mode mode_NE) (IZR (uchar c) / 255)) <= 1)%R).
    { apply abs_round_le_generic; [apply fexp_correct; exact prec_gt_0_32|apply valid_rnd_N| |rewrite Rabs_pos_eq; lra].
      change 1%R with (bpow radix2 0). apply generic_format_bpow. cbn. lia. }
    rewrite Rlt_bool_true in C.
    - destruct C as (C1 & C2 & C3). rewrite A2 in C2. split; [exact C2|]. split; [|exact C1].
      rewrite C3; [rewrite A3, B3; reflexivity|]. destruct (Bdiv mode_NE (b32_ofZ (uchar c)) (b32_ofZ 255)); try reflexivity; discriminate C2.
    - eapply Rle_lt_trans; [exact RB|]. change 1%R with (bpow radix2 0). apply bpow_lt. reflexivity.
  Qed.

  (** three numbers in front *)
  Lemma concat3 bs dims d0 d1 d2 : Forall2 big_endian bs dims -> dims = [d0; d1; d2] ->
    exists b0 b1 b2, bs = [b0; b1; b2] /\ big_endian b0 d0 /\ big_endian b1 d1 /\ big_endian b2 d2.
  Proof.
    intros H ->. inversion H as [|b0 ? t0 ? B0 H0]; subst. inversion H0 as [|b1 ? t1 ? B1 H1]; subst.
    inversion H1 as [|b2 ? t2 ? B2 H2]; subst. inversion H2; subst. exists b0, b1, b2. repeat split; try assumption; first [apply B0|apply B1|apply B2].
  Qed.

  Lemma mod_mul_mod n f : (u32 (n * u32 f) = (n * f) mod 4294967296)%Z.
  Proof. unfold u32. rewrite Zmult_mod_idemp_r. reflexivity. Qed.

  Lemma features_eq file n rows cols content : (forall k, alloc k = true) -> idx_file file [n; rows; cols] content ->
    @read_features OP alloc (Some file)
    = rbind (scale_bytes (Z.to_nat ((n * (rows * cols)) mod 4294967296)) (firstn (Z.to_nat ((n * (rows * cols)) mod 4294967296)) content))
        (fun X => Ok (Some (X, n, (rows * cols) mod 4294967296)%Z)).
  Proof.
    intros HA (bs & HB & ->). destruct (concat3 _ _ _ _ _ HB eq_refl) as (b0 & b1 & b2 & -> & B0 & B1 & B2).
    unfold read_features. cbn [concat]. rewrite app_nil_r, <- !app_assoc.
    change (read_magic 3) with (read_magic (Z.of_nat 3)). change (map ascii_of_nat [0; 0; 8; length [n; rows; cols]]) with (magic_bytes 3).
    rewrite read_magic_ok by lia. cbn [rbind]. rewrite (read_uint_ok _ _ _ B0). cbn [rbind]. rewrite (read_uint_ok _ _ _ B1). cbn [rbind].
    rewrite (read_uint_ok _ _ _ B2). cbn [rbind]. rewrite mod_mul_mod, !HA. cbn [negb andb fread]. reflexivity.
  Qed.

  (** C96: for a file of n images of rows * cols bytes the result is n, rows * cols and the pixels in order, each divided
      by 255, in [0, 1] *)
  Theorem idx_images_read file n rows cols content :
    (forall k, alloc k = true) -> idx_file file [n; rows; cols] content ->
    (n * (rows * cols) < 4294967296)%Z -> (rows * cols < 4294967296)%Z -> (n * (rows * cols) <= Z.of_nat (length content))%Z ->
    exists X, @read_features OP alloc (Some file) = Ok (Some (X, n, (rows * cols)%Z))
      /\ Z.of_nat (length X) = (n * (rows * cols))%Z /\ Forall2 pixel_value (firstn (length X) content) X.
  Proof.
    intros HA HI H1 H2 HL. rewrite (features_eq _ _ _ _ _ HA HI).
    destruct HI as (bs & HB & _). destruct (concat3 _ _ _ _ _ HB eq_refl) as (b0 & b1 & b2 & _ & B0 & B1 & B2).
    pose proof (big_endian_range _ _ B0). pose proof (big_endian_range _ _ B1). pose proof (big_endian_range _ _ B2).
    assert (0 <= rows * cols)%Z by nia. assert (0 <= n * (rows * cols))%Z by nia.
    rewrite (Z.mod_small (n * (rows * cols))) by lia. rewrite (Z.mod_small (rows * cols)) by lia.
    set (k := Z.to_nat (n * (rows * cols))). assert (LK : k <= length content) by (unfold k; lia).
    rewrite scale_ok by (rewrite firstn_length; lia). cbn [rbind]. eexists. split; [reflexivity|].
    assert (LX : length (map (@pixel OP) (firstn k (firstn k content))) = k) by (rewrite map_length, !firstn_length; lia).
    split; [change (@F OP) with b32 in *; rewrite LX; unfold k; lia|]. change (@F OP) with b32 in *. rewrite LX.
    rewrite firstn_firstn, Nat.min_id. clear. induction (firstn k content) as [|c l IH]; constructor; [apply pixel_ok|exact IH].
  Qed.

  (** C98, images: a file is taken exactly if it begins with the header of three dimensions and contains as many bytes as
      the product of the dimensions modulo 2^32; otherwise a check fails or bytes that do not exist are used *)
  Theorem idx_images_exact file : (forall k, alloc k = true) ->
    ((exists n rows cols content, idx_file file [n; rows; cols] content /\ ((n * (rows * cols)) mod 4294967296 <= Z.of_nat (length content))%Z)
     /\ exists r, @read_features OP alloc (Some file) = Ok (Some r))
    \/ ((forall fp, file <> map ascii_of_nat [0; 0; 8; 3] ++ fp) /\ 4 <= length file /\ @read_features OP alloc (Some file) = Fault AssertFailed)
    \/ ((length file < 16 \/ exists n rows cols content, idx_file file [n; rows; cols] content /\ (Z.of_nat (length content) < (n * (rows * cols)) mod 4294967296)%Z)
        /\ (@read_features OP alloc (Some file) = Fault Uninit \/ (length file < 4 /\ @read_features OP alloc (Some file) = Fault AssertFailed))).
  Proof.
    intros HA. destruct (read_magic_cases 3 file ltac:(lia)) as [(fp & -> & EM)|(NM & EM)].
    - destruct (read_uint_cases fp) as [(E1 & L1)|(b0 & n & fp1 & -> & B0 & E1)].
      { right. right. split; [left; cbn [length app magic_bytes map]; lia|left]. unfold read_features. change 3%Z with (Z.of_nat 3). rewrite EM. cbn [rbind]. rewrite E1. reflexivity. }
      destruct (read_uint_cases fp1) as [(E2 & L2)|(b1 & rows & fp2 & -> & B1 & E2)].
      { right. right. split; [left; cbn [length app magic_bytes map]; rewrite app_length; destruct B0; lia|left]. unfold read_features. change 3%Z with (Z.of_nat 3). rewrite EM. cbn [rbind]. rewrite E1. cbn [rbind]. rewrite E2. reflexivity. }
      destruct (read_uint_cases fp2) as [(E3 & L3)|(b2 & cols & content & -> & B2 & E3)].
      { right. right. split; [left; cbn [length app magic_bytes map]; rewrite !app_length; destruct B0, B1; lia|left]. unfold read_features. change 3%Z with (Z.of_nat 3). rewrite EM. cbn [rbind]. rewrite E1. cbn [rbind]. rewrite E2. cbn [rbind]. rewrite E3. reflexivity. }
      assert (HI : idx_file (magic_bytes 3 ++ b0 ++ b1 ++ b2 ++ content) [n; rows; cols] content).
      { exists [b0; b1; b2]. split; [repeat constructor; first [apply B0|apply B1|apply B2]|]. cbn [concat]. rewrite app_nil_r, <- !app_assoc. reflexivity. }
      pose proof (Z.mod_pos_bound (n * (rows * cols)) 4294967296 ltac:(lia)) as MB.
      destruct (Z.le_gt_cases ((n * (rows * cols)) mod 4294967296) (Z.of_nat (length content))) as [LE|GT].
      + left. split; [exists n, rows, cols, content; split; assumption|]. rewrite (features_eq _ _ _ _ _ HA HI).
        rewrite scale_ok by (rewrite firstn_length; lia). eexists. reflexivity.
      + right. right. split; [right; exists n, rows, cols, content; split; [exact HI|lia]|]. left. rewrite (features_eq _ _ _ _ _ HA HI).
        rewrite scale_short; [reflexivity|]. rewrite firstn_length. lia.
    - right. unfold read_features. change 3%Z with (Z.of_nat 3). destruct EM as [EM|(L & EM)]; rewrite EM; cbn [rbind].
      + destruct (Nat.lt_ge_cases (length file) 4) as [L|L]; [right; split; [left; lia|right; split; [exact L|reflexivity]]|].
        left. split; [exact NM|]. split; [exact L|reflexivity].
      + right. split; [left; lia|left; reflexivity].
  Qed.

  (** ** labels *)
  Lemma labels_eq file n content nt : (forall k, alloc k = true) -> idx_file file [n] content ->
    @read_labels OP alloc (Some file) nt
    = rbind (@one_hot OP (Z.to_nat n) 0 nt (firstn (Z.to_nat n) content) (repeat f0 (Z.to_nat ((n * nt) mod 4294967296))))
        (fun Y => Ok (Some (Y, n))).
  Proof.
    intros HA (bs & HB & ->). inversion HB as [|b0 ? t0 ? B0 H0]; subst. inversion H0; subst.
    unfold read_labels. cbn [concat]. rewrite app_nil_r.
    change (read_magic 1) with (read_magic (Z.of_nat 1)). change (map ascii_of_nat [0; 0; 8; length [n]]) with (magic_bytes 1).
    rewrite read_magic_ok by lia. cbn [rbind]. rewrite (read_uint_ok _ _ _ B0). cbn [rbind]. rewrite !HA. reflexivity.
  Qed.

  Lemma first_nth {A} (l : list A) k i : i < k -> nth_error (firstn k l) i = nth_error l i.
  Proof. revert l i. induction k as [|k IH]; intros l i H; [lia|]. destruct l; [destruct i; reflexivity|]. destruct i; [reflexivity|]. cbn. apply IH. lia. Qed.
  Lemma skip_nth {A} (l : list A) k i : nth_error (skipn k l) i = nth_error l (k + i).
  Proof. revert l. induction k as [|k IH]; intros l; [reflexivity|]. destruct l; [destruct i; reflexivity|]. cbn. apply IH. Qed.

  (** the rows of the result, as long as every label is written inside of the array *)
  Lemma labels_core file n content nt :
    (forall k, alloc k = true) -> idx_file file [n] content -> (0 < nt)%Z -> (n * nt < 4294967296)%Z -> (n <= Z.of_nat (length content))%Z ->
    (forall i c, (Z.of_nat i < n)%Z -> nth_error content i = Some c -> (Z.of_nat i * nt + Z.of_nat (nat_of_ascii c) < n * nt)%Z) ->
    exists Y, @read_labels OP alloc (Some file) nt = Ok (Some (Y, n)) /\ Z.of_nat (length Y) = (n * nt)%Z
      /\ (forall p i c, (Z.of_nat i < n)%Z -> nth_error content i = Some c -> (Z.of_nat p = Z.of_nat i * nt + Z.of_nat (nat_of_ascii c))%Z -> nth_error Y p = Some (b32_ofZ 1))
      /\ (forall p, (Z.of_nat p < n * nt)%Z -> (forall i c, (Z.of_nat i < n)%Z -> nth_error content i = Some c -> (Z.of_nat p <> Z.of_nat i * nt + Z.of_nat (nat_of_ascii c))%Z) -> nth_error Y p = Some b32_zero).
  Proof.
    intros HA HI HT HP HL HB. rewrite (labels_eq _ _ _ _ HA HI).
    assert (RN : (0 <= n < 4294967296)%Z).
    { destruct HI as (bs & HB' & _). inversion HB'; subst. eapply big_endian_range. eassumption. }
    assert (0 <= n * nt)%Z by nia. rewrite Z.mod_small by lia.
    assert (LR : length (repeat (@f0 OP) (Z.to_nat (n * nt))) = Z.to_nat (n * nt)) by apply repeat_length.
    assert (W : forall t, (Z.of_nat t < n)%Z -> u32 ((0 + Z.of_nat t) * nt) = (Z.of_nat t * nt)%Z).
    { intros t Ht. unfold u32. rewrite Z.add_0_l, Z.mod_small; [reflexivity|]. nia. }
    destruct (@one_hot_ok OP nt (Z.to_nat n) 0 (firstn (Z.to_nat n) content) (repeat f0 (Z.to_nat (n * nt)))) as (Y & E & LY & P1 & P2).
    - rewrite firstn_length. lia.
    - intros t c Ht Hc. rewrite first_nth in Hc by lia. rewrite LR, W by lia. pose proof (HB t c ltac:(lia) Hc). fold (uchar c) in *. lia.
    - rewrite E. cbn [rbind]. exists Y. split; [reflexivity|]. rewrite LR in *. split; [change (@F OP) with b32 in *; lia|]. split.
      + intros p i c Hi Hc Hp. pose proof (HB i c Hi Hc) as B. fold (uchar c) in *. refine (P1 p i c _ _ _ _); [lia|lia|rewrite first_nth by lia; exact Hc|]. rewrite W by lia. lia.
      + intros p Hp Hn. transitivity (nth_error (repeat (@f0 OP) (Z.to_nat (n * nt))) p).
        * apply P2. intros t c Ht Hc. rewrite first_nth in Hc by lia. rewrite W by lia. pose proof (Hn t c ltac:(lia) Hc) as Q. fold (uchar c) in Q. lia.
        * apply nth_error_repeat. lia.
  Qed.

  (** C97: if every label is less than the number of targets, row i of the result is 1.0 in the column of its label and 0.0
      elsewhere *)
  Theorem idx_labels_one_hot file n content nt :
    (forall k, alloc k = true) -> idx_file file [n] content -> (0 < nt)%Z -> (n * nt < 4294967296)%Z -> (n <= Z.of_nat (length content))%Z ->
    (forall i c, (Z.of_nat i < n)%Z -> nth_error content i = Some c -> (Z.of_nat (nat_of_ascii c) < nt)%Z) ->
    exists Y, @read_labels OP alloc (Some file) nt = Ok (Some (Y, n)) /\ Z.of_nat (length Y) = (n * nt)%Z
      /\ forall i c, (Z.of_nat i < n)%Z -> nth_error content i = Some c ->
           forall j, (Z.of_nat j < nt)%Z ->
             nth_error (row Y i (Z.to_nat nt)) j = Some (if j =? nat_of_ascii c then b32_ofZ 1 else b32_zero).
  Proof.
    intros HA HI HT HP HL HB.
    destruct (labels_core file n content nt HA HI HT HP HL) as (Y & E & LY & P1 & P2).
    { intros i c Hi Hc. pose proof (HB i c Hi Hc). nia. }
    exists Y. split; [exact E|]. split; [exact LY|]. intros i c Hi Hc j Hj. unfold row. rewrite first_nth by lia. rewrite skip_nth.
    assert (EP : Z.of_nat (i * Z.to_nat nt + j) = (Z.of_nat i * nt + Z.of_nat j)%Z) by (rewrite Nat2Z.inj_add, Nat2Z.inj_mul, Z2Nat.id; lia).
    destruct (Nat.eqb_spec j (nat_of_ascii c)) as [->|NE].
    - eapply P1; [exact Hi|exact Hc|lia].
    - apply P2; [nia|]. intros i' c' Hi' Hc' Q. rewrite EP in Q. pose proof (HB i' c' Hi' Hc') as B.
      assert (Z.of_nat i = Z.of_nat i') by nia. assert (i = i') by lia. subst i'. assert (c' = c) by congruence. subst. lia.
  Qed.

  (** C98, labels: with enough labels in the file and a product that fits, the reader is safe exactly if every label i is
      written inside of the array *)
  Theorem idx_labels_exact file n content nt :
    (forall k, alloc k = true) -> idx_file file [n] content -> (0 < nt)%Z -> (n * nt < 4294967296)%Z -> (n <= Z.of_nat (length content))%Z ->
    ((forall i c, (Z.of_nat i < n)%Z -> nth_error content i = Some c -> (Z.of_nat i * nt + Z.of_nat (nat_of_ascii c) < n * nt)%Z)
     /\ exists Y, @read_labels OP alloc (Some file) nt = Ok (Some (Y, n)))
    \/ ((exists i c, (Z.of_nat i < n)%Z /\ nth_error content i = Some c /\ (n * nt <= Z.of_nat i * nt + Z.of_nat (nat_of_ascii c))%Z)
        /\ @read_labels OP alloc (Some file) nt = Fault OutOfBounds).
  Proof.
    intros HA HI HT HP HL.
    assert (RN : (0 <= n < 4294967296)%Z).
    { destruct HI as (bs & HB' & _). inversion HB'; subst. eapply big_endian_range. eassumption. }
    assert (D : (exists i c, (Z.of_nat i < n)%Z /\ nth_error content i = Some c /\ (n * nt <= Z.of_nat i * nt + Z.of_nat (nat_of_ascii c))%Z)
             \/ (forall i c, (Z.of_nat i < n)%Z -> nth_error content i = Some c -> (Z.of_nat i * nt + Z.of_nat (nat_of_ascii c) < n * nt)%Z)).
    { assert (DK : forall k, (exists i c, i < k /\ nth_error content i = Some c /\ (n * nt <= Z.of_nat i * nt + Z.of_nat (nat_of_ascii c))%Z)
             \/ (forall i c, i < k -> nth_error content i = Some c -> (Z.of_nat i * nt + Z.of_nat (nat_of_ascii c) < n * nt)%Z)).
      { induction k as [|k IH]; [right; intros; lia|]. destruct IH as [(i & c & Q1 & Q2)|Q]; [left; exists i, c; split; [lia|exact Q2]|].
        destruct (nth_error content k) as [c|] eqn:EN; [destruct (Z.le_gt_cases (n * nt) (Z.of_nat k * nt + Z.of_nat (nat_of_ascii c))) as [EZ|NZ]|].
        - left. exists k, c. split; [lia|]. split; assumption.
        - right. intros t c' Ht Hc. destruct (Nat.eq_dec t k) as [->|NE]; [assert (c' = c) by congruence; subst; lia|apply Q; [lia|exact Hc]].
        - right. intros t c' Ht Hc. destruct (Nat.eq_dec t k) as [->|NE]; [congruence|apply Q; [lia|exact Hc]]. }
      destruct (DK (Z.to_nat n)) as [(i & c & Q1 & Q2)|Q]; [left; exists i, c; split; [lia|exact Q2]|right; intros i c Hi; apply Q; lia]. }
    destruct D as [(i & c & Q1 & Q2 & Q3)|Q].
    - right. split; [exists i, c; repeat split; assumption|]. rewrite (labels_eq _ _ _ _ HA HI).
      rewrite one_hot_bad; [reflexivity|rewrite firstn_length; lia|]. exists i, c. split; [lia|]. split; [rewrite first_nth by lia; exact Q2|].
      rewrite repeat_length. assert (0 <= n * nt)%Z by nia. rewrite Z.mod_small by lia. unfold u32. rewrite Z.add_0_l, Z.mod_small by nia. unfold uchar. lia.
    - left. split; [exact Q|]. destruct (labels_core file n content nt HA HI HT HP HL Q) as (Y & E & _). exists Y. exact E.
  Qed.
End Idx.
Print Assumptions idx_images_read.
Print Assumptions idx_images_exact.
Print Assumptions idx_labels_one_hot.
Print Assumptions idx_labels_exact.

(** ** examples and refutations *)
Definition all_mem : Z -> bool := fun _ => true.
(** a file of n labels or n images *)
Definition be (z : Z) : list ascii :=
  map (fun k => ascii_of_nat (Z.to_nat ((z / 2 ^ k) mod 256))) [24; 16; 8; 0]%Z.
Definition make_idx (dims : list Z) (content : list ascii) : list ascii :=
  map ascii_of_nat [0; 0; 8; length dims] ++ concat (map be dims) ++ content.

(** two images of 1 x 2 bytes *)
Definition ex_images : list ascii := make_idx [2; 1; 2]%Z (map ascii_of_nat [0; 255; 51; 7]).
Example ex_images_ok : idx_file ex_images [2; 1; 2]%Z (map ascii_of_nat [0; 255; 51; 7]).
Proof. exists (map be [2; 1; 2]%Z). split; [repeat constructor|reflexivity]. Qed.
Definition ex_labels (ls : list nat) : list ascii := make_idx [Z.of_nat (length ls)] (map ascii_of_nat ls).
Example ex_labels_ok : idx_file (ex_labels [3; 9]) [2]%Z (map ascii_of_nat [3; 9])
  /\ (forall i c, (Z.of_nat i < 2)%Z -> nth_error (map ascii_of_nat [3; 9]) i = Some c -> (Z.of_nat (nat_of_ascii c) < 10)%Z).
Proof.
  split; [exists (map be [2]%Z); split; [repeat constructor|reflexivity]|].
  intros i c Hi Hc. destruct i as [|[|i]]; cbn in Hc; try (injection Hc as <-; reflexivity). lia.
Qed.

(** REFUTED (images): a file that ends too early is not refused, bytes that do not exist are used; and a file of 16 bytes
    that claims 2^16 images of 2^16 bytes is taken, with an array of 0 floats *)
Theorem idx_images_refuted lm :
  (exists file, idx_file file [1; 1; 1]%Z [] /\ @read_features (opsB32 lm) all_mem (Some file) = Fault Uninit)
  /\ exists file, idx_file file [65536; 65536; 1]%Z [] /\ @read_features (opsB32 lm) all_mem (Some file) = Ok (Some ([], 65536, 65536)%Z).
Proof.
  split.
  - exists (make_idx [1; 1; 1]%Z []). split; [exists (map be [1; 1; 1]%Z); split; [repeat constructor|reflexivity]|reflexivity].
  - exists (make_idx [65536; 65536; 1]%Z []). split; [exists (map be [65536; 65536; 1]%Z); split; [repeat constructor|reflexivity]|reflexivity].
Qed.
Print Assumptions idx_images_refuted.

(** REFUTED (labels): label 10 of the last sample is written behind the array; label 10 of another sample goes into the
    row of the next sample, which then has two ones, while its own row has none *)
Theorem idx_labels_refuted lm :
  (exists file, idx_file file [1]%Z (map ascii_of_nat [10]) /\ @read_labels (opsB32 lm) all_mem (Some file) 10 = Fault OutOfBounds)
  /\ exists file Y, idx_file file [2]%Z (map ascii_of_nat [10; 3]) /\ @read_labels (opsB32 lm) all_mem (Some file) 10 = Ok (Some (Y, 2%Z))
       /\ (forall j, j < 10 -> nth_error (row Y 0 10) j = Some b32_zero)
       /\ nth_error (row Y 1 10) 0 = Some (b32_ofZ 1) /\ nth_error (row Y 1 10) 3 = Some (b32_ofZ 1).
Proof.
  split.
  - exists (ex_labels [10]). split; [exists (map be [1]%Z); split; [repeat constructor|reflexivity]|].
    assert (HI : idx_file (ex_labels [10]) [1]%Z (map ascii_of_nat [10])) by (exists (map be [1]%Z); split; [repeat constructor|reflexivity]).
    destruct (idx_labels_exact lm all_mem _ _ _ 10 (fun _ => eq_refl) HI) as [(Q & _)|(_ & Q)]; [lia|lia|cbn; lia| |exact Q].
    specialize (Q 0 (ascii_of_nat 10) ltac:(lia) eq_refl). vm_compute in Q. discriminate.
  - assert (HI : idx_file (ex_labels [10; 3]) [2]%Z (map ascii_of_nat [10; 3])) by (exists (map be [2]%Z); split; [repeat constructor|reflexivity]).
    destruct (labels_core lm all_mem _ _ _ 10 (fun _ => eq_refl) HI) as (Y & E & LY & P1 & P2); [lia|lia|cbn; lia| |].
    { intros i c Hi Hc. destruct i as [|[|i]]; cbn in Hc; try (injection Hc as <-; vm_compute; reflexivity). lia. }
    exists (ex_labels [10; 3]), Y. split; [exact HI|]. split; [exact E|]. unfold row. split; [|split].
    + intros j Hj. rewrite first_nth by lia. rewrite skip_nth. cbn [Nat.mul Nat.add]. apply P2; [lia|].
      intros i c Hi Hc. destruct i as [|[|i]]; cbn in Hc; try (injection Hc as <-); [| |lia].
      * change (nat_of_ascii (Ascii false true false true false false false false)) with 10. lia.
      * change (nat_of_ascii (Ascii true true false false false false false false)) with 3. lia.
    + rewrite first_nth by lia. rewrite skip_nth. apply (P1 10 0 (ascii_of_nat 10)); [lia|reflexivity|reflexivity].
    + rewrite first_nth by lia. rewrite skip_nth. apply (P1 13 1 (ascii_of_nat 3)); [lia|reflexivity|reflexivity].
Qed.
Print Assumptions idx_labels_refuted.

(** ** the four files of the program *)
(** images and labels of n samples with k features, as one expects them *)
Definition proper_pair (images labels : list ascii) (n k : Z) (px lb : list ascii) : Prop :=
  (exists rows cols, idx_file images [n; rows; cols]%Z px /\ k = (rows * cols)%Z) /\ idx_file labels [n]%Z lb
  /\ (n * k < 4294967296)%Z /\ (n * 10 < 4294967296)%Z /\ (k < 4294967296)%Z
  /\ (n * k <= Z.of_nat (length px))%Z /\ (n <= Z.of_nat (length lb))%Z
  /\ (forall i c, (Z.of_nat i < n)%Z -> nth_error lb i = Some c -> (Z.of_nat (nat_of_ascii c) < 10)%Z).
(** X and Y are the samples *)
Definition samples_of (n k : Z) (px lb : list ascii) (X Y : list b32) : Prop :=
  Z.of_nat (length X) = (n * k)%Z /\ Forall2 pixel_value (firstn (length X) px) X /\ Z.of_nat (length Y) = (n * 10)%Z
  /\ forall i c, (Z.of_nat i < n)%Z -> nth_error lb i = Some c -> forall j, j < 10 ->
       nth_error (row Y i 10) j = Some (if j =? nat_of_ascii c then b32_ofZ 1 else b32_zero).

Lemma pair_read lm alloc images labels n k px lb : (forall z, alloc z = true) -> proper_pair images labels n k px lb ->
  exists X Y, @read_features (opsB32 lm) alloc (Some images) = Ok (Some (X, n, k))
    /\ @read_labels (opsB32 lm) alloc (Some labels) 10 = Ok (Some (Y, n)) /\ samples_of n k px lb X Y.
Proof.
  intros HA ((rows & cols & HI & ->) & HL & H1 & H2 & H3 & H4 & H5 & H6).
  destruct (idx_images_read lm alloc images n rows cols px HA HI H1 H3 H4) as (X & EX & LX & PX).
  destruct (idx_labels_one_hot lm alloc labels n lb 10 HA HL ltac:(lia) H2 H5 H6) as (Y & EY & LY & PY).
  exists X, Y. split; [exact EX|]. split; [exact EY|]. split; [exact LX|]. split; [exact PX|]. split; [exact LY|].
  intros i c Hi Hc j Hj. apply PY; [exact Hi|exact Hc|lia].
Qed.

(** C98: four files that fit together are taken, and the epochs read inside of the arrays; if one of four such files is
    missing the program ends with its message *)
Theorem mnist_data_partial lm alloc ti tl vi vl n nv k px lb vpx vlb : (forall z, alloc z = true) ->
  proper_pair ti tl n k px lb -> proper_pair vi vl nv k vpx vlb ->
  (exists d, @load_data (opsB32 lm) alloc (Some ti) (Some tl) (Some vi) (Some vl) = Ok (Some d)
     /\ id_n d = n /\ id_nv d = nv /\ id_in d = k /\ samples_of n k px lb (id_X d) (id_Y d) /\ samples_of nv k vpx vlb (id_vX d) (id_vY d)
     /\ epoch_reads d = Ok tt)
  /\ (forall a b c d, (a = None \/ a = Some ti) -> (b = None \/ b = Some tl) -> (c = None \/ c = Some vi) -> (d = None \/ d = Some vl) ->
        a = None \/ b = None \/ c = None \/ d = None -> @load_data (opsB32 lm) alloc a b c d = Ok None).
Proof.
  intros HA HT HV. destruct (pair_read lm alloc ti tl n k px lb HA HT) as (X & Y & EX & EY & S1).
  destruct (pair_read lm alloc vi vl nv k vpx vlb HA HV) as (vX & vY & EvX & EvY & S2). split.
  - exists (mk_idata X Y vX vY n nv k). unfold load_data. unfold n_output_targets. rewrite EX. cbn [rbind]. rewrite EY. cbn [rbind]. rewrite EvX. cbn [rbind]. rewrite EvY.
    split; [reflexivity|]. repeat (split; [first [reflexivity|assumption]|]). unfold epoch_reads. cbn [id_n id_in id_X id_Y id_vX id_vY id_nv].
    destruct S1 as (A1 & _ & A2 & _). destruct S2 as (B1 & _ & B2 & _). change (@F (opsB32 lm)) with b32. rewrite A1, A2, B1, B2. unfold n_output_targets. rewrite !Z.leb_refl. reflexivity.
  - intros a b c d Ha Hb Hc Hd HN. unfold load_data, n_output_targets.
    assert (NF : @read_features (opsB32 lm) alloc None = Ok None) by reflexivity.
    assert (NL : @read_labels (opsB32 lm) alloc None 10 = Ok None) by reflexivity.
    destruct Ha as [-> | ->], Hb as [-> | ->], Hc as [-> | ->], Hd as [-> | ->]; try (exfalso; intuition discriminate);
      repeat (rewrite ?NF, ?NL, ?EX, ?EY, ?EvX, ?EvY; cbn [rbind]); reflexivity.
Qed.
Print Assumptions mnist_data_partial.
Example mnist_data_ex : proper_pair ex_images (ex_labels [3; 9]) 2 2 (map ascii_of_nat [0; 255; 51; 7]) (map ascii_of_nat [3; 9]).
Proof.
  split; [exists 1%Z, 2%Z; split; [exact ex_images_ok|reflexivity]|]. split; [apply ex_labels_ok|].
  repeat (split; [cbn; lia|]). apply ex_labels_ok.
Qed.

(** REFUTED: files that are proper but do not fit together are taken, and the first epoch reads behind the end of the
    array: more labels than images, or test images of another size *)
Theorem mnist_data_refuted lm :
  (exists ti tl vi vl d, @load_data (opsB32 lm) all_mem (Some ti) (Some tl) (Some vi) (Some vl) = Ok (Some d)
     /\ epoch_reads d = Fault OutOfBounds /\ idx_file ti [1; 1; 1]%Z (map ascii_of_nat [7]) /\ idx_file tl [2]%Z (map ascii_of_nat [3; 9]))
  /\ exists ti tl vi vl d, @load_data (opsB32 lm) all_mem (Some ti) (Some tl) (Some vi) (Some vl) = Ok (Some d)
     /\ epoch_reads d = Fault OutOfBounds /\ idx_file ti [1; 1; 1]%Z (map ascii_of_nat [7]) /\ idx_file vi [1; 1; 2]%Z (map ascii_of_nat [7; 8]).
Proof.
  assert (I1 : idx_file (make_idx [1; 1; 1]%Z (map ascii_of_nat [7])) [1; 1; 1]%Z (map ascii_of_nat [7])).
  { exists (map be [1; 1; 1]%Z). split; [repeat constructor|reflexivity]. }
  assert (I2 : idx_file (make_idx [1; 1; 2]%Z (map ascii_of_nat [7; 8])) [1; 1; 2]%Z (map ascii_of_nat [7; 8])).
  { exists (map be [1; 1; 2]%Z). split; [repeat constructor|reflexivity]. }
  assert (I3 : idx_file (ex_labels [3]) [1]%Z (map ascii_of_nat [3])).
  { exists (map be [1]%Z). split; [repeat constructor|reflexivity]. }
  destruct (idx_images_read lm all_mem _ _ _ _ _ (fun _ => eq_refl) I1) as (X & EX & LX & _); [lia|lia|cbn; lia|].
  destruct (idx_images_read lm all_mem _ _ _ _ _ (fun _ => eq_refl) I2) as (X2 & EX2 & LX2 & _); [lia|lia|cbn; lia|].
  destruct (idx_labels_one_hot lm all_mem _ _ _ 10 (fun _ => eq_refl) I3) as (Y1 & EY1 & LY1 & _); [lia|lia|cbn; lia| |].
  { intros i c Hi Hc. destruct i; [injection Hc as <-; reflexivity|lia]. }
  destruct (idx_labels_one_hot lm all_mem _ _ _ 10 (fun _ => eq_refl) (proj1 ex_labels_ok)) as (Y2 & EY2 & LY2 & _); [lia|lia|cbn; lia|apply ex_labels_ok|].
  split.
  - exists (make_idx [1; 1; 1]%Z (map ascii_of_nat [7])), (ex_labels [3; 9]), (make_idx [1; 1; 1]%Z (map ascii_of_nat [7])), (ex_labels [3]), (mk_idata X Y2 X Y1 2 1 1).
    unfold load_data, n_output_targets. unfold bytes in *. rewrite EX. cbn [rbind]. rewrite EY2. cbn [rbind]. rewrite EY1. split; [reflexivity|].
    split; [|split; [exact I1|apply ex_labels_ok]]. unfold epoch_reads. cbn [id_n id_in id_X id_Y id_vX id_vY id_nv]. change (@F (opsB32 lm)) with b32 in *. rewrite LX. reflexivity.
  - exists (make_idx [1; 1; 1]%Z (map ascii_of_nat [7])), (ex_labels [3]), (make_idx [1; 1; 2]%Z (map ascii_of_nat [7; 8])), (ex_labels [3]), (mk_idata X Y1 X2 Y1 1 1 2).
    unfold load_data, n_output_targets. unfold bytes in *. rewrite EX. cbn [rbind]. rewrite EY1. cbn [rbind]. rewrite EX2. split; [reflexivity|].
    split; [|split; [exact I1|exact I2]]. unfold epoch_reads. cbn [id_n id_in id_X id_Y id_vX id_vY id_nv]. change (@F (opsB32 lm)) with b32 in *. rewrite LX. reflexivity.
Qed.
Print Assumptions mnist_data_refuted.
