(** IdxProofs.v -- lemmas about Idx.v. *)
From Coq Require Import ZArith Bool String Ascii List Lia.
From Verif Require Import Base BaseProofs Ops Logger Idx SpecIdx.
Import ListNotations.
Local Open Scope nat_scope.

Lemma uchar_range c : (0 <= uchar c < 256)%Z.
Proof. unfold uchar. pose proof (nat_ascii_bounded c). lia. Qed.
Lemma uchar_of n : n < 256 -> uchar (ascii_of_nat n) = Z.of_nat n.
Proof. intros H. unfold uchar. rewrite nat_ascii_embedding by exact H. reflexivity. Qed.
Lemma uchar_inv c n : (uchar c =? Z.of_nat n)%Z = true -> c = ascii_of_nat n.
Proof. intros H. apply Z.eqb_eq in H. unfold uchar in H. apply Nat2Z.inj in H. rewrite <- H, ascii_nat_embedding. reflexivity. Qed.

Lemma read_uint_ok b z fp : big_endian b z -> read_uint (b ++ fp) = Ok (z, fp).
Proof.
  intros (L & ->). destruct b as [|c0 [|c1 [|c2 [|c3 [|c4 b]]]]]; try discriminate L.
  unfold read_uint. cbn [fread firstn skipn app byte_at nth_error rbind]. unfold le32. cbn [fold_left].
  fold (uchar c0) (uchar c1) (uchar c2) (uchar c3). f_equal. f_equal. lia.
Qed.
Lemma read_uint_short fp : length fp < 4 -> read_uint fp = Fault Uninit.
Proof. intros L. destruct fp as [|c0 [|c1 [|c2 [|c3 fp]]]]; try reflexivity. cbn in L. lia. Qed.
Lemma read_uint_cases fp : (read_uint fp = Fault Uninit /\ length fp < 4)
  \/ exists b z fp', fp = b ++ fp' /\ big_endian b z /\ read_uint fp = Ok (z, fp').
Proof.
  destruct (Nat.lt_ge_cases (length fp) 4) as [L|L]; [left; split; [apply read_uint_short|]; exact L|right].
  assert (B : big_endian (firstn 4 fp) (fold_left (fun acc c => (256 * acc + Z.of_nat (nat_of_ascii c))%Z) (firstn 4 fp) 0%Z)).
  { split; [rewrite firstn_length; lia|reflexivity]. }
  exists (firstn 4 fp), (fold_left (fun acc c => (256 * acc + Z.of_nat (nat_of_ascii c))%Z) (firstn 4 fp) 0%Z), (skipn 4 fp).
  split; [symmetry; apply firstn_skipn|]. split; [exact B|]. rewrite <- (firstn_skipn 4 fp) at 1. apply read_uint_ok. exact B.
Qed.
Lemma big_endian_range b z : big_endian b z -> (0 <= z < 4294967296)%Z.
Proof.
  intros (L & ->). destruct b as [|c0 [|c1 [|c2 [|c3 [|c4 b]]]]]; try discriminate L. cbn [fold_left].
  fold (uchar c0) (uchar c1) (uchar c2) (uchar c3). pose proof (uchar_range c0). pose proof (uchar_range c1).
  pose proof (uchar_range c2). pose proof (uchar_range c3). lia.
Qed.
Lemma big_endian_fun b z z' : big_endian b z -> big_endian b z' -> z = z'.
Proof. intros (_ & ->) (_ & ->). reflexivity. Qed.

Definition magic_bytes (d : nat) : bytes := map ascii_of_nat [0; 0; 8; d].
Lemma read_magic_ok d fp : d < 256 -> read_magic (Z.of_nat d) (magic_bytes d ++ fp) = Ok fp.
Proof.
  intros H. unfold read_magic, magic_bytes. cbn [map app fread firstn skipn byte_at nth_error rbind].
  rewrite !uchar_of by lia. cbn [Z.of_nat Z.eqb check rbind]. rewrite Z.eqb_refl. reflexivity.
Qed.
Lemma read_magic_cases d fp : d < 256 ->
  (exists fp', fp = magic_bytes d ++ fp' /\ read_magic (Z.of_nat d) fp = Ok fp')
  \/ ((forall fp', fp <> magic_bytes d ++ fp') /\ (read_magic (Z.of_nat d) fp = Fault AssertFailed \/ (length fp < 4 /\ read_magic (Z.of_nat d) fp = Fault Uninit))).
Proof.
  intros Hd. destruct (read_magic (Z.of_nat d) fp) as [fp'|e] eqn:E.
  - left. exists fp'. split; [|reflexivity]. unfold read_magic in E.
    destruct fp as [|c0 [|c1 [|c2 [|c3 fp]]]]; cbn [fread firstn skipn byte_at nth_error rbind] in E; unfold check in E;
      repeat (match type of E with context [if ?b then _ else _] => destruct b eqn:?; cbn [rbind] in E end; try discriminate); try discriminate.
    injection E as <-. apply (uchar_inv c0 0) in Heqb. apply (uchar_inv c1 0) in Heqb0. apply (uchar_inv c2 8) in Heqb1.
    apply (uchar_inv c3 d) in Heqb2. subst. reflexivity.
  - right. split.
    + intros fp' ->. rewrite read_magic_ok in E by exact Hd. discriminate.
    + unfold read_magic in E.
      destruct fp as [|c0 [|c1 [|c2 [|c3 fp]]]]; cbn [fread firstn skipn byte_at nth_error rbind] in E; unfold check in E;
      repeat (match type of E with context [if ?b then _ else _] => destruct b eqn:?; cbn [rbind] in E end; try discriminate);
      injection E as <-; cbn [length]; (left; reflexivity) || (right; split; [lia|reflexivity]).
Qed.

Section P.
  Context {FO : fops}.
  Definition pixel (c : ascii) : F := fdiv (fofZ (uchar c)) (fofZ 255).
  Lemma scale_ok n : forall raw, n <= length raw -> scale_bytes n raw = Ok (map pixel (firstn n raw)).
  Proof.
    induction n as [|n IH]; intros raw H; [reflexivity|]. destruct raw as [|b raw]; [cbn in H; lia|].
    cbn [scale_bytes firstn map]. rewrite IH by (cbn in H; lia). reflexivity.
  Qed.
  Lemma scale_short n : forall raw, length raw < n -> scale_bytes n raw = Fault Uninit.
  Proof.
    induction n as [|n IH]; intros raw H; [lia|]. destruct raw as [|b raw]; [reflexivity|].
    cbn [scale_bytes]. rewrite IH by (cbn in H; lia). reflexivity.
  Qed.

  Lemma one_hot_ok nt k : forall i raw L, k <= length raw ->
    (forall t c, t < k -> nth_error raw t = Some c -> (u32 ((i + Z.of_nat t) * nt) + uchar c < Z.of_nat (length L))%Z) ->
    exists L', one_hot k i nt raw L = Ok L' /\ length L' = length L
      /\ (forall p t c, p < length L -> t < k -> nth_error raw t = Some c -> (u32 ((i + Z.of_nat t) * nt) + uchar c = Z.of_nat p)%Z -> nth_error L' p = Some f1)
      /\ (forall p, (forall t c, t < k -> nth_error raw t = Some c -> (u32 ((i + Z.of_nat t) * nt) + uchar c <> Z.of_nat p)%Z) -> nth_error L' p = nth_error L p).
  Proof.
    induction k as [|k IH]; intros i raw L HL HB.
    - exists L. repeat split; try reflexivity. intros; lia.
    - destruct raw as [|b raw]; [cbn in HL; lia|]. cbn [one_hot].
      pose proof (HB 0 b ltac:(lia) eq_refl) as B0. rewrite Z.add_0_r in B0.
      destruct (Z.ltb_spec (u32 (i * nt) + uchar b) (Z.of_nat (length L))) as [_|Q]; [|lia].
      assert (NN : (0 <= u32 (i * nt) + uchar b)%Z).
      { pose proof (uchar_range b). unfold u32. pose proof (Z.mod_pos_bound (i * nt) 4294967296 ltac:(lia)). lia. }
      set (q := Z.to_nat (u32 (i * nt) + uchar b)) in *.
      destruct (IH (i + 1)%Z raw (set_nth L q f1)) as (L' & E & LL & P1 & P2).
      + cbn in HL. lia.
      + intros t c Ht Hc. rewrite length_set_nth. pose proof (HB (S t) c ltac:(lia) Hc) as H. rewrite Nat2Z.inj_succ in H.
        replace (i + 1 + Z.of_nat t)%Z with (i + Z.succ (Z.of_nat t))%Z by lia. exact H.
      + rewrite length_set_nth in *. exists L'. split; [exact E|]. split; [exact LL|]. split.
        * intros p t c Hp Ht Hc He. destruct t as [|t].
          -- cbn in Hc. injection Hc as <-. rewrite Z.add_0_r in He. assert (EQ : q = p) by (unfold q; lia).
             assert (DEC : (exists t c, t < k /\ nth_error raw t = Some c /\ (u32 ((i + 1 + Z.of_nat t) * nt) + uchar c = Z.of_nat p)%Z)
                        \/ (forall t c, t < k -> nth_error raw t = Some c -> (u32 ((i + 1 + Z.of_nat t) * nt) + uchar c <> Z.of_nat p)%Z)).
             { clear. induction k as [|k IH]; [right; intros; lia|]. destruct IH as [(t & c & Q1 & Q2)|Q]; [left; exists t, c; split; [lia|exact Q2]|].
               destruct (nth_error raw k) as [c|] eqn:EN; [destruct (Z.eq_dec (u32 ((i + 1 + Z.of_nat k) * nt) + uchar c) (Z.of_nat p)) as [EZ|NZ]|].
               - left. exists k, c. split; [lia|]. split; assumption.
               - right. intros t c' Ht Hc. destruct (Nat.eq_dec t k) as [->|NE]; [congruence|apply Q; [lia|exact Hc]].
               - right. intros t c' Ht Hc. destruct (Nat.eq_dec t k) as [->|NE]; [congruence|apply Q; [lia|exact Hc]]. }
             destruct DEC as [(t & c & Q1 & Q2 & Q3)|Q]; [eapply P1; eassumption|].
             rewrite P2 by exact Q. subst p. rewrite nth_error_set_nth, Nat.eqb_refl. destruct (Nat.ltb_spec q (length L)); [reflexivity|lia].
          -- apply (P1 p t c); [lia|lia|exact Hc|]. replace (i + 1 + Z.of_nat t)%Z with (i + Z.of_nat (S t))%Z by lia. exact He.
        * intros p H. rewrite P2.
          -- rewrite nth_error_set_nth. destruct (Nat.eqb_spec p q) as [EQ|]; [|reflexivity]. exfalso. apply (H 0 b ltac:(lia) eq_refl). rewrite Z.add_0_r. unfold q in EQ. lia.
          -- intros t c Ht Hc. replace (i + 1 + Z.of_nat t)%Z with (i + Z.of_nat (S t))%Z by lia. apply H; [lia|exact Hc].
  Qed.
  Lemma one_hot_bad nt k : forall i raw L, k <= length raw ->
    (exists t c, t < k /\ nth_error raw t = Some c /\ (Z.of_nat (length L) <= u32 ((i + Z.of_nat t) * nt) + uchar c)%Z) ->
    one_hot k i nt raw L = Fault OutOfBounds.
  Proof.
    induction k as [|k IH]; intros i raw L HL (t & c & Ht & Hc & Hb); [lia|].
    destruct raw as [|b raw]; [cbn in HL; lia|]. cbn [one_hot].
    destruct (Z.ltb_spec (u32 (i * nt) + uchar b) (Z.of_nat (length L))) as [Q|Q]; [|reflexivity].
    destruct t as [|t]; [cbn in Hc; injection Hc as <-; rewrite Z.add_0_r in Hb; lia|].
    apply IH; [cbn in HL; lia|]. exists t, c. split; [lia|]. split; [exact Hc|]. rewrite length_set_nth.
    replace (i + 1 + Z.of_nat t)%Z with (i + Z.of_nat (S t))%Z by lia. exact Hb.
  Qed.
  Lemma one_hot_short nt k : forall i raw L, length raw < k -> one_hot k i nt raw L = Fault Uninit \/ one_hot k i nt raw L = Fault OutOfBounds.
  Proof.
    induction k as [|k IH]; intros i raw L H; [lia|]. destruct raw as [|b raw]; [left; reflexivity|]. cbn [one_hot].
    destruct (_ <? _)%Z; [|right; reflexivity]. apply IH. cbn in H. lia.
  Qed.
End P.
