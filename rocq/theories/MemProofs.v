(** MemProofs.v -- lemmas about Mem.v *)
From Coq Require Import List Arith ZArith Lia Bool.
From Verif Require Import Base BaseProofs Ops Mem.
Import ListNotations.
Set Implicit Arguments.
Local Open Scope mem_scope.

Section MemProofs.
Context {FO : fops}.

Definition valid (m : mem) (p : ptr) (n : nat) : Prop :=
  exists b, nth_error m (blk p) = Some b /\ off p + n <= length (cells b).
Definition holds (m : mem) (p : ptr) (xs : list F) : Prop :=
  exists b, nth_error m (blk p) = Some b /\ off p + length xs <= length (cells b) /\
            slice (off p) (length xs) (cells b) = map Some xs.
Definition disjoint (p : ptr) (n : nat) (q : ptr) (k : nat) : Prop :=
  blk p <> blk q \/ off p + n <= off q \/ off q + k <= off p.

Lemma disjoint_sym p n q k : disjoint p n q k -> disjoint q k p n.
Proof. unfold disjoint; intuition. Qed.
Lemma disjoint_sub p n q k p' n' :
  disjoint p n q k -> blk p' = blk p -> off p <= off p' -> off p' + n' <= off p + n ->
  disjoint p' n' q k.
Proof. unfold disjoint; intros [H|[H|H]] E1 E2 E3; [left; congruence|right; left; lia|right;right;lia]. Qed.
Lemma disjoint_sub_r p n q k q' k' :
  disjoint p n q k -> blk q' = blk q -> off q <= off q' -> off q' + k' <= off q + k ->
  disjoint p n q' k'.
Proof. intros. apply disjoint_sym. eapply disjoint_sub; eauto using disjoint_sym. Qed.
Lemma disjoint_0_r p n q : n = n -> disjoint p n q 0 \/ True.
Proof. auto. Qed.

Lemma padd_0 p : p +! 0 = p.
Proof. destruct p; unfold padd; simpl. rewrite Nat.add_0_r; auto. Qed.
Lemma padd_padd p i j : p +! i +! j = p +! (i + j).
Proof. unfold padd; simpl. f_equal. lia. Qed.
Lemma blk_padd p i : blk (p +! i) = blk p. Proof. reflexivity. Qed.
Lemma off_padd p i : off (p +! i) = off p + i. Proof. reflexivity. Qed.

Lemma holds_valid m p xs : holds m p xs -> valid m p (length xs).
Proof. intros (b & H1 & H2 & H3). exists b; auto. Qed.
Lemma valid_le m p n k : valid m p n -> k <= n -> valid m p k.
Proof. intros (b & H1 & H2) H. exists b; split; auto; lia. Qed.
Lemma valid_sub m p n i k : valid m p n -> i + k <= n -> valid m (p +! i) k.
Proof. intros (b & H1 & H2) H. exists b; split; auto. simpl; lia. Qed.

Lemma loadv_holds m p xs i w :
  holds m p xs -> i + w <= length xs -> loadv w (p +! i) m = Ok (slice i w xs, m).
Proof.
  intros (b & H1 & H2 & H3) H. unfold loadv. simpl. rewrite H1.
  rewrite (proj2 (Nat.leb_le _ _)) by lia.
  assert (E : slice (off p + i) w (cells b) = map Some (slice i w xs)).
  { rewrite <- slice_map, <- H3. rewrite slice_slice; auto. }
  rewrite E, all_some_map. reflexivity.
Qed.

Lemma loadv_holds0 m p xs w : holds m p xs -> w = length xs -> loadv w p m = Ok (xs, m).
Proof.
  intros H ->. rewrite <- (padd_0 p). rewrite loadv_holds with (xs := xs); auto.
  rewrite slice_0_all; auto.
Qed.

Lemma load_holds m p xs i x :
  holds m p xs -> nth_error xs i = Some x -> load (p +! i) m = Ok (x, m).
Proof.
  intros H E. unfold load, bind.
  assert (i < length xs) by (apply nth_error_Some; congruence).
  rewrite loadv_holds with (xs := xs) by (auto; lia).
  erewrite slice_one by eauto. reflexivity.
Qed.

Lemma loadv_inv m p w xs : loadv w p m = Ok (xs, m) -> holds m p xs /\ length xs = w.
Proof.
  unfold loadv, holds. destruct (nth_error m (blk p)) as [b|] eqn:E; [|discriminate].
  destruct (Nat.leb_spec (off p + w) (length (cells b))); [|discriminate].
  destruct (all_some _) eqn:E2; [|discriminate]. intros HH; inversion HH; subst.
  apply all_some_inv in E2.
  assert (L : length xs = w).
  { apply (f_equal (@length _)) in E2. rewrite length_slice, map_length in E2 by auto. auto. }
  split; auto. exists b. rewrite L. repeat split; auto.
Qed.

Lemma storev_valid m p n i ys :
  valid m p n -> i + length ys <= n ->
  storev (p +! i) ys m = Ok (tt, writem m (p +! i) ys).
Proof.
  intros (b & H1 & H2) H. unfold storev. simpl. rewrite H1.
  rewrite (proj2 (Nat.leb_le _ _)) by lia. reflexivity.
Qed.

Lemma store_valid m p n i y :
  valid m p n -> i < n -> store (p +! i) y m = Ok (tt, writem m (p +! i) [y]).
Proof. intros. eapply storev_valid; eauto. simpl. lia. Qed.

Lemma nth_error_lt A (l : list A) i x : nth_error l i = Some x -> i < length l.
Proof. intros. apply nth_error_Some. congruence. Qed.

Lemma nth_writem_eq m p xs b :
  nth_error m (blk p) = Some b ->
  nth_error (writem m p xs) (blk p) = Some (mkblock (base b) (overwrite (cells b) (off p) (map Some xs))).
Proof.
  intros H. unfold writem. rewrite H. rewrite nth_error_set_nth.
  rewrite Nat.eqb_refl. rewrite (proj2 (Nat.ltb_lt _ _)) by (eapply nth_error_lt; eauto). reflexivity.
Qed.
Lemma nth_writem_neq m p xs k : k <> blk p -> nth_error (writem m p xs) k = nth_error m k.
Proof.
  intros H. unfold writem. destruct (nth_error m (blk p)); auto. rewrite nth_error_set_nth.
  destruct (Nat.eqb_spec k (blk p)); auto. congruence.
Qed.
Lemma length_writem m p xs : length (writem m p xs) = length m.
Proof. unfold writem. destruct (nth_error m (blk p)); auto. apply length_set_nth. Qed.

Lemma addr_writem m p xs q : addr (writem m p xs) q = addr m q.
Proof.
  unfold addr. destruct (Nat.eq_dec (blk q) (blk p)) as [E|E].
  - rewrite E. destruct (nth_error m (blk p)) eqn:H.
    + erewrite nth_writem_eq by eauto. reflexivity.
    + unfold writem. rewrite H, H. reflexivity.
  - rewrite nth_writem_neq by auto. reflexivity.
Qed.

Lemma addr_padd m p i : nth_error m (blk p) <> None -> addr m (p +! i) = (addr m p + 4 * Z.of_nat i)%Z.
Proof. unfold addr, padd; cbn [blk off]. destruct (nth_error m (blk p)); [|congruence]. intros; lia. Qed.

Lemma valid_some m p n : valid m p n -> nth_error m (blk p) <> None.
Proof. intros (b & H & _). congruence. Qed.

Lemma aligned_to_writem w m p xs q : aligned_to w (writem m p xs) q = aligned_to w m q.
Proof. unfold aligned_to. rewrite addr_writem. reflexivity. Qed.

Lemma valid_writem m p xs q n :
  valid m p (length xs) -> valid m q n -> valid (writem m p xs) q n.
Proof.
  intros (b & H1 & H2) (b' & H3 & H4). destruct (Nat.eq_dec (blk q) (blk p)) as [E|E].
  - rewrite E in H3. rewrite H1 in H3. inversion H3; subst b'.
    eexists; split. { rewrite E. eapply nth_writem_eq; eauto. }
    simpl. rewrite length_overwrite; auto. rewrite map_length; auto.
  - exists b'. rewrite nth_writem_neq by auto. auto.
Qed.

Lemma holds_writem_disjoint m p xs q ys :
  valid m p (length xs) -> holds m q ys -> disjoint p (length xs) q (length ys) ->
  holds (writem m p xs) q ys.
Proof.
  intros (b & H1 & H2) (b' & H3 & H4 & H5) D. destruct (Nat.eq_dec (blk q) (blk p)) as [E|E].
  - rewrite E in H3. rewrite H1 in H3. inversion H3; subst b'. clear H3.
    eexists; split. { rewrite E. eapply nth_writem_eq; eauto. }
    simpl. rewrite length_overwrite by (rewrite map_length; auto). split; auto.
    rewrite <- H5. apply slice_ext.
    + rewrite length_overwrite; auto. rewrite map_length; auto.
    + apply length_slice; auto.
    + intros k Hk. rewrite nth_error_overwrite by (rewrite map_length; auto).
      rewrite map_length. rewrite nth_error_slice by auto.
      destruct D as [D|[D|D]]; [congruence| |].
      * rewrite (proj2 (Nat.ltb_ge _ _)) by lia. rewrite andb_false_r. reflexivity.
      * rewrite (proj2 (Nat.leb_gt _ _)) by lia. reflexivity.
  - exists b'. rewrite nth_writem_neq by auto. auto.
Qed.

Lemma holds_writem_same m p xs : valid m p (length xs) -> holds (writem m p xs) p xs.
Proof.
  intros (b & H1 & H2). eexists; split. { eapply nth_writem_eq; eauto. }
  simpl. rewrite length_overwrite by (rewrite map_length; auto). split; auto.
  apply slice_ext.
  - rewrite length_overwrite; auto. rewrite map_length; auto.
  - apply map_length.
  - intros k Hk. rewrite nth_error_overwrite by (rewrite map_length; auto).
    rewrite map_length.
    rewrite (proj2 (Nat.leb_le _ _)) by lia. rewrite (proj2 (Nat.ltb_lt _ _)) by lia. simpl.
    f_equal. lia.
Qed.

Lemma writem_nil m p : writem m p [] = m.
Proof.
  unfold writem. destruct (nth_error m (blk p)) eqn:E; auto. simpl.
  rewrite overwrite_nil. apply set_nth_id. destruct b; auto.
Qed.

Lemma writem_writem_app m p xs ys :
  valid m p (length xs + length ys) ->
  writem (writem m p xs) (p +! length xs) ys = writem m p (xs ++ ys).
Proof.
  intros (b & H1 & H2). unfold writem at 1. simpl. erewrite nth_writem_eq by eauto. simpl.
  unfold writem. rewrite H1. rewrite set_nth_set_nth. f_equal. f_equal.
  rewrite <- (map_length Some xs). rewrite overwrite_overwrite_app; rewrite ?map_length; try lia.
  rewrite map_app. reflexivity.
Qed.

Lemma writem_writem_same m p xs ys :
  valid m p (length xs) -> length xs = length ys ->
  writem (writem m p xs) p ys = writem m p ys.
Proof.
  intros (b & H1 & H2) HL. unfold writem at 1. simpl. erewrite nth_writem_eq by eauto. simpl.
  unfold writem. rewrite H1. rewrite set_nth_set_nth. f_equal. f_equal.
  apply overwrite_same; rewrite ?map_length; auto.
Qed.

Lemma writem_comm m p xs q ys :
  valid m p (length xs) -> valid m q (length ys) -> disjoint p (length xs) q (length ys) ->
  writem (writem m p xs) q ys = writem (writem m q ys) p xs.
Proof.
  intros (b & H1 & H2) (b' & H3 & H4) D. destruct (Nat.eq_dec (blk q) (blk p)) as [E|E].
  - destruct p as [kb po], q as [kq qo]; simpl in *. subst kq.
    rewrite H1 in H3; inversion H3; subst b'.
    unfold writem; simpl. rewrite H1. rewrite !nth_error_set_nth. rewrite Nat.eqb_refl.
    rewrite (proj2 (Nat.ltb_lt _ _)) by (eapply nth_error_lt; eauto). simpl.
    rewrite !set_nth_set_nth. f_equal. f_equal.
    apply overwrite_comm; rewrite ?map_length; auto. destruct D as [D|D]; simpl in D; [congruence|auto].
  - unfold writem at 1. rewrite nth_writem_neq by auto. rewrite H3.
    unfold writem at 2. unfold writem at 1. rewrite nth_writem_neq by auto. rewrite H1.
    unfold writem. rewrite H3. apply set_nth_comm; auto.
Qed.

Lemma writem_holds_id m p xs : holds m p xs -> writem m p xs = m.
Proof.
  intros (b & H1 & H2 & H3). unfold writem. rewrite H1. rewrite overwrite_id.
  - apply set_nth_id. destruct b; auto.
  - rewrite map_length; auto.
  - rewrite map_length; auto.
Qed.

Lemma holds_sub m p xs i w : holds m p xs -> i + w <= length xs -> holds m (p +! i) (slice i w xs).
Proof.
  intros (b & H1 & H2 & H3) H. exists b. split; auto. rewrite length_slice by auto. simpl. split; [lia|].
  rewrite <- slice_map, <- H3. rewrite slice_slice; auto.
Qed.
Lemma holds_skipn m p xs i : holds m p xs -> i <= length xs -> holds m (p +! i) (skipn i xs).
Proof.
  intros H HL. replace (skipn i xs) with (slice i (length xs - i) xs).
  - apply holds_sub; auto. lia.
  - unfold slice. rewrite <- skipn_length. apply firstn_all.
Qed.
Lemma holds_firstn m p xs i : holds m p xs -> i <= length xs -> holds m p (firstn i xs).
Proof.
  intros H HL. replace (firstn i xs) with (slice 0 i xs) by reflexivity.
  rewrite <- (padd_0 p). apply holds_sub; auto.
Qed.
Lemma holds_app m p xs ys :
  holds m p xs -> holds m (p +! length xs) ys -> holds m p (xs ++ ys).
Proof.
  intros (b & H1 & H2 & H3) (b' & H4 & H5 & H6). simpl in *. rewrite H1 in H4; inversion H4; subst b'.
  exists b. split; auto. rewrite app_length. split; [lia|].
  rewrite slice_app_add, H3, H6, map_app. reflexivity.
Qed.
Lemma holds_app_inv m p xs ys :
  holds m p (xs ++ ys) -> holds m p xs /\ holds m (p +! length xs) ys.
Proof.
  intros H. split.
  - replace xs with (firstn (length xs) (xs ++ ys)).
    + apply holds_firstn; auto. rewrite app_length; lia.
    + rewrite firstn_app, Nat.sub_diag. simpl. rewrite app_nil_r. apply firstn_all.
  - assert (E : skipn (length xs) (xs ++ ys) = ys)
      by (rewrite skipn_app, Nat.sub_diag, skipn_all; reflexivity).
    rewrite <- E. apply holds_skipn; auto. rewrite app_length; lia.
Qed.

(** partial progress of an in-place loop: the part not yet overwritten *)
Lemma holds_rest m p old new i :
  holds m p old -> i <= length old -> length new = length old ->
  holds (writem m p (firstn i new)) (p +! i) (skipn i old).
Proof.
  intros H HL HN. apply holds_writem_disjoint.
  - apply valid_le with (length old). { apply holds_valid; auto. } rewrite firstn_length. lia.
  - apply holds_skipn; auto.
  - right; left. simpl. rewrite firstn_length. lia.
Qed.

Lemma loadv_rest m p old new i w :
  holds m p old -> i + w <= length old -> length new = length old ->
  loadv w (p +! i) (writem m p (firstn i new)) = Ok (slice i w old, writem m p (firstn i new)).
Proof.
  intros H HL HN. rewrite <- (padd_0 (p +! i)).
  rewrite loadv_holds with (xs := skipn i old).
  - reflexivity.
  - apply holds_rest; auto. lia.
  - rewrite skipn_length. lia.
Qed.

Lemma load_rest m p old new i x :
  holds m p old -> nth_error old i = Some x -> length new = length old ->
  load (p +! i) (writem m p (firstn i new)) = Ok (x, writem m p (firstn i new)).
Proof.
  intros H HL HN. rewrite <- (padd_0 (p +! i)).
  apply load_holds with (xs := skipn i old).
  - apply holds_rest; auto. apply nth_error_lt in HL. lia.
  - rewrite nth_error_skipn. rewrite Nat.add_0_r. auto.
Qed.

Lemma storev_next m p n new i ys :
  valid m p n -> length new = n -> i + length ys <= n -> ys = slice i (length ys) new ->
  storev (p +! i) ys (writem m p (firstn i new)) = Ok (tt, writem m p (firstn (i + length ys) new)).
Proof.
  intros V HN HL HY.
  assert (V' : valid (writem m p (firstn i new)) p n).
  { apply valid_writem; auto. eapply valid_le; eauto. rewrite firstn_length. lia. }
  rewrite (storev_valid i ys V' HL). f_equal. f_equal.
  replace (p +! i) with (p +! length (firstn i new)) by (rewrite firstn_length, Nat.min_l by lia; auto).
  rewrite writem_writem_app.
  - f_equal. rewrite HY at 1. rewrite firstn_slice_app. reflexivity.
  - eapply valid_le; eauto. rewrite firstn_length. lia.
Qed.

Lemma store_next m p n new i y :
  valid m p n -> length new = n -> nth_error new i = Some y ->
  store (p +! i) y (writem m p (firstn i new)) = Ok (tt, writem m p (firstn (i + 1) new)).
Proof.
  intros V HN HY. assert (i < length new) by (eapply nth_error_lt; eauto).
  unfold store. rewrite storev_next with (n := n); auto.
  - simpl; lia.
  - simpl. symmetry. apply slice_one; auto.
Qed.

(** ** Loops *)
Lemma for_loop_st (cond : nat -> bool) (w : nat) (body : nat -> M unit) (st : nat -> mem)
    (I : nat -> Prop) (N : nat) :
  1 <= w ->
  (forall i, cond i = true -> i < N) ->
  (forall i, I i -> cond i = true -> body i (st i) = Ok (tt, st (i + w)) /\ I (i + w)) ->
  forall fuel i, I i -> N - i < fuel ->
  exists i', for_loop fuel cond w i body (st i) = Ok (i', st i') /\ cond i' = false /\ I i' /\ i <= i'.
Proof.
  intros Hw HN Hb. induction fuel as [|k IH]; intros i Hi Hf; [lia|].
  simpl. destruct (cond i) eqn:E.
  - destruct (Hb i Hi E) as [E1 E2]. unfold bind. rewrite E1.
    destruct (IH (i + w)) as (i' & A & B & C & D); auto.
    { apply HN in E. lia. }
    exists i'. repeat split; auto. lia.
  - exists i. unfold ret. auto.
Qed.

Lemma loop_le_st w n body (st : nat -> mem) (I : nat -> Prop) i :
  1 <= w -> I i -> i <= n ->
  (forall i, I i -> i + w <= n -> body i (st i) = Ok (tt, st (i + w)) /\ I (i + w)) ->
  exists i', loop_le w n i body (st i) = Ok (i', st i') /\ i <= i' <= n /\ n < i' + w /\ I i'.
Proof.
  intros Hw HI Hin Hb. unfold loop_le.
  destruct (@for_loop_st (fun i => i + w <=? n) w body st (fun j => I j /\ j <= n) n) with (fuel := S n) (i := i)
    as (i' & A & B & C & D); auto; try lia.
  - intros j Hj. apply Nat.leb_le in Hj. lia.
  - intros j [Hj Hj2] Hc. apply Nat.leb_le in Hc. destruct (Hb j Hj Hc) as [E1 E2]. repeat split; auto.
  - apply Nat.leb_gt in B. exists i'. intuition.
Qed.

Lemma loop_lt_st w n body (st : nat -> mem) (I : nat -> Prop) i :
  1 <= w -> I i -> i <= n ->
  (forall i, I i -> i + w < n -> body i (st i) = Ok (tt, st (i + w)) /\ I (i + w)) ->
  exists i', loop_lt w n i body (st i) = Ok (i', st i') /\ i <= i' <= n /\ n <= i' + w /\ I i'.
Proof.
  intros Hw HI Hin Hb. unfold loop_lt.
  destruct (@for_loop_st (fun i => i + w <? n) w body st (fun j => I j /\ j <= n) n) with (fuel := S n) (i := i)
    as (i' & A & B & C & D); auto; try lia.
  - intros j Hj. apply Nat.ltb_lt in Hj. lia.
  - intros j [Hj Hj2] Hc. apply Nat.ltb_lt in Hc. destruct (Hb j Hj Hc) as [E1 E2]. repeat split; auto. lia.
  - apply Nat.ltb_ge in B. exists i'. intuition.
Qed.

Lemma loop1_st n body (st : nat -> mem) i :
  i <= n ->
  (forall j, i <= j < n -> body j (st j) = Ok (tt, st (j + 1))) ->
  loop1 n i body (st i) = Ok (tt, st n).
Proof.
  intros Hin Hb. unfold loop1.
  destruct (@for_loop_st (fun i => i <? n) 1 body st (fun j => i <= j <= n) n) with (fuel := S n) (i := i)
    as (i' & A & B & C & D); auto; try lia.
  - intros j Hj. apply Nat.ltb_lt in Hj. lia.
  - intros j Hj Hc. apply Nat.ltb_lt in Hc. split; [apply Hb; lia|lia].
  - unfold bind. rewrite A. apply Nat.ltb_ge in B. replace i' with n by lia. reflexivity.
Qed.

Lemma for_loop_acc_st A (cond : nat -> bool) (w : nat) (body : nat -> A -> M A) (st : nat -> mem)
    (ac : nat -> A) (I : nat -> Prop) (N : nat) :
  1 <= w ->
  (forall i, cond i = true -> i < N) ->
  (forall i, I i -> cond i = true -> body i (ac i) (st i) = Ok (ac (i + w), st (i + w)) /\ I (i + w)) ->
  forall fuel i, I i -> N - i < fuel ->
  exists i', for_loop_acc fuel cond w i (ac i) body (st i) = Ok ((i', ac i'), st i') /\ cond i' = false /\ I i' /\ i <= i'.
Proof.
  intros Hw HN Hb. induction fuel as [|k IH]; intros i Hi Hf; [lia|].
  simpl. destruct (cond i) eqn:E.
  - destruct (Hb i Hi E) as [E1 E2]. unfold bind. rewrite E1.
    destruct (IH (i + w)) as (i' & A1 & B & C & D); auto.
    { apply HN in E. lia. }
    exists i'. repeat split; auto. lia.
  - exists i. unfold ret. auto.
Qed.

(** aligned accesses *)
Lemma loadv_al_ok w p m : aligned_to w m p = true -> loadv_al w p m = loadv w p m.
Proof. intros H. unfold loadv_al. rewrite H. reflexivity. Qed.
Lemma storev_al_ok p xs m : aligned_to (length xs) m p = true -> storev_al p xs m = storev p xs m.
Proof. intros H. unfold storev_al. rewrite H. reflexivity. Qed.

Lemma aligned_to_padd w m p i :
  1 <= w -> nth_error m (blk p) <> None ->
  aligned_to w m p = true -> Nat.divide w i -> aligned_to w m (p +! i) = true.
Proof.
  intros Hw Hn H [k Hk]. unfold aligned_to in *. rewrite addr_padd by auto.
  apply Z.eqb_eq in H. apply Z.eqb_eq. subst i.
  replace (addr m p + 4 * Z.of_nat (k * w))%Z with (addr m p + Z.of_nat k * (4 * Z.of_nat w))%Z by lia.
  rewrite Z_mod_plus_full. auto.
Qed.

Lemma aligned_to_half w m p : 1 <= w -> aligned_to (2 * w) m p = true -> aligned_to w m p = true.
Proof.
  intros Hw H. unfold aligned_to in *. apply Z.eqb_eq in H. apply Z.eqb_eq.
  apply Z.mod_divide in H; [|lia]. apply Z.mod_divide; [lia|].
  destruct H as [k Hk]. exists (2 * k)%Z. lia.
Qed.

Lemma store_valid0 m p y : valid m p 1 -> store p y m = Ok (tt, writem m p [y]).
Proof. intros V. rewrite <- (padd_0 p). apply store_valid with (n := 1); auto. Qed.
Lemma load_holds0 m p x xs : holds m p (x :: xs) -> load p m = Ok (x, m).
Proof. intros V. rewrite <- (padd_0 p). apply load_holds with (xs := x :: xs); auto. Qed.

(** bind *)
Lemma bind_ok A B (x : M A) (f : A -> M B) m a m' : x m = Ok (a, m') -> bind x f m = f a m'.
Proof. unfold bind. intros ->. reflexivity. Qed.

End MemProofs.

Arguments valid {FO}.
Arguments holds {FO}.
