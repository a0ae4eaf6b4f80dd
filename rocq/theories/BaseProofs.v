(** BaseProofs.v -- lemmas about the list helpers of Base.v *)
From Coq Require Import List Arith ZArith Lia Bool.
From Verif Require Import Base.
Import ListNotations.
Set Implicit Arguments.

Lemma length_slice A i w (l : list A) : i + w <= length l -> length (slice i w l) = w.
Proof. intros H. unfold slice. rewrite firstn_length, skipn_length. lia. Qed.

Lemma nth_error_slice A i w (l : list A) k :
  k < w -> nth_error (slice i w l) k = nth_error l (i + k).
Proof.
  unfold slice. revert l k w. induction i as [|i IH]; intros l k w H; simpl.
  - revert l k H. induction w as [|w IHw]; intros l k H; [lia|].
    destruct l as [|x l]; destruct k; simpl; auto. apply IHw; lia.
  - destruct l as [|x l]; simpl.
    + rewrite firstn_nil. destruct k; reflexivity.
    + apply IH; auto.
Qed.

Lemma nth_error_ext A (l1 l2 : list A) :
  (forall k, nth_error l1 k = nth_error l2 k) -> l1 = l2.
Proof.
  revert l2. induction l1 as [|x l1 IH]; intros [|y l2] H; auto.
  - specialize (H 0); discriminate.
  - specialize (H 0); discriminate.
  - f_equal.
    + specialize (H 0); simpl in H; congruence.
    + apply IH. intros k. exact (H (S k)).
Qed.

Lemma nth_error_ext_len A (l1 l2 : list A) :
  length l1 = length l2 ->
  (forall k, k < length l1 -> nth_error l1 k = nth_error l2 k) -> l1 = l2.
Proof.
  intros HL H. apply nth_error_ext. intros k.
  destruct (Nat.lt_ge_cases k (length l1)) as [Hk|Hk]; [auto|].
  rewrite (proj2 (nth_error_None l1 k)) by lia.
  rewrite (proj2 (nth_error_None l2 k)) by lia. reflexivity.
Qed.

Lemma length_mapi_from A B k (f : nat -> A -> B) l : length (mapi_from k f l) = length l.
Proof. revert k; induction l; simpl; auto. Qed.
Lemma length_mapi A B (f : nat -> A -> B) l : length (mapi f l) = length l.
Proof. apply length_mapi_from. Qed.

Lemma nth_error_mapi_from A B (f : nat -> A -> B) l : forall k i,
  nth_error (mapi_from k f l) i = option_map (f (k + i)) (nth_error l i).
Proof.
  induction l as [|x l IH]; intros k [|i]; simpl; auto.
  - rewrite Nat.add_0_r; reflexivity.
  - rewrite IH. replace (S k + i) with (k + S i) by lia. reflexivity.
Qed.
Lemma nth_error_mapi A B (f : nat -> A -> B) l i :
  nth_error (mapi f l) i = option_map (f i) (nth_error l i).
Proof. apply nth_error_mapi_from. Qed.

Lemma length_map2 A B C (f : A -> B -> C) l1 : forall l2,
  length (map2 f l1 l2) = Nat.min (length l1) (length l2).
Proof. induction l1; intros [|y l2]; simpl; auto. Qed.

Lemma nth_error_map2 A B C (f : A -> B -> C) l1 : forall l2 i,
  nth_error (map2 f l1 l2) i =
  match nth_error l1 i, nth_error l2 i with Some x, Some y => Some (f x y) | _, _ => None end.
Proof.
  induction l1 as [|x l1 IH]; intros [|y l2] [|i]; simpl; auto.
  destruct (nth_error l1 i); auto.
Qed.

Lemma length_mapi2_from A B C (f : nat -> A -> B -> C) l1 : forall k l2,
  length (mapi2_from k f l1 l2) = Nat.min (length l1) (length l2).
Proof. induction l1; intros k [|y l2]; simpl; auto. Qed.
Lemma length_mapi2 A B C (f : nat -> A -> B -> C) l1 l2 :
  length (mapi2 f l1 l2) = Nat.min (length l1) (length l2).
Proof. apply length_mapi2_from. Qed.

Lemma nth_error_mapi2_from A B C (f : nat -> A -> B -> C) l1 : forall k l2 i,
  nth_error (mapi2_from k f l1 l2) i =
  match nth_error l1 i, nth_error l2 i with Some x, Some y => Some (f (k + i) x y) | _, _ => None end.
Proof.
  induction l1 as [|x l1 IH]; intros k [|y l2] [|i]; simpl; auto.
  - destruct (nth_error l1 i); auto.
  - rewrite Nat.add_0_r; reflexivity.
  - rewrite IH. destruct (nth_error l1 i), (nth_error l2 i); auto. replace (S k + i) with (k + S i) by lia. reflexivity.
Qed.
Lemma nth_error_mapi2 A B C (f : nat -> A -> B -> C) l1 l2 i :
  nth_error (mapi2 f l1 l2) i =
  match nth_error l1 i, nth_error l2 i with Some x, Some y => Some (f i x y) | _, _ => None end.
Proof. apply nth_error_mapi2_from. Qed.

Lemma mapi2_const A B C (f : A -> B -> C) l1 l2 : mapi2 (fun _ => f) l1 l2 = map2 f l1 l2.
Proof.
  apply nth_error_ext; intros k. rewrite nth_error_mapi2, nth_error_map2. reflexivity.
Qed.
Lemma mapi_const A B (f : A -> B) l : mapi (fun _ => f) l = map f l.
Proof.
  apply nth_error_ext; intros k. rewrite nth_error_mapi, nth_error_map. reflexivity.
Qed.

Lemma mapi_ext A B (f g : nat -> A -> B) l :
  (forall i x, nth_error l i = Some x -> f i x = g i x) -> mapi f l = mapi g l.
Proof.
  intros H. apply nth_error_ext; intros k. rewrite !nth_error_mapi.
  destruct (nth_error l k) eqn:E; simpl; auto. f_equal; auto.
Qed.
Lemma mapi2_ext A B C (f g : nat -> A -> B -> C) l1 l2 :
  (forall i x y, nth_error l1 i = Some x -> nth_error l2 i = Some y -> f i x y = g i x y) ->
  mapi2 f l1 l2 = mapi2 g l1 l2.
Proof.
  intros H. apply nth_error_ext; intros k. rewrite !nth_error_mapi2.
  destruct (nth_error l1 k) eqn:E1, (nth_error l2 k) eqn:E2; simpl; auto. f_equal; auto.
Qed.

Lemma slice_ext A i w (l1 : list A) l2 :
  i + w <= length l1 -> length l2 = w ->
  (forall k, k < w -> nth_error l1 (i + k) = nth_error l2 k) -> slice i w l1 = l2.
Proof.
  intros H1 H2 H. apply nth_error_ext_len.
  - rewrite length_slice; auto.
  - rewrite length_slice by auto. intros k Hk. rewrite nth_error_slice by auto. auto.
Qed.

Lemma slice_mapi A B i w (f : nat -> A -> B) g l :
  i + w <= length l ->
  (forall k x, i <= k < i + w -> nth_error l k = Some x -> f k x = g x) ->
  slice i w (mapi f l) = map g (slice i w l).
Proof.
  intros HL H. apply slice_ext.
  - rewrite length_mapi; auto.
  - rewrite map_length, length_slice; auto.
  - intros k Hk. rewrite nth_error_mapi, nth_error_map, nth_error_slice by auto.
    destruct (nth_error l (i + k)) eqn:E; simpl; auto. rewrite (H (i+k)); auto. lia.
Qed.

Lemma slice_mapi2 A B C i w (f : nat -> A -> B -> C) g l1 l2 :
  i + w <= length l1 -> i + w <= length l2 ->
  (forall k x y, i <= k < i + w -> nth_error l1 k = Some x -> nth_error l2 k = Some y -> f k x y = g x y) ->
  slice i w (mapi2 f l1 l2) = map2 g (slice i w l1) (slice i w l2).
Proof.
  intros HL1 HL2 H. apply slice_ext.
  - rewrite length_mapi2. lia.
  - rewrite length_map2, !length_slice; auto. lia.
  - intros k Hk. rewrite nth_error_mapi2, nth_error_map2, !nth_error_slice by auto.
    destruct (nth_error l1 (i + k)) eqn:E; simpl; auto.
    destruct (nth_error l2 (i + k)) eqn:E2; simpl; auto. rewrite (H (i+k)); auto. lia.
Qed.

Lemma slice_map A B i w (g : A -> B) l : slice i w (map g l) = map g (slice i w l).
Proof. unfold slice. rewrite skipn_map, firstn_map. reflexivity. Qed.

Lemma slice_map2 A B C i w (g : A -> B -> C) l1 l2 :
  i + w <= length l1 -> i + w <= length l2 ->
  slice i w (map2 g l1 l2) = map2 g (slice i w l1) (slice i w l2).
Proof. intros. rewrite <- mapi2_const. apply slice_mapi2; auto. Qed.

Lemma slice_slice A i w j v (l : list A) :
  j + v <= w -> slice j v (slice i w l) = slice (i + j) v l.
Proof.
  intros H. apply nth_error_ext. intros k.
  destruct (Nat.lt_ge_cases k v).
  - rewrite !nth_error_slice by lia. f_equal. lia.
  - rewrite !(proj2 (nth_error_None _ k)); auto;
      unfold slice; rewrite ?firstn_length, ?skipn_length; lia.
Qed.

Lemma firstn_slice_app A i w (l : list A) : firstn i l ++ slice i w l = firstn (i + w) l.
Proof.
  unfold slice. revert i. induction l as [|x l IH]; intros [|i]; simpl; auto.
  - rewrite !firstn_nil; auto.
  - f_equal. apply IH.
Qed.

Lemma slice_0_all A (l : list A) : slice 0 (length l) l = l.
Proof. unfold slice. simpl. apply firstn_all. Qed.

Lemma skipn_skipn A i j (l : list A) : skipn i (skipn j l) = skipn (j + i) l.
Proof.
  revert l. induction j; intros l; auto. destruct l; simpl; auto. rewrite skipn_nil; auto.
Qed.

Lemma slice_app_add A i w v (l : list A) : slice i (w + v) l = slice i w l ++ slice (i + w) v l.
Proof.
  unfold slice. rewrite <- (firstn_slice_app w v (skipn i l)).
  f_equal. unfold slice. f_equal. rewrite skipn_skipn. reflexivity.
Qed.

Lemma slice_one A i (l : list A) x : nth_error l i = Some x -> slice i 1 l = [x].
Proof.
  intros H. unfold slice. assert (i < length l) by (apply nth_error_Some; congruence).
  revert i H H0. induction l as [|y l IH]; intros [|i]; simpl; intros; try lia; try congruence.
  apply IH; auto; lia.
Qed.

Lemma slice_app_l A i w (l1 l2 : list A) : i + w <= length l1 -> slice i w (l1 ++ l2) = slice i w l1.
Proof.
  intros H. apply nth_error_ext; intros k. destruct (Nat.lt_ge_cases k w).
  - rewrite !nth_error_slice by auto. apply nth_error_app1. lia.
  - rewrite !(proj2 (nth_error_None _ k)); auto; unfold slice; rewrite firstn_length; lia.
Qed.
Lemma slice_app_r A i w (l1 l2 : list A) : slice (length l1 + i) w (l1 ++ l2) = slice i w l2.
Proof.
  apply nth_error_ext; intros k. destruct (Nat.lt_ge_cases k w).
  - rewrite !nth_error_slice by auto. rewrite nth_error_app2 by lia. f_equal; lia.
  - rewrite !(proj2 (nth_error_None _ k)); auto; unfold slice; rewrite firstn_length; lia.
Qed.

(** ** overwrite *)
Lemma length_overwrite A (l : list A) i xs :
  i + length xs <= length l -> length (overwrite l i xs) = length l.
Proof. intros H. unfold overwrite. rewrite !app_length, firstn_length, skipn_length. lia. Qed.

Lemma nth_error_firstn A n k (l : list A) : k < n -> nth_error (firstn n l) k = nth_error l k.
Proof.
  revert k l. induction n; intros k l H; [lia|]. destruct l, k; simpl; auto. apply IHn; lia.
Qed.
Lemma nth_error_skipn A n k (l : list A) : nth_error (skipn n l) k = nth_error l (n + k).
Proof.
  revert l. induction n; intros l; auto. destruct l; simpl; auto. destruct k; auto.
Qed.

Lemma nth_error_overwrite A (l : list A) i xs k :
  i + length xs <= length l ->
  nth_error (overwrite l i xs) k =
  if (i <=? k) && (k <? i + length xs) then nth_error xs (k - i) else nth_error l k.
Proof.
  intros H. unfold overwrite.
  destruct (Nat.leb_spec i k), (Nat.ltb_spec k (i + length xs)); simpl.
  - rewrite nth_error_app2 by (rewrite firstn_length; lia).
    rewrite firstn_length, Nat.min_l by lia. rewrite nth_error_app1 by lia. reflexivity.
  - rewrite nth_error_app2 by (rewrite firstn_length; lia).
    rewrite firstn_length, Nat.min_l by lia. rewrite nth_error_app2 by lia.
    rewrite nth_error_skipn. f_equal. lia.
  - rewrite nth_error_app1 by (rewrite firstn_length; lia). apply nth_error_firstn; lia.
  - lia.
Qed.

Lemma overwrite_nil A (l : list A) i : overwrite l i [] = l.
Proof. unfold overwrite. simpl. rewrite Nat.add_0_r. apply firstn_skipn. Qed.

Lemma overwrite_overwrite_app A (l : list A) i xs ys :
  i + length xs + length ys <= length l ->
  overwrite (overwrite l i xs) (i + length xs) ys = overwrite l i (xs ++ ys).
Proof.
  intros H. apply nth_error_ext; intros k.
  rewrite !nth_error_overwrite; rewrite ?app_length, ?length_overwrite; try lia.
  destruct (Nat.leb_spec (i + length xs) k), (Nat.ltb_spec k (i + length xs + length ys)),
    (Nat.leb_spec i k), (Nat.ltb_spec k (i + length xs)),
    (Nat.ltb_spec k (i + (length xs + length ys))); simpl; try lia; auto.
  - rewrite nth_error_app2 by lia. f_equal; lia.
  - rewrite nth_error_app1 by lia. reflexivity.
Qed.

Lemma overwrite_same A (l : list A) i xs ys :
  i + length xs <= length l -> length xs = length ys ->
  overwrite (overwrite l i xs) i ys = overwrite l i ys.
Proof.
  intros H HL. apply nth_error_ext; intros k.
  rewrite !nth_error_overwrite; rewrite ?length_overwrite; try lia.
  rewrite HL. destruct (Nat.leb_spec i k), (Nat.ltb_spec k (i + length ys)); simpl; auto.
Qed.

Lemma overwrite_comm A (l : list A) i xs j ys :
  i + length xs <= length l -> j + length ys <= length l ->
  i + length xs <= j \/ j + length ys <= i ->
  overwrite (overwrite l i xs) j ys = overwrite (overwrite l j ys) i xs.
Proof.
  intros H1 H2 D. apply nth_error_ext; intros k.
  rewrite !nth_error_overwrite; rewrite ?length_overwrite; try lia.
  destruct (Nat.leb_spec i k), (Nat.ltb_spec k (i + length xs)), (Nat.leb_spec j k), (Nat.ltb_spec k (j + length ys)); simpl; auto; lia.
Qed.

Lemma overwrite_id A (l : list A) i xs :
  slice i (length xs) l = xs -> i + length xs <= length l -> overwrite l i xs = l.
Proof.
  intros H HL. apply nth_error_ext; intros k. rewrite nth_error_overwrite by auto.
  destruct (Nat.leb_spec i k), (Nat.ltb_spec k (i + length xs)); simpl; auto.
  rewrite <- H at 1. rewrite nth_error_slice by lia. f_equal; lia.
Qed.

(** ** all_some *)
Lemma all_some_map A (l : list A) : all_some (map Some l) = Some l.
Proof. induction l; simpl; auto. rewrite IHl. auto. Qed.
Lemma all_some_inv A (l : list (option A)) xs : all_some l = Some xs -> l = map Some xs.
Proof.
  revert xs; induction l as [|[x|] l IH]; simpl; intros xs H; try congruence.
  - inversion H; auto.
  - destruct (all_some l); [|congruence]. inversion H; subst. simpl. f_equal. auto.
Qed.

(** ** set_nth *)
Lemma length_set_nth A (l : list A) i x : length (set_nth l i x) = length l.
Proof. revert i; induction l; intros [|i]; simpl; auto. Qed.
Lemma nth_error_set_nth A (l : list A) i x k :
  nth_error (set_nth l i x) k = if (k =? i) && (i <? length l) then Some x else nth_error l k.
Proof.
  revert i k. induction l as [|y l IH]; intros [|i] [|k]; simpl; auto.
  - destruct (k =? i); auto.
  - change (S i <? S (length l)) with (i <? length l). apply IH.
Qed.
Lemma set_nth_set_nth A (l : list A) i x y : set_nth (set_nth l i x) i y = set_nth l i y.
Proof. revert i; induction l; intros [|i]; simpl; auto. f_equal; auto. Qed.
Lemma set_nth_comm A (l : list A) i j x y :
  i <> j -> set_nth (set_nth l i x) j y = set_nth (set_nth l j y) i x.
Proof.
  revert i j; induction l; intros [|i] [|j] H; simpl; auto; try congruence.
  f_equal; apply IHl; congruence.
Qed.
Lemma set_nth_id A (l : list A) i x : nth_error l i = Some x -> set_nth l i x = l.
Proof.
  revert i; induction l; intros [|i] H; simpl in *; auto; try congruence.
  f_equal; auto.
Qed.
Lemma set_nth_app1 A (l1 l2 : list A) i x : i < length l1 -> set_nth (l1 ++ l2) i x = set_nth l1 i x ++ l2.
Proof. revert i; induction l1; intros [|i] H; simpl in *; try lia; auto. f_equal; apply IHl1; lia. Qed.
