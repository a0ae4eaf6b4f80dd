(** KernelProofs.v -- the memory-level kernels compute their element-wise meaning *)
From Coq Require Import List Arith ZArith Lia Bool.
From Verif Require Import Base BaseProofs Ops Mem MemProofs Kernels.
Import ListNotations.
Set Implicit Arguments.
Local Open Scope mem_scope.

Section KP.
Context {FO : fops}.
Variable c : cfg.

Lemma avx512_avx : has_avx512 c = true -> has_avx c = true.
Proof. unfold has_avx512, has_avx. destruct (cfg_isa c); congruence. Qed.
Lemma avx2_avx : has_avx2 c = true -> has_avx c = true.
Proof. unfold has_avx2, has_avx. destruct (cfg_isa c); congruence. Qed.

(** end of the part processed by vector code *)
Definition vend (n : nat) : nat := if has_avx c then 8 * (n / 8) else 0.
Definition vend_strict (n : nat) : nat := if has_avx c then 8 * ((n - 1) / 8) else 0.

Lemma div_mul_le a b : b <> 0 -> b * (a / b) <= a /\ a < b * (a / b) + b.
Proof. intros H. pose proof (Nat.div_mod a b H). pose proof (Nat.mod_upper_bound a b H). lia. Qed.

Lemma divide_bound w i n q : 1 <= w -> Nat.divide w i -> i + w <= n -> q = n / w -> i + w <= w * q.
Proof.
  intros Hw [k Hk] H ->. destruct (@div_mul_le n w) as [H1 H2]; [lia|].
  assert (k + 1 <= n / w); [|nia].
  apply Nat.div_le_lower_bound; lia.
Qed.

Lemma three_loops_st n b16 b8 b1 (st : nat -> mem) :
  (has_avx512 c = true -> forall i, Nat.divide 16 i -> i + 16 <= n -> i + 16 <= vend n -> b16 i (st i) = Ok (tt, st (i + 16))) ->
  (has_avx c = true -> forall i, Nat.divide 8 i -> i + 8 <= n -> i + 8 <= vend n -> b8 i (st i) = Ok (tt, st (i + 8))) ->
  (forall i, vend n <= i < n -> b1 i (st i) = Ok (tt, st (i + 1))) ->
  three_loops c n b16 b8 b1 (st 0) = Ok (tt, st n).
Proof.
  intros H16 H8 H1. unfold three_loops, when.
  destruct (has_avx c) eqn:EA.
  - assert (V : vend n = 8 * (n / 8)) by (unfold vend; rewrite EA; auto).
    assert (exists i, (if has_avx512 c then loop_le 16 n 0 b16 else ret 0) (st 0) = Ok (i, st i)
                      /\ Nat.divide 8 i /\ i <= n) as (i & E & Hd & Hi).
    { destruct (has_avx512 c) eqn:E5.
      - destruct (@loop_le_st _ 16 n b16 st (fun i => Nat.divide 16 i) 0) as (i & A & B & C & D); try lia.
        + apply Nat.divide_0_r.
        + intros j Hj Hjn. split.
          * apply H16; auto. rewrite V.
            destruct Hj as [k Hk]. replace (j + 16) with (j + 8 + 8) by lia. apply divide_bound with (n := n) (w := 8) (i := j + 8) (q := n/8); try lia.
            exists (2 * k + 1). lia.
          * apply Nat.divide_add_r; auto. apply Nat.divide_refl.
        + exists i. repeat split; auto; try lia. destruct D as [k Hk]. exists (2*k). lia.
      - exists 0. repeat split; auto; try lia. apply Nat.divide_0_r. }
    erewrite bind_ok by eauto.
    destruct (@loop_le_st _ 8 n b8 st (fun i => Nat.divide 8 i) i) as (j & A & B & C & D); try lia; auto.
    + intros j Hj Hjn. split.
      * apply H8; auto. rewrite V. apply divide_bound with (n := n); auto; lia.
      * apply Nat.divide_add_r; auto. apply Nat.divide_refl.
    + erewrite bind_ok by eauto.
      apply loop1_st; [lia|]. intros k Hk. apply H1.
      destruct D as [q Hq]. rewrite V. destruct (@div_mul_le n 8); [lia|].
      assert (n / 8 <= q); [|lia]. apply Nat.lt_succ_r. apply Nat.div_lt_upper_bound; lia.
  - assert (E5 : has_avx512 c = false).
    { destruct (has_avx512 c) eqn:E; auto. apply avx512_avx in E. congruence. }
    rewrite E5. cbv [bind ret].
    apply loop1_st; [lia|]. intros k Hk. apply H1. unfold vend. rewrite EA. lia.
Qed.

Lemma three_loops_strict_st n b16 b8 b1 (st : nat -> mem) :
  (has_avx512 c = true -> forall i, Nat.divide 16 i -> i + 16 < n -> i + 16 <= vend_strict n -> b16 i (st i) = Ok (tt, st (i + 16))) ->
  (has_avx c = true -> forall i, Nat.divide 8 i -> i + 8 < n -> i + 8 <= vend_strict n -> b8 i (st i) = Ok (tt, st (i + 8))) ->
  (forall i, vend_strict n <= i < n -> b1 i (st i) = Ok (tt, st (i + 1))) ->
  three_loops_strict c n b16 b8 b1 (st 0) = Ok (tt, st n).
Proof.
  intros H16 H8 H1. unfold three_loops_strict, when.
  destruct (has_avx c) eqn:EA.
  - assert (V : vend_strict n = 8 * ((n - 1) / 8)) by (unfold vend_strict; rewrite EA; auto).
    assert (exists i, (if has_avx512 c then loop_lt 16 n 0 b16 else ret 0) (st 0) = Ok (i, st i)
                      /\ Nat.divide 8 i /\ i <= n) as (i & E & Hd & Hi).
    { destruct (has_avx512 c) eqn:E5.
      - destruct (@loop_lt_st _ 16 n b16 st (fun i => Nat.divide 16 i) 0) as (i & A & B & C & D); try lia.
        + apply Nat.divide_0_r.
        + intros j Hj Hjn. split.
          * apply H16; auto. rewrite V.
            destruct Hj as [k Hk]. replace (j + 16) with (j + 8 + 8) by lia. apply divide_bound with (n := n - 1) (w := 8) (i := j + 8) (q := (n-1)/8); try lia.
            exists (2 * k + 1). lia.
          * apply Nat.divide_add_r; auto. apply Nat.divide_refl.
        + exists i. repeat split; auto; try lia. destruct D as [k Hk]. exists (2*k). lia.
      - exists 0. repeat split; auto; try lia. apply Nat.divide_0_r. }
    erewrite bind_ok by eauto.
    destruct (@loop_lt_st _ 8 n b8 st (fun i => Nat.divide 8 i) i) as (j & A & B & C & D); try lia; auto.
    + intros j Hj Hjn. split.
      * apply H8; auto. rewrite V. apply divide_bound with (n := n-1); auto; lia.
      * apply Nat.divide_add_r; auto. apply Nat.divide_refl.
    + erewrite bind_ok by eauto.
      apply loop1_st; [lia|]. intros k Hk. apply H1.
      destruct D as [q Hq]. rewrite V.
      assert ((n-1) / 8 <= q); [|lia]. apply Nat.lt_succ_r. apply Nat.div_lt_upper_bound; lia.
  - assert (E5 : has_avx512 c = false).
    { destruct (has_avx512 c) eqn:E; auto. apply avx512_avx in E. congruence. }
    rewrite E5. cbv [bind ret].
    apply loop1_st; [lia|]. intros k Hk. apply H1. unfold vend_strict. rewrite EA. lia.
Qed.

Lemma three_loops_new n b16 b8 b1 m p new :
  length new = n ->
  (has_avx512 c = true -> forall i, Nat.divide 16 i -> i + 16 <= n -> i + 16 <= vend n ->
     b16 i (writem m p (firstn i new)) = Ok (tt, writem m p (firstn (i + 16) new))) ->
  (has_avx c = true -> forall i, Nat.divide 8 i -> i + 8 <= n -> i + 8 <= vend n ->
     b8 i (writem m p (firstn i new)) = Ok (tt, writem m p (firstn (i + 8) new))) ->
  (forall i, vend n <= i < n -> b1 i (writem m p (firstn i new)) = Ok (tt, writem m p (firstn (i + 1) new))) ->
  three_loops c n b16 b8 b1 m = Ok (tt, writem m p new).
Proof.
  intros HN H16 H8 H1.
  pose proof (@three_loops_st n b16 b8 b1 (fun i => writem m p (firstn i new)) H16 H8 H1) as H.
  simpl in H. rewrite writem_nil in H. rewrite H. rewrite <- HN, firstn_all. reflexivity.
Qed.
Lemma three_loops_strict_new n b16 b8 b1 m p new :
  length new = n ->
  (has_avx512 c = true -> forall i, Nat.divide 16 i -> i + 16 < n -> i + 16 <= vend_strict n ->
     b16 i (writem m p (firstn i new)) = Ok (tt, writem m p (firstn (i + 16) new))) ->
  (has_avx c = true -> forall i, Nat.divide 8 i -> i + 8 < n -> i + 8 <= vend_strict n ->
     b8 i (writem m p (firstn i new)) = Ok (tt, writem m p (firstn (i + 8) new))) ->
  (forall i, vend_strict n <= i < n -> b1 i (writem m p (firstn i new)) = Ok (tt, writem m p (firstn (i + 1) new))) ->
  three_loops_strict c n b16 b8 b1 m = Ok (tt, writem m p new).
Proof.
  intros HN H16 H8 H1.
  pose proof (@three_loops_strict_st n b16 b8 b1 (fun i => writem m p (firstn i new)) H16 H8 H1) as H.
  simpl in H. rewrite writem_nil in H. rewrite H. rewrite <- HN, firstn_all. reflexivity.
Qed.

(** Alignment needed by a kernel that runs the two aligned vector loops over n elements at p. *)
Definition kal (n : nat) (m : mem) (p : ptr) : Prop :=
  (has_avx512 c = true -> 16 <= n -> aligned_to 16 m p = true) /\
  (has_avx c = true -> 8 <= n -> aligned_to 8 m p = true).

Lemma kal_writem n m p q xs : kal n (writem m q xs) p <-> kal n m p.
Proof. unfold kal. rewrite !aligned_to_writem. tauto. Qed.

Lemma kal_at w n m p i :
  kal n m p -> valid m p n -> (w = 16 /\ has_avx512 c = true) \/ (w = 8 /\ has_avx c = true) ->
  Nat.divide w i -> i + w <= n -> aligned_to w m (p +! i) = true.
Proof.
  intros [K1 K2] V Hw Hd Hi. apply aligned_to_padd; auto.
  - lia.
  - eapply valid_some; eauto.
  - destruct Hw as [[-> H]|[-> H]]; [apply K1|apply K2]; auto; lia.
Qed.

(** one array, in place: new = mapi f old *)
Section Map1.
Variables (m : mem) (p : ptr) (old : list F).
Let n := length old.
Hypothesis Hold : holds m p old.

Lemma map1_unal w i (g : F -> F) new :
  length new = n -> i + w <= n -> slice i w new = map g (slice i w old) ->
  bind (loadv w (p +! i)) (fun x => storev (p +! i) (map g x)) (writem m p (firstn i new))
  = Ok (tt, writem m p (firstn (i + w) new)).
Proof.
  intros HN Hi HS. erewrite bind_ok by (apply loadv_rest with (old := old); auto).
  assert (HL : length (map g (slice i w old)) = w) by (rewrite map_length, length_slice; auto).
  rewrite storev_next with (n := n); auto; rewrite ?HL; auto.
  apply holds_valid; auto.
Qed.

Lemma map1_al w i (g : F -> F) new :
  length new = n -> i + w <= n -> slice i w new = map g (slice i w old) ->
  aligned_to w m (p +! i) = true ->
  bind (loadv_al w (p +! i)) (fun x => storev_al (p +! i) (map g x)) (writem m p (firstn i new))
  = Ok (tt, writem m p (firstn (i + w) new)).
Proof.
  intros HN Hi HS HA. rewrite <- map1_unal with (g := g); auto.
  unfold bind. rewrite loadv_al_ok by (rewrite aligned_to_writem; auto).
  rewrite loadv_rest with (old := old) by auto.
  apply storev_al_ok. rewrite map_length, length_slice by auto. rewrite aligned_to_writem; auto.
Qed.

Lemma map1_scalar i (g : F -> F) new x :
  length new = n -> nth_error old i = Some x -> nth_error new i = Some (g x) ->
  bind (load (p +! i)) (fun x => store (p +! i) (g x)) (writem m p (firstn i new))
  = Ok (tt, writem m p (firstn (i + 1) new)).
Proof.
  intros HN Hx HS. erewrite bind_ok by (apply load_rest with (old := old); eauto).
  apply store_next with (n := n); auto. apply holds_valid; auto.
Qed.
End Map1.

Lemma nth_error_ex A (l : list A) i : i < length l -> exists x, nth_error l i = Some x.
Proof. intros H. destruct (nth_error l i) eqn:E; eauto. apply nth_error_None in E. lia. Qed.

(** ** vector_scale *)
Lemma vector_scale_ok m p xs s :
  holds m p xs -> kal (length xs) m p ->
  vector_scale c (length xs) p s m = Ok (tt, writem m p (map (fun x => fmul x s) xs)).
Proof.
  intros H K. unfold vector_scale. set (new := map (fun x => fmul x s) xs).
  assert (HN : length new = length xs) by apply map_length.
  apply three_loops_new; auto.
  - intros Ha i Hd Hi _. apply map1_al with (old := xs); auto.
    + unfold new. apply slice_map.
    + eapply kal_at; eauto using holds_valid.
  - intros Ha i Hd Hi _. apply map1_al with (old := xs); auto.
    + unfold new. apply slice_map.
    + eapply kal_at; eauto using holds_valid.
  - intros i Hi. destruct (@nth_error_ex _ xs i) as [x Hx]; [lia|].
    apply map1_scalar with (old := xs) (x := x); auto. unfold new. rewrite nth_error_map, Hx. reflexivity.
Qed.

Lemma vector_divide_by_scalar_ok m p xs s :
  holds m p xs -> kal (length xs) m p ->
  vector_divide_by_scalar c (length xs) p s m = Ok (tt, writem m p (map (fun x => fdiv x s) xs)).
Proof.
  intros H K. unfold vector_divide_by_scalar. set (new := map (fun x => fdiv x s) xs).
  assert (HN : length new = length xs) by apply map_length.
  apply three_loops_new; auto.
  - intros Ha i Hd Hi _. apply map1_al with (old := xs); auto.
    + unfold new. apply slice_map.
    + eapply kal_at; eauto using holds_valid.
  - intros Ha i Hd Hi _. apply map1_al with (old := xs); auto.
    + unfold new. apply slice_map.
    + eapply kal_at; eauto using holds_valid.
  - intros i Hi. destruct (@nth_error_ex _ xs i) as [x Hx]; [lia|].
    apply map1_scalar with (old := xs) (x := x); auto. unfold new. rewrite nth_error_map, Hx. reflexivity.
Qed.

(** two arrays: a (written, in place) and b (read only, disjoint) *)
Section Map2.
Variables (m : mem) (p q : ptr) (old bs : list F).
Let n := length old.
Hypothesis Hold : holds m p old.
Hypothesis Hb : holds m q bs.
Hypothesis Hlen : length bs = n.
Hypothesis Hdis : disjoint p n q n.

Lemma holds_b i new : length new = n -> holds (writem m p (firstn i new)) q bs.
Proof.
  intros HN. apply holds_writem_disjoint; auto.
  - apply valid_le with n. { apply holds_valid; auto. } rewrite firstn_length; lia.
  - rewrite Hlen. eapply disjoint_sub; eauto. rewrite firstn_length; lia.
Qed.

Lemma loadv_b w i j new : length new = n -> j + w <= n ->
  loadv w (q +! j) (writem m p (firstn i new)) = Ok (slice j w bs, writem m p (firstn i new)).
Proof. intros. apply loadv_holds; [apply holds_b; auto|lia]. Qed.
Lemma load_b i j new y : length new = n -> nth_error bs j = Some y ->
  load (q +! j) (writem m p (firstn i new)) = Ok (y, writem m p (firstn i new)).
Proof. intros. eapply load_holds; eauto. apply holds_b; auto. Qed.

Lemma map2_unal w i (g : list F -> list F -> list F) new :
  length new = n -> i + w <= n -> slice i w new = g (slice i w old) (slice i w bs) ->
  bind (loadv w (p +! i)) (fun x => bind (loadv w (q +! i)) (fun y => storev (p +! i) (g x y))) (writem m p (firstn i new))
  = Ok (tt, writem m p (firstn (i + w) new)).
Proof.
  intros HN Hi HS. erewrite bind_ok by (apply loadv_rest with (old := old); auto).
  erewrite bind_ok by (apply loadv_b; auto).
  assert (HL : length (g (slice i w old) (slice i w bs)) = w) by (rewrite <- HS, length_slice; auto; lia).
  rewrite storev_next with (n := n); auto; rewrite ?HL; auto.
  apply holds_valid; auto.
Qed.

Lemma map2_al w i (g : list F -> list F -> list F) new :
  length new = n -> i + w <= n -> slice i w new = g (slice i w old) (slice i w bs) ->
  aligned_to w m (p +! i) = true -> aligned_to w m (q +! i) = true ->
  bind (loadv_al w (p +! i)) (fun x => bind (loadv_al w (q +! i)) (fun y => storev_al (p +! i) (g x y))) (writem m p (firstn i new))
  = Ok (tt, writem m p (firstn (i + w) new)).
Proof.
  intros HN Hi HS HA HB. rewrite <- map2_unal with (g := g); auto.
  unfold bind. rewrite loadv_al_ok by (rewrite aligned_to_writem; auto).
  rewrite loadv_rest with (old := old) by auto.
  rewrite loadv_al_ok by (rewrite aligned_to_writem; auto). rewrite loadv_b by auto.
  apply storev_al_ok. rewrite <- HS, length_slice by lia. rewrite aligned_to_writem; auto.
Qed.

(** y aligned, weights unaligned (vector_matrix_multiply) *)
Lemma map2_al_un w i (g : list F -> list F -> list F) new :
  length new = n -> i + w <= n -> slice i w new = g (slice i w old) (slice i w bs) ->
  aligned_to w m (p +! i) = true ->
  bind (loadv_al w (p +! i)) (fun x => bind (loadv w (q +! i)) (fun y => storev_al (p +! i) (g x y))) (writem m p (firstn i new))
  = Ok (tt, writem m p (firstn (i + w) new)).
Proof.
  intros HN Hi HS HA. rewrite <- map2_unal with (g := g); auto.
  unfold bind. rewrite loadv_al_ok by (rewrite aligned_to_writem; auto).
  rewrite loadv_rest with (old := old) by auto. rewrite loadv_b by auto.
  apply storev_al_ok. rewrite <- HS, length_slice by lia. rewrite aligned_to_writem; auto.
Qed.
(** the FMA variant loads the weights first *)
Lemma map2_un_al w i (g : list F -> list F -> list F) new :
  length new = n -> i + w <= n -> slice i w new = g (slice i w bs) (slice i w old) ->
  aligned_to w m (p +! i) = true ->
  bind (loadv w (q +! i)) (fun y => bind (loadv_al w (p +! i)) (fun x => storev_al (p +! i) (g y x))) (writem m p (firstn i new))
  = Ok (tt, writem m p (firstn (i + w) new)).
Proof.
  intros HN Hi HS HA. rewrite <- map2_unal with (g := fun x y => g y x); auto.
  unfold bind. rewrite loadv_b by auto. rewrite loadv_al_ok by (rewrite aligned_to_writem; auto).
  rewrite loadv_rest with (old := old) by auto. rewrite loadv_b by auto.
  apply storev_al_ok. rewrite <- HS, length_slice by lia. rewrite aligned_to_writem; auto.
Qed.

Lemma map2_scalar i (g : F -> F -> F) new x y :
  length new = n -> nth_error old i = Some x -> nth_error bs i = Some y -> nth_error new i = Some (g x y) ->
  bind (load (p +! i)) (fun x => bind (load (q +! i)) (fun y => store (p +! i) (g x y))) (writem m p (firstn i new))
  = Ok (tt, writem m p (firstn (i + 1) new)).
Proof.
  intros HN Hx Hy HS. erewrite bind_ok by (apply load_rest with (old := old); eauto).
  erewrite bind_ok by (eapply load_b; eauto).
  apply store_next with (n := n); auto. apply holds_valid; auto.
Qed.
End Map2.

(** source and destination arrays: new = g bs; old content of p irrelevant (maybe uninitialised) *)
Section MapTo.
Variables (m : mem) (p q : ptr) (n : nat) (bs : list F).
Hypothesis Hv : valid m p n.
Hypothesis Hb : holds m q bs.
Hypothesis Hlen : length bs = n.
Hypothesis Hdis : disjoint p n q n.

Lemma holds_b' i new : length new = n -> holds (writem m p (firstn i new)) q bs.
Proof.
  intros HN. apply holds_writem_disjoint; auto.
  - apply valid_le with n; auto. rewrite firstn_length; lia.
  - rewrite Hlen. eapply disjoint_sub; eauto. rewrite firstn_length; lia.
Qed.

Lemma mapto_unal w i (g : list F -> list F) new :
  length new = n -> i + w <= n -> slice i w new = g (slice i w bs) ->
  bind (loadv w (q +! i)) (fun x => storev (p +! i) (g x)) (writem m p (firstn i new))
  = Ok (tt, writem m p (firstn (i + w) new)).
Proof.
  intros HN Hi HS. erewrite bind_ok by (apply loadv_holds with (xs := bs); [apply holds_b'; auto|lia]).
  assert (HL : length (g (slice i w bs)) = w) by (rewrite <- HS, length_slice; auto; lia).
  rewrite storev_next with (n := n); auto; rewrite ?HL; auto.
Qed.
Lemma mapto_al w i (g : list F -> list F) new :
  length new = n -> i + w <= n -> slice i w new = g (slice i w bs) ->
  aligned_to w m (p +! i) = true -> aligned_to w m (q +! i) = true ->
  bind (loadv_al w (q +! i)) (fun x => storev_al (p +! i) (g x)) (writem m p (firstn i new))
  = Ok (tt, writem m p (firstn (i + w) new)).
Proof.
  intros HN Hi HS HA HB. rewrite <- mapto_unal with (g := g); auto.
  unfold bind. rewrite loadv_al_ok by (rewrite aligned_to_writem; auto).
  rewrite loadv_holds with (xs := bs) by (try apply holds_b'; auto; lia).
  apply storev_al_ok. rewrite <- HS, length_slice by lia. rewrite aligned_to_writem; auto.
Qed.
Lemma mapto_scalar i (g : F -> F) new y :
  length new = n -> nth_error bs i = Some y -> nth_error new i = Some (g y) ->
  bind (load (q +! i)) (fun y => store (p +! i) (g y)) (writem m p (firstn i new))
  = Ok (tt, writem m p (firstn (i + 1) new)).
Proof.
  intros HN Hx HS. erewrite bind_ok by (eapply load_holds; [apply holds_b'; auto|eauto]).
  apply store_next with (n := n); auto.
Qed.
End MapTo.

Lemma map2_full_slices A B C (g : A -> B -> C) xs ys i w :
  length ys = length xs -> i + w <= length xs ->
  slice i w (map2 g xs ys) = map2 g (slice i w xs) (slice i w ys).
Proof. intros. apply slice_map2; lia. Qed.

Lemma nth_map2 A B C (g : A -> B -> C) xs ys i x y :
  nth_error xs i = Some x -> nth_error ys i = Some y -> nth_error (map2 g xs ys) i = Some (g x y).
Proof. intros H1 H2. rewrite nth_error_map2, H1, H2. reflexivity. Qed.

Lemma vector_accumulate_ok m p q xs ys :
  holds m p xs -> holds m q ys -> length ys = length xs -> disjoint p (length xs) q (length xs) ->
  kal (length xs) m p -> kal (length xs) m q ->
  vector_accumulate c (length xs) p q m = Ok (tt, writem m p (map2 fadd xs ys)).
Proof.
  intros Hx Hy HL D Kp Kq. unfold vector_accumulate. set (new := map2 fadd xs ys).
  assert (HN : length new = length xs) by (unfold new; rewrite length_map2; lia).
  apply three_loops_new; auto.
  - intros Ha i Hd Hi _. apply map2_al with (old := xs) (bs := ys) (g := map2 fadd); auto.
    + apply map2_full_slices; auto.
    + eapply kal_at; eauto using holds_valid.
    + eapply kal_at with (n := length xs); eauto. rewrite <- HL. apply holds_valid; auto.
  - intros Ha i Hd Hi _. apply map2_al with (old := xs) (bs := ys) (g := map2 fadd); auto.
    + apply map2_full_slices; auto.
    + eapply kal_at; eauto using holds_valid.
    + eapply kal_at with (n := length xs); eauto. rewrite <- HL. apply holds_valid; auto.
  - intros i Hi. destruct (@nth_error_ex _ xs i) as [x Ex]; [lia|]. destruct (@nth_error_ex _ ys i) as [y Ey]; [lia|].
    apply map2_scalar with (old := xs) (bs := ys) (x := x) (y := y); auto. apply nth_map2; auto.
Qed.

Lemma vector_accumulate_unaligned_ok m p q xs ys :
  holds m p xs -> holds m q ys -> length ys = length xs -> disjoint p (length xs) q (length xs) ->
  vector_accumulate_unaligned c (length xs) p q m = Ok (tt, writem m p (map2 fadd xs ys)).
Proof.
  intros Hx Hy HL D. unfold vector_accumulate_unaligned. set (new := map2 fadd xs ys).
  assert (HN : length new = length xs) by (unfold new; rewrite length_map2; lia).
  apply three_loops_new; auto.
  - intros Ha i Hd Hi _. apply map2_unal with (old := xs) (bs := ys) (g := map2 fadd); auto.
    apply map2_full_slices; auto.
  - intros Ha i Hd Hi _. apply map2_unal with (old := xs) (bs := ys) (g := map2 fadd); auto.
    apply map2_full_slices; auto.
  - intros i Hi. destruct (@nth_error_ex _ xs i) as [x Ex]; [lia|]. destruct (@nth_error_ex _ ys i) as [y Ey]; [lia|].
    apply map2_scalar with (old := xs) (bs := ys) (x := x) (y := y); auto. apply nth_map2; auto.
Qed.

Lemma map2_map_r A B C D (g : A -> C -> D) (h : B -> C) xs ys :
  map2 g xs (map h ys) = map2 (fun x y => g x (h y)) xs ys.
Proof. revert ys; induction xs; intros [|y ys]; simpl; auto. f_equal; auto. Qed.
Lemma map2_map_l A B C D (g : C -> B -> D) (h : A -> C) xs ys :
  map2 g (map h xs) ys = map2 (fun x y => g (h x) y) xs ys.
Proof. revert ys; induction xs; intros [|y ys]; simpl; auto. f_equal; auto. Qed.
Lemma map2_ext A B C (f g : A -> B -> C) xs ys : (forall x y, f x y = g x y) -> map2 f xs ys = map2 g xs ys.
Proof. intros H. revert ys; induction xs; intros [|y ys]; simpl; auto. f_equal; auto. Qed.
Lemma map2_swap A B C (f : A -> B -> C) xs ys : map2 f xs ys = map2 (fun y x => f x y) ys xs.
Proof. revert ys; induction xs; intros [|y ys]; simpl; auto. f_equal; auto. Qed.

Lemma vector_saxpy_ok m p q xs ys alpha :
  holds m p xs -> holds m q ys -> length ys = length xs -> disjoint p (length xs) q (length xs) ->
  kal (length xs) m p -> kal (length xs) m q ->
  vector_saxpy c (length xs) p alpha q m = Ok (tt, writem m p (map2 (fun x y => fadd x (fmul alpha y)) xs ys)).
Proof.
  intros Hx Hy HL D Kp Kq. unfold vector_saxpy. set (new := map2 (fun x y => fadd x (fmul alpha y)) xs ys).
  assert (HN : length new = length xs) by (unfold new; rewrite length_map2; lia).
  apply three_loops_new; auto.
  - intros Ha i Hd Hi _. apply map2_al with (old := xs) (bs := ys) (g := fun x y => map2 fadd x (map (fun y => fmul alpha y) y)); auto.
    + rewrite map2_map_r. apply map2_full_slices; auto.
    + eapply kal_at; eauto using holds_valid.
    + eapply kal_at with (n := length xs); eauto. rewrite <- HL. apply holds_valid; auto.
  - intros Ha i Hd Hi _. apply map2_al with (old := xs) (bs := ys) (g := fun x y => map2 fadd x (map (fun y => fmul alpha y) y)); auto.
    + rewrite map2_map_r. apply map2_full_slices; auto.
    + eapply kal_at; eauto using holds_valid.
    + eapply kal_at with (n := length xs); eauto. rewrite <- HL. apply holds_valid; auto.
  - intros i Hi. destruct (@nth_error_ex _ xs i) as [x Ex]; [lia|]. destruct (@nth_error_ex _ ys i) as [y Ey]; [lia|].
    apply map2_scalar with (old := xs) (bs := ys) (x := x) (y := y) (g := fun x y => fadd x (fmul alpha y)); auto. unfold new; erewrite nth_map2; eauto.
Qed.

Hypothesis mulC : forall a b : F, fmul a b = fmul b a.

Lemma vector_saxpby_ok m p q xs ys alpha beta :
  holds m p xs -> holds m q ys -> length ys = length xs -> disjoint p (length xs) q (length xs) ->
  kal (length xs) m p -> kal (length xs) m q ->
  vector_saxpby c (length xs) p alpha q beta m =
  Ok (tt, writem m p (map2 (fun x y => fadd (fmul beta x) (fmul alpha y)) xs ys)).
Proof.
  intros Hx Hy HL D Kp Kq. unfold vector_saxpby. set (new := map2 (fun x y => fadd (fmul beta x) (fmul alpha y)) xs ys).
  assert (HN : length new = length xs) by (unfold new; rewrite length_map2; lia).
  assert (HS : forall i w, i + w <= length xs -> slice i w new =
     map2 fadd (map (fun x => fmul x beta) (slice i w xs)) (map (fun y => fmul alpha y) (slice i w ys))).
  { intros i w Hi. unfold new. rewrite map2_map_r, map2_map_l, map2_full_slices by auto.
    apply map2_ext. intros. f_equal. apply mulC. }
  apply three_loops_new; auto.
  - intros Ha i Hd Hi _. apply map2_al with (old := xs) (bs := ys)
      (g := fun x y => map2 fadd (map (fun x => fmul x beta) x) (map (fun y => fmul alpha y) y)); auto.
    + eapply kal_at; eauto using holds_valid.
    + eapply kal_at with (n := length xs); eauto. rewrite <- HL. apply holds_valid; auto.
  - intros Ha i Hd Hi _. apply map2_al with (old := xs) (bs := ys)
      (g := fun x y => map2 fadd (map (fun x => fmul x beta) x) (map (fun y => fmul alpha y) y)); auto.
    + eapply kal_at; eauto using holds_valid.
    + eapply kal_at with (n := length xs); eauto. rewrite <- HL. apply holds_valid; auto.
  - intros i Hi. destruct (@nth_error_ex _ xs i) as [x Ex]; [lia|]. destruct (@nth_error_ex _ ys i) as [y Ey]; [lia|].
    apply map2_scalar with (old := xs) (bs := ys) (x := x) (y := y) (g := fun x y => fadd (fmul beta x) (fmul alpha y)); auto.
    unfold new; erewrite nth_map2; eauto.
Qed.

Lemma vector_square_elements_ok m p q n xs :
  valid m p n -> holds m q xs -> n = length xs -> disjoint p n q n ->
  kal n m p -> kal n m q ->
  vector_square_elements c n p q m = Ok (tt, writem m p (map (fun x => fmul x x) xs)).
Proof.
  intros Hv Hx HL D Kp Kq. unfold vector_square_elements. set (new := map (fun x => fmul x x) xs).
  assert (HN : length new = n) by (unfold new; rewrite map_length; auto).
  apply three_loops_new; auto.
  - intros Ha i Hd Hi _. apply mapto_al with (n := n) (bs := xs) (g := map (fun x => fmul x x)); auto.
    + apply slice_map.
    + eapply kal_at; eauto.
    + eapply kal_at with (n := n); eauto. rewrite HL. apply holds_valid; auto.
  - intros Ha i Hd Hi _. apply mapto_al with (n := n) (bs := xs) (g := map (fun x => fmul x x)); auto.
    + apply slice_map.
    + eapply kal_at; eauto.
    + eapply kal_at with (n := n); eauto. rewrite HL. apply holds_valid; auto.
  - intros i Hi. destruct (@nth_error_ex _ xs i) as [x Ex]; [lia|].
    apply mapto_scalar with (n := n) (bs := xs) (y := x) (g := fun v => fmul v v); auto. unfold new; rewrite nth_error_map, Ex; reflexivity.
Qed.

(** ** vector_matrix_multiply *)
Lemma vmm_copy_bias_ok m y q n bs :
  valid m y n -> holds m q bs -> n = length bs -> disjoint y n q n -> kal n m y -> kal n m q ->
  vmm_copy_bias c n q y m = Ok (tt, writem m y bs).
Proof.
  intros Hv Hx HL D Kp Kq. unfold vmm_copy_bias.
  apply three_loops_new; auto.
  - intros Ha i Hd Hi _.
    apply mapto_al with (n := n) (bs := bs) (g := fun x => x); auto.
    + eapply kal_at; eauto.
    + eapply kal_at with (n := n); eauto. rewrite HL. apply holds_valid; auto.
  - intros Ha i Hd Hi _.
    apply mapto_al with (n := n) (bs := bs) (g := fun x => x); auto.
    + eapply kal_at; eauto.
    + eapply kal_at with (n := n); eauto. rewrite HL. apply holds_valid; auto.
  - intros i Hi. destruct (@nth_error_ex _ bs i) as [x Ex]; [lia|].
    apply mapto_scalar with (n := n) (bs := bs) (y := x) (g := fun v => v); auto.
Qed.

Lemma vmm_row_one_ok m y q ys ws :
  holds m y ys -> holds m q ws -> length ws = length ys -> disjoint y (length ys) q (length ys) ->
  kal (length ys) m y ->
  vmm_row_one c (length ys) q y m = Ok (tt, writem m y (map2 fadd ys ws)).
Proof.
  intros Hx Hy HL D Kp. unfold vmm_row_one. set (new := map2 fadd ys ws).
  assert (HN : length new = length ys) by (unfold new; rewrite length_map2; lia).
  apply three_loops_new; auto.
  - intros Ha i Hd Hi _. apply map2_al_un with (old := ys) (bs := ws) (g := map2 fadd); auto.
    + apply map2_full_slices; auto.
    + eapply kal_at; eauto using holds_valid.
  - intros Ha i Hd Hi _. apply map2_al_un with (old := ys) (bs := ws) (g := map2 fadd); auto.
    + apply map2_full_slices; auto.
    + eapply kal_at; eauto using holds_valid.
  - intros i Hi. destruct (@nth_error_ex _ ys i) as [x Ex]; [lia|]. destruct (@nth_error_ex _ ws i) as [w Ey]; [lia|].
    apply map2_scalar with (old := ys) (bs := ws) (x := x) (y := w); auto. apply nth_map2; auto.
Qed.

(** meaning of one column update y_j + inp*w_j: fused inside of the vector part of an FMA build *)
Definition madd (m j : nat) (inp y w : F) : F :=
  if cfg_fma c && (j <? vend_strict m) then ffma w inp y else fadd y (fmul inp w).

Lemma vmm_row_general_ok m y q ys ws inp :
  holds m y ys -> holds m q ws -> length ws = length ys -> disjoint y (length ys) q (length ys) ->
  kal (length ys) m y ->
  vmm_row_general c (length ys) inp q y m =
  Ok (tt, writem m y (mapi2 (fun j y w => madd (length ys) j inp y w) ys ws)).
Proof.
  intros Hx Hy HL D Kp. unfold vmm_row_general.
  set (n := length ys) in *.
  set (new := mapi2 (fun j y w => madd n j inp y w) ys ws).
  assert (HN : length new = n) by (unfold new; rewrite length_mapi2; lia).
  assert (HS : forall i w, i + w <= n -> i + w <= vend_strict n ->
     slice i w new = map2 (fun y ws => if cfg_fma c then ffma ws inp y else fadd y (fmul inp ws)) (slice i w ys) (slice i w ws)).
  { intros i w Hi Hv. unfold new. apply slice_mapi2; try (unfold n in *; lia).
    intros k a b Hk _ _. unfold madd. rewrite (proj2 (Nat.ltb_lt _ _)) by lia. rewrite andb_true_r. reflexivity. }
  assert (HV : forall i w, i + w <= n -> i + w <= vend_strict n -> aligned_to w m (y +! i) = true ->
     (if cfg_fma c
      then ws0 <- loadv w (q +! i);; v <- loadv_al w (y +! i);; storev_al (y +! i) (map2 (fun ws1 v0 : F => ffma ws1 inp v0) ws0 v)
      else v <- loadv_al w (y +! i);; ws0 <- loadv w (q +! i);; storev_al (y +! i) (map2 fadd v (map (fun ws1 : F => fmul ws1 inp) ws0)))
      (writem m y (firstn i new)) = Ok (tt, writem m y (firstn (i + w) new))).
  { intros i w Hi Hv HA. specialize (HS i w Hi Hv). destruct (cfg_fma c).
    - apply map2_un_al with (old := ys) (bs := ws) (g := map2 (fun ws1 v0 => ffma ws1 inp v0)); auto.
      rewrite HS. apply map2_swap.
    - apply map2_al_un with (old := ys) (bs := ws) (g := fun v ws0 => map2 fadd v (map (fun ws1 : F => fmul ws1 inp) ws0)); auto.
      rewrite HS, map2_map_r. apply map2_ext. intros; f_equal; apply mulC. }
  apply three_loops_strict_new; auto.
  - intros Ha i Hd Hi Hv. apply HV; auto; try lia.
    eapply kal_at; eauto using holds_valid; lia.
  - intros Ha i Hd Hi Hv. apply HV; auto; try lia.
    eapply kal_at; eauto using holds_valid; lia.
  - intros i Hi. destruct (@nth_error_ex _ ys i) as [x Ex]; [unfold n in *; lia|].
    destruct (@nth_error_ex _ ws i) as [w Ey]; [unfold n in *; lia|].
    apply map2_scalar with (old := ys) (bs := ws) (x := x) (y := w) (g := fun v ws0 => fadd v (fmul inp ws0)); auto.
    unfold new. rewrite nth_error_mapi2, Ex, Ey. unfold madd.
    rewrite (proj2 (Nat.ltb_ge _ _)) by lia. rewrite andb_false_r. reflexivity.
Qed.

(** functional meaning of vector_matrix_multiply *)
Definition vmm_step (ys : list F) (xr : F * list F) : list F :=
  let '(x, row) := xr in
  if ftrue x then
    if feq x f1 then map2 fadd ys row
    else mapi2 (fun j y w => madd (length ys) j x y w) ys row
  else ys.

Fixpoint rows (n m : nat) (w : list F) : list (list F) :=
  match n with
  | O => []
  | S k => firstn m w :: rows k m (skipn m w)
  end.

Definition vmm_f (m : nat) (w b xs : list F) : list F :=
  fold_left vmm_step (combine xs (rows (length xs) m w)) b.

Lemma length_vmm_step ys x row : length row = length ys -> length (vmm_step ys (x, row)) = length ys.
Proof.
  intros H. unfold vmm_step. destruct (ftrue x); auto. destruct (feq x f1).
  - rewrite length_map2; lia.
  - rewrite length_mapi2; lia.
Qed.

Lemma length_rows n m w : length (rows n m w) = n.
Proof. revert w; induction n; simpl; auto. Qed.
Lemma nth_rows n m w i : i < n -> nth_error (rows n m w) i = Some (slice (i * m) m w).
Proof.
  revert w i. induction n; intros w i H; [lia|]. destruct i; simpl; auto.
  rewrite IHn by lia. f_equal. unfold slice. rewrite skipn_skipn. reflexivity.
Qed.

Lemma fold_vmm_firstn m w b xs i x :
  nth_error xs i = Some x ->
  fold_left vmm_step (firstn (i + 1) (combine xs (rows (length xs) m w))) b =
  vmm_step (fold_left vmm_step (firstn i (combine xs (rows (length xs) m w))) b) (x, slice (i * m) m w).
Proof.
  intros H. assert (Hi : i < length xs) by (eapply nth_error_lt; eauto).
  rewrite <- (firstn_slice_app i 1). rewrite fold_left_app.
  erewrite slice_one; [reflexivity|].
  assert (E : forall A B (l1 : list A) (l2 : list B) k a b0, nth_error l1 k = Some a -> nth_error l2 k = Some b0 ->
     nth_error (combine l1 l2) k = Some (a, b0)).
  { induction l1; intros [|] [|]; simpl; intros; try congruence; auto. }
  apply E; auto. apply nth_rows; auto.
Qed.

Lemma length_fold_vmm m w b xs i :
  length b = m -> length w = length xs * m -> i <= length xs ->
  length (fold_left vmm_step (firstn i (combine xs (rows (length xs) m w))) b) = m.
Proof.
  intros Hb Hw. induction i; intros Hi; [simpl; auto|].
  destruct (@nth_error_ex _ xs i) as [x Hx]; [lia|].
  replace (S i) with (i + 1) by lia. erewrite fold_vmm_firstn by eauto.
  rewrite length_vmm_step; rewrite IHi by lia; auto.
  apply length_slice. nia.
Qed.

Lemma length_vmm_f m w b xs : length b = m -> length w = length xs * m -> length (vmm_f m w b xs) = m.
Proof.
  intros. unfold vmm_f. rewrite <- (firstn_all (combine _ _)).
  rewrite combine_length, length_rows, Nat.min_id. apply length_fold_vmm; auto.
Qed.

Lemma vector_matrix_multiply_ok mm pw pb pin py m ws bs xs :
  holds mm pw ws -> holds mm pb bs -> holds mm pin xs -> valid mm py m ->
  length bs = m -> length ws = length xs * m ->
  disjoint py m pw (length ws) -> disjoint py m pb m -> disjoint py m pin (length xs) ->
  kal m mm py -> kal m mm pb ->
  vector_matrix_multiply c (length xs) m pw pb pin py mm =
  Ok (tt, writem mm py (vmm_f m ws bs xs)).
Proof.
  intros Hw Hb Hi Hv Lb Lw Dw Db Di Ky Kb. unfold vector_matrix_multiply.
  erewrite bind_ok by (apply vmm_copy_bias_ok with (bs := bs); auto).
  set (st := fun i => writem mm py (fold_left vmm_step (firstn i (combine xs (rows (length xs) m ws))) bs)).
  replace (writem mm py bs) with (st 0) by reflexivity.
  rewrite loop1_st with (st := st); try lia.
  - f_equal. f_equal. unfold st, vmm_f. f_equal. f_equal.
    rewrite <- (firstn_all (combine _ _)) at 2. f_equal. rewrite combine_length, length_rows. lia.
  - intros i Hi'. destruct (@nth_error_ex _ xs i) as [x Hx]; [lia|].
    set (ys := fold_left vmm_step (firstn i (combine xs (rows (length xs) m ws))) bs).
    assert (Ly : length ys = m) by (apply length_fold_vmm; auto; lia).
    assert (Est : st i = writem mm py ys) by reflexivity.
    assert (Vy : valid mm py (length ys)) by (rewrite Ly; auto).
    assert (Hpi : holds (st i) pin xs).
    { rewrite Est. apply holds_writem_disjoint; auto. rewrite Ly; auto. }
    erewrite bind_ok by (eapply load_holds; eauto).
    assert (Est1 : st (i + 1) = writem mm py (vmm_step ys (x, slice (i * m) m ws))).
    { unfold st. f_equal. apply fold_vmm_firstn; auto. }
    rewrite Est1. unfold vmm_step.
    assert (Hrow : holds (st i) (pw +! (i * m)) (slice (i * m) m ws)).
    { apply holds_sub; [|nia]. rewrite Est. apply holds_writem_disjoint; auto. rewrite Ly; auto. }
    assert (Hyy : holds (st i) py ys) by (rewrite Est; apply holds_writem_same; auto).
    assert (Lr : length (slice (i * m) m ws) = length ys) by (rewrite length_slice; [lia|nia]).
    assert (Ddis : disjoint py (length ys) (pw +! (i * m)) (length ys)).
    { rewrite Ly. apply disjoint_sub_r with (q := pw) (k := length ws); auto; rewrite ?off_padd; [lia|rewrite Lw; nia]. }
    assert (Kst : kal (length ys) (st i) py) by (rewrite Est, Ly; apply kal_writem; auto).
    assert (Wr : forall zs, length zs = length ys -> writem (st i) py zs = writem mm py zs).
    { intros zs Hz. rewrite Est. apply writem_writem_same; auto. }
    destruct (ftrue x); [destruct (feq x f1)|].
    + rewrite <- Ly. rewrite <- Ly in Hrow, Lr. rewrite vmm_row_one_ok with (ys := ys) (ws := slice (i * length ys) (length ys) ws); auto.
      * rewrite Wr; auto. rewrite length_map2. lia.
      * rewrite Ly in *. auto.
    + rewrite <- Ly. rewrite <- Ly in Hrow, Lr. rewrite vmm_row_general_ok with (ys := ys) (ws := slice (i * length ys) (length ys) ws); auto.
      * rewrite Wr; auto. rewrite length_mapi2. lia.
      * rewrite Ly in *. auto.
    + reflexivity.
Qed.

End KP.
