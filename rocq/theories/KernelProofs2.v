(** KernelProofs2.v -- vector_vector_outer and matrix_vector_multiply *)
From Coq Require Import List Arith ZArith Lia Bool.
From Verif Require Import Base BaseProofs Ops Mem MemProofs Kernels KernelProofs.
Import ListNotations.
Set Implicit Arguments.
Local Open Scope mem_scope.

Section KP2.
Context {FO : fops}.
Variable c : cfg.

(** ** vector_vector_outer *)
Definition outer_row (ys : list F) (x : F) : list F :=
  if ftrue x then map (fun v => fmul x v) ys else repeat f0 (length ys).
Definition outer_f (xs ys : list F) : list F := flat_map (outer_row ys) xs.

Lemma length_outer_row ys x : length (outer_row ys x) = length ys.
Proof. unfold outer_row. destruct (ftrue x); rewrite ?map_length, ?repeat_length; auto. Qed.
Lemma length_flat_map_const A B (f : A -> list B) k l :
  (forall x, length (f x) = k) -> length (flat_map f l) = length l * k.
Proof. intros H. induction l; simpl; auto. rewrite app_length, H, IHl. auto. Qed.
Lemma length_outer_f xs ys : length (outer_f xs ys) = length xs * length ys.
Proof. apply length_flat_map_const. intros; apply length_outer_row. Qed.

Lemma slice_flat_map A B (f : A -> list B) k l i x :
  (forall x, length (f x) = k) -> nth_error l i = Some x -> slice (i * k) k (flat_map f l) = f x.
Proof.
  intros H. revert i. induction l as [|a l IH]; intros [|i] Hx; simpl in *; try congruence.
  - inversion Hx; subst. rewrite slice_app_l by (rewrite H; lia).
    rewrite <- (H x) at 1. apply slice_0_all.
  - rewrite <- (H a) at 1. rewrite slice_app_r. apply IH; auto.
Qed.

Lemma slice_repeat A i w (x : A) n : i + w <= n -> slice i w (repeat x n) = repeat x w.
Proof.
  intros H. apply slice_ext; rewrite ?repeat_length; auto.
  intros k Hk. rewrite !nth_error_repeat by lia. reflexivity.
Qed.

Lemma vector_vector_outer_ok mm px py pm xs ys :
  holds mm px xs -> holds mm py ys -> holds mm pm (repeat f0 (length xs * length ys)) ->
  disjoint pm (length xs * length ys) px (length xs) ->
  disjoint pm (length xs * length ys) py (length ys) ->
  vector_vector_outer c (length xs) (length ys) px py pm mm =
  Ok (tt, writem mm pm (outer_f xs ys)).
Proof.
  intros Hx Hy Hm Dx Dy. unfold vector_vector_outer.
  set (n := length xs) in *. set (k := length ys) in *. set (new := outer_f xs ys).
  assert (HN : length new = n * k) by apply length_outer_f.
  assert (Vm : valid mm pm (n * k)).
  { apply holds_valid in Hm. rewrite repeat_length in Hm. auto. }
  set (st := fun i => writem mm pm (firstn (i * k) new)).
  replace mm with (st 0) at 1 by (unfold st; simpl; apply writem_nil).
  rewrite loop1_st with (st := st); try lia.
  - unfold st. rewrite <- HN, firstn_all. reflexivity.
  - intros i Hi. destruct (@nth_error_ex _ xs i) as [x Ex]; [unfold n in *; lia|].
    assert (Hik : i * k + k <= n * k) by nia.
    assert (L1 : length (firstn (i * k) new) = i * k) by (rewrite firstn_length; nia).
    assert (V1 : valid mm pm (length (firstn (i * k) new))) by (eapply valid_le; eauto; lia).
    assert (Hpx : holds (st i) px xs).
    { apply holds_writem_disjoint; auto. rewrite L1. eapply disjoint_sub; eauto; lia. }
    assert (Hpy : holds (st i) py ys).
    { apply holds_writem_disjoint; auto. rewrite L1. eapply disjoint_sub; eauto; lia. }
    erewrite bind_ok by (eapply load_holds; eauto).
    assert (Hrow : holds (st i) (pm +! (i * k)) (repeat f0 k)).
    { rewrite <- (@slice_repeat _ (i*k) k f0 (n*k)) by lia.
      apply holds_writem_disjoint; auto.
      - apply holds_sub; auto. rewrite repeat_length; lia.
      - rewrite L1, length_slice by (rewrite repeat_length; lia). right; left. simpl. lia. }
    assert (E1 : st (i + 1) = writem (st i) (pm +! (i * k)) (outer_row ys x)).
    { unfold st. replace (pm +! (i * k)) with (pm +! length (firstn (i * k) new)) by (rewrite L1; auto). rewrite writem_writem_app.
      - f_equal. replace ((i + 1) * k) with (i * k + k) by lia. rewrite <- firstn_slice_app. f_equal.
        unfold new, outer_f. apply slice_flat_map; auto. intros; apply length_outer_row.
      - rewrite L1, length_outer_row. apply valid_le with (n * k); auto. }
    rewrite E1. unfold outer_row. destruct (ftrue x).
    + apply three_loops_new.
      * rewrite map_length; auto.
      * intros Ha j Hd Hj _.
        apply mapto_unal with (n := k) (bs := ys) (g := map (fun v => fmul x v)); auto.
        -- apply holds_valid in Hrow. rewrite repeat_length in Hrow. auto.
        -- eapply disjoint_sub; eauto; simpl; lia.
        -- apply map_length.
        -- apply slice_map.
      * intros Ha j Hd Hj _.
        apply mapto_unal with (n := k) (bs := ys) (g := map (fun v => fmul x v)); auto.
        -- apply holds_valid in Hrow. rewrite repeat_length in Hrow. auto.
        -- eapply disjoint_sub; eauto; simpl; lia.
        -- apply map_length.
        -- apply slice_map.
      * intros j Hj. destruct (@nth_error_ex _ ys j) as [y Ey]; [unfold k in *; lia|].
        apply mapto_scalar with (n := k) (bs := ys) (y := y) (g := fun v => fmul x v); auto.
        -- apply holds_valid in Hrow. rewrite repeat_length in Hrow. auto.
        -- eapply disjoint_sub; eauto; simpl; lia.
        -- apply map_length.
        -- rewrite nth_error_map, Ey. reflexivity.
    + unfold k in *. rewrite (writem_holds_id Hrow). reflexivity.
Qed.

(** ** matrix_vector_multiply *)
Definition acc_chunks (w q j0 : nat) (vs ms : list F) : list F :=
  fold_left (fun s t => map3 (mvm_lane c) s (slice (j0 + t * w) w vs) (slice (j0 + t * w) w ms))
            (seq 0 q) (repeat f0 w).

Definition dot_f (vs ms : list F) (y0 : F) : F :=
  let n := length vs in
  let q16 := if has_avx512 c then n / 16 else 0 in
  let y1 := if has_avx512 c then reduce_add_512 (acc_chunks 16 q16 0 vs ms) else y0 in
  let q8 := if has_avx c then (n - 16 * q16) / 8 else 0 in
  let y2 := if has_avx c then fadd y1 (horizontalsum_avx (acc_chunks 8 q8 (16 * q16) vs ms)) else y1 in
  let j2 := 16 * q16 + 8 * q8 in
  fold_left (fun y vm => fadd y (fmul (fst vm) (snd vm))) (combine (skipn j2 vs) (skipn j2 ms)) y2.

Definition mvm_f (vs : list F) (rws : list (list F)) (y0 : F) : list F :=
  map (fun row => dot_f vs row y0) rws.

Lemma acc_chunks_S w q j0 vs ms :
  acc_chunks w (q + 1) j0 vs ms =
  map3 (mvm_lane c) (acc_chunks w q j0 vs ms) (slice (j0 + q * w) w vs) (slice (j0 + q * w) w ms).
Proof. unfold acc_chunks. rewrite seq_app, fold_left_app. simpl. reflexivity. Qed.

Lemma acc_loop m pv prow vs ms w j0 n :
  holds m pv vs -> holds m prow ms -> length vs = n -> length ms = n -> 1 <= w -> j0 <= n ->
  (forall j, Nat.divide w (j - j0) -> j0 <= j -> j + w <= n -> aligned_to w m (prow +! j) = true) ->
  for_loop_acc (S n) (fun j => j + w <=? n) w j0 (repeat f0 w)
    (fun j s => vs0 <- loadv w (pv +! j);; ms0 <- loadv_al w (prow +! j);; ret (map3 (mvm_lane c) s vs0 ms0)) m
  = Ok ((j0 + w * ((n - j0) / w), acc_chunks w ((n - j0) / w) j0 vs ms), m).
Proof.
  intros Hv Hm Lv Lm Hw Hj0 HA.
  destruct (@for_loop_acc_st _ (list F) (fun j => j + w <=? n) w
     (fun j s => vs0 <- loadv w (pv +! j);; ms0 <- loadv_al w (prow +! j);; ret (map3 (mvm_lane c) s vs0 ms0))
     (fun _ => m) (fun j => acc_chunks w ((j - j0) / w) j0 vs ms)
     (fun j => j0 <= j <= n /\ Nat.divide w (j - j0)) n)
    with (fuel := S n) (i := j0) as (i' & A & B & C & D); auto; try lia.
  - intros i Hi. apply Nat.leb_le in Hi. lia.
  - intros j [Hj1 Hj2] Hc. apply Nat.leb_le in Hc. split; [|split; [lia|]].
    + erewrite bind_ok by (apply loadv_holds with (xs := vs); auto; lia).
      erewrite bind_ok. 2: { rewrite loadv_al_ok; [apply loadv_holds with (xs := ms); auto; lia|]. apply HA; auto; lia. }
      unfold ret. f_equal. f_equal.
      destruct Hj2 as [t Ht].
      replace (j + w - j0) with ((t + 1) * w) by lia. rewrite Ht.
      rewrite !Nat.div_mul by lia. rewrite acc_chunks_S.
      replace (j0 + t * w) with j by lia. reflexivity.
    + replace (j + w - j0) with (j - j0 + w) by lia. apply Nat.divide_add_r; auto. apply Nat.divide_refl.
  - split; [lia|]. rewrite Nat.sub_diag. apply Nat.divide_0_r.
  - rewrite Nat.sub_diag, Nat.div_0_l in A by lia. unfold acc_chunks in A at 1. simpl fold_left in A. rewrite A.
    apply Nat.leb_gt in B. destruct C as [C1 [t Ht]].
    assert (Q : (n - j0) / w = t).
    { symmetry. apply Nat.div_unique with (r := n - i'); nia. }
    rewrite Q. assert (Q2 : (i' - j0) / w = t) by (rewrite Ht; apply Nat.div_mul; lia).
    rewrite Q2. f_equal. f_equal. f_equal. lia.
Qed.

Lemma mvm_row_ok m pv prow py vs ms y0 :
  holds m pv vs -> holds m prow ms -> length ms = length vs ->
  (if has_avx512 c then valid m py 1 else holds m py [y0]) ->
  disjoint py 1 pv (length vs) -> disjoint py 1 prow (length vs) ->
  kal c (length vs) m prow ->
  mvm_row c (length vs) prow pv py m = Ok (tt, writem m py [dot_f vs ms y0]).
Proof.
  intros Hv Hm Lm Hy Dv Dm [K16 K8]. unfold mvm_row, dot_f. set (n := length vs) in *.
  assert (Vy : valid m py 1).
  { destruct (has_avx512 c); auto. change 1 with (length [y0]). apply holds_valid; auto. }
  assert (Srow : nth_error m (blk prow) <> None) by (eapply valid_some, holds_valid; eauto).
  (* reading after writing the accumulator cell *)
  assert (Hv' : forall v, holds (writem m py [v]) pv vs).
  { intros. apply holds_writem_disjoint; auto. }
  assert (Hm' : forall v, holds (writem m py [v]) prow ms).
  { intros. apply holds_writem_disjoint; auto. simpl. rewrite Lm. auto. }
  (* stage 1 *)
  set (q16 := if has_avx512 c then n / 16 else 0).
  assert (Q16 : 16 * q16 <= n).
  { unfold q16. destruct (has_avx512 c); [|lia]. apply Nat.mul_div_le; lia. }
  set (y1 := if has_avx512 c then reduce_add_512 (acc_chunks 16 q16 0 vs ms) else y0).
  assert (S1 : when (has_avx512 c)
      (let_pair (j, sums) <- for_loop_acc (S n) (fun j => j + 16 <=? n) 16 0 (repeat f0 16)
          (fun j s => vs0 <- loadv 16 (pv +! j);; ms0 <- loadv_al 16 (prow +! j);; ret (map3 (mvm_lane c) s vs0 ms0)) ;;
       store py (reduce_add_512 sums) ;;; ret j) 0 m = Ok (16 * q16, if has_avx512 c then writem m py [y1] else m)).
  { unfold when, y1, q16. destruct (has_avx512 c) eqn:E5; [|reflexivity].
    erewrite bind_ok by (apply acc_loop with (vs := vs) (ms := ms); auto; try lia;
      intros j Hd Hj1 Hj2; apply aligned_to_padd; auto; [lia| |rewrite Nat.sub_0_r in Hd; auto];
      apply K16; auto; lia).
    rewrite Nat.sub_0_r. simpl plus.
    erewrite bind_ok by (apply store_valid0; auto). reflexivity. }
  erewrite bind_ok by exact S1. clear S1.
  set (q8 := if has_avx c then (n - 16 * q16) / 8 else 0).
  set (y2 := if has_avx c then fadd y1 (horizontalsum_avx (acc_chunks 8 q8 (16 * q16) vs ms)) else y1).
  set (m1 := if has_avx512 c then writem m py [y1] else m).
  assert (Hv1 : holds m1 pv vs) by (unfold m1; destruct (has_avx512 c); auto).
  assert (Hm1 : holds m1 prow ms) by (unfold m1; destruct (has_avx512 c); auto).
  assert (Hy1 : holds m1 py [y1]).
  { unfold m1, y1 in *. destruct (has_avx512 c); auto. apply holds_writem_same; auto. }
  assert (W1 : forall v, writem m1 py [v] = writem m py [v]).
  { intros. unfold m1. destruct (has_avx512 c); auto. apply writem_writem_same; auto. }
  assert (Q8 : 16 * q16 + 8 * q8 <= n).
  { unfold q8. destruct (has_avx c); [|lia]. pose proof (Nat.mul_div_le (n - 16 * q16) 8). lia. }
  assert (S2 : when (has_avx c)
      (let_pair (j, sum) <- for_loop_acc (S n) (fun j => j + 8 <=? n) 8 (16 * q16) (repeat f0 8)
          (fun j s => vs0 <- loadv 8 (pv +! j);; ms0 <- loadv_al 8 (prow +! j);; ret (map3 (mvm_lane c) s vs0 ms0)) ;;
       y <- load py ;;
       store py (fadd y (horizontalsum_avx sum)) ;;; ret j) (16 * q16) m1
     = Ok (16 * q16 + 8 * q8, if has_avx c then writem m py [y2] else m1)).
  { unfold when, y2, q8. destruct (has_avx c) eqn:EA.
    2: { unfold ret. f_equal. f_equal. lia. }
    erewrite bind_ok. 2:{ apply acc_loop with (vs := vs) (ms := ms); auto; try lia.
      intros j Hd Hj1 Hj2. apply aligned_to_padd; auto; [lia| | |].
      + unfold m1. destruct (has_avx512 c); auto.
        unfold writem. destruct (nth_error m (blk py)); auto.
        rewrite nth_error_set_nth. destruct (_ && _); congruence.
      + unfold m1. assert (aligned_to 8 m prow = true) by (apply K8; auto; lia).
        destruct (has_avx512 c); rewrite ?aligned_to_writem; auto.
      + destruct Hd as [t Ht]. exists (t + 2 * q16). lia. }
    cbv beta iota. erewrite bind_ok by (eapply load_holds0; eauto).
    erewrite bind_ok by (apply store_valid0; apply holds_valid in Hy1; auto).
    unfold ret. rewrite W1. reflexivity. }
  erewrite bind_ok by exact S2. clear S2.
  set (j2 := 16 * q16 + 8 * q8) in *.
  (* tail *)
  set (st := fun j => writem m py [fold_left (fun y vm => fadd y (fmul (fst vm) (snd vm)))
        (firstn (j - j2) (combine (skipn j2 vs) (skipn j2 ms))) y2]).
  assert (E0 : (if has_avx c then writem m py [y2] else m1) = st j2).
  { unfold st. rewrite Nat.sub_diag. simpl. unfold y2. destruct (has_avx c) eqn:EA; auto.
    unfold m1. destruct (has_avx512 c) eqn:E5; [apply avx512_avx in E5; congruence|].
    symmetry. apply writem_holds_id. unfold y1. auto. }
  rewrite E0. rewrite loop1_st with (st := st); auto.
  - unfold st. assert (EL : n - j2 = length (combine (skipn j2 vs) (skipn j2 ms)))
      by (rewrite combine_length, !skipn_length; unfold n in *; lia).
    rewrite EL, firstn_all. reflexivity.
  - intros j Hj.
    destruct (@nth_error_ex _ vs j) as [v Ev]; [unfold n in *; lia|].
    destruct (@nth_error_ex _ ms j) as [w Ew]; [lia|].
    unfold st at 1.
    erewrite bind_ok by (eapply load_holds0; apply holds_writem_same; auto).
    erewrite bind_ok by (eapply load_holds; [apply Hv'|eauto]).
    erewrite bind_ok by (eapply load_holds; [apply Hm'|eauto]).
    rewrite store_valid0 by (apply valid_writem; auto).
    rewrite writem_writem_same by auto.
    f_equal. f_equal. unfold st. f_equal. f_equal.
    replace (j + 1 - j2) with (j - j2 + 1) by lia. rewrite <- firstn_slice_app, fold_left_app.
    erewrite slice_one with (x := (v, w)); [reflexivity|].
    assert (E : forall A B (l1 : list A) (l2 : list B) k a b0, nth_error l1 k = Some a -> nth_error l2 k = Some b0 ->
       nth_error (combine l1 l2) k = Some (a, b0)).
    { induction l1; intros [|] [|]; simpl; intros; try congruence; auto. }
    apply E; rewrite nth_error_skipn; [rewrite <- Ev|rewrite <- Ew]; f_equal; lia.
Qed.

Lemma matrix_vector_multiply_ok mm pm pv py n ms vs :
  holds mm pm ms -> holds mm pv vs -> length ms = n * length vs ->
  (if has_avx512 c then valid mm py n else holds mm py (repeat f0 n)) ->
  disjoint py n pm (length ms) -> disjoint py n pv (length vs) ->
  (forall i, i < n -> kal c (length vs) mm (pm +! (i * length vs))) ->
  matrix_vector_multiply c n (length vs) pm pv py mm =
  Ok (tt, writem mm py (mvm_f vs (rows n (length vs) ms) f0)).
Proof.
  intros Hm Hv Lm Hy Dm Dv K. unfold matrix_vector_multiply.
  set (k := length vs) in *. set (new := mvm_f vs (rows n k ms) f0).
  assert (HN : length new = n) by (unfold new, mvm_f; rewrite map_length, length_rows; auto).
  assert (Vy : valid mm py n).
  { destruct (has_avx512 c); auto. apply holds_valid in Hy. rewrite repeat_length in Hy; auto. }
  set (st := fun i => writem mm py (firstn i new)).
  replace mm with (st 0) at 1 by (unfold st; simpl; apply writem_nil).
  rewrite loop1_st with (st := st); try lia.
  - unfold st. rewrite <- HN, firstn_all. reflexivity.
  - intros i Hi.
    assert (L1 : length (firstn i new) = i) by (rewrite firstn_length; lia).
    assert (V1 : valid mm py (length (firstn i new))) by (eapply valid_le; eauto; lia).
    assert (Hrow : holds (st i) (pm +! (i * k)) (slice (i * k) k ms)).
    { apply holds_sub; [|nia]. apply holds_writem_disjoint; auto. rewrite L1. eapply disjoint_sub; eauto; lia. }
    assert (Lr : length (slice (i * k) k ms) = k) by (apply length_slice; nia).
    unfold k at 1. rewrite mvm_row_ok with (ms := slice (i * k) k ms) (y0 := f0); auto.
    + f_equal. f_equal. unfold st. replace (py +! i) with (py +! length (firstn i new)) by (rewrite L1; auto). rewrite writem_writem_app.
      * f_equal. rewrite <- firstn_slice_app. f_equal. symmetry. apply slice_one.
        unfold new, mvm_f. rewrite nth_error_map, nth_rows by lia. reflexivity.
      * rewrite L1. simpl. apply valid_le with n; auto. lia.
    + apply holds_writem_disjoint; auto. rewrite L1. eapply disjoint_sub; eauto; lia.
    + destruct (has_avx512 c).
      * unfold st. apply valid_writem; auto. apply valid_sub with (n := n); auto; lia.
      * unfold st. apply holds_writem_disjoint; auto.
        -- change [f0] with (repeat f0 1). rewrite <- (@slice_repeat _ i 1 f0 n) by lia.
           apply holds_sub; auto. rewrite repeat_length; lia.
        -- rewrite L1. right; left; simpl; lia.
    + eapply disjoint_sub; eauto; simpl; lia.
    + apply disjoint_sub_r with (q := pm) (k := length ms); auto.
      * eapply disjoint_sub; eauto; simpl; lia.
      * simpl; lia.
      * rewrite off_padd. rewrite Lm. unfold k. nia.
    + unfold st. apply kal_writem. apply K. lia.
Qed.

End KP2.
