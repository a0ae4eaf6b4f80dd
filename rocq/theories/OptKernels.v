(** OptKernels.v -- the kernels of RMSprop.c, adagrad.c and adam.c *)
From Coq Require Import List Arith ZArith Lia Bool.
From Verif Require Import Base BaseProofs Ops Mem MemProofs Kernels KernelProofs Optimizer.
Import ListNotations.
Set Implicit Arguments.
Local Open Scope mem_scope.

Section OptKernels.
Context {FO : fops}.
Variable c : cfg.
Hypothesis mulC : forall a b : F, fmul a b = fmul b a.

(** alignment needed by the 8 wide loop *)
Definition kal8 (n : nat) (m : mem) (p : ptr) : Prop := has_avx c = true -> 8 <= n -> aligned_to 8 m p = true.
Lemma kal_kal8 n m p : kal c n m p -> kal8 n m p.
Proof. intros [_ H]. exact H. Qed.

Definition c8 : cfg := {| cfg_isa := if has_avx c then AVX else SSE; cfg_fma := false |}.
Lemma c8_avx : has_avx c8 = has_avx c.
Proof. unfold c8, has_avx at 1. simpl. destruct (has_avx c); reflexivity. Qed.
Lemma c8_512 : has_avx512 c8 = false.
Proof. unfold c8, has_avx512. simpl. destruct (has_avx c); reflexivity. Qed.
Lemma c8_vend n : vend c8 n = vend c n.
Proof. unfold vend. rewrite c8_avx. reflexivity. Qed.
Lemma two_three n b8 b1 : two_loops c n b8 b1 = three_loops c8 n b8 b8 b1.
Proof. unfold two_loops, three_loops, when. rewrite c8_avx, c8_512. reflexivity. Qed.

Lemma two_loops_new n b8 b1 m p new :
  length new = n ->
  (has_avx c = true -> forall i, Nat.divide 8 i -> i + 8 <= n -> i + 8 <= vend c n ->
     b8 i (writem m p (firstn i new)) = Ok (tt, writem m p (firstn (i + 8) new))) ->
  (forall i, vend c n <= i < n -> b1 i (writem m p (firstn i new)) = Ok (tt, writem m p (firstn (i + 1) new))) ->
  two_loops c n b8 b1 m = Ok (tt, writem m p new).
Proof.
  intros HN H8 H1. rewrite two_three. apply three_loops_new; auto.
  - rewrite c8_512. discriminate.
  - rewrite c8_avx, c8_vend. auto.
  - rewrite c8_vend. auto.
Qed.

Lemma kal8_at n m p i : kal8 n m p -> valid m p n -> has_avx c = true -> Nat.divide 8 i -> i + 8 <= n ->
  aligned_to 8 m (p +! i) = true.
Proof.
  intros K V Ha Hd Hi. apply aligned_to_padd; auto; try lia. - eapply valid_some; eauto. - apply K; auto. lia.
Qed.

(** position dependent result: vector lanes up to [vend], then the scalar tail *)
Definition lanes {A B} (f8 f1 : A -> B -> F) (n i : nat) (x : A) (y : B) : F := if i <? vend c n then f8 x y else f1 x y.
Definition lanes2 (f8 f1 : F -> F -> F) (xs ys : list F) : list F := mapi2 (lanes f8 f1 (length xs)) xs ys.

Lemma lanes2_same f xs ys : lanes2 f f xs ys = map2 f xs ys.
Proof.
  unfold lanes2. rewrite <- mapi2_const. apply mapi2_ext. intros. unfold lanes. destruct (_ <? _); reflexivity.
Qed.
Lemma lanes2_eq f8 f1 f xs ys : (forall x y, f8 x y = f x y) -> (forall x y, f1 x y = f x y) -> lanes2 f8 f1 xs ys = map2 f xs ys.
Proof.
  intros H8 H1. unfold lanes2. rewrite <- mapi2_const. apply mapi2_ext. intros. unfold lanes. destruct (_ <? _); auto.
Qed.
Lemma length_lanes2 f8 f1 xs ys : length ys = length xs -> length (lanes2 f8 f1 xs ys) = length xs.
Proof. intros H. unfold lanes2. rewrite length_mapi2. lia. Qed.

(** in place, the array p is loaded first *)
Lemma two_inplace m p q xs ys f8 f1 :
  holds m p xs -> holds m q ys -> length ys = length xs -> disjoint p (length xs) q (length xs) ->
  kal8 (length xs) m p -> kal8 (length xs) m q ->
  two_loops c (length xs)
    (fun i => x <- loadv_al 8 (p +! i) ;; y <- loadv_al 8 (q +! i) ;; storev_al (p +! i) (map2 f8 x y))
    (fun i => x <- load (p +! i) ;; y <- load (q +! i) ;; store (p +! i) (f1 x y)) m
  = Ok (tt, writem m p (lanes2 f8 f1 xs ys)).
Proof.
  intros Hx Hy HL D Kp Kq. set (new := lanes2 f8 f1 xs ys).
  assert (HN : length new = length xs) by (apply length_lanes2; auto).
  apply two_loops_new; auto.
  - intros Ha i Hd Hi Hv. apply map2_al with (old := xs) (bs := ys) (g := map2 f8); auto.
    + unfold new, lanes2. apply slice_mapi2; try lia. intros k ? ? Hk _ _. unfold lanes. destruct (Nat.ltb_spec k (vend c (length xs))); auto. lia.
    + eapply kal8_at; eauto using holds_valid.
    + eapply kal8_at with (n := length xs); eauto. rewrite <- HL. apply holds_valid; auto.
  - intros i Hi. destruct (@nth_error_ex _ xs i) as [x Ex]; [lia|]. destruct (@nth_error_ex _ ys i) as [y Ey]; [lia|].
    apply map2_scalar with (old := xs) (bs := ys) (x := x) (y := y); auto.
    unfold new, lanes2. rewrite nth_error_mapi2, Ex, Ey. unfold lanes. destruct (Nat.ltb_spec i (vend c (length xs))); auto. lia.
Qed.

(** in place, the array q is loaded first *)
Lemma two_inplace' m p q xs ys f8 f1 :
  holds m p xs -> holds m q ys -> length ys = length xs -> disjoint p (length xs) q (length xs) ->
  kal8 (length xs) m p -> kal8 (length xs) m q ->
  two_loops c (length xs)
    (fun i => y <- loadv_al 8 (q +! i) ;; x <- loadv_al 8 (p +! i) ;; storev_al (p +! i) (map2 f8 x y))
    (fun i => y <- load (q +! i) ;; x <- load (p +! i) ;; store (p +! i) (f1 x y)) m
  = Ok (tt, writem m p (lanes2 f8 f1 xs ys)).
Proof.
  intros Hx Hy HL D Kp Kq. set (new := lanes2 f8 f1 xs ys).
  assert (HN : length new = length xs) by (apply length_lanes2; auto).
  apply two_loops_new; auto.
  - intros Ha i Hd Hi Hv.
    assert (A1 : aligned_to 8 m (p +! i) = true) by (eapply kal8_at; eauto using holds_valid).
    assert (A2 : aligned_to 8 m (q +! i) = true).
    { eapply kal8_at with (n := length xs); eauto. rewrite <- HL. apply holds_valid; auto. }
    unfold bind. rewrite loadv_al_ok by (rewrite aligned_to_writem; auto).
    rewrite (@loadv_b _ m p q xs ys) by (auto; lia). rewrite loadv_al_ok by (rewrite aligned_to_writem; auto).
    rewrite loadv_rest with (old := xs) by (auto; lia).
    assert (E : slice i 8 new = map2 f8 (slice i 8 xs) (slice i 8 ys)).
    { unfold new, lanes2. apply slice_mapi2; try lia. intros k ? ? Hk _ _. unfold lanes. destruct (Nat.ltb_spec k (vend c (length xs))); auto. lia. }
    rewrite <- E. rewrite storev_al_ok by (rewrite length_slice by lia; rewrite aligned_to_writem; auto).
    rewrite storev_next with (n := length xs); auto; rewrite ?length_slice by lia; auto. apply holds_valid; auto.
  - intros i Hi. destruct (@nth_error_ex _ xs i) as [x Ex]; [lia|]. destruct (@nth_error_ex _ ys i) as [y Ey]; [lia|].
    unfold bind. rewrite (@load_b _ m p q xs ys Hx Hy HL D i i new y) by auto. rewrite load_rest with (old := xs) (x := x) by (auto; lia).
    apply store_next with (n := length xs); auto. { apply holds_valid; auto. }
    unfold new, lanes2. rewrite nth_error_mapi2, Ex, Ey. unfold lanes. destruct (Nat.ltb_spec i (vend c (length xs))); auto. lia.
Qed.

(** two sources, one destination *)
Lemma two_to m d p q xs ys f : 
  valid m d (length xs) -> holds m p xs -> holds m q ys -> length ys = length xs ->
  disjoint d (length xs) p (length xs) -> disjoint d (length xs) q (length xs) ->
  kal8 (length xs) m d -> kal8 (length xs) m p -> kal8 (length xs) m q ->
  two_loops c (length xs)
    (fun i => x <- loadv_al 8 (p +! i) ;; y <- loadv_al 8 (q +! i) ;; storev_al (d +! i) (map2 f x y))
    (fun i => x <- load (p +! i) ;; y <- load (q +! i) ;; store (d +! i) (f x y)) m
  = Ok (tt, writem m d (map2 f xs ys)).
Proof.
  intros V Hx Hy HL D1 D2 Kd Kp Kq. set (new := map2 f xs ys).
  assert (HN : length new = length xs) by (unfold new; rewrite length_map2; lia).
  assert (HP : forall i, holds (writem m d (firstn i new)) p xs).
  { intros i. eapply holds_b'; eauto. }
  assert (HQ : forall i, holds (writem m d (firstn i new)) q ys).
  { intros i. eapply holds_b' with (n := length xs); eauto. }
  apply two_loops_new; auto.
  - intros Ha i Hd Hi Hv.
    assert (A0 : aligned_to 8 m (d +! i) = true) by (eapply kal8_at; eauto).
    assert (A1 : aligned_to 8 m (p +! i) = true) by (eapply kal8_at; eauto using holds_valid).
    assert (A2 : aligned_to 8 m (q +! i) = true).
    { eapply kal8_at with (n := length xs); eauto. rewrite <- HL. apply holds_valid; auto. }
    unfold bind. rewrite loadv_al_ok by (rewrite aligned_to_writem; auto). rewrite loadv_holds with (xs := xs) by (auto; lia).
    rewrite loadv_al_ok by (rewrite aligned_to_writem; auto). rewrite loadv_holds with (xs := ys) by (auto; lia).
    rewrite <- map2_full_slices by lia. fold new.
    rewrite storev_al_ok by (rewrite length_slice by lia; rewrite aligned_to_writem; auto).
    rewrite storev_next with (n := length xs); auto; rewrite ?length_slice by lia; auto.
  - intros i Hi. destruct (@nth_error_ex _ xs i) as [x Ex]; [lia|]. destruct (@nth_error_ex _ ys i) as [y Ey]; [lia|].
    unfold bind. erewrite load_holds by eauto. erewrite load_holds by eauto.
    apply store_next with (n := length xs); auto. unfold new. apply nth_map2; auto.
Qed.

Definition update_f (lr x y : F) : F := fmul x (fdiv (fneg lr) (fadd (flit 1 10000000) (fsqrt y))).
Lemma compute_update_ok m d r xs ys lr :
  holds m d xs -> holds m r ys -> length ys = length xs -> disjoint d (length xs) r (length xs) ->
  kal c (length xs) m d -> kal c (length xs) m r ->
  compute_update c (length xs) d r lr m = Ok (tt, writem m d (map2 (update_f lr) xs ys)).
Proof.
  intros. rewrite <- lanes2_same. unfold compute_update. apply two_inplace; auto using kal_kal8.
Qed.
Lemma accumulate_squared_ok m r g xs ys :
  holds m r xs -> holds m g ys -> length ys = length xs -> disjoint r (length xs) g (length xs) ->
  kal c (length xs) m r -> kal c (length xs) m g ->
  accumulate_squared_gradient c (length xs) r g m = Ok (tt, writem m r (map2 (fun x y => fadd x (fmul y y)) xs ys)).
Proof.
  intros. rewrite <- lanes2_same. unfold accumulate_squared_gradient. apply two_inplace'; auto using kal_kal8.
Qed.
Lemma first_moment_ok m s g xs ys rho :
  holds m s xs -> holds m g ys -> length ys = length xs -> disjoint s (length xs) g (length xs) ->
  kal c (length xs) m s -> kal c (length xs) m g ->
  update_biased_first_moment c (length xs) s g rho m =
    Ok (tt, writem m s (map2 (fun x y => fadd (fmul rho x) (fmul (fsub f1 rho) y)) xs ys)).
Proof.
  intros. erewrite <- lanes2_eq.
  - unfold update_biased_first_moment. apply two_inplace'; auto using kal_kal8.
  - intros x y. simpl. rewrite (mulC x), (mulC y). reflexivity.
  - reflexivity.
Qed.
Definition second_moment_f (rho : F) (xs ys : list F) : list F :=
  lanes2 (fun x y => fadd (fmul x rho) (fmul (fmul y y) (fsub f1 rho)))
         (fun x y => fadd (fmul rho x) (fmul (fmul (fsub f1 rho) y) y)) xs ys.
Lemma second_moment_ok m r g xs ys rho :
  holds m r xs -> holds m g ys -> length ys = length xs -> disjoint r (length xs) g (length xs) ->
  kal c (length xs) m r -> kal c (length xs) m g ->
  update_biased_second_moment c (length xs) r g rho m = Ok (tt, writem m r (second_moment_f rho xs ys)).
Proof. intros. unfold update_biased_second_moment. apply two_inplace'; auto using kal_kal8. Qed.

Definition adam_f (rho1 rho2 lr x y : F) : F :=
  fdiv (fmul (fneg lr) (fdiv x (fsub f1 rho1))) (fadd (fsqrt (fdiv y (fsub f1 rho2))) (flit 1 100000000)).
Lemma compute_update_adam_ok m d s r xs ys rho1 rho2 lr :
  valid m d (length xs) -> holds m s xs -> holds m r ys -> length ys = length xs ->
  disjoint d (length xs) s (length xs) -> disjoint d (length xs) r (length xs) ->
  kal c (length xs) m d -> kal c (length xs) m s -> kal c (length xs) m r ->
  compute_update_adam c (length xs) d s r rho1 rho2 lr m = Ok (tt, writem m d (map2 (adam_f rho1 rho2 lr) xs ys)).
Proof. intros. unfold compute_update_adam. apply two_to; auto using kal_kal8. Qed.
End OptKernels.
