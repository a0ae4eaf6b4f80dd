(** CblasProofs.v -- the kernels of the USE_CBLAS build over the reals *)
From Coq Require Import List Arith ZArith Bool Lia Reals Lra.
From Verif Require Import Base BaseProofs Ops OpsR Mem MemProofs SpecMem Kernels KernelProofs KernelProofs2
  KernelProofs3 Activation ActivationProofs Loss Neuralnet NetKernels ForwardProofs BackpropProofs SpecReal RealForward
  Cblas SpecCblas.
Import ListNotations.
Local Open Scope mem_scope.

(** ** vector_vector_outer with any previous content of the matrix *)
Section Outer.
Context {FO : fops}.
Variable c : cfg.

Definition outer_old_row (ys : list F) (xr : F * list F) : list F :=
  if ftrue (fst xr) then map (fun v => fmul (fst xr) v) ys else snd xr.
Definition outer_old (xs ys ms : list F) : list F :=
  flat_map (outer_old_row ys) (combine xs (rows (length xs) (length ys) ms)).

Lemma length_flat_map_const' A B (f : A -> list B) k l :
  (forall x, In x l -> length (f x) = k) -> length (flat_map f l) = length l * k.
Proof.
  intros H. induction l; simpl; auto. rewrite app_length, (H a), IHl; auto; [|left; auto]. intros; apply H; right; auto.
Qed.
Lemma slice_flat_map' A B (f : A -> list B) k l i x :
  (forall x, In x l -> length (f x) = k) -> nth_error l i = Some x -> slice (i * k) k (flat_map f l) = f x.
Proof.
  revert i. induction l as [|a l IH]; intros [|i] H Hx; simpl in *; try congruence.
  - inversion Hx; subst. assert (HL : length (f x) = k) by (apply H; auto).
    rewrite slice_app_l by lia. rewrite <- HL at 1. apply slice_0_all.
  - assert (HL : length (f a) = k) by (apply H; auto). rewrite <- HL at 1. rewrite slice_app_r. apply IH; auto.
Qed.
Lemma nth_combine A B (l1 : list A) (l2 : list B) i a b :
  nth_error l1 i = Some a -> nth_error l2 i = Some b -> nth_error (combine l1 l2) i = Some (a, b).
Proof. revert l2 i. induction l1; intros [|] [|]; simpl; intros; try congruence; auto. Qed.

Lemma outer_old_rows xs ys ms : length ms = length xs * length ys ->
  forall xr, In xr (combine xs (rows (length xs) (length ys) ms)) -> length (outer_old_row ys xr) = length ys.
Proof.
  intros L [x r] H. unfold outer_old_row. simpl. destruct (ftrue x); [apply map_length|].
  apply in_combine_r in H. apply In_nth_error in H. destruct H as [i Hi].
  assert (Hlt : i < length xs). { rewrite <- (length_rows (length xs) (length ys) ms). eapply nth_error_lt; eauto. }
  rewrite nth_rows in Hi by auto. inversion Hi; subst. apply length_slice. rewrite L. nia.
Qed.
Lemma length_outer_old xs ys ms : length ms = length xs * length ys ->
  length (outer_old xs ys ms) = length xs * length ys.
Proof.
  intros L. unfold outer_old. rewrite (length_flat_map_const' _ _ _ (length ys)).
  - rewrite combine_length, length_rows. f_equal. lia.
  - apply outer_old_rows; auto.
Qed.

Lemma vector_vector_outer_old mm px py pm xs ys ms :
  holds mm px xs -> holds mm py ys -> holds mm pm ms -> length ms = length xs * length ys ->
  disjoint pm (length xs * length ys) px (length xs) ->
  disjoint pm (length xs * length ys) py (length ys) ->
  vector_vector_outer c (length xs) (length ys) px py pm mm =
  Ok (tt, writem mm pm (outer_old xs ys ms)).
Proof.
  intros Hx Hy Hm Lm Dx Dy. unfold vector_vector_outer.
  pose proof (length_outer_old xs ys ms Lm) as HN. pose proof (outer_old_rows xs ys ms Lm) as HR.
  set (n := length xs) in *. set (k := length ys) in *. set (new := outer_old xs ys ms) in *.
  assert (Vm : valid mm pm (n * k)).
  { apply holds_valid in Hm. rewrite Lm in Hm. auto. }
  set (st := fun i => writem mm pm (firstn (i * k) new)).
  replace mm with (st 0) at 1 by (unfold st; simpl; apply writem_nil).
  rewrite loop1_st with (st := st); try lia.
  - unfold st. rewrite <- HN, firstn_all. reflexivity.
  - intros i Hi. destruct (@nth_error_ex _ xs i) as [x Ex]; [unfold n in *; lia|].
    assert (Hik : i * k + k <= n * k) by nia.
    assert (L1 : length (firstn (i * k) new) = i * k) by (rewrite firstn_length; nia).
    assert (V1 : valid mm pm (length (firstn (i * k) new))) by (eapply valid_le; eauto; lia).
    assert (Hpx : holds (st i) px xs).
    { apply holds_writem_disjoint; auto. rewrite L1. eapply disjoint_sub; eauto; lia. }
    assert (Hpy : holds (st i) py ys).
    { apply holds_writem_disjoint; auto. rewrite L1. eapply disjoint_sub; eauto; lia. }
    erewrite bind_ok by (eapply load_holds; eauto).
    set (row := slice (i * k) k ms).
    assert (Lrow : length row = k) by (apply length_slice; lia).
    assert (Hrow : holds (st i) (pm +! (i * k)) row).
    { apply holds_writem_disjoint; auto.
      - apply holds_sub; auto. lia.
      - rewrite L1, Lrow. right; left. simpl. lia. }
    assert (Exr : nth_error (combine xs (rows n k ms)) i = Some (x, row)).
    { apply nth_combine; auto. apply nth_rows. lia. }
    pose proof (HR _ (nth_error_In _ _ Exr)) as Lor.
    assert (E1 : st (i + 1) = writem (st i) (pm +! (i * k)) (outer_old_row ys (x, row))).
    { unfold st. replace (pm +! (i * k)) with (pm +! length (firstn (i * k) new)) by (rewrite L1; auto). rewrite writem_writem_app.
      - f_equal. replace ((i + 1) * k) with (i * k + k) by lia. rewrite <- firstn_slice_app. f_equal.
        unfold new, outer_old. apply slice_flat_map'; auto.
      - rewrite L1, Lor. apply valid_le with (n * k); auto. }
    rewrite E1. unfold outer_old_row in *. cbn [fst snd] in *. destruct (ftrue x).
    + apply holds_valid in Hrow. rewrite Lrow in Hrow. apply three_loops_new.
      * rewrite map_length; auto.
      * intros Ha j Hd Hj _.
        apply mapto_unal with (n := k) (bs := ys) (g := map (fun v => fmul x v)); auto.
        -- eapply disjoint_sub; eauto; simpl; lia.
        -- apply slice_map.
      * intros Ha j Hd Hj _.
        apply mapto_unal with (n := k) (bs := ys) (g := map (fun v => fmul x v)); auto.
        -- eapply disjoint_sub; eauto; simpl; lia.
        -- apply slice_map.
      * intros j Hj. destruct (@nth_error_ex _ ys j) as [y Ey]; [unfold k in *; lia|].
        apply mapto_scalar with (n := k) (bs := ys) (y := y) (g := fun v => fmul x v); auto.
        -- eapply disjoint_sub; eauto; simpl; lia.
        -- rewrite nth_error_map, Ey. reflexivity.
    + rewrite (writem_holds_id Hrow). reflexivity.
Qed.

Lemma storev_valid mm p xs : valid mm p (length xs) -> storev p xs mm = Ok (tt, writem mm p xs).
Proof.
  intros (b & H1 & H2). unfold storev. rewrite H1. rewrite (proj2 (Nat.leb_le _ _)) by lia. reflexivity.
Qed.
Lemma writem_inj mm p xs ys : valid mm p (length xs) -> length xs = length ys ->
  writem mm p xs = writem mm p ys -> xs = ys.
Proof.
  intros V L E. assert (H1 : holds (writem mm p xs) p xs) by (apply holds_writem_same; auto).
  assert (H2 : holds (writem mm p xs) p ys) by (rewrite E; apply holds_writem_same; rewrite <- L; auto).
  pose proof (loadv_holds0 H1 eq_refl) as A. pose proof (loadv_holds0 H2 L) as B. congruence.
Qed.
End Outer.

Local Open Scope R_scope.

Lemma outer_old_R (xs ys ms : list R) : length ms = (length xs * length ys)%nat ->
  forall i j, (i < length xs)%nat -> (j < length ys)%nat ->
  vec (@outer_old opsR xs ys ms) (i * length ys + j) =
  if Reqb (vec xs i) 0 then vec ms (i * length ys + j) else vec xs i * vec ys j.
Proof.
  intros L i j Hi Hj.
  destruct (@nth_error_ex _ xs i Hi) as [x Ex].
  assert (Exr : nth_error (combine xs (rows (length xs) (length ys) ms)) i = Some (x, slice (i * length ys) (length ys) ms)).
  { apply nth_combine; auto. apply nth_rows. auto. }
  pose proof (slice_flat_map' _ _ _ (length ys) _ i _ (@outer_old_rows opsR xs ys ms L) Exr) as E.
  fold (@outer_old opsR xs ys ms) in E.
  transitivity (vec (slice (i * length ys) (length ys) (@outer_old opsR xs ys ms)) j).
  { unfold slice. rewrite vec_firstn by auto. rewrite vec_skipn. reflexivity. }
  change (@F opsR) with R in *. rewrite E. unfold outer_old_row. cbn [fst snd].
  assert (Ev : vec xs i = x) by (unfold vec; apply nth_error_nth; auto). rewrite Ev.
  unfold ftrue. simpl feq. simpl f0. destruct (Reqb_spec x 0) as [->|]; cbn [negb].
  - unfold slice. rewrite vec_firstn by auto. rewrite vec_skipn. reflexivity.
  - rewrite vec_map by auto. reflexivity.
Qed.

Section Blas.
Variable c : cfg.
Variable cb : @cblas opsR.
Hypothesis HB : cblas_exact cb.

Lemma sgemv_n_ok n (ms vs : list R) : length ms = (n * length vs)%nat ->
  length (sgemv cb false n (length vs) 1 ms (length vs) vs 0 []) = n /\
  forall i, (i < n)%nat -> vec (sgemv cb false n (length vs) 1 ms (length vs) vs 0 []) i =
    sumf (length vs) (fun j => vec ms (i * length vs + j) * vec vs j).
Proof.
  intros L. destruct (sgemv_exact cb HB false n (length vs) 1 ms (length vs) vs 0 [] (Nat.le_refl _) L eq_refl (or_intror eq_refl)) as [A B].
  split; [exact A|]. intros i Hi. etransitivity; [exact (B i Hi)|]. cbv iota. change (vec [] i) with (nth i (@nil R) 0). destruct i; simpl; lra.
Qed.

(** the result of the BLAS call is that of the built-in kernel with zeros in y *)
Lemma mvm_blas_any mm pm pv py n (ms vs : list R) :
  holds mm pm ms -> holds mm pv vs -> length ms = (n * length vs)%nat -> valid mm py n ->
  @matrix_vector_multiply_blas opsR cb n (length vs) pm pv py mm =
  Ok (tt, writem mm py (@mvm_f opsR c vs (rows n (length vs) ms) 0)).
Proof.
  intros Hm Hv L V. unfold matrix_vector_multiply_blas.
  erewrite bind_ok by (apply (@loadv_holds0 opsR mm pm ms); auto).
  erewrite bind_ok by (apply (@loadv_holds0 opsR mm pv vs); auto).
  destruct (sgemv_n_ok n ms vs L) as [A B].
  assert (E : sgemv cb false n (length vs) 1 ms (length vs) vs 0 [] = @mvm_f opsR c vs (rows n (length vs) ms) 0).
  { apply vec_ext.
    - etransitivity; [exact A|]. unfold mvm_f. rewrite map_length, length_rows. reflexivity.
    - intros i Hi. change (@F opsR) with R in *. rewrite A in Hi. etransitivity; [exact (B i Hi)|]. rewrite mvm_R by auto.
      destruct (has_avx512 c); lra. }
  change (@f1 opsR) with 1. change (@f0 opsR) with 0. rewrite <- E. apply storev_valid.
  assert (V' : valid mm py (length (sgemv cb false n (length vs) 1 ms (length vs) vs 0 []))) by (rewrite A; exact V).
  exact V'.
Qed.
Lemma mvm_blas_spec : mvm_spec c (@matrix_vector_multiply_blas opsR cb).
Proof.
  unfold mvm_spec. intros mm pm pv py n ms vs Hm Hv L Hy _ _ _. apply mvm_blas_any; auto.
  apply holds_valid in Hy. rewrite repeat_length in Hy. exact Hy.
Qed.

Definition outer_add (xs ys ms : list R) : list R := sger cb (length xs) (length ys) 1 xs ys ms (length ys).
Lemma outer_add_R (xs ys ms : list R) : length ms = (length xs * length ys)%nat ->
  length (outer_add xs ys ms) = (length xs * length ys)%nat /\
  forall i j, (i < length xs)%nat -> (j < length ys)%nat ->
    vec (outer_add xs ys ms) (i * length ys + j) = vec ms (i * length ys + j) + vec xs i * vec ys j.
Proof.
  intros L. destruct (sger_exact cb HB (length xs) (length ys) 1 xs ys ms (length ys) (Nat.le_refl _) L eq_refl eq_refl) as [A B].
  split; [exact A|]. intros i j Hi Hj. etransitivity; [exact (B i j Hi Hj)|].
  rewrite (proj2 (Nat.ltb_lt _ _) Hj). lra.
Qed.
Lemma outer_blas_any mm px py pm (xs ys ms : list R) :
  holds mm px xs -> holds mm py ys -> holds mm pm ms -> length ms = (length xs * length ys)%nat ->
  @vector_vector_outer_blas opsR cb (length xs) (length ys) px py pm mm =
  Ok (tt, writem mm pm (outer_add xs ys ms)).
Proof.
  intros Hx Hy Hm L. unfold vector_vector_outer_blas.
  erewrite bind_ok by (apply (@loadv_holds0 opsR mm px xs); auto).
  erewrite bind_ok by (apply (@loadv_holds0 opsR mm py ys); auto).
  erewrite bind_ok by (apply (@loadv_holds0 opsR mm pm ms); auto).
  destruct (outer_add_R xs ys ms L) as [A _].
  apply storev_valid. apply holds_valid in Hm.
  assert (V : valid mm pm (length (outer_add xs ys ms))) by (rewrite A, <- L; exact Hm). exact V.
Qed.

(** matrices are equal if all elements are *)
Lemma mat_ext n k (a b : list R) : length a = (n * k)%nat -> length b = (n * k)%nat ->
  (forall i j, (i < n)%nat -> (j < k)%nat -> vec a (i * k + j) = vec b (i * k + j)) -> a = b.
Proof.
  intros La Lb H. apply vec_ext; [congruence|]. intros q Hq. rewrite La in Hq.
  assert (K0 : k <> 0%nat) by (intros ->; lia).
  pose proof (Nat.div_mod_eq q k) as E. rewrite E, (Nat.mul_comm k). apply H.
  - apply Nat.div_lt_upper_bound; auto. lia.
  - apply Nat.mod_upper_bound; auto.
Qed.

Lemma outer_blas_spec : @outer_spec opsR (@vector_vector_outer_blas opsR cb).
Proof.
  unfold outer_spec. intros mm px py pm xs ys Hx Hy Hm _ _.
  etransitivity; [exact (outer_blas_any mm px py pm xs ys _ Hx Hy Hm (repeat_length _ _))|].
  do 3 f_equal. destruct (outer_add_R xs ys (repeat 0 (length xs * length ys))) as [A B]; [apply repeat_length|].
  apply (mat_ext (length xs) (length ys)); [exact A|apply length_outer_f|].
  intros i j Hi Hj. etransitivity; [exact (B i j Hi Hj)|]. etransitivity; [|symmetry; exact (outer_R xs ys i j Hi Hj)].
  unfold vec at 1. rewrite nth_repeat. lra.
Qed.

Lemma vmm_blas_any mm pw pb pin py m (ws bs xs : list R) :
  holds mm pw ws -> holds mm pb bs -> holds mm pin xs -> valid mm py m ->
  length bs = m -> length ws = (length xs * m)%nat ->
  disjoint py m pw (length ws) -> disjoint py m pb m -> disjoint py m pin (length xs) ->
  @vector_matrix_multiply_blas opsR cb (length xs) m pw pb pin py mm =
  Ok (tt, writem mm py (@vmm_f opsR c m ws bs xs)).
Proof.
  intros Hw Hb Hx V Lb Lw Dw Db Dx. unfold vector_matrix_multiply_blas.
  assert (Vb : valid mm py (length bs)) by (rewrite Lb; auto).
  erewrite bind_ok.
  2:{ unfold memcpy. erewrite bind_ok by (apply (@loadv_holds0 opsR mm pb bs); auto). apply storev_valid. exact Vb. }
  set (m1 := @writem opsR mm py bs).
  erewrite bind_ok.
  2:{ apply (@loadv_holds0 opsR m1 pw ws); auto. apply holds_writem_disjoint; auto.
      assert (D : disjoint py (length bs) pw (length ws)) by (rewrite Lb; auto). exact D. }
  erewrite bind_ok.
  2:{ apply (@loadv_holds0 opsR m1 pin xs); auto. apply holds_writem_disjoint; auto.
      assert (D : disjoint py (length bs) pin (length xs)) by (rewrite Lb; auto). exact D. }
  erewrite bind_ok.
  2:{ apply (@loadv_holds0 opsR m1 py bs); auto. apply holds_writem_same; auto. }
  destruct (sgemv_exact cb HB true (length xs) m 1 ws m xs 1 bs (Nat.le_refl _) Lw eq_refl (or_introl Lb)) as [A B].
  assert (E : sgemv cb true (length xs) m 1 ws m xs 1 bs = @vmm_f opsR c m ws bs xs).
  { apply vec_ext.
    - etransitivity; [exact A|]. symmetry. apply length_vmm_f; auto.
    - intros j Hj. assert (Hj' : (j < m)%nat) by (rewrite <- A; exact Hj).
      etransitivity; [exact (B j Hj')|]. rewrite vmm_R by auto. cbv iota.
      rewrite (sumf_ext (length xs) (fun k => vec ws (k * m + j) * vec xs k) (fun i => vec xs i * vec ws (i * m + j))).
      + lra.
      + intros; lra. }
  change (@f1 opsR) with 1.
  assert (LE : length (sgemv cb true (length xs) m 1 ws m xs 1 bs) = m) by exact A.
  change (@F opsR) with R in *. rewrite E in *.
  rewrite storev_valid.
  - do 2 f_equal. unfold m1. apply writem_writem_same; auto. change (@F opsR) with R in *. rewrite LE. auto.
  - unfold m1. apply valid_writem; auto. change (@F opsR) with R in *. rewrite LE. auto.
Qed.
Lemma vmm_blas_spec : vmm_spec c (@vector_matrix_multiply_blas opsR cb).
Proof. unfold vmm_spec. intros. apply vmm_blas_any; auto. Qed.

Lemma saxpy_any mm p q (al : R) (xs ys : list R) : holds mm p xs -> holds mm q ys -> length ys = length xs ->
  @vector_saxpy_blas opsR cb (length xs) p al q mm = Ok (tt, @writem opsR mm p (map2 (fun x y => x + al * y) xs ys)).
Proof.
  intros Hx Hy L. unfold vector_saxpy_blas.
  erewrite bind_ok by (apply (@loadv_holds0 opsR mm q ys); auto).
  erewrite bind_ok by (apply (@loadv_holds0 opsR mm p xs); auto).
  destruct (saxpy_exact cb HB (length xs) al ys xs L eq_refl) as [A B].
  assert (E : saxpy cb (length xs) al ys xs = map2 (fun x y => x + al * y) xs ys).
  { apply vec_ext.
    - etransitivity; [exact A|]. rewrite length_map2. rlia.
    - intros i Hi. assert (Hi' : (i < length xs)%nat) by (rewrite <- A; exact Hi).
      etransitivity; [exact (B i Hi')|]. rewrite vec_map2 by rlia. lra. }
  change (@F opsR) with R in *. rewrite E in *. apply storev_valid. apply holds_valid in Hx.
  change (@F opsR) with R in *. rewrite A. exact Hx.
Qed.
Lemma saxpby_any mm p q (al be : R) (xs ys : list R) : holds mm p xs -> holds mm q ys -> length ys = length xs ->
  @vector_saxpby_blas opsR cb (length xs) p al q be mm =
  Ok (tt, @writem opsR mm p (map2 (fun x y => be * x + al * y) xs ys)).
Proof.
  intros Hx Hy L. unfold vector_saxpby_blas.
  erewrite bind_ok by (apply (@loadv_holds0 opsR mm q ys); auto).
  erewrite bind_ok by (apply (@loadv_holds0 opsR mm p xs); auto).
  destruct (saxpby_exact cb HB (length xs) al ys be xs L eq_refl) as [A B].
  assert (E : saxpby cb (length xs) al ys be xs = map2 (fun x y => be * x + al * y) xs ys).
  { apply vec_ext.
    - etransitivity; [exact A|]. rewrite length_map2. rlia.
    - intros i Hi. assert (Hi' : (i < length xs)%nat) by (rewrite <- A; exact Hi).
      etransitivity; [exact (B i Hi')|]. rewrite vec_map2 by rlia. lra. }
  change (@F opsR) with R in *. rewrite E in *. apply storev_valid. apply holds_valid in Hx.
  change (@F opsR) with R in *. rewrite A. exact Hx.
Qed.
Lemma accumulate_any mm p q (xs ys : list R) : holds mm p xs -> holds mm q ys -> length ys = length xs ->
  @vector_accumulate_blas opsR cb (length xs) p q mm = Ok (tt, @writem opsR mm p (map2 Rplus xs ys)).
Proof.
  intros Hx Hy L. pose proof (saxpy_any mm p q 1 xs ys Hx Hy L) as E.
  etransitivity; [exact E|]. do 3 f_equal. apply map2_ext. intros. lra.
Qed.
End Blas.

Lemma ref_cblas_exact : cblas_exact ref_cblas.
Proof.
  assert (G : forall (f : nat -> R) n i, (i < n)%nat -> vec (map f (seq 0 n)) i = f i).
  { intros f n i Hi. unfold vec. apply nth_error_nth. rewrite nth_error_map.
    rewrite (nth_error_nth' (seq 0 n) 0%nat) by (rewrite seq_length; auto). rewrite seq_nth by auto. reflexivity. }
  constructor.
  - intros. split; [unfold r; simpl; rewrite map_length, seq_length; reflexivity|].
    intros i Hi. unfold r. simpl. rewrite G by auto. reflexivity.
  - intros. split; [unfold r; simpl; rewrite map_length, seq_length; reflexivity|].
    intros i j Hi Hj. unfold r. simpl. rewrite G by nia.
    rewrite (Nat.add_comm (i * lda) j). rewrite Nat.mod_add by lia. rewrite Nat.div_add by lia.
    rewrite (Nat.mod_small j) by auto. rewrite (Nat.div_small j) by auto. reflexivity.
  - intros. split; [unfold r; simpl; rewrite map_length, seq_length; reflexivity|].
    intros i Hi. unfold r. simpl. apply G; auto.
  - intros. split; [unfold r; simpl; rewrite map_length, seq_length; reflexivity|].
    intros i Hi. unfold r. simpl. apply (G (fun i => al * vec x i + be * vec y i)); auto.
Qed.
