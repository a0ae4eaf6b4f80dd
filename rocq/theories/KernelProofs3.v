(** KernelProofs3.v -- matrix_vector_multiply with arbitrary previous content of the result *)
From Coq Require Import List Arith ZArith Lia Bool Reals Lra.
From Verif Require Import Base BaseProofs Ops OpsR Mem MemProofs Kernels KernelProofs KernelProofs2 SpecReal RealForward.
Import ListNotations.
Local Open Scope mem_scope.

Section KP3.
Context {FO : fops}.
Variable c : cfg.

Definition mvm_gen (vs : list F) (rws : list (list F)) (ys : list F) : list F := map2 (dot_f c vs) rws ys.

Lemma matrix_vector_multiply_gen mm pm pv py n ms vs ys :
  holds mm pm ms -> holds mm pv vs -> length ms = n * length vs -> length ys = n ->
  (if has_avx512 c then valid mm py n else holds mm py ys) ->
  disjoint py n pm (length ms) -> disjoint py n pv (length vs) ->
  (forall i, i < n -> kal c (length vs) mm (pm +! (i * length vs))) ->
  matrix_vector_multiply c n (length vs) pm pv py mm =
  Ok (tt, writem mm py (mvm_gen vs (rows n (length vs) ms) ys)).
Proof.
  intros Hm Hv Lm Ly Hy Dm Dv K. unfold matrix_vector_multiply.
  set (k := length vs) in *. set (new := mvm_gen vs (rows n k ms) ys).
  assert (HN : length new = n) by (unfold new, mvm_gen; rewrite length_map2, length_rows; lia).
  assert (Vy : valid mm py n).
  { destruct (has_avx512 c); auto. apply holds_valid in Hy. rewrite Ly in Hy; auto. }
  set (st := fun i => writem mm py (firstn i new)).
  replace mm with (st 0) at 1 by (unfold st; simpl; apply writem_nil).
  rewrite loop1_st with (st := st); try lia.
  - unfold st. rewrite <- HN, firstn_all. reflexivity.
  - intros i Hi. destruct (@nth_error_ex _ ys i) as [y Ey]; [lia|].
    assert (L1 : length (firstn i new) = i) by (rewrite firstn_length; lia).
    assert (V1 : valid mm py (length (firstn i new))) by (eapply valid_le; eauto; lia).
    assert (Hrow : holds (st i) (pm +! (i * k)) (slice (i * k) k ms)).
    { apply holds_sub; [|nia]. apply holds_writem_disjoint; auto. rewrite L1. eapply disjoint_sub; eauto; lia. }
    assert (Lr : length (slice (i * k) k ms) = k) by (apply length_slice; nia).
    unfold k at 1. rewrite mvm_row_ok with (ms := slice (i * k) k ms) (y0 := y); auto.
    + f_equal. f_equal. unfold st. replace (py +! i) with (py +! length (firstn i new)) by (rewrite L1; auto). rewrite writem_writem_app.
      * f_equal. rewrite <- firstn_slice_app. f_equal. symmetry. apply slice_one.
        unfold new, mvm_gen. rewrite nth_error_map2, nth_rows, Ey by lia. reflexivity.
      * rewrite L1. simpl. apply valid_le with n; auto. lia.
    + apply holds_writem_disjoint; auto. rewrite L1. eapply disjoint_sub; eauto; lia.
    + destruct (has_avx512 c).
      * unfold st. apply valid_writem; auto. apply valid_sub with (n := n); auto; lia.
      * unfold st. apply holds_writem_disjoint; auto.
        -- rewrite <- (slice_one _ _ Ey). apply holds_sub; auto. lia.
        -- rewrite L1. right; left; simpl; lia.
    + eapply disjoint_sub; eauto; simpl; lia.
    + apply disjoint_sub_r with (q := pm) (k := length ms); auto.
      * eapply disjoint_sub; eauto; simpl; lia.
      * simpl; lia.
      * rewrite off_padd. rewrite Lm. unfold k. nia.
    + unfold st. apply kal_writem. apply K. lia.
Qed.
End KP3.

Local Open Scope R_scope.
Lemma mvm_gen_R c (vs : list R) nr (ws ys : list R) : length ws = (nr * length vs)%nat -> length ys = nr ->
  forall i, (i < nr)%nat ->
  vec (@mvm_gen opsR c vs (rows nr (length vs) ws) ys) i =
  (if has_avx512 c then 0 else vec ys i) + sumf (length vs) (fun j => vec ws (i * length vs + j) * vec vs j).
Proof.
  intros L Ly i Hi. unfold vec at 1. apply nth_error_nth. unfold mvm_gen. rewrite nth_error_map2.
  rewrite nth_rows by auto. assert (E : nth_error ys i = Some (vec ys i)) by (apply nth_error_nth'; rlia).
  change (@F opsR) with R in *. rewrite E. f_equal.
  assert (LS : length (slice (i * length vs) (length vs) ws) = length vs) by (apply length_slice; rewrite L; rnia).
  rewrite dot_R by auto. f_equal. rewrite ldot_sumf by auto. apply sumf_ext. intros j Hj.
  rewrite Rmult_comm. f_equal. unfold slice. rewrite vec_firstn by auto. rewrite vec_skipn. reflexivity.
Qed.
