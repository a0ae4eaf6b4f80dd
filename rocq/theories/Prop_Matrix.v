(** Prop_Matrix.v -- C11: matrix kernels of src/matrix_operations.c, exact arithmetic, every build *)
From Coq Require Import List Arith ZArith Bool Lia Reals Lra.
From Verif Require Import Base BaseProofs Ops OpsR Mem MemProofs SpecMem Kernels KernelProofs KernelProofs2
  KernelProofs3 SpecReal RealForward Ex_Mem.
Import ListNotations.
Local Open Scope R_scope.

(** y_i = y_i + sum_j M_ij v_j (stored, not added, in the AVX-512 build).  M has n rows and
    length vs columns in row-major order. *)
Theorem matrix_vector_multiply_spec (c : cfg) (m : mem) (pm pv py : ptr) (n : nat) (ms vs ys : list R) :
  let k := length vs in
  holds m pm ms -> holds m pv vs -> length ms = (n * k)%nat -> length ys = n ->
  (if has_avx512 c then valid m py n else holds m py ys) ->
  disjoint py n pm (n * k) -> disjoint py n pv k ->
  (forall i, (i < n)%nat -> kal c k m (padd pm (i * k))) ->
  exists new, length new = n /\
    (forall i, (i < n)%nat ->
       vec new i = (if has_avx512 c then 0 else vec ys i) + sumf k (fun j => vec ms (i * k + j) * vec vs j)) /\
    writes_only (matrix_vector_multiply c n k pm pv py) m py new.
Proof.
  intros k Hm Hv Lm Ly Hy Dm Dv K. exists (@mvm_gen opsR c vs (rows n k ms) ys).
  assert (L : length (@mvm_gen opsR c vs (rows n k ms) ys) = n).
  { unfold mvm_gen. rewrite length_map2, length_rows. rlia. }
  split; [exact L|]. split; [apply mvm_gen_R; auto|].
  apply writes_only_intro.
  - rewrite L. destruct (has_avx512 c); auto. rewrite <- Ly. apply holds_valid; auto.
  - apply matrix_vector_multiply_gen; auto. change (@F opsR) with R. rewrite Lm. auto.
Qed.
Print Assumptions matrix_vector_multiply_spec.

(** M_ij = x_i * y_j into a zeroed matrix *)
Theorem vector_vector_outer_spec (c : cfg) (m : mem) (px py pm : ptr) (xs ys : list R) :
  let n := length xs in let k := length ys in
  holds m px xs -> holds m py ys -> holds m pm (repeat 0 (n * k)) ->
  disjoint pm (n * k) px n -> disjoint pm (n * k) py k ->
  exists new, length new = (n * k)%nat /\
    (forall i j, (i < n)%nat -> (j < k)%nat -> vec new (i * k + j) = vec xs i * vec ys j) /\
    writes_only (vector_vector_outer c n k px py pm) m pm new.
Proof.
  intros n k Hx Hy Hm Dx Dy. exists (@outer_f opsR xs ys).
  split; [apply length_outer_f|]. split; [intros; apply outer_R; auto|].
  apply writes_only_intro.
  - rewrite length_outer_f. apply holds_valid in Hm. rewrite repeat_length in Hm. exact Hm.
  - apply vector_vector_outer_ok; auto.
Qed.
Print Assumptions vector_vector_outer_spec.

(** y_j = b_j + sum_i x_i W_ij, W with length xs rows and mo columns *)
Theorem vector_matrix_multiply_spec (c : cfg) (m : mem) (pw pb px py : ptr) (mo : nat) (ws bs xs : list R) :
  let n := length xs in
  holds m pw ws -> holds m pb bs -> holds m px xs -> valid m py mo ->
  length bs = mo -> length ws = (n * mo)%nat ->
  disjoint py mo pw (n * mo) -> disjoint py mo pb mo -> disjoint py mo px n ->
  kal c mo m py -> kal c mo m pb ->
  exists new, length new = mo /\
    (forall j, (j < mo)%nat -> vec new j = vec bs j + sumf n (fun i => vec xs i * vec ws (i * mo + j))) /\
    writes_only (vector_matrix_multiply c n mo pw pb px py) m py new.
Proof.
  intros n Hw Hb Hx V Lb Lw Dw Db Dx Ky Kb. exists (@vmm_f opsR c mo ws bs xs).
  assert (L : length (@vmm_f opsR c mo ws bs xs) = mo) by (apply length_vmm_f; auto).
  split; [exact L|]. split; [intros; apply vmm_R; auto|].
  apply writes_only_intro.
  - rewrite L. auto.
  - apply vector_matrix_multiply_ok; auto. exact mulC_R. change (@F opsR) with R. rewrite Lw. auto.
Qed.
Print Assumptions vector_matrix_multiply_spec.

(** A case that meets the hypotheses: 3 rows, 8 columns, AVX build; y is not zero before. *)
Definition ex_c : cfg := {| cfg_isa := AVX; cfg_fma := false |}.
Definition ex_m : @mem opsR := [mkblock 640 (repeat (Some 2) 24); mkblock 1280 (repeat (Some 3) 8);
                                mkblock 2560 (repeat (Some 1) 3)].
Example matrix_case :
  let pm := mkptr 0 0 in let pv := mkptr 1 0 in let py := mkptr 2 0 in
  let ms := repeat 2 24 in let vs := repeat 3 8 in let ys := repeat 1 3 in
  (holds ex_m pm ms /\ holds ex_m pv vs /\ length ms = (3 * length vs)%nat /\
   (if has_avx512 ex_c then valid ex_m py 3 else holds ex_m py ys) /\
   disjoint py 3 pm (3 * length vs) /\ disjoint py 3 pv (length vs)) /\
  (forall i, (i < 3)%nat -> kal ex_c (length vs) ex_m (padd pm (i * length vs))).
Proof.
  cbv zeta. split.
  - unfold holds, disjoint. cbn [ex_c has_avx512 cfg_isa].
    repeat split; try (eexists; split; [reflexivity|split; [simpl; lia|reflexivity]]); left; simpl; lia.
  - intros i Hi. unfold kal. cbn [ex_c has_avx512 has_avx cfg_isa]. split; [discriminate|]. intros _ _.
    destruct i as [|[|[|i]]]; try reflexivity. lia.
Qed.
