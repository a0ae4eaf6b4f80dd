(** Kernels.v -- memory-level model of src/matrix_operations.c (non-BLAS build).

    All functions are transcribed loop by loop; pointers that the C code advances
    (y_ptr += 16) are written base + index.  int arithmetic on lengths is modelled by
    natural numbers (no overflow of lengths). *)
From Coq Require Import List Arith ZArith Bool.
From Verif Require Import Base Ops Mem.
Import ListNotations.
Local Open Scope mem_scope.

Section Kernels.
Context {FO : fops}.
Variable c : cfg.

(** Two loops of #ifdef __AVX512F__ (16 wide) and #ifdef __AVX__ (8 wide), then the
    scalar loop.  This is the common control skeleton
    [int i = 0; for(; i <= n-16; i += 16) b16; for(; i <= n-8; i += 8) b8; for(; i < n; i++) b1]
    of the kernels in src/matrix_operations.c (lines 127-141, 149-159, 202-214, 234-244,
    257-268, 280-291, 313-325, 353-380, 393-415). *)
Definition three_loops (n : nat) (b16 b8 b1 : nat -> M unit) : M unit :=
  i <- when (has_avx512 c) (loop_le 16 n 0 b16) 0 ;;
  i <- when (has_avx c) (loop_le 8 n i b8) i ;;
  loop1 n i b1.
(** same with the strict tests of lines 163, 173 *)
Definition three_loops_strict (n : nat) (b16 b8 b1 : nat -> M unit) : M unit :=
  i <- when (has_avx512 c) (loop_lt 16 n 0 b16) 0 ;;
  i <- when (has_avx c) (loop_lt 8 n i b8) i ;;
  loop1 n i b1.

(** src/matrix_operations.c:197-216 vector_accumulate: a = a + b, aligned *)
Definition vector_accumulate (n : nat) (a b : ptr) : M unit :=
  let vec w i :=
    x <- loadv_al w (a +! i) ;; y <- loadv_al w (b +! i) ;; storev_al (a +! i) (map2 fadd x y) in
  three_loops n (vec 16) (vec 8)
    (fun i => x <- load (a +! i) ;; y <- load (b +! i) ;; store (a +! i) (fadd x y)).

(** src/matrix_operations.c:226-246 vector_accumulate_unaligned: y = y + b *)
Definition vector_accumulate_unaligned (n : nat) (a b : ptr) : M unit :=
  let vec w i :=
    x <- loadv w (a +! i) ;; y <- loadv w (b +! i) ;; storev (a +! i) (map2 fadd x y) in
  three_loops n (vec 16) (vec 8)
    (fun i => x <- load (a +! i) ;; y <- load (b +! i) ;; store (a +! i) (fadd x y)).

(** src/matrix_operations.c:255-269 vector_scale: v = v * scalar *)
Definition vector_scale (n : nat) (v : ptr) (s : F) : M unit :=
  let vec w i :=
    x <- loadv_al w (v +! i) ;; storev_al (v +! i) (map (fun x => fmul x s) x) in
  three_loops n (vec 16) (vec 8)
    (fun i => x <- load (v +! i) ;; store (v +! i) (fmul x s)).

(** src/matrix_operations.c:278-292 vector_divide_by_scalar: v = v / scalar *)
Definition vector_divide_by_scalar (n : nat) (v : ptr) (s : F) : M unit :=
  let vec w i :=
    x <- loadv_al w (v +! i) ;; storev_al (v +! i) (map (fun x => fdiv x s) x) in
  three_loops n (vec 16) (vec 8)
    (fun i => x <- load (v +! i) ;; store (v +! i) (fdiv x s)).

(** src/matrix_operations.c:308-327 vector_saxpy: a = a + alpha*b *)
Definition vector_saxpy (n : nat) (a : ptr) (alpha : F) (b : ptr) : M unit :=
  let vec w i :=
    x <- loadv_al w (a +! i) ;; y <- loadv_al w (b +! i) ;;
    storev_al (a +! i) (map2 fadd x (map (fun y => fmul alpha y) y)) in
  three_loops n (vec 16) (vec 8)
    (fun i => x <- load (a +! i) ;; y <- load (b +! i) ;; store (a +! i) (fadd x (fmul alpha y))).

(** src/matrix_operations.c:347-382 vector_saxpby: a = beta*a + alpha*b.
    The vector lanes multiply as a*beta, the scalar tail as beta*a. *)
Definition vector_saxpby (n : nat) (a : ptr) (alpha : F) (b : ptr) (beta : F) : M unit :=
  let vec w i :=
    x <- loadv_al w (a +! i) ;; y <- loadv_al w (b +! i) ;;
    storev_al (a +! i) (map2 fadd (map (fun x => fmul x beta) x) (map (fun y => fmul alpha y) y)) in
  three_loops n (vec 16) (vec 8)
    (fun i => x <- load (a +! i) ;; y <- load (b +! i) ;;
              store (a +! i) (fadd (fmul beta x) (fmul alpha y))).

(** src/matrix_operations.c:391-416 vector_square_elements: y = x*x *)
Definition vector_square_elements (n : nat) (y x : ptr) : M unit :=
  let vec w i :=
    v <- loadv_al w (x +! i) ;; storev_al (y +! i) (map (fun v => fmul v v) v) in
  three_loops n (vec 16) (vec 8)
    (fun i => v <- load (x +! i) ;; store (y +! i) (fmul v v)).

(** src/matrix_operations.c:113-187 vector_matrix_multiply, first part (lines 125-141):
    copy the bias *)
Definition vmm_copy_bias (m : nat) (bias y : ptr) : M unit :=
  let vec w i := b <- loadv_al w (bias +! i) ;; storev_al (y +! i) b in
  three_loops m (vec 16) (vec 8) (fun i => b <- load (bias +! i) ;; store (y +! i) b).

(** lines 148-159: the input is exactly 1.0f: add the row of weights *)
Definition vmm_row_one (m : nat) (wrow y : ptr) : M unit :=
  let vec w j :=
    v <- loadv_al w (y +! j) ;; ws <- loadv w (wrow +! j) ;; storev_al (y +! j) (map2 fadd v ws) in
  three_loops m (vec 16) (vec 8)
    (fun j => v <- load (y +! j) ;; ws <- load (wrow +! j) ;; store (y +! j) (fadd v ws)).

(** lines 160-183: general input value; loops with strict test *)
Definition vmm_row_general (m : nat) (inp : F) (wrow y : ptr) : M unit :=
  let vec w j :=
    if cfg_fma c then
      ws <- loadv w (wrow +! j) ;; v <- loadv_al w (y +! j) ;;
      storev_al (y +! j) (map2 (fun ws v => ffma ws inp v) ws v)
    else
      v <- loadv_al w (y +! j) ;; ws <- loadv w (wrow +! j) ;;
      storev_al (y +! j) (map2 fadd v (map (fun ws => fmul ws inp) ws)) in
  three_loops_strict m (vec 16) (vec 8)
    (fun j => v <- load (y +! j) ;; ws <- load (wrow +! j) ;; store (y +! j) (fadd v (fmul inp ws))).

(** src/matrix_operations.c:113-187 vector_matrix_multiply: y = bias + input * weight *)
Definition vector_matrix_multiply (n m : nat) (weight bias input y : ptr) : M unit :=
  vmm_copy_bias m bias y ;;;
  loop1 n 0 (fun i =>
    inp <- load (input +! i) ;;
    if ftrue inp then
      if feq inp f1 then vmm_row_one m (weight +! (i * m)) y
      else vmm_row_general m inp (weight +! (i * m)) y
    else ret tt).

(** src/matrix_operations.c:76-108 vector_vector_outer: rows with x[i] == 0 are not written *)
Definition vector_vector_outer (n_rows n_cols : nat) (x y matrix : ptr) : M unit :=
  loop1 n_rows 0 (fun i =>
    a <- load (x +! i) ;;
    if ftrue a then
      let row := matrix +! (i * n_cols) in
      let vec w j := v <- loadv w (y +! j) ;; storev (row +! j) (map (fun v => fmul a v) v) in
      three_loops n_cols (vec 16) (vec 8)
        (fun j => v <- load (y +! j) ;; store (row +! j) (fmul a v))
    else ret tt).

(** src/matrix_operations.c:19-26 horizontalsum_avx: hadd(x,x), add the swapped halves, hadd *)
Definition horizontalsum_avx (x : list F) : F :=
  match x with
  | [x0; x1; x2; x3; x4; x5; x6; x7] =>
      fadd (fadd (fadd x0 x1) (fadd x4 x5)) (fadd (fadd x2 x3) (fadd x6 x7))
  | _ => f0
  end.

(** _mm512_reduce_add_ps as expanded by GCC (avx512fintrin.h): add the 256 bit halves, then the
    128 bit halves, then lanes {2,3,0,1}, then the two lowest lanes.  The order is compiler defined. *)
Definition reduce_add_512 (x : list F) : F :=
  let t3 := map2 fadd (slice 8 8 x) (slice 0 8 x) in
  let t6 := map2 fadd (slice 4 4 t3) (slice 0 4 t3) in
  match t6 with
  | [a; b; c; d] => fadd (fadd a c) (fadd b d)
  | _ => f0
  end.

(** lane of [sum + v*m] resp. fmadd, lines 51-55, 62-66 *)
Definition mvm_lane (s v w : F) : F :=
  if cfg_fma c then ffma v w s else fadd s (fmul v w).

Fixpoint map3 {A B C D} (f : A -> B -> C -> D) (l1 : list A) (l2 : list B) (l3 : list C) : list D :=
  match l1, l2, l3 with
  | a :: r1, b :: r2, c :: r3 => f a b c :: map3 f r1 r2 r3
  | _, _, _ => []
  end.

(** src/matrix_operations.c:32-74 matrix_vector_multiply.  m_ptr runs through the whole matrix: at
    column j of row i it is matrix + i*n_cols + j. *)
Definition mvm_row (n_cols : nat) (row v y_i : ptr) : M unit :=
  let vec w j (s : list F) :=
    vs <- loadv w (v +! j) ;; ms <- loadv_al w (row +! j) ;; ret (map3 mvm_lane s vs ms) in
  j <- when (has_avx512 c)
         (let_pair (j, sums) <- for_loop_acc (S n_cols) (fun j => j + 16 <=? n_cols) 16 0 (repeat f0 16) (vec 16) ;;
          store y_i (reduce_add_512 sums) ;;; ret j) 0 ;;
  j <- when (has_avx c)
         (let_pair (j, sum) <- for_loop_acc (S n_cols) (fun j => j + 8 <=? n_cols) 8 j (repeat f0 8) (vec 8) ;;
          y <- load y_i ;;
          store y_i (fadd y (horizontalsum_avx sum)) ;;; ret j) j ;;
  loop1 n_cols j (fun j =>
    y <- load y_i ;; vs <- load (v +! j) ;; ms <- load (row +! j) ;; store y_i (fadd y (fmul vs ms))).

Definition matrix_vector_multiply (n_rows n_cols : nat) (matrix v y : ptr) : M unit :=
  loop1 n_rows 0 (fun i => mvm_row n_cols (matrix +! (i * n_cols)) v (y +! i)).

End Kernels.
