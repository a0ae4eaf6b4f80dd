(** Prop_Kernels.v -- C10: vector kernels of src/matrix_operations.c

    In each theorem [c] is any build (SSE, AVX, AVX2, AVX-512, with or without FMA) and the floats
    are any type with the operations of Ops.v.  The result does not mention [c]: all builds give
    bit-identical results.  [kal c n m p]: p is aligned for the registers that are used for n floats. *)
From Coq Require Import List Arith ZArith Bool Lia.
From Verif Require Import Base BaseProofs Ops OpsB32 Mem MemProofs SpecMem Kernels KernelProofs Ex_Mem.
Import ListNotations.

Section Statements.
Context {FO : fops}.

(** a = a + b *)
Theorem vector_accumulate_spec (c : cfg) (m : mem) (a b : ptr) (xs ys : list F) :
  holds m a xs -> holds m b ys -> length ys = length xs ->
  disjoint a (length xs) b (length xs) -> kal c (length xs) m a -> kal c (length xs) m b ->
  writes_only (vector_accumulate c (length xs) a b) m a (map2 fadd xs ys).
Proof.
  intros H1 H2 L D K1 K2. apply writes_only_intro; [|apply vector_accumulate_ok; auto].
  rewrite length_map2, L, Nat.min_id. apply holds_valid; auto.
Qed.

(** a = a + b, no alignment needed *)
Theorem vector_accumulate_unaligned_spec (c : cfg) (m : mem) (a b : ptr) (xs ys : list F) :
  holds m a xs -> holds m b ys -> length ys = length xs -> disjoint a (length xs) b (length xs) ->
  writes_only (vector_accumulate_unaligned c (length xs) a b) m a (map2 fadd xs ys).
Proof.
  intros H1 H2 L D. apply writes_only_intro; [|apply vector_accumulate_unaligned_ok; auto].
  rewrite length_map2, L, Nat.min_id. apply holds_valid; auto.
Qed.

(** v = v * s *)
Theorem vector_scale_spec (c : cfg) (m : mem) (v : ptr) (s : F) (xs : list F) :
  holds m v xs -> kal c (length xs) m v ->
  writes_only (vector_scale c (length xs) v s) m v (map (fun x => fmul x s) xs).
Proof.
  intros H K. apply writes_only_intro; [|apply vector_scale_ok; auto].
  rewrite map_length. apply holds_valid; auto.
Qed.

(** v = v / s *)
Theorem vector_divide_by_scalar_spec (c : cfg) (m : mem) (v : ptr) (s : F) (xs : list F) :
  holds m v xs -> kal c (length xs) m v ->
  writes_only (vector_divide_by_scalar c (length xs) v s) m v (map (fun x => fdiv x s) xs).
Proof.
  intros H K. apply writes_only_intro; [|apply vector_divide_by_scalar_ok; auto].
  rewrite map_length. apply holds_valid; auto.
Qed.

(** a = a + alpha*b *)
Theorem vector_saxpy_spec (c : cfg) (m : mem) (a b : ptr) (alpha : F) (xs ys : list F) :
  holds m a xs -> holds m b ys -> length ys = length xs ->
  disjoint a (length xs) b (length xs) -> kal c (length xs) m a -> kal c (length xs) m b ->
  writes_only (vector_saxpy c (length xs) a alpha b) m a (map2 (fun x y => fadd x (fmul alpha y)) xs ys).
Proof.
  intros H1 H2 L D K1 K2. apply writes_only_intro; [|apply vector_saxpy_ok; auto].
  rewrite length_map2, L, Nat.min_id. apply holds_valid; auto.
Qed.

(** a = beta*a + alpha*b; the multiplication has to be commutative (it is: see [mulC_B32]) *)
Theorem vector_saxpby_spec (c : cfg) (m : mem) (a b : ptr) (alpha beta : F) (xs ys : list F) :
  (forall x y : F, fmul x y = fmul y x) ->
  holds m a xs -> holds m b ys -> length ys = length xs ->
  disjoint a (length xs) b (length xs) -> kal c (length xs) m a -> kal c (length xs) m b ->
  writes_only (vector_saxpby c (length xs) a alpha b beta) m a
    (map2 (fun x y => fadd (fmul beta x) (fmul alpha y)) xs ys).
Proof.
  intros HC H1 H2 L D K1 K2. apply writes_only_intro; [|apply vector_saxpby_ok; auto].
  rewrite length_map2, L, Nat.min_id. apply holds_valid; auto.
Qed.

(** y = x*x; y may be uninitialised *)
Theorem vector_square_elements_spec (c : cfg) (m : mem) (y x : ptr) (xs : list F) :
  valid m y (length xs) -> holds m x xs -> disjoint y (length xs) x (length xs) ->
  kal c (length xs) m y -> kal c (length xs) m x ->
  writes_only (vector_square_elements c (length xs) y x) m y (map (fun v => fmul v v) xs).
Proof.
  intros H1 H2 D K1 K2. apply writes_only_intro; [|apply vector_square_elements_ok; auto].
  rewrite map_length. auto.
Qed.
End Statements.

Print Assumptions vector_accumulate_spec.
Print Assumptions vector_accumulate_unaligned_spec.
Print Assumptions vector_scale_spec.
Print Assumptions vector_divide_by_scalar_spec.
Print Assumptions vector_saxpy_spec.
Print Assumptions vector_saxpby_spec.
Print Assumptions vector_square_elements_spec.

(** A case that meets the hypotheses: two arrays of 27 = 16 + 8 + 3 floats, AVX-512 build. *)
Definition ex_cfg : cfg := {| cfg_isa := AVX512; cfg_fma := true |}.
Definition ex_m : @mem opsZ := [blk_of 640 (count_up 30); blk_of 1280 (count_up 27)].
Example kernels_case :
  let a := mkptr 0 0 in let b := mkptr 1 0 in
  let xs := firstn 27 (count_up 30) in let ys := count_up 27 in
  (holds ex_m a xs /\ holds ex_m b ys /\ length ys = length xs /\ length xs = 27 /\
   disjoint a (length xs) b (length xs) /\ kal ex_cfg (length xs) ex_m a /\ kal ex_cfg (length xs) ex_m b) /\
  (forall x y : @F opsZ, fmul x y = fmul y x) /\
  (* and the model really computes on it *)
  is_ok (@vector_saxpby opsZ ex_cfg 27 a 2%Z b 3%Z ex_m) = true.
Proof.
  cbv zeta. split; [|split; [exact mulC_Z|vm_compute; reflexivity]].
  unfold kal. mem_tac.
Qed.
