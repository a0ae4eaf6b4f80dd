(** Ops.v -- the floating point operations used by the C code, as a record.

    The model is generic in this record.  Instances: OpsR.v (real numbers),
    OpsB32.v (IEEE-754 binary32). *)
From Coq Require Import ZArith List Bool.
Import ListNotations.
Set Implicit Arguments.

Class fops : Type := {
  F : Type;
  f0 : F;                     (* 0.0f *)
  f1 : F;                     (* 1.0f *)
  fadd : F -> F -> F;         (* +   , _mm256_add_ps *)
  fsub : F -> F -> F;         (* -   , _mm256_sub_ps *)
  fmul : F -> F -> F;         (* *   , _mm256_mul_ps *)
  fdiv : F -> F -> F;         (* /   , _mm256_div_ps *)
  fdivd : F -> F -> F -> F;   (* (float) (a / (b * c)) where b is a double: both operations in double *)
  fneg : F -> F;              (* unary minus *)
  fabs : F -> F;              (* fabsf *)
  fsqrt : F -> F;             (* sqrtf, _mm256_sqrt_ps *)
  flt : F -> F -> bool;       (* C operator <  : false if an operand is NaN *)
  fle : F -> F -> bool;       (* C operator <= : false if an operand is NaN, _CMP_LE_OS *)
  feq : F -> F -> bool;       (* C operator == : false if an operand is NaN, +0 == -0 *)
  fmaxf : F -> F -> F;        (* fmaxf: ignores a NaN operand *)
  fminf : F -> F -> F;        (* fminf: ignores a NaN operand *)
  ffma : F -> F -> F -> F;    (* fused a*b+c, _mm256_fmadd_ps *)
  fexp : F -> F;              (* expf (libm) *)
  flog : F -> F;              (* logf (libm) *)
  ftanh : F -> F;             (* tanhf (libm) *)
  fround : F -> F;            (* roundf: nearest integer, halves away from zero *)
  ffloor : F -> F;            (* _mm256_floor_ps *)
  fpow2i : F -> F;            (* lane of castsi256(slli(cvttps_epi32(x) + 0x7f, 23)): 2^x for
                                 integral x in [-126,127] *)
  flit : Z -> Z -> F;         (* decimal literal num/den, correctly rounded *)
  fofZ : Z -> F;              (* conversion from an integer type, (float) n *)
}.

Section Derived.
Context {FO : fops}.

(** C [>] and [>=] in terms of [<] and [<=] *)
Definition fgt (a b : F) : bool := flt b a.
Definition fge (a b : F) : bool := fle b a.
(** truth value of a float in [if( a )] : a != 0 (NaN is true) *)
Definition ftrue (a : F) : bool := negb (feq a f0).

(** lane of _mm256_max_ps(a,b): a > b ? a : b  (second operand on NaN and on equal zeros) *)
Definition vmax (a b : F) : F := if fgt a b then a else b.
(** lane of _mm256_min_ps(a,b): a < b ? a : b *)
Definition vmin (a b : F) : F := if flt a b then a else b.
End Derived.

(** ** Build configuration: which of the macros __AVX__, __AVX2__, __AVX512F__, __FMA__ are
    defined.  SSE is always defined on x86-64; __AVX512F__ implies __AVX2__ implies __AVX__. *)
Inductive isa : Set := SSE | AVX | AVX2 | AVX512.
Record cfg : Set := { cfg_isa : isa; cfg_fma : bool }.

Definition has_avx (c : cfg) : bool := match cfg_isa c with SSE => false | _ => true end.
Definition has_avx2 (c : cfg) : bool := match cfg_isa c with SSE | AVX => false | _ => true end.
Definition has_avx512 (c : cfg) : bool := match cfg_isa c with AVX512 => true | _ => false end.

(** src/simd.h:20-26 ALIGN_SIZE *)
Definition align_size (c : cfg) : Z :=
  match cfg_isa c with AVX512 => 64 | AVX | AVX2 => 32 | SSE => 16 end.
(** src/simd.h:28 floats_per_simd_register = ALIGN_SIZE >> 2 *)
Definition fps (c : cfg) : nat :=
  match cfg_isa c with AVX512 => 16 | AVX | AVX2 => 8 | SSE => 4 end.
