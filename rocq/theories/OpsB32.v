(** OpsB32.v -- the float operations as IEEE-754 binary32 (Flocq, one NaN, round to nearest even).

    The operations are those of the C type float (fdivd: of double, with conversions) on x86-64 (FLT_EVAL_METHOD = 0) in the default
    rounding mode and without -ffast-math.  NaN payloads are not modelled.  The libm functions
    expf, logf, tanhf are parameters. *)
From Coq Require Import ZArith Bool List Reals.
From Flocq Require Import Core BinarySingleNaN.
From Verif Require Import Ops.
Local Open Scope Z_scope.

Definition b32 := binary_float 24 128.
Lemma prec_gt_0_32 : FLX.Prec_gt_0 24. Proof. reflexivity. Qed.
Lemma prec_lt_emax_32 : Prec_lt_emax 24 128. Proof. reflexivity. Qed.
#[global] Existing Instance prec_gt_0_32.
#[global] Existing Instance prec_lt_emax_32.

Definition b32_zero : b32 := B754_zero false.
Definition b32_inf : b32 := B754_infinity false.
Definition b32_nan : b32 := B754_nan.
(** m * 2^e, rounded *)
Definition b32_of (m e : Z) : b32 := binary_normalize 24 128 prec_gt_0_32 prec_lt_emax_32 mode_NE m e false.
Definition b32_ofZ (z : Z) : b32 := b32_of z 0.
(** num/den rounded once: 80 more bits and a sticky bit (enough for |num/den| > 2^-50) *)
Definition b32_lit (num den : Z) : b32 :=
  let a := Z.abs num * 2 ^ 80 in
  let q := 2 * (a / den) + (if a mod den =? 0 then 0 else 1) in
  b32_of (if num <? 0 then - q else q) (-81).

Definition b32_max (a b : b32) : b32 :=
  if is_nan a then b else if is_nan b then a else if Bltb a b then b else a.
Definition b32_min (a b : b32) : b32 :=
  if is_nan a then b else if is_nan b then a else if Bltb b a then b else a.

(** IEEE-754 binary64, the C type double; the conversions between the two types *)
Definition b64 := binary_float 53 1024.
Lemma prec_gt_0_64 : FLX.Prec_gt_0 53. Proof. reflexivity. Qed.
Lemma prec_lt_emax_64 : Prec_lt_emax 53 1024. Proof. reflexivity. Qed.
#[global] Existing Instance prec_gt_0_64.
#[global] Existing Instance prec_lt_emax_64.
Definition to_b64 (x : b32) : b64 :=
  match x with
  | B754_zero s => B754_zero s
  | B754_infinity s => B754_infinity s
  | B754_nan => B754_nan
  | B754_finite s m e _ => binary_normalize 53 1024 prec_gt_0_64 prec_lt_emax_64 mode_NE (cond_Zopp s (Zpos m)) e s
  end.
Definition of_b64 (x : b64) : b32 :=
  match x with
  | B754_zero s => B754_zero s
  | B754_infinity s => B754_infinity s
  | B754_nan => B754_nan
  | B754_finite s m e _ => binary_normalize 24 128 prec_gt_0_32 prec_lt_emax_32 mode_NE (cond_Zopp s (Zpos m)) e s
  end.
(** a / (b * c) in double, then rounded to float *)
Definition b32_divd (a b c : b32) : b32 := of_b64 (Bdiv mode_NE (to_b64 a) (Bmult mode_NE (to_b64 b) (to_b64 c))).

(** the conversion _mm256_cvttps_epi32, lane: truncation, 0x80000000 if out of range or NaN *)
Definition cvttps (x : b32) : Z :=
  match x with
  | B754_finite _ _ _ _ => let z := Btrunc x in if (-2147483648 <=? z) && (z <? 2147483648) then z else -2147483648
  | B754_zero _ => 0
  | _ => -2147483648
  end.
(** reinterpretation of ((i + 127) << 23) mod 2^32 as a float: the significand bits are 0 *)
Definition b32_pow2i (x : b32) : b32 :=
  let u := (cvttps x + 127) mod 512 in
  let s := 256 <=? u in
  let e := u mod 256 in
  if e =? 0 then B754_zero s
  else if e =? 255 then B754_infinity s
  else if s then b32_of (-1) (e - 127) else b32_of 1 (e - 127).

Record libm := { lm_exp : b32 -> b32; lm_log : b32 -> b32; lm_tanh : b32 -> b32 }.

Definition opsB32 (lm : libm) : fops := {|
  F := b32; f0 := b32_zero; f1 := b32_ofZ 1;
  fadd := Bplus mode_NE; fsub := Bminus mode_NE; fmul := Bmult mode_NE; fdiv := Bdiv mode_NE; fdivd := b32_divd;
  fneg := Bopp; fabs := Babs; fsqrt := Bsqrt mode_NE;
  flt := Bltb; fle := Bleb; feq := Beqb;
  fmaxf := b32_max; fminf := b32_min;
  ffma := Bfma mode_NE;
  fexp := lm_exp lm; flog := lm_log lm; ftanh := lm_tanh lm;
  fround := Bnearbyint mode_NA; ffloor := Bnearbyint mode_DN;
  fpow2i := b32_pow2i;
  flit := b32_lit; fofZ := b32_ofZ
|}.

Lemma b32_mulC : forall a b : b32, Bmult mode_NE a b = Bmult mode_NE b a.
Proof.
  intros a b. apply B2SF_inj. destruct a as [sa|sa| |sa ma ea Ha], b as [sb|sb| |sb mb eb Hb];
    cbn [Bmult B2SF]; try reflexivity; try (rewrite xorb_comm; reflexivity).
  rewrite !B2SF_SF2B. rewrite (xorb_comm sa sb), (Pos.mul_comm ma mb), (Z.add_comm ea eb). reflexivity.
Qed.
Lemma mulC_B32 lm : forall a b : @F (opsB32 lm), fmul a b = fmul b a.
Proof. exact b32_mulC. Qed.

