(** IEEE 754 binary32 and binary64 arithmetic as Rust's [f32] and [f64] use it.

    Values are Flocq's [binary_float] (one NaN: Rust code in d10 never looks
    at NaN payloads).  All arithmetic rounds to nearest, ties to even. *)
From Coq Require Import ZArith List Bool Reals.
From Flocq Require Import Core.Zaux IEEE754.BinarySingleNaN.
Import ListNotations.
Open Scope Z_scope.

Definition f32 := binary_float 24 128.
Definition f64 := binary_float 53 1024.

Definition p24 : FLX.Prec_gt_0 24 := eq_refl.
Definition e128 : Prec_lt_emax 24 128 := eq_refl.
Definition p53 : FLX.Prec_gt_0 53 := eq_refl.
Definition e1024 : Prec_lt_emax 53 1024 := eq_refl.

(** [z as f32] for an integer [z], and the value [z * 2^e]. *)
Definition lit (z e : Z) : f32 := binary_normalize 24 128 p24 e128 mode_NE z e false.
Definition ofZ (z : Z) : f32 := lit z 0.
Definition ofZ64 (z : Z) : f64 := binary_normalize 53 1024 p53 e1024 mode_NE z 0 false.

(** The decimal literal [n / d], rounded to nearest.  The quotient is taken
    with 80 fractional bits and a sticky bit, which rounds like the exact
    value for every literal in the sources. *)
Definition sticky (n d : Z) : Z :=
  let t := n * 2 ^ 80 in 2 * (t / d) + (if t mod d =? 0 then 0 else 1).
Definition dec (n d : Z) : f32 :=
  if n <? 0 then Bopp (lit (sticky (- n) d) (-81)) else lit (sticky n d) (-81).
Definition dec64 (n d : Z) : f64 :=
  binary_normalize 53 1024 p53 e1024 mode_NE (sticky n d) (-81) false.

Definition f0 : f32 := B754_zero false.
Definition f1 : f32 := ofZ 1.
Definition f2 : f32 := ofZ 2.
Definition fnan : f32 := B754_nan.

(** [+], [-], [*], [/], unary [-], [abs], [sqrt] *)
Definition fadd : f32 -> f32 -> f32 := @Bplus 24 128 p24 e128 mode_NE.
Definition fsub : f32 -> f32 -> f32 := @Bminus 24 128 p24 e128 mode_NE.
Definition fmul : f32 -> f32 -> f32 := @Bmult 24 128 p24 e128 mode_NE.
Definition fdiv : f32 -> f32 -> f32 := @Bdiv 24 128 p24 e128 mode_NE.
Definition fneg : f32 -> f32 := Bopp.
Definition fabs : f32 -> f32 := Babs.
Definition fsqrt : f32 -> f32 := @Bsqrt 24 128 p24 e128 mode_NE.

Definition dadd : f64 -> f64 -> f64 := @Bplus 53 1024 p53 e1024 mode_NE.
Definition dsub : f64 -> f64 -> f64 := @Bminus 53 1024 p53 e1024 mode_NE.
Definition dmul : f64 -> f64 -> f64 := @Bmult 53 1024 p53 e1024 mode_NE.
Definition ddiv : f64 -> f64 -> f64 := @Bdiv 53 1024 p53 e1024 mode_NE.
Definition dabs : f64 -> f64 := Babs.

(** [==], [<], [<=]; [a > b] is [flt b a], [a >= b] is [fle b a].  All are
    false when an operand is NaN. *)
Definition feq (a b : f32) : bool := Beqb a b.
Definition flt (a b : f32) : bool := Bltb a b.
Definition fle (a b : f32) : bool := Bleb a b.
Definition dlt (a b : f64) : bool := Bltb a b.

(** [f32::min] and [f32::max]: a NaN operand is ignored.  For operands that
    compare equal (only [0.0] and [-0.0] differ then) Rust allows either. *)
Definition fmin (a b : f32) : f32 :=
  if is_nan a then b else if is_nan b then a else if flt b a then b else a.
Definition fmax (a b : f32) : f32 :=
  if is_nan a then b else if is_nan b then a else if flt a b then b else a.

(** [f32::clamp(lo, hi)] for constants [lo <= hi]: NaN stays NaN. *)
Definition fclamp (v lo hi : f32) : f32 :=
  if flt v lo then lo else if flt hi v then hi else v.

(** [floor], [ceil], [round] (half away from zero). *)
Definition fnearbyint (m : mode) : f32 -> f32 := @Bnearbyint 24 128 e128 m.
Definition ffloor (v : f32) : f32 := fnearbyint mode_DN v.
Definition fceil (v : f32) : f32 := fnearbyint mode_UP v.
Definition fround (v : f32) : f32 := fnearbyint mode_NA v.

(** Casts [v as uN] and [v as iN]: truncation, saturation, NaN becomes 0. *)
Definition fcast (lo hi : Z) (v : f32) : Z :=
  match v with
  | B754_nan => 0
  | B754_infinity s => if s then lo else hi
  | _ => Z.max lo (Z.min hi (Btrunc v))
  end.
Definition as_u8 (v : f32) : Z := fcast 0 255 v.
Definition as_u16 (v : f32) : Z := fcast 0 65535 v.
Definition f_as_u32 (v : f32) : Z := fcast 0 4294967295 v.
Definition f_as_i32 (v : f32) : Z := fcast (-2147483648) 2147483647 v.
(** [v as usize] on a 64 bit target *)
Definition f_as_usize (v : f32) : Z := fcast 0 18446744073709551615 v.

(** [v as f64] and [v as f32] *)
Definition f32_to_f64 (v : f32) : f64 :=
  match v with
  | B754_nan => B754_nan
  | B754_infinity s => B754_infinity s
  | B754_zero s => B754_zero s
  | B754_finite s m e _ => binary_normalize 53 1024 p53 e1024 mode_NE (cond_Zopp s (Zpos m)) e s
  end.
Definition f64_to_f32 (v : f64) : f32 :=
  match v with
  | B754_nan => B754_nan
  | B754_infinity s => B754_infinity s
  | B754_zero s => B754_zero s
  | B754_finite s m e _ => binary_normalize 24 128 p24 e128 mode_NE (cond_Zopp s (Zpos m)) e s
  end.

(** [std::f32::consts::PI], [f32::EPSILON], [f32::MAX] *)
Definition fPI : f32 := lit 13176795 (-22).
Definition f32_EPSILON : f32 := lit 1 (-23).
Definition f32_MAX : f32 := lit 16777215 104.

(** The mathematical library.  Rust leaves the precision of these functions
    to the platform, so the model takes them as a parameter and theorems are
    for every library (or name what they assume about it). *)
Record libm := mkLibm {
  powf : f32 -> f32 -> f32;
  fsin : f32 -> f32;
  fcos : f32 -> f32;
  fexp_ : f32 -> f32;
  ftanh : f32 -> f32;
  fatan2 : f32 -> f32 -> f32;
  dtanh : f64 -> f64
}.
