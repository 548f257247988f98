(** Go's float64, as Flocq's IEEE-754 [binary64] (NaN payloads included).

    Go specification: float64 is IEEE-754 64-bit; each operation rounds to
    nearest, ties to even.  Fused multiply-add (which Go permits on some
    architectures) is not modelled: this is Go on amd64 with GOAMD64=v1.
    NaN payload propagation of arithmetic operations follows Flocq's default
    choice; no theorem depends on it. *)
From Coq Require Import ZArith Reals.
From Flocq Require Import Core IEEE754.BinarySingleNaN IEEE754.Binary IEEE754.Bits.
From Verif.Model Require Import GoInt.
Open Scope Z_scope.

Definition f64 : Set := binary64.

Definition fadd (x y : f64) : f64 := b64_plus mode_NE x y.
Definition fsub (x y : f64) : f64 := b64_minus mode_NE x y.
Definition fmul (x y : f64) : f64 := b64_mult mode_NE x y.
Definition fdiv (x y : f64) : f64 := b64_div mode_NE x y.
Definition fsqrt (x : f64) : f64 := b64_sqrt mode_NE x.   (* math.Sqrt *)
Definition fneg (x : f64) : f64 := b64_opp x.

(** Comparisons: false whenever an operand is NaN. *)
Definition flt (x y : f64) : bool :=
  match b64_compare x y with Some Lt => true | _ => false end.
Definition fle (x y : f64) : bool :=
  match b64_compare x y with Some Lt | Some Eq => true | _ => false end.
Definition feq (x y : f64) : bool :=
  match b64_compare x y with Some Eq => true | _ => false end.
Definition fge (x y : f64) : bool := fle y x.

Definition fis_nan (x : f64) : bool := Binary.is_nan 53 1024 x.
Definition fis_finite (x : f64) : bool := Binary.is_finite 53 1024 x.

(** The real number denoted by a finite float64 (0 for NaN and infinities). *)
Definition f2r (x : f64) : R := Binary.B2R 53 1024 x.

Definition f64_prec_gt_0 : Prec_gt_0 53 := eq_refl.
Definition f64_prec_lt_emax : Prec_lt_emax 53 1024 := eq_refl.

(** float64(i) for an integer i: rounds to nearest even. *)
Definition f_of_int (z : Z) : f64 :=
  Binary.binary_normalize 53 1024 f64_prec_gt_0 f64_prec_lt_emax mode_NE z 0 false.

(** The float64 nearest to m * 2^e. *)
Definition f_of_scaled (m e : Z) : f64 :=
  Binary.binary_normalize 53 1024 f64_prec_gt_0 f64_prec_lt_emax mode_NE m e false.

Definition f_zero : f64 := Binary.B754_zero 53 1024 false.
Definition f_inf (s : bool) : f64 := Binary.B754_infinity 53 1024 s.
Definition f_nan : f64 := proj1_sig default_nan_pl64.

(** math.Floor. *)
Definition ffloor (x : f64) : f64 :=
  Binary.Bnearbyint 53 1024 f64_prec_lt_emax unop_nan_pl64 mode_DN x.

(** int(x) for a float64 x: truncation toward zero.  For NaN, infinities and
    values out of range the Go specification leaves the result
    implementation-defined; this is the amd64 CVTTSD2SQ result (the minimum
    int64). *)
Definition int_of_f (x : f64) : Z :=
  if fis_finite x then
    let t := Binary.Btrunc 53 1024 x in
    if ((min_int64 <=? t) && (t <=? max_int64))%bool then t else min_int64
  else min_int64.

(** math.Float64bits and math.Float64frombits. *)
Definition float64bits (x : f64) : Z := bits_of_b64 x.
Definition float64frombits (b : Z) : f64 := b64_of_bits b.
