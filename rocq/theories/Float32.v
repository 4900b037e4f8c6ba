(** IEEE 754 binary32, the C++ type [float] under SSE: round to nearest even,
    gradual underflow, no contraction into fused operations.  Built on Flocq's
    [binary_float 24 128].  Two simplifications: there is a single NaN, without
    sign and payload, and the libm and estimate instructions are oracles. *)
From Coq Require Import ZArith Reals Bool Lia Lra.
From Flocq Require Import Core BinarySingleNaN.
From Verif Require Import Scalar SSE.
Local Open Scope Z_scope.

Notation f32 := (binary_float 24 128).
#[global] Instance prec24 : FLX.Prec_gt_0 24 := eq_refl.
#[global] Instance prec24_lt : Prec_lt_emax 24 128 := eq_refl.

(** a float given by mantissa and exponent, rounded when it does not fit *)
Definition f32_of (m e : Z) : f32 := binary_normalize 24 128 _ _ mode_NE m e false.

#[global] Instance Arith_f32 : Arith f32 :=
  mkArith f32 (Bplus mode_NE) (Bminus mode_NE) (Bmult mode_NE) Bopp (fun z => f32_of z 0).

(** The machine: the two estimate instructions and the C library. *)
Record machine := mkmachine {
  m_rcp : f32 -> f32; m_rsqrt : f32 -> f32;
  m_sin : f32 -> f32; m_cos : f32 -> f32; m_asin : f32 -> f32; m_acos : f32 -> f32;
  m_atan2 : f32 -> f32 -> f32 }.

(** [std::abs(x) < 1e-6] converts x to double.  The double 1e-6 lies between two
    floats; 8796094 * 2^-43 is the upper one, so comparing with it decides the same. *)
Definition f1em6 : f32 := f32_of 8796094 (-43).
#[global] Instance Flo_f32 (M : machine) : Flo f32 :=
  mkFlo f32 Arith_f32 (Bdiv mode_NE) (Bsqrt mode_NE) (m_rcp M) (m_rsqrt M)
    (m_sin M) (m_cos M) (m_asin M) (m_acos M) (m_atan2 M) Babs Bsign Beqb Bltb
    (fun x => Bltb (Babs x) f1em6)
    (f32_of 1 (-1)) (Bdiv mode_NE (f32_of 4999 0) (f32_of 10000 0)) (f32_of 13176795 (-23)).
