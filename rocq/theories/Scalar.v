(** Scalar vocabulary of the model.

    Every kernel of the library is transcribed once, over an abstract carrier
    [F] for the C++ type [float] together with the operations the code applies
    to it.  [Arith] covers what the polynomial kernels use; [Flo] adds
    division, the hardware estimates, comparisons and libm.

    Instances in this file: [Z] (executable, used to replay the repository's
    own test vectors) and [R] (exact arithmetic).  Binary32 lives in
    [Float32.v], free syntax trees in [ExprSyntax.v]. *)
From Coq Require Import ZArith Reals Bool.

Class Arith (F : Type) := mkArith {
  fadd : F -> F -> F;
  fsub : F -> F -> F;
  fmul : F -> F -> F;
  (** flips the sign bit ([_mm_xor_ps] with [-0.f], unary minus) *)
  fopp : F -> F;
  (** integer literals and [static_cast<float>(int)]; [fz 0] is +0 *)
  fz   : Z -> F
}.

Class Flo (F : Type) := mkFlo {
  flo_arith :> Arith F;
  fdiv : F -> F -> F;
  fsqrt : F -> F;
  (** [_mm_rcp_ps] / [_mm_rsqrt_ps]: hardware estimates, lane-wise *)
  frcp : F -> F;
  frsqrt : F -> F;
  fsin : F -> F;
  fcos : F -> F;
  fasin : F -> F;
  facos : F -> F;
  fatan2 : F -> F -> F;
  (** clears the sign bit ([_mm_andnot_ps(-0.f, x)], [std::abs]) *)
  fabs : F -> F;
  (** the sign bit *)
  fsign : F -> bool;
  feqb : F -> F -> bool;
  fltb : F -> F -> bool;
  (** [std::abs(x) < 1e-6], compared as doubles in the source *)
  fabs_lt_1em6 : F -> bool;
  (** the literals 0.5f, 0.4999f and the constant kln::pi_2 *)
  fhalf : F;
  f04999 : F;
  fpi_2 : F
}.

(** Build switch: [KLEIN_SSE_4_1] defined or not. *)
Class Build := mkBuild { sse41 : bool }.
Definition SSE3  : Build := mkBuild false.
Definition SSE41 : Build := mkBuild true.

(** ** Integers *)
#[global] Instance Arith_Z : Arith Z :=
  mkArith Z Z.add Z.sub Z.mul Z.opp (fun z => z).

(** ** Reals *)
Local Open Scope R_scope.

#[global] Instance Arith_R : Arith R := mkArith R Rplus Rminus Rmult Ropp IZR.

Definition Rltb (x y : R) : bool := if Rlt_dec x y then true else false.
Definition Reqb (x y : R) : bool := if Req_EM_T x y then true else false.

(** [std::atan2], at the reals.  At (0,0) IEEE returns a multiple of pi that
    depends on the signs of the zeros; the value 0 chosen here is covered
    explicitly where it matters. *)
Definition Ratan2 (y x : R) : R :=
  if Rlt_dec 0 x then atan (y / x)
  else if Rlt_dec x 0 then
         if Rle_dec 0 y then atan (y / x) + PI else atan (y / x) - PI
       else if Rlt_dec 0 y then PI / 2
            else if Rlt_dec y 0 then - (PI / 2) else 0.

(** Exact real arithmetic.  The two hardware estimates stay parameters; so
    does the sign bit of a zero ([sz]): a real 0 may carry either sign. *)
Definition Flo_R (rcp rsqrt : R -> R) (sz : bool) : Flo R :=
  mkFlo R Arith_R Rdiv sqrt rcp rsqrt sin cos asin acos Ratan2 Rabs
    (fun x => if Rlt_dec x 0 then true else if Req_EM_T x 0 then sz else false)
    Reqb Rltb (fun x => Rltb (Rabs x) (1 / 1000000))
    (1 / 2) (4999 / 10000) (PI / 2).

(** Ideal hardware: the estimates are exact wherever they are defined. *)
Definition exact_rcp (rcp : R -> R) : Prop := forall x, x <> 0 -> rcp x = / x.
Definition exact_rsqrt (rsqrt : R -> R) : Prop :=
  forall x, 0 < x -> rsqrt x = / sqrt x.

(** Hardware estimates of relative error at most [e]. *)
Definition approx_rcp (e : R) (rcp : R -> R) : Prop :=
  forall x, x <> 0 -> Rabs (x * rcp x - 1) <= e.
Definition approx_rsqrt (e : R) (rsqrt : R -> R) : Prop :=
  forall x, 0 < x -> Rabs (sqrt x * rsqrt x - 1) <= e.

(** The bound Intel documents for rcpps and rsqrtps. *)
Definition intel_bound : R := 3 / 8192.
