(** Exterior- and inner-product kernels.
    Model of /repo/public/klein/detail/x86/x86_exterior_product.hpp and
    /repo/public/klein/detail/x86/x86_inner_product.hpp; conventions as in
    [KernelGP.v]. *)
From Coq Require Import ZArith.
From Verif Require Import Scalar SSE.

Section EI.
Context {F : Type} {A : Arith F} {B : Build}.

(** x86_exterior_product.hpp 16-42 *)
Definition ext00 (a b : m128 F) : m128 F * m128 F :=
  let p1_out := (_mm_mul_ps a (KLN_SWIZZLE b 1 3 2 0)) in
  let p1_out := (KLN_SWIZZLE (_mm_sub_ps p1_out (_mm_mul_ps (KLN_SWIZZLE a 1 3 2 0) b)) 1 3 2
      0) in
  let p2_out := (_mm_mul_ps (KLN_SWIZZLE a 0 0 0 0) b) in
  let p2_out := (_mm_sub_ps p2_out (_mm_mul_ps a (KLN_SWIZZLE b 0 0 0 0))) in
  (p1_out, p2_out).

(** x86_exterior_product.hpp 45-55 *)
Definition extPB (a b : m128 F) : m128 F :=
  let p3_out := (_mm_mul_ps (_mm_mul_ps (KLN_SWIZZLE a 0 0 0 1) b) (_mm_set_ps (fz (-1)) (fz
      (-1)) (fz (-1)) (fz 0))) in
  let p3_out := (_mm_add_ss p3_out (hi_dp a b)) in
  p3_out.

(** x86_exterior_product.hpp 58-71 *)
Definition ext02 (a b : m128 F) : m128 F :=
  let p3_out := (_mm_mul_ps a (KLN_SWIZZLE b 1 3 2 0)) in
  let p3_out := (KLN_SWIZZLE (_mm_sub_ps p3_out (_mm_mul_ps (KLN_SWIZZLE a 1 3 2 0) b)) 1 3 2
      0) in
  p3_out.

(** x86_exterior_product.hpp 73-78, primary template (Flip = false) *)
Definition ext03_false (a b : m128 F) : m128 F :=
  let p2 := (dp a b) in
  p2.

(** x86_exterior_product.hpp 81-86, specialisation Flip = true *)
Definition ext03_true (a b : m128 F) : m128 F :=
  let p2 := ext03_false a b in
  let p2 := (_mm_xor_ps sgn_ss p2) in
  p2.

Definition ext03 (Flip : bool) := if Flip then ext03_true else ext03_false.

(** x86_inner_product.hpp 16-20 *)
Definition dot00 (a b : m128 F) : m128 F :=
  let p1_out := (hi_dp a b) in
  p1_out.

(** x86_inner_product.hpp 23-50 *)
Definition dot03 (a b : m128 F) : m128 F * m128 F :=
  let p1_out := (_mm_mul_ps a (KLN_SWIZZLE b 0 0 0 0)) in
  let p1_out :=
    if sse41 then
      let p1_out := (_mm_blend_ps p1_out _mm_setzero_ps 1) in
      p1_out
    else
      let p1_out := (_mm_and_ps p1_out (lanes_epi32 true true true false)) in
      p1_out in
  let p2_out := (KLN_SWIZZLE (_mm_sub_ps (_mm_mul_ps (KLN_SWIZZLE a 1 3 2 0) b) (_mm_mul_ps a
      (KLN_SWIZZLE b 1 3 2 0))) 1 3 2 0) in
  (p1_out, p2_out).

(** x86_inner_product.hpp 52-55 *)
Definition dot11 (a b : m128 F) : m128 F :=
  let p1_out := (_mm_xor_ps sgn_ss (hi_dp_ss a b)) in
  p1_out.

(** x86_inner_product.hpp 57-61 *)
Definition dot33 (a b : m128 F) : m128 F :=
  let p1_out := (_mm_mul_ps (_mm_set_ss (fz (-1))) (_mm_mul_ss a b)) in
  p1_out.

(** x86_inner_product.hpp 64-79.  The local [dp] shadows the helper of that name, as in the source. *)
Definition dotPTL (a b : m128 F) : m128 F :=
  let dp := hi_dp_ss a b in
  let p0 := (_mm_mul_ps (KLN_SWIZZLE a 0 0 0 0) b) in
  let p0 := (_mm_xor_ps (sgn_ps true true true false) p0) in
  let p0 :=
    if sse41 then
      let p0 := (_mm_blend_ps p0 dp 1) in
      p0
    else
      let p0 := (_mm_add_ss p0 dp) in
      p0 in
  p0.

(** x86_inner_product.hpp 82-86, primary template (Flip = true) *)
Definition dotPIL_true (a c : m128 F) : m128 F :=
  let p0 := (hi_dp a c) in
  p0.

(** x86_inner_product.hpp 88-93, specialisation Flip = false *)
Definition dotPIL_false (a c : m128 F) : m128 F :=
  let p0 := dotPIL_true a c in
  let p0 := (_mm_xor_ps sgn_ss p0) in
  p0.

Definition dotPIL (Flip : bool) := if Flip then dotPIL_true else dotPIL_false.

(** x86_inner_product.hpp 96-107, primary template (Flip = false) *)
Definition dotPL_false (a b c : m128 F) : m128 F :=
  let p0 := (_mm_mul_ps (KLN_SWIZZLE a 1 3 2 0) b) in
  let p0 := (_mm_sub_ps p0 (_mm_mul_ps a (KLN_SWIZZLE b 1 3 2 0))) in
  let p0 := (_mm_sub_ss (KLN_SWIZZLE p0 1 3 2 0) (hi_dp_ss a c)) in
  p0.

(** x86_inner_product.hpp 109-121, specialisation Flip = true *)
Definition dotPL_true (a b c : m128 F) : m128 F :=
  let p0 := (_mm_mul_ps a (KLN_SWIZZLE b 1 3 2 0)) in
  let p0 := (_mm_sub_ps p0 (_mm_mul_ps (KLN_SWIZZLE a 1 3 2 0) b)) in
  let p0 := (_mm_add_ss (KLN_SWIZZLE p0 1 3 2 0) (hi_dp_ss a c)) in
  p0.

Definition dotPL (Flip : bool) := if Flip then dotPL_true else dotPL_false.
End EI.
