(** Geometric-product kernels.
    Model of /repo/public/klein/detail/x86/x86_geometric_product.hpp.
    Each C++ statement is one [let]; out-parameters are returned as tuples in
    parameter order; registers reached through [*(&x + 1)] are extra
    parameters.  Partition layouts (lane 0 first):
      p0 (e0,e1,e2,e3)          p1 (1,e23,e31,e12)
      p2 (e0123,e01,e02,e03)    p3 (e123,e032,e013,e021) *)
From Coq Require Import ZArith.
From Verif Require Import Scalar SSE.

Section GP.
Context {F : Type} {A : Arith F} {B : Build}.

(** x86_geometric_product.hpp 27-60 *)
Definition gp00 (a b : m128 F) : m128 F * m128 F :=
  let p1_out := (_mm_mul_ps (KLN_SWIZZLE a 1 3 2 1) (KLN_SWIZZLE b 2 1 3 1)) in
  let p1_out := (_mm_sub_ps p1_out
      (_mm_xor_ps sgn_ss (_mm_mul_ps (KLN_SWIZZLE a 2 1 3 2) (KLN_SWIZZLE b 1 3 2 2)))) in
  let p1_out := (_mm_add_ss p1_out
      (_mm_mul_ps (KLN_SWIZZLE a 0 0 0 3) (KLN_SWIZZLE b 0 0 0 3))) in
  let p2_out := (_mm_mul_ps (KLN_SWIZZLE a 0 0 0 0) b) in
  let p2_out := (_mm_sub_ps p2_out (_mm_mul_ps a (KLN_SWIZZLE b 0 0 0 0))) in
  (p1_out, p2_out).

(** x86_geometric_product.hpp 65-110, the primary template (Flip = true) *)
Definition gp03_true (a b : m128 F) : m128 F * m128 F :=
  let p1 := (_mm_mul_ps a (KLN_SWIZZLE b 0 0 0 0)) in
  let p1 :=
    if sse41 then
      let p1 := (_mm_blend_ps p1 _mm_setzero_ps 1) in
      p1
    else
      let p1 := (_mm_and_ps p1 (lanes_epi32 true true true false)) in
      p1 in
  let p2 := (_mm_mul_ps (KLN_SWIZZLE a 2 1 3 0) (KLN_SWIZZLE b 1 3 2 0)) in
  let p2 := (_mm_sub_ps p2 (_mm_mul_ps (KLN_SWIZZLE a 1 3 2 0) (KLN_SWIZZLE b 2 1 3 0))) in
  let tmp := (dp a b) in
  let tmp := (_mm_xor_ps sgn_ss tmp) in
  let p2 := (_mm_add_ps p2 tmp) in
  (p1, p2).

(** x86_geometric_product.hpp 112-135, specialisation Flip = false *)
Definition gp03_false (a b : m128 F) : m128 F * m128 F :=
  let p1 := (_mm_mul_ps a (KLN_SWIZZLE b 0 0 0 0)) in
  let p1 :=
    if sse41 then
      let p1 := (_mm_blend_ps p1 _mm_setzero_ps 1) in
      p1
    else
      let p1 := (_mm_and_ps p1 (lanes_epi32 true true true false)) in
      p1 in
  let p2 := (_mm_mul_ps (KLN_SWIZZLE a 2 1 3 0) (KLN_SWIZZLE b 1 3 2 0)) in
  let p2 := (_mm_sub_ps p2 (_mm_mul_ps (KLN_SWIZZLE a 1 3 2 0) (KLN_SWIZZLE b 2 1 3 0))) in
  let tmp := (dp a b) in
  let p2 := (_mm_add_ps p2 tmp) in
  (p1, p2).

Definition gp03 (Flip : bool) := if Flip then gp03_true else gp03_false.

(** x86_geometric_product.hpp 138-166 *)
Definition gp11 (a b : m128 F) : m128 F :=
  let p1_out := (_mm_mul_ps (KLN_SWIZZLE a 0 0 0 0) b) in
  let p1_out := (_mm_sub_ps p1_out
      (_mm_mul_ps (KLN_SWIZZLE a 1 3 2 1) (KLN_SWIZZLE b 2 1 3 1))) in
  let tmp1 := (_mm_mul_ps (KLN_SWIZZLE a 3 2 1 2) (KLN_SWIZZLE b 0 0 0 2)) in
  let tmp2 := (_mm_mul_ps (KLN_SWIZZLE a 2 1 3 3) (KLN_SWIZZLE b 1 3 2 3)) in
  let tmp := (_mm_xor_ps sgn_ss (_mm_add_ps tmp1 tmp2)) in
  let p1_out := (_mm_add_ps p1_out tmp) in
  p1_out.

(** x86_geometric_product.hpp 195-213 *)
Definition gpDL (u v : F) (b c : m128 F) : m128 F * m128 F :=
  let u_vec := (_mm_set1_ps u) in
  let v_vec := (_mm_set1_ps v) in
  let p1 := (_mm_mul_ps u_vec b) in
  let p2 := (_mm_mul_ps c u_vec) in
  let p2 := (_mm_sub_ps p2 (_mm_mul_ps b v_vec)) in
  (p1, p2).

(** x86_geometric_product.hpp 215-231, primary template (Flip = true) *)
Definition gpRT_true (a b : m128 F) : m128 F :=
  let p2 := (_mm_mul_ps (KLN_SWIZZLE a 0 0 0 1) (KLN_SWIZZLE b 3 2 1 1)) in
  let p2 := (_mm_add_ps p2 (_mm_mul_ps (KLN_SWIZZLE a 1 3 2 2) (KLN_SWIZZLE b 2 1 3 2))) in
  let p2 := (_mm_sub_ps p2
      (_mm_xor_ps sgn_ss (_mm_mul_ps (KLN_SWIZZLE a 2 1 3 3) (KLN_SWIZZLE b 1 3 2 3)))) in
  p2.

(** x86_geometric_product.hpp 233-249, specialisation Flip = false *)
Definition gpRT_false (a b : m128 F) : m128 F :=
  let p2 := (_mm_mul_ps (KLN_SWIZZLE a 0 0 0 1) (KLN_SWIZZLE b 3 2 1 1)) in
  let p2 := (_mm_add_ps p2 (_mm_mul_ps (KLN_SWIZZLE a 2 1 3 2) (KLN_SWIZZLE b 1 3 2 2))) in
  let p2 := (_mm_sub_ps p2
      (_mm_xor_ps sgn_ss (_mm_mul_ps (KLN_SWIZZLE a 1 3 2 3) (KLN_SWIZZLE b 2 1 3 3)))) in
  p2.

Definition gpRT (Flip : bool) := if Flip then gpRT_true else gpRT_false.

(** x86_geometric_product.hpp 251-258 *)
Definition gp12 (Flip : bool) (a b : m128 F) : m128 F :=
  let p2 := gpRT Flip a b in
  let p2 := (_mm_sub_ps p2 (_mm_xor_ps sgn_ss (_mm_mul_ps a (KLN_SWIZZLE b 0 0 0 0)))) in
  p2.

(** x86_geometric_product.hpp 261-308.  l1 = (a, d), l2 = (b, c). *)
Definition gpLL (a d b c : m128 F) : m128 F * m128 F :=
  let flip := sgn_ss in
  let p1 := (_mm_mul_ps (KLN_SWIZZLE a 3 1 2 1) (KLN_SWIZZLE b 2 3 1 1)) in
  let p1 := (_mm_xor_ps flip p1) in
  let p1 := (_mm_sub_ps p1 (_mm_mul_ps (KLN_SWIZZLE a 2 3 1 3) (KLN_SWIZZLE b 3 1 2 3))) in
  let a2 := (_mm_unpackhi_ps a a) in
  let b2 := (_mm_unpackhi_ps b b) in
  let p1 := (_mm_sub_ss p1 (_mm_mul_ss a2 b2)) in
  let p2 := (_mm_mul_ps (KLN_SWIZZLE a 2 1 3 1) (KLN_SWIZZLE c 1 3 2 1)) in
  let p2 := (_mm_sub_ps p2
      (_mm_xor_ps flip (_mm_mul_ps (KLN_SWIZZLE a 1 3 2 3) (KLN_SWIZZLE c 2 1 3 3)))) in
  let p2 := (_mm_add_ps p2 (_mm_mul_ps (KLN_SWIZZLE b 1 3 2 1) (KLN_SWIZZLE d 2 1 3 1))) in
  let p2 := (_mm_sub_ps p2
      (_mm_xor_ps flip (_mm_mul_ps (KLN_SWIZZLE b 2 1 3 3) (KLN_SWIZZLE d 1 3 2 3)))) in
  let c2 := (_mm_unpackhi_ps c c) in
  let d2 := (_mm_unpackhi_ps d d) in
  let p2 := (_mm_add_ss p2 (_mm_mul_ss a2 c2)) in
  let p2 := (_mm_add_ss p2 (_mm_mul_ss b2 d2)) in
  (p1, p2).

(** x86_geometric_product.hpp 311-363.  m1 = (a, b), m2 = (c, d). *)
Definition gpMM (a b c d : m128 F) : m128 F * m128 F :=
  let a_xxxx := (KLN_SWIZZLE a 0 0 0 0) in
  let a_zyzw := (KLN_SWIZZLE a 3 2 1 2) in
  let a_ywyz := (KLN_SWIZZLE a 2 1 3 1) in
  let a_wzwy := (KLN_SWIZZLE a 1 3 2 3) in
  let c_wwyz := (KLN_SWIZZLE c 2 1 3 3) in
  let c_yzwy := (KLN_SWIZZLE c 1 3 2 1) in
  let s_flip := sgn_ss in
  let e := (_mm_mul_ps a_xxxx c) in
  let t := (_mm_mul_ps a_ywyz c_yzwy) in
  let t := (_mm_add_ps t (_mm_mul_ps a_zyzw (KLN_SWIZZLE c 0 0 0 2))) in
  let t := (_mm_xor_ps s_flip t) in
  let e := (_mm_add_ps e t) in
  let e := (_mm_sub_ps e (_mm_mul_ps a_wzwy c_wwyz)) in
  let f := (_mm_mul_ps a_xxxx d) in
  let f := (_mm_add_ps f (_mm_mul_ps b (KLN_SWIZZLE c 0 0 0 0))) in
  let f := (_mm_add_ps f (_mm_mul_ps a_ywyz (KLN_SWIZZLE d 1 3 2 1))) in
  let f := (_mm_add_ps f (_mm_mul_ps (KLN_SWIZZLE b 2 1 3 1) c_yzwy)) in
  let t := (_mm_mul_ps a_zyzw (KLN_SWIZZLE d 0 0 0 2)) in
  let t := (_mm_add_ps t (_mm_mul_ps a_wzwy (KLN_SWIZZLE d 2 1 3 3))) in
  let t := (_mm_add_ps t (_mm_mul_ps (KLN_SWIZZLE b 0 0 0 2) (KLN_SWIZZLE c 3 2 1 2))) in
  let t := (_mm_add_ps t (_mm_mul_ps (KLN_SWIZZLE b 1 3 2 3) c_wwyz)) in
  let t := (_mm_xor_ps s_flip t) in
  let f := (_mm_sub_ps f t) in
  (e, f).
End GP.

Section GPF.
Context {F : Type} {FL : Flo F} {B : Build}.

(** x86_geometric_product.hpp 170-193 *)
Definition gp33 (a b : m128 F) : m128 F :=
  let tmp := (_mm_mul_ps (KLN_SWIZZLE a 0 0 0 0) b) in
  let tmp := (_mm_mul_ps tmp (_mm_set_ps (fz (-1)) (fz (-1)) (fz (-1)) (fz (-2)))) in
  let tmp := (_mm_add_ps tmp (_mm_mul_ps a (KLN_SWIZZLE b 0 0 0 0))) in
  let ss := (_mm_moveldup_ps tmp) in
  let ss := (_mm_movelh_ps ss ss) in
  let tmp := (_mm_mul_ps tmp (rcp_nr1 ss)) in
  let p2 :=
    if sse41 then
      let p2 := (_mm_blend_ps tmp _mm_setzero_ps 1) in
      p2
    else
      let p2 := (_mm_and_ps tmp (lanes_epi32 true true true false)) in
      p2 in
  p2.
End GPF.
