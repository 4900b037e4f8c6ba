(** Matrix conversion kernel, C++17 and C++11 bodies.
    Model of /repo/public/klein/detail/x86/x86_matrix.hpp and
    /repo/public/klein/detail/x86/x86_matrix_cxx11.inl.

    The output columns are uninitialised storage.  The Translate = false
    instantiations read column 3 before writing it; the kernel functions below
    take the prior contents of that column as the parameter [c3], and the
    callers in [Api.v] turn the read of an uninitialised column into [UB]. *)
From Coq Require Import ZArith.
From Verif Require Import Scalar SSE.

Record mat4 (F : Type) := mkmat { col0 : m128 F; col1 : m128 F; col2 : m128 F; col3 : m128 F }.
Arguments mkmat {F}.
Arguments col0 {F}. Arguments col1 {F}. Arguments col2 {F}. Arguments col3 {F}.

(** Result of an operation whose C++ behaviour may be undefined. *)
Inductive outcome (T : Type) := Ok (x : T) | UB.
Arguments Ok {T}. Arguments UB {T}.

Section Mat.
Context {F : Type} {A : Arith F} {B : Build}.

(** x86_matrix.hpp 52-100: columns 0 to 2 and the squares b0_2 .. b3_2 *)
Definition mat_cols (b : m128 F) : m128 F * m128 F * m128 F * (F * F * F * F) :=
  let buf := _mm_mul_ps b b in
  let b0_2 := l0 buf in
  let b1_2 := l1 buf in
  let b2_2 := l2 buf in
  let b3_2 := l3 buf in
  let c0 := (_mm_mul_ps b (KLN_SWIZZLE b 0 0 2 0)) in
  let tmp := (_mm_mul_ps (KLN_SWIZZLE b 0 1 3 1) (KLN_SWIZZLE b 0 3 0 1)) in
  let tmp := (_mm_xor_ps (sgn_ps false false true false) tmp) in
  let c0 := (_mm_mul_ps (_mm_set_ps (fz 0) (fz 2) (fz 2) (fz 1)) (_mm_add_ps c0 tmp)) in
  let c0 := (_mm_sub_ps c0 (_mm_set_ss (fadd b3_2 b2_2))) in
  let c1 := (_mm_mul_ps b (KLN_SWIZZLE b 0 3 1 3)) in
  let tmp := (_mm_mul_ps (KLN_SWIZZLE b 0 0 3 2) (KLN_SWIZZLE b 0 1 3 1)) in
  let tmp := (_mm_xor_ps (sgn_ps false true false false) tmp) in
  let c1 := (_mm_mul_ps (_mm_set_ps (fz 0) (fz 2) (fz (-1)) (fz 2)) (_mm_add_ps c1 tmp)) in
  let c1 := (_mm_add_ps c1 (_mm_set_ps (fz 0) (fz 0) (fadd b0_2 b2_2) (fz 0))) in
  let c2 := (_mm_xor_ps (sgn_ps false true false true) (_mm_mul_ps b (KLN_SWIZZLE b 0 2 0 2)))
      in
  let c2 := (_mm_add_ps c2 (_mm_mul_ps (KLN_SWIZZLE b 0 0 2 1) (KLN_SWIZZLE b 0 0 3 3))) in
  let c2 := (_mm_mul_ps c2 (_mm_set_ps (fz 0) (fz 1) (fz 2) (fz 2))) in
  let c2 := (_mm_add_ps c2 (_mm_set_ps (fz 0) (fsub b3_2 b1_2) (fz 0) (fz 0))) in
  (c0, c1, c2, (b0_2, b1_2, b2_2, b3_2)).

(** x86_matrix.hpp 109-120: column 3 of the Translate instantiations *)
Definition mat_col3 (b c : m128 F) : m128 F :=
  let c3 := (_mm_mul_ps b (KLN_SWIZZLE c 0 1 3 1)) in
  let c3 := (_mm_add_ps c3 (_mm_mul_ps (KLN_SWIZZLE b 0 0 0 3) (KLN_SWIZZLE c 0 3 2 2))) in
  let c3 := (_mm_add_ps c3 (_mm_mul_ps (KLN_SWIZZLE b 0 3 2 1) (KLN_SWIZZLE c 0 0 0 0))) in
  let tmp := (_mm_mul_ps (KLN_SWIZZLE b 0 1 3 2) (KLN_SWIZZLE c 0 2 1 3)) in
  let c3 := (_mm_mul_ps (_mm_set_ps (fz 0) (fz 2) (fz 2) (fz 2)) (_mm_sub_ps tmp c3)) in
  c3.

(** x86_matrix.hpp 121-128 *)
Definition mat_norm (c3 : m128 F) : m128 F :=
  let c3 :=
    if sse41 then
      let c3 := (_mm_blend_ps c3 (_mm_set_ps (fz 1) (fz 0) (fz 0) (fz 0)) 8) in
      c3
    else
      let c3 := (_mm_add_ps c3 (_mm_set_ps (fz 1) (fz 0) (fz 0) (fz 0))) in
      c3 in
  c3.

(** x86_matrix.hpp 129-137 *)
Definition mat_nonorm (sq : F * F * F * F) (c3 : m128 F) : m128 F :=
  let '(b0_2, b1_2, b2_2, b3_2) := sq in
  let c3 :=
    if sse41 then
      let c3 := (_mm_blend_ps c3 (_mm_set_ps (fadd (fadd (fadd b0_2 b1_2) b2_2) b3_2) (fz 0)
          (fz 0) (fz 0)) 8) in
      c3
    else
      let c3 := (_mm_add_ps c3 (_mm_set_ps (fadd (fadd (fadd b0_2 b1_2) b2_2) b3_2) (fz 0) (fz
          0) (fz 0))) in
      c3 in
  c3.

(** mat4x4_12<true, Normalized> *)
Definition mat4x4_12_t (Normalized : bool) (b c : m128 F) : mat4 F :=
  let '(c0, c1, c2, sq) := mat_cols b in
  let c3 := mat_col3 b c in
  let c3 := if Normalized then mat_norm c3 else mat_nonorm sq c3 in
  mkmat c0 c1 c2 c3.

(** mat4x4_12<false, Normalized>; [c3] is what out[3] held before the call *)
Definition mat4x4_12_f (Normalized : bool) (b c3 : m128 F) : mat4 F :=
  let '(c0, c1, c2, sq) := mat_cols b in
  let c3 := if Normalized then mat_norm c3 else mat_nonorm sq c3 in
  mkmat c0 c1 c2 c3.

(** ** C++11 specialisations, one transcription each *)

(** x86_matrix_cxx11.inl 8-57 *)
Definition mat4x4_12_11_tt (b c : m128 F) : mat4 F :=
  let buf := _mm_mul_ps b b in
  let b0_2 := l0 buf in
  let b1_2 := l1 buf in
  let b2_2 := l2 buf in
  let b3_2 := l3 buf in
  let c0 := (_mm_mul_ps b (KLN_SWIZZLE b 0 0 2 0)) in
  let tmp := (_mm_mul_ps (KLN_SWIZZLE b 0 1 3 1) (KLN_SWIZZLE b 0 3 0 1)) in
  let tmp := (_mm_xor_ps (sgn_ps false false true false) tmp) in
  let c0 := (_mm_mul_ps (_mm_set_ps (fz 0) (fz 2) (fz 2) (fz 1)) (_mm_add_ps c0 tmp)) in
  let c0 := (_mm_sub_ps c0 (_mm_set_ss (fadd b3_2 b2_2))) in
  let c1 := (_mm_mul_ps b (KLN_SWIZZLE b 0 3 1 3)) in
  let tmp := (_mm_mul_ps (KLN_SWIZZLE b 0 0 3 2) (KLN_SWIZZLE b 0 1 3 1)) in
  let tmp := (_mm_xor_ps (sgn_ps false true false false) tmp) in
  let c1 := (_mm_mul_ps (_mm_set_ps (fz 0) (fz 2) (fz (-1)) (fz 2)) (_mm_add_ps c1 tmp)) in
  let c1 := (_mm_add_ps c1 (_mm_set_ps (fz 0) (fz 0) (fadd b0_2 b2_2) (fz 0))) in
  let c2 := (_mm_xor_ps (sgn_ps false true false true) (_mm_mul_ps b (KLN_SWIZZLE b 0 2 0 2)))
      in
  let c2 := (_mm_add_ps c2 (_mm_mul_ps (KLN_SWIZZLE b 0 0 2 1) (KLN_SWIZZLE b 0 0 3 3))) in
  let c2 := (_mm_mul_ps c2 (_mm_set_ps (fz 0) (fz 1) (fz 2) (fz 2))) in
  let c2 := (_mm_add_ps c2 (_mm_set_ps (fz 0) (fsub b3_2 b1_2) (fz 0) (fz 0))) in
  let c3 := (_mm_mul_ps b (KLN_SWIZZLE c 0 1 3 1)) in
  let c3 := (_mm_add_ps c3 (_mm_mul_ps (KLN_SWIZZLE b 0 0 0 3) (KLN_SWIZZLE c 0 3 2 2))) in
  let c3 := (_mm_add_ps c3 (_mm_mul_ps (KLN_SWIZZLE b 0 3 2 1) (KLN_SWIZZLE c 0 0 0 0))) in
  let tmp := (_mm_mul_ps (KLN_SWIZZLE b 0 1 3 2) (KLN_SWIZZLE c 0 2 1 3)) in
  let c3 := (_mm_mul_ps (_mm_set_ps (fz 0) (fz 2) (fz 2) (fz 2)) (_mm_sub_ps tmp c3)) in
  let c3 :=
    if sse41 then
      let c3 := (_mm_blend_ps c3 (_mm_set_ps (fz 1) (fz 0) (fz 0) (fz 0)) 8) in
      c3
    else
      let c3 := (_mm_add_ps c3 (_mm_set_ps (fz 1) (fz 0) (fz 0) (fz 0))) in
      c3 in
  mkmat c0 c1 c2 c3.

(** x86_matrix_cxx11.inl 59-109 *)
Definition mat4x4_12_11_tf (b c : m128 F) : mat4 F :=
  let buf := _mm_mul_ps b b in
  let b0_2 := l0 buf in
  let b1_2 := l1 buf in
  let b2_2 := l2 buf in
  let b3_2 := l3 buf in
  let c0 := (_mm_mul_ps b (KLN_SWIZZLE b 0 0 2 0)) in
  let tmp := (_mm_mul_ps (KLN_SWIZZLE b 0 1 3 1) (KLN_SWIZZLE b 0 3 0 1)) in
  let tmp := (_mm_xor_ps (sgn_ps false false true false) tmp) in
  let c0 := (_mm_mul_ps (_mm_set_ps (fz 0) (fz 2) (fz 2) (fz 1)) (_mm_add_ps c0 tmp)) in
  let c0 := (_mm_sub_ps c0 (_mm_set_ss (fadd b3_2 b2_2))) in
  let c1 := (_mm_mul_ps b (KLN_SWIZZLE b 0 3 1 3)) in
  let tmp := (_mm_mul_ps (KLN_SWIZZLE b 0 0 3 2) (KLN_SWIZZLE b 0 1 3 1)) in
  let tmp := (_mm_xor_ps (sgn_ps false true false false) tmp) in
  let c1 := (_mm_mul_ps (_mm_set_ps (fz 0) (fz 2) (fz (-1)) (fz 2)) (_mm_add_ps c1 tmp)) in
  let c1 := (_mm_add_ps c1 (_mm_set_ps (fz 0) (fz 0) (fadd b0_2 b2_2) (fz 0))) in
  let c2 := (_mm_xor_ps (sgn_ps false true false true) (_mm_mul_ps b (KLN_SWIZZLE b 0 2 0 2)))
      in
  let c2 := (_mm_add_ps c2 (_mm_mul_ps (KLN_SWIZZLE b 0 0 2 1) (KLN_SWIZZLE b 0 0 3 3))) in
  let c2 := (_mm_mul_ps c2 (_mm_set_ps (fz 0) (fz 1) (fz 2) (fz 2))) in
  let c2 := (_mm_add_ps c2 (_mm_set_ps (fz 0) (fsub b3_2 b1_2) (fz 0) (fz 0))) in
  let c3 := (_mm_mul_ps b (KLN_SWIZZLE c 0 1 3 1)) in
  let c3 := (_mm_add_ps c3 (_mm_mul_ps (KLN_SWIZZLE b 0 0 0 3) (KLN_SWIZZLE c 0 3 2 2))) in
  let c3 := (_mm_add_ps c3 (_mm_mul_ps (KLN_SWIZZLE b 0 3 2 1) (KLN_SWIZZLE c 0 0 0 0))) in
  let tmp := (_mm_mul_ps (KLN_SWIZZLE b 0 1 3 2) (KLN_SWIZZLE c 0 2 1 3)) in
  let c3 := (_mm_mul_ps (_mm_set_ps (fz 0) (fz 2) (fz 2) (fz 2)) (_mm_sub_ps tmp c3)) in
  let c3 :=
    if sse41 then
      let c3 := (_mm_blend_ps c3 (_mm_set_ps (fadd (fadd (fadd b0_2 b1_2) b2_2) b3_2) (fz 0)
          (fz 0) (fz 0)) 8) in
      c3
    else
      let c3 := (_mm_add_ps c3 (_mm_set_ps (fadd (fadd (fadd b0_2 b1_2) b2_2) b3_2) (fz 0) (fz
          0) (fz 0))) in
      c3 in
  mkmat c0 c1 c2 c3.

(** x86_matrix_cxx11.inl 111-152 *)
Definition mat4x4_12_11_ft (b c3 : m128 F) : mat4 F :=
  let buf := _mm_mul_ps b b in
  let b0_2 := l0 buf in
  let b1_2 := l1 buf in
  let b2_2 := l2 buf in
  let b3_2 := l3 buf in
  let c0 := (_mm_mul_ps b (KLN_SWIZZLE b 0 0 2 0)) in
  let tmp := (_mm_mul_ps (KLN_SWIZZLE b 0 1 3 1) (KLN_SWIZZLE b 0 3 0 1)) in
  let tmp := (_mm_xor_ps (sgn_ps false false true false) tmp) in
  let c0 := (_mm_mul_ps (_mm_set_ps (fz 0) (fz 2) (fz 2) (fz 1)) (_mm_add_ps c0 tmp)) in
  let c0 := (_mm_sub_ps c0 (_mm_set_ss (fadd b3_2 b2_2))) in
  let c1 := (_mm_mul_ps b (KLN_SWIZZLE b 0 3 1 3)) in
  let tmp := (_mm_mul_ps (KLN_SWIZZLE b 0 0 3 2) (KLN_SWIZZLE b 0 1 3 1)) in
  let tmp := (_mm_xor_ps (sgn_ps false true false false) tmp) in
  let c1 := (_mm_mul_ps (_mm_set_ps (fz 0) (fz 2) (fz (-1)) (fz 2)) (_mm_add_ps c1 tmp)) in
  let c1 := (_mm_add_ps c1 (_mm_set_ps (fz 0) (fz 0) (fadd b0_2 b2_2) (fz 0))) in
  let c2 := (_mm_xor_ps (sgn_ps false true false true) (_mm_mul_ps b (KLN_SWIZZLE b 0 2 0 2)))
      in
  let c2 := (_mm_add_ps c2 (_mm_mul_ps (KLN_SWIZZLE b 0 0 2 1) (KLN_SWIZZLE b 0 0 3 3))) in
  let c2 := (_mm_mul_ps c2 (_mm_set_ps (fz 0) (fz 1) (fz 2) (fz 2))) in
  let c2 := (_mm_add_ps c2 (_mm_set_ps (fz 0) (fsub b3_2 b1_2) (fz 0) (fz 0))) in
  let c3 :=
    if sse41 then
      let c3 := (_mm_blend_ps c3 (_mm_set_ps (fz 1) (fz 0) (fz 0) (fz 0)) 8) in
      c3
    else
      let c3 := (_mm_add_ps c3 (_mm_set_ps (fz 1) (fz 0) (fz 0) (fz 0))) in
      c3 in
  mkmat c0 c1 c2 c3.

(** x86_matrix_cxx11.inl 154-196 *)
Definition mat4x4_12_11_ff (b c3 : m128 F) : mat4 F :=
  let buf := _mm_mul_ps b b in
  let b0_2 := l0 buf in
  let b1_2 := l1 buf in
  let b2_2 := l2 buf in
  let b3_2 := l3 buf in
  let c0 := (_mm_mul_ps b (KLN_SWIZZLE b 0 0 2 0)) in
  let tmp := (_mm_mul_ps (KLN_SWIZZLE b 0 1 3 1) (KLN_SWIZZLE b 0 3 0 1)) in
  let tmp := (_mm_xor_ps (sgn_ps false false true false) tmp) in
  let c0 := (_mm_mul_ps (_mm_set_ps (fz 0) (fz 2) (fz 2) (fz 1)) (_mm_add_ps c0 tmp)) in
  let c0 := (_mm_sub_ps c0 (_mm_set_ss (fadd b3_2 b2_2))) in
  let c1 := (_mm_mul_ps b (KLN_SWIZZLE b 0 3 1 3)) in
  let tmp := (_mm_mul_ps (KLN_SWIZZLE b 0 0 3 2) (KLN_SWIZZLE b 0 1 3 1)) in
  let tmp := (_mm_xor_ps (sgn_ps false true false false) tmp) in
  let c1 := (_mm_mul_ps (_mm_set_ps (fz 0) (fz 2) (fz (-1)) (fz 2)) (_mm_add_ps c1 tmp)) in
  let c1 := (_mm_add_ps c1 (_mm_set_ps (fz 0) (fz 0) (fadd b0_2 b2_2) (fz 0))) in
  let c2 := (_mm_xor_ps (sgn_ps false true false true) (_mm_mul_ps b (KLN_SWIZZLE b 0 2 0 2)))
      in
  let c2 := (_mm_add_ps c2 (_mm_mul_ps (KLN_SWIZZLE b 0 0 2 1) (KLN_SWIZZLE b 0 0 3 3))) in
  let c2 := (_mm_mul_ps c2 (_mm_set_ps (fz 0) (fz 1) (fz 2) (fz 2))) in
  let c2 := (_mm_add_ps c2 (_mm_set_ps (fz 0) (fsub b3_2 b1_2) (fz 0) (fz 0))) in
  let c3 :=
    if sse41 then
      let c3 := (_mm_blend_ps c3 (_mm_set_ps (fadd (fadd (fadd b0_2 b1_2) b2_2) b3_2) (fz 0)
          (fz 0) (fz 0)) 8) in
      c3
    else
      let c3 := (_mm_add_ps c3 (_mm_set_ps (fadd (fadd (fadd b0_2 b1_2) b2_2) b3_2) (fz 0) (fz
          0) (fz 0))) in
      c3 in
  mkmat c0 c1 c2 c3.
End Mat.
