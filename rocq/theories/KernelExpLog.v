(** Exponential and logarithm kernels.
    Model of /repo/public/klein/detail/x86/x86_exp_log.hpp.
    libm calls and comparisons go through [Flo]. *)
From Coq Require Import ZArith Bool.
From Verif Require Import Scalar SSE.

Section EL.
Context {F : Type} {FL : Flo F} {B : Build}.

(** x86_exp_log.hpp 27-137.  [sincosu[0]], [sincosu[1]] are [sinu_s], [cosu_s];
    [uv[0]], [uv[1]] are [uv0], [uv1]. *)
Definition exp_kernel (a b : m128 F) : m128 F * m128 F :=
  if all4 (_mm_cmpeq_ps a _mm_setzero_ps) then
    (_mm_set_ss (fz 1), b)
  else
  let a2 := (hi_dp_bc a a) in
  let ab := (hi_dp_bc a b) in
  let a2_sqrt_rcp := (rsqrt_nr1 a2) in
  let u := (_mm_mul_ps a2 a2_sqrt_rcp) in
  let minus_v := (_mm_mul_ps ab a2_sqrt_rcp) in
  let norm_real := (_mm_mul_ps a a2_sqrt_rcp) in
  let norm_ideal := (_mm_mul_ps b a2_sqrt_rcp) in
  let norm_ideal :=
      (_mm_sub_ps norm_ideal
      (_mm_mul_ps a (_mm_mul_ps ab (_mm_mul_ps a2_sqrt_rcp (rcp_nr1 a2))))) in
  let uv0 := l0 u in
  let uv1 := l0 minus_v in
  let sinu_s := fsin uv0 in
  let cosu_s := fcos uv0 in
  let sinu := _mm_set1_ps sinu_s in
  let p1_out := _mm_add_ps (_mm_set_ps (fz 0) (fz 0) (fz 0) cosu_s) (_mm_mul_ps sinu norm_real) in
  let cosu := _mm_set_ps cosu_s cosu_s cosu_s (fz 0) in
  let minus_vcosu := (_mm_mul_ps minus_v cosu) in
  let p2_out := (_mm_mul_ps sinu norm_ideal) in
  let p2_out := (_mm_add_ps p2_out (_mm_mul_ps minus_vcosu norm_real)) in
  let minus_vsinu := fmul uv1 sinu_s in
  let p2_out := _mm_add_ps (_mm_set_ps (fz 0) (fz 0) (fz 0) minus_vsinu) p2_out in
  (p1_out, p2_out).

(** x86_exp_log.hpp 139-215 *)
Definition log_kernel (p1 p2 : m128 F) : m128 F * m128 F :=
  let bv_mask := (_mm_set_ps (fz 1) (fz 1) (fz 1) (fz 0)) in
  let a := (_mm_mul_ps bv_mask p1) in
  if all4 (_mm_cmpeq_ps a _mm_setzero_ps) then
    (_mm_setzero_ps, p2)
  else
  let b := (_mm_mul_ps bv_mask p2) in
  let a2 := (hi_dp_bc a a) in
  let ab := (hi_dp_bc a b) in
  let a2_sqrt_rcp := (rsqrt_nr1 a2) in
  let s := (_mm_mul_ps a2 a2_sqrt_rcp) in
  let minus_t := (_mm_mul_ps ab a2_sqrt_rcp) in
  let p := l0 p1 in
  let q := l0 p2 in
  let s_scalar := l0 s in
  let t_scalar := l0 minus_t in
  let t_scalar := fmul t_scalar (fz (-1)) in
  let p_zero := fabs_lt_1em6 p in
  let u := if p_zero then fatan2 (fopp q) t_scalar else fatan2 s_scalar p in
  let v := if p_zero then fdiv (fopp q) s_scalar else fdiv t_scalar p in
  let norm_real := (_mm_mul_ps a a2_sqrt_rcp) in
  let norm_ideal := (_mm_mul_ps b a2_sqrt_rcp) in
  let norm_ideal :=
      (_mm_sub_ps norm_ideal
      (_mm_mul_ps a (_mm_mul_ps ab (_mm_mul_ps a2_sqrt_rcp (rcp_nr1 a2))))) in
  let uvec := (_mm_set1_ps u) in
  let p1_out := (_mm_mul_ps uvec norm_real) in
  let p2_out := (_mm_mul_ps uvec norm_ideal) in
  let p2_out := (_mm_sub_ps p2_out (_mm_mul_ps (_mm_set1_ps v) norm_real)) in
  (p1_out, p2_out).
End EL.
