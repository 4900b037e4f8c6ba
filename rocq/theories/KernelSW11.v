(** Sandwich kernels, C++11 bodies.
    Model of /repo/public/klein/detail/x86/x86_sandwich_cxx11.inl, the file
    included instead of the [if constexpr] bodies when __cplusplus < 201703L.
    One transcription per explicit specialisation that the library
    instantiates (swMM<_, true, false> and swMM<true, false, false> are never
    instantiated).  Non-variadic ones are pure functions of the element, the
    variadic ones memory programs as in [KernelSW.v]. *)
From Coq Require Import ZArith.
From Verif Require Import Scalar SSE KernelSW.

Section SW11.
Context {F : Type} {A : Arith F} {B : Build}.

(** x86_sandwich_cxx11.inl 10-90: swMM<true, true, true> *)
Definition swMM_line_11_body (src out : nat) (b c : m128 F) (i : nat) (m : mem F) : mem F :=
  let b_xwyz := (KLN_SWIZZLE b 2 1 3 0) in
  let b_xzwy := (KLN_SWIZZLE b 1 3 2 0) in
  let b_yxxx := (KLN_SWIZZLE b 0 0 0 1) in
  let b_yxxx_2 := (_mm_mul_ps b_yxxx b_yxxx) in
  let tmp := (_mm_mul_ps b b) in
  let tmp := (_mm_add_ps tmp b_yxxx_2) in
  let b_tmp := (KLN_SWIZZLE b 2 1 3 2) in
  let tmp2 := (_mm_mul_ps b_tmp b_tmp) in
  let b_tmp := (KLN_SWIZZLE b 1 3 2 3) in
  let tmp2 := (_mm_add_ps tmp2 (_mm_mul_ps b_tmp b_tmp)) in
  let tmp := (_mm_sub_ps tmp (_mm_xor_ps sgn_ss tmp2)) in
  let b_xxxx := (KLN_SWIZZLE b 0 0 0 0) in
  let scale := (_mm_set_ps (fz 2) (fz 2) (fz 2) (fz 0)) in
  let tmp2 := (_mm_mul_ps b_xxxx b_xwyz) in
  let tmp2 := (_mm_add_ps tmp2 (_mm_mul_ps b b_xzwy)) in
  let tmp2 := (_mm_mul_ps tmp2 scale) in
  let tmp3 := (_mm_mul_ps b b_xwyz) in
  let tmp3 := (_mm_sub_ps tmp3 (_mm_mul_ps b_xxxx b_xzwy)) in
  let tmp3 := (_mm_mul_ps tmp3 scale) in
  let czero := (KLN_SWIZZLE c 0 0 0 0) in
  let c_xzwy := (KLN_SWIZZLE c 1 3 2 0) in
  let c_xwyz := (KLN_SWIZZLE c 2 1 3 0) in
  let tmp4 := (_mm_mul_ps b c) in
  let tmp4 := (_mm_sub_ps tmp4 (_mm_mul_ps b_yxxx (KLN_SWIZZLE c 0 0 0 1))) in
  let tmp4 := (_mm_sub_ps tmp4 (_mm_mul_ps (KLN_SWIZZLE b 1 3 3 2) (KLN_SWIZZLE c 1 3 3 2))) in
  let tmp4 := (_mm_sub_ps tmp4 (_mm_mul_ps (KLN_SWIZZLE b 2 1 2 3) (KLN_SWIZZLE c 2 1 2 3))) in
  let tmp4 := (_mm_add_ps tmp4 tmp4) in
  let tmp5 := (_mm_mul_ps b c_xwyz) in
  let tmp5 := (_mm_add_ps tmp5 (_mm_mul_ps b_xzwy czero)) in
  let tmp5 := (_mm_add_ps tmp5 (_mm_mul_ps b_xwyz c)) in
  let tmp5 := (_mm_sub_ps tmp5 (_mm_mul_ps b_xxxx c_xzwy)) in
  let tmp5 := (_mm_mul_ps tmp5 scale) in
  let tmp6 := (_mm_mul_ps b c_xzwy) in
  let tmp6 := (_mm_add_ps tmp6 (_mm_mul_ps b_xxxx c_xwyz)) in
  let tmp6 := (_mm_add_ps tmp6 (_mm_mul_ps b_xzwy c)) in
  let tmp6 := (_mm_sub_ps tmp6 (_mm_mul_ps b_xwyz czero)) in
  let tmp6 := (_mm_mul_ps tmp6 scale) in
  let p1_in_xzwy := (KLN_SWIZZLE (m (src + 2 * i)) 1 3 2 0) in
  let p1_in_xwyz := (KLN_SWIZZLE (m (src + 2 * i)) 2 1 3 0) in
  let m := st m (out + 2 * i) (_mm_mul_ps tmp (m (src + 2 * i))) in
  let m := st m (out + 2 * i) (_mm_add_ps (m (out + 2 * i)) (_mm_mul_ps tmp2 p1_in_xzwy)) in
  let m := st m (out + 2 * i) (_mm_add_ps (m (out + 2 * i)) (_mm_mul_ps tmp3 p1_in_xwyz)) in
  let m := st m (out + 2 * i + 1) (_mm_mul_ps tmp (m (src + 2 * i + 1))) in
  let m := st m (out + 2 * i + 1)
      (_mm_add_ps (m (out + 2 * i + 1))
      (_mm_mul_ps tmp2 (KLN_SWIZZLE (m (src + 2 * i + 1)) 1 3 2 0))) in
  let m := st m (out + 2 * i + 1)
      (_mm_add_ps (m (out + 2 * i + 1))
      (_mm_mul_ps tmp3 (KLN_SWIZZLE (m (src + 2 * i + 1)) 2 1 3 0))) in
  let m := st m (out + 2 * i + 1)
      (_mm_add_ps (m (out + 2 * i + 1)) (_mm_mul_ps tmp4 (m (src + 2 * i)))) in
  let m := st m (out + 2 * i + 1)
      (_mm_add_ps (m (out + 2 * i + 1)) (_mm_mul_ps tmp5 p1_in_xwyz)) in
  let m := st m (out + 2 * i + 1)
      (_mm_add_ps (m (out + 2 * i + 1)) (_mm_mul_ps tmp6 p1_in_xzwy)) in
  m.

Definition swMM_line_11_run (src out : nat) (b c : m128 F) (count : nat) (m : mem F) : mem F :=
  for_loop (swMM_line_11_body src out b c) 0 count m.

(** x86_sandwich_cxx11.inl 167-217: swMM<true, false, true> *)
Definition swMM_rot_line_11_body (src out : nat) (b : m128 F) (i : nat) (m : mem F) : mem F :=
  let b_xwyz := (KLN_SWIZZLE b 2 1 3 0) in
  let b_xzwy := (KLN_SWIZZLE b 1 3 2 0) in
  let b_yxxx := (KLN_SWIZZLE b 0 0 0 1) in
  let b_yxxx_2 := (_mm_mul_ps b_yxxx b_yxxx) in
  let tmp := (_mm_mul_ps b b) in
  let tmp := (_mm_add_ps tmp b_yxxx_2) in
  let b_tmp := (KLN_SWIZZLE b 2 1 3 2) in
  let tmp2 := (_mm_mul_ps b_tmp b_tmp) in
  let b_tmp := (KLN_SWIZZLE b 1 3 2 3) in
  let tmp2 := (_mm_add_ps tmp2 (_mm_mul_ps b_tmp b_tmp)) in
  let tmp := (_mm_sub_ps tmp (_mm_xor_ps sgn_ss tmp2)) in
  let b_xxxx := (KLN_SWIZZLE b 0 0 0 0) in
  let scale := (_mm_set_ps (fz 2) (fz 2) (fz 2) (fz 0)) in
  let tmp2 := (_mm_mul_ps b_xxxx b_xwyz) in
  let tmp2 := (_mm_add_ps tmp2 (_mm_mul_ps b b_xzwy)) in
  let tmp2 := (_mm_mul_ps tmp2 scale) in
  let tmp3 := (_mm_mul_ps b b_xwyz) in
  let tmp3 := (_mm_sub_ps tmp3 (_mm_mul_ps b_xxxx b_xzwy)) in
  let tmp3 := (_mm_mul_ps tmp3 scale) in
  let p1_in_xzwy := (KLN_SWIZZLE (m (src + 2 * i)) 1 3 2 0) in
  let p1_in_xwyz := (KLN_SWIZZLE (m (src + 2 * i)) 2 1 3 0) in
  let m := st m (out + 2 * i) (_mm_mul_ps tmp (m (src + 2 * i))) in
  let m := st m (out + 2 * i) (_mm_add_ps (m (out + 2 * i)) (_mm_mul_ps tmp2 p1_in_xzwy)) in
  let m := st m (out + 2 * i) (_mm_add_ps (m (out + 2 * i)) (_mm_mul_ps tmp3 p1_in_xwyz)) in
  let m := st m (out + 2 * i + 1) (_mm_mul_ps tmp (m (src + 2 * i + 1))) in
  let m := st m (out + 2 * i + 1)
      (_mm_add_ps (m (out + 2 * i + 1))
      (_mm_mul_ps tmp2 (KLN_SWIZZLE (m (src + 2 * i + 1)) 1 3 2 0))) in
  let m := st m (out + 2 * i + 1)
      (_mm_add_ps (m (out + 2 * i + 1))
      (_mm_mul_ps tmp3 (KLN_SWIZZLE (m (src + 2 * i + 1)) 2 1 3 0))) in
  m.

Definition swMM_rot_line_11_run (src out : nat) (b : m128 F) (count : nat) (m : mem F) : mem F :=
  for_loop (swMM_rot_line_11_body src out b) 0 count m.

(** x86_sandwich_cxx11.inl 264-339: swMM<false, true, true> *)
Definition swMM_line_11 (p1_in p2_in : m128 F) (b c : m128 F) : m128 F * m128 F :=
  let b_xwyz := (KLN_SWIZZLE b 2 1 3 0) in
  let b_xzwy := (KLN_SWIZZLE b 1 3 2 0) in
  let b_yxxx := (KLN_SWIZZLE b 0 0 0 1) in
  let b_yxxx_2 := (_mm_mul_ps b_yxxx b_yxxx) in
  let tmp := (_mm_mul_ps b b) in
  let tmp := (_mm_add_ps tmp b_yxxx_2) in
  let b_tmp := (KLN_SWIZZLE b 2 1 3 2) in
  let tmp2 := (_mm_mul_ps b_tmp b_tmp) in
  let b_tmp := (KLN_SWIZZLE b 1 3 2 3) in
  let tmp2 := (_mm_add_ps tmp2 (_mm_mul_ps b_tmp b_tmp)) in
  let tmp := (_mm_sub_ps tmp (_mm_xor_ps sgn_ss tmp2)) in
  let b_xxxx := (KLN_SWIZZLE b 0 0 0 0) in
  let scale := (_mm_set_ps (fz 2) (fz 2) (fz 2) (fz 0)) in
  let tmp2 := (_mm_mul_ps b_xxxx b_xwyz) in
  let tmp2 := (_mm_add_ps tmp2 (_mm_mul_ps b b_xzwy)) in
  let tmp2 := (_mm_mul_ps tmp2 scale) in
  let tmp3 := (_mm_mul_ps b b_xwyz) in
  let tmp3 := (_mm_sub_ps tmp3 (_mm_mul_ps b_xxxx b_xzwy)) in
  let tmp3 := (_mm_mul_ps tmp3 scale) in
  let czero := (KLN_SWIZZLE c 0 0 0 0) in
  let c_xzwy := (KLN_SWIZZLE c 1 3 2 0) in
  let c_xwyz := (KLN_SWIZZLE c 2 1 3 0) in
  let tmp4 := (_mm_mul_ps b c) in
  let tmp4 := (_mm_sub_ps tmp4 (_mm_mul_ps b_yxxx (KLN_SWIZZLE c 0 0 0 1))) in
  let tmp4 := (_mm_sub_ps tmp4 (_mm_mul_ps (KLN_SWIZZLE b 1 3 3 2) (KLN_SWIZZLE c 1 3 3 2))) in
  let tmp4 := (_mm_sub_ps tmp4 (_mm_mul_ps (KLN_SWIZZLE b 2 1 2 3) (KLN_SWIZZLE c 2 1 2 3))) in
  let tmp4 := (_mm_add_ps tmp4 tmp4) in
  let tmp5 := (_mm_mul_ps b c_xwyz) in
  let tmp5 := (_mm_add_ps tmp5 (_mm_mul_ps b_xzwy czero)) in
  let tmp5 := (_mm_add_ps tmp5 (_mm_mul_ps b_xwyz c)) in
  let tmp5 := (_mm_sub_ps tmp5 (_mm_mul_ps b_xxxx c_xzwy)) in
  let tmp5 := (_mm_mul_ps tmp5 scale) in
  let tmp6 := (_mm_mul_ps b c_xzwy) in
  let tmp6 := (_mm_add_ps tmp6 (_mm_mul_ps b_xxxx c_xwyz)) in
  let tmp6 := (_mm_add_ps tmp6 (_mm_mul_ps b_xzwy c)) in
  let tmp6 := (_mm_sub_ps tmp6 (_mm_mul_ps b_xwyz czero)) in
  let tmp6 := (_mm_mul_ps tmp6 scale) in
  let p1_in_xzwy := (KLN_SWIZZLE p1_in 1 3 2 0) in
  let p1_in_xwyz := (KLN_SWIZZLE p1_in 2 1 3 0) in
  let p1_out := (_mm_mul_ps tmp p1_in) in
  let p1_out := (_mm_add_ps p1_out (_mm_mul_ps tmp2 p1_in_xzwy)) in
  let p1_out := (_mm_add_ps p1_out (_mm_mul_ps tmp3 p1_in_xwyz)) in
  let p2_out := (_mm_mul_ps tmp p2_in) in
  let p2_out := (_mm_add_ps p2_out (_mm_mul_ps tmp2 (KLN_SWIZZLE p2_in 1 3 2 0))) in
  let p2_out := (_mm_add_ps p2_out (_mm_mul_ps tmp3 (KLN_SWIZZLE p2_in 2 1 3 0))) in
  let p2_out := (_mm_add_ps p2_out (_mm_mul_ps tmp4 p1_in)) in
  let p2_out := (_mm_add_ps p2_out (_mm_mul_ps tmp5 p1_in_xwyz)) in
  let p2_out := (_mm_add_ps p2_out (_mm_mul_ps tmp6 p1_in_xzwy)) in
  (p1_out, p2_out).

(** x86_sandwich_cxx11.inl 414-460: swMM<false, false, true> *)
Definition swMM_rot_line_11 (p1_in p2_in : m128 F) (b : m128 F) : m128 F * m128 F :=
  let b_xwyz := (KLN_SWIZZLE b 2 1 3 0) in
  let b_xzwy := (KLN_SWIZZLE b 1 3 2 0) in
  let b_yxxx := (KLN_SWIZZLE b 0 0 0 1) in
  let b_yxxx_2 := (_mm_mul_ps b_yxxx b_yxxx) in
  let tmp := (_mm_mul_ps b b) in
  let tmp := (_mm_add_ps tmp b_yxxx_2) in
  let b_tmp := (KLN_SWIZZLE b 2 1 3 2) in
  let tmp2 := (_mm_mul_ps b_tmp b_tmp) in
  let b_tmp := (KLN_SWIZZLE b 1 3 2 3) in
  let tmp2 := (_mm_add_ps tmp2 (_mm_mul_ps b_tmp b_tmp)) in
  let tmp := (_mm_sub_ps tmp (_mm_xor_ps sgn_ss tmp2)) in
  let b_xxxx := (KLN_SWIZZLE b 0 0 0 0) in
  let scale := (_mm_set_ps (fz 2) (fz 2) (fz 2) (fz 0)) in
  let tmp2 := (_mm_mul_ps b_xxxx b_xwyz) in
  let tmp2 := (_mm_add_ps tmp2 (_mm_mul_ps b b_xzwy)) in
  let tmp2 := (_mm_mul_ps tmp2 scale) in
  let tmp3 := (_mm_mul_ps b b_xwyz) in
  let tmp3 := (_mm_sub_ps tmp3 (_mm_mul_ps b_xxxx b_xzwy)) in
  let tmp3 := (_mm_mul_ps tmp3 scale) in
  let p1_in_xzwy := (KLN_SWIZZLE p1_in 1 3 2 0) in
  let p1_in_xwyz := (KLN_SWIZZLE p1_in 2 1 3 0) in
  let p1_out := (_mm_mul_ps tmp p1_in) in
  let p1_out := (_mm_add_ps p1_out (_mm_mul_ps tmp2 p1_in_xzwy)) in
  let p1_out := (_mm_add_ps p1_out (_mm_mul_ps tmp3 p1_in_xwyz)) in
  let p2_out := (_mm_mul_ps tmp p2_in) in
  let p2_out := (_mm_add_ps p2_out (_mm_mul_ps tmp2 (KLN_SWIZZLE p2_in 1 3 2 0))) in
  let p2_out := (_mm_add_ps p2_out (_mm_mul_ps tmp3 (KLN_SWIZZLE p2_in 2 1 3 0))) in
  (p1_out, p2_out).

(** x86_sandwich_cxx11.inl 462-502: swMM<false, false, false> *)
Definition swMM_rot_branch_11 (p1_in : m128 F) (b : m128 F) : m128 F :=
  let b_xwyz := (KLN_SWIZZLE b 2 1 3 0) in
  let b_xzwy := (KLN_SWIZZLE b 1 3 2 0) in
  let b_yxxx := (KLN_SWIZZLE b 0 0 0 1) in
  let b_yxxx_2 := (_mm_mul_ps b_yxxx b_yxxx) in
  let tmp := (_mm_mul_ps b b) in
  let tmp := (_mm_add_ps tmp b_yxxx_2) in
  let b_tmp := (KLN_SWIZZLE b 2 1 3 2) in
  let tmp2 := (_mm_mul_ps b_tmp b_tmp) in
  let b_tmp := (KLN_SWIZZLE b 1 3 2 3) in
  let tmp2 := (_mm_add_ps tmp2 (_mm_mul_ps b_tmp b_tmp)) in
  let tmp := (_mm_sub_ps tmp (_mm_xor_ps sgn_ss tmp2)) in
  let b_xxxx := (KLN_SWIZZLE b 0 0 0 0) in
  let scale := (_mm_set_ps (fz 2) (fz 2) (fz 2) (fz 0)) in
  let tmp2 := (_mm_mul_ps b_xxxx b_xwyz) in
  let tmp2 := (_mm_add_ps tmp2 (_mm_mul_ps b b_xzwy)) in
  let tmp2 := (_mm_mul_ps tmp2 scale) in
  let tmp3 := (_mm_mul_ps b b_xwyz) in
  let tmp3 := (_mm_sub_ps tmp3 (_mm_mul_ps b_xxxx b_xzwy)) in
  let tmp3 := (_mm_mul_ps tmp3 scale) in
  let p1_in_xzwy := (KLN_SWIZZLE p1_in 1 3 2 0) in
  let p1_in_xwyz := (KLN_SWIZZLE p1_in 2 1 3 0) in
  let p1_out := (_mm_mul_ps tmp p1_in) in
  let p1_out := (_mm_add_ps p1_out (_mm_mul_ps tmp2 p1_in_xzwy)) in
  let p1_out := (_mm_add_ps p1_out (_mm_mul_ps tmp3 p1_in_xwyz)) in
  p1_out.

(** x86_sandwich_cxx11.inl 511-559: sw012<true, true> *)
Definition sw012_motor_11_body (a out : nat) (b c : m128 F) (i : nat) (m : mem F) : mem F :=
  let dc_scale := (_mm_set_ps (fz 2) (fz 2) (fz 2) (fz 1)) in
  let b_xwyz := (KLN_SWIZZLE b 2 1 3 0) in
  let b_xzwy := (KLN_SWIZZLE b 1 3 2 0) in
  let b_xxxx := (KLN_SWIZZLE b 0 0 0 0) in
  let tmp1 := (_mm_mul_ps (KLN_SWIZZLE b 0 0 0 2) (KLN_SWIZZLE b 2 1 3 2)) in
  let tmp1 := (_mm_add_ps tmp1 (_mm_mul_ps (KLN_SWIZZLE b 1 3 2 1) (KLN_SWIZZLE b 3 2 1 1))) in
  let tmp1 := (_mm_mul_ps tmp1 dc_scale) in
  let tmp2 := (_mm_mul_ps b b_xwyz) in
  let tmp2 := (_mm_sub_ps tmp2
      (_mm_xor_ps sgn_ss (_mm_mul_ps (KLN_SWIZZLE b 0 0 0 3) (KLN_SWIZZLE b 1 3 2 3)))) in
  let tmp2 := (_mm_mul_ps tmp2 dc_scale) in
  let tmp3 := (_mm_mul_ps b b) in
  let tmp3 := (_mm_sub_ps tmp3 (_mm_mul_ps b_xwyz b_xwyz)) in
  let tmp3 := (_mm_add_ps tmp3 (_mm_mul_ps b_xxxx b_xxxx)) in
  let tmp3 := (_mm_sub_ps tmp3 (_mm_mul_ps b_xzwy b_xzwy)) in
  let tmp4 := (_mm_mul_ps b_xxxx c) in
  let tmp4 := (_mm_add_ps tmp4 (_mm_mul_ps b_xzwy (KLN_SWIZZLE c 2 1 3 0))) in
  let tmp4 := (_mm_add_ps tmp4 (_mm_mul_ps b (KLN_SWIZZLE c 0 0 0 0))) in
  let tmp4 := (_mm_sub_ps tmp4 (_mm_mul_ps b_xwyz (KLN_SWIZZLE c 1 3 2 0))) in
  let tmp4 := (_mm_mul_ps tmp4 dc_scale) in
  let m := st m (out + i) (_mm_mul_ps tmp1 (KLN_SWIZZLE (m (a + i)) 1 3 2 0)) in
  let m := st m (out + i)
      (_mm_add_ps (m (out + i)) (_mm_mul_ps tmp2 (KLN_SWIZZLE (m (a + i)) 2 1 3 0))) in
  let m := st m (out + i) (_mm_add_ps (m (out + i)) (_mm_mul_ps tmp3 (m (a + i)))) in
  let tmp5 := (hi_dp tmp4 (m (a + i))) in
  let m := st m (out + i) (_mm_add_ps (m (out + i)) tmp5) in
  m.

Definition sw012_motor_11_run (a out : nat) (b c : m128 F) (count : nat) (m : mem F) : mem F :=
  for_loop (sw012_motor_11_body a out b c) 0 count m.

(** x86_sandwich_cxx11.inl 561-600: sw012<true, false> *)
Definition sw012_rotor_11_body (a out : nat) (b : m128 F) (i : nat) (m : mem F) : mem F :=
  let dc_scale := (_mm_set_ps (fz 2) (fz 2) (fz 2) (fz 1)) in
  let b_xwyz := (KLN_SWIZZLE b 2 1 3 0) in
  let b_xzwy := (KLN_SWIZZLE b 1 3 2 0) in
  let b_xxxx := (KLN_SWIZZLE b 0 0 0 0) in
  let tmp1 := (_mm_mul_ps (KLN_SWIZZLE b 0 0 0 2) (KLN_SWIZZLE b 2 1 3 2)) in
  let tmp1 := (_mm_add_ps tmp1 (_mm_mul_ps (KLN_SWIZZLE b 1 3 2 1) (KLN_SWIZZLE b 3 2 1 1))) in
  let tmp1 := (_mm_mul_ps tmp1 dc_scale) in
  let tmp2 := (_mm_mul_ps b b_xwyz) in
  let tmp2 := (_mm_sub_ps tmp2
      (_mm_xor_ps sgn_ss (_mm_mul_ps (KLN_SWIZZLE b 0 0 0 3) (KLN_SWIZZLE b 1 3 2 3)))) in
  let tmp2 := (_mm_mul_ps tmp2 dc_scale) in
  let tmp3 := (_mm_mul_ps b b) in
  let tmp3 := (_mm_sub_ps tmp3 (_mm_mul_ps b_xwyz b_xwyz)) in
  let tmp3 := (_mm_add_ps tmp3 (_mm_mul_ps b_xxxx b_xxxx)) in
  let tmp3 := (_mm_sub_ps tmp3 (_mm_mul_ps b_xzwy b_xzwy)) in
  let m := st m (out + i) (_mm_mul_ps tmp1 (KLN_SWIZZLE (m (a + i)) 1 3 2 0)) in
  let m := st m (out + i)
      (_mm_add_ps (m (out + i)) (_mm_mul_ps tmp2 (KLN_SWIZZLE (m (a + i)) 2 1 3 0))) in
  let m := st m (out + i) (_mm_add_ps (m (out + i)) (_mm_mul_ps tmp3 (m (a + i)))) in
  m.

Definition sw012_rotor_11_run (a out : nat) (b : m128 F) (count : nat) (m : mem F) : mem F :=
  for_loop (sw012_rotor_11_body a out b) 0 count m.

(** x86_sandwich_cxx11.inl 602-647: sw012<false, true> *)
Definition sw012_motor_11 (a : m128 F) (b c : m128 F) : m128 F :=
  let dc_scale := (_mm_set_ps (fz 2) (fz 2) (fz 2) (fz 1)) in
  let b_xwyz := (KLN_SWIZZLE b 2 1 3 0) in
  let b_xzwy := (KLN_SWIZZLE b 1 3 2 0) in
  let b_xxxx := (KLN_SWIZZLE b 0 0 0 0) in
  let tmp1 := (_mm_mul_ps (KLN_SWIZZLE b 0 0 0 2) (KLN_SWIZZLE b 2 1 3 2)) in
  let tmp1 := (_mm_add_ps tmp1 (_mm_mul_ps (KLN_SWIZZLE b 1 3 2 1) (KLN_SWIZZLE b 3 2 1 1))) in
  let tmp1 := (_mm_mul_ps tmp1 dc_scale) in
  let tmp2 := (_mm_mul_ps b b_xwyz) in
  let tmp2 := (_mm_sub_ps tmp2
      (_mm_xor_ps sgn_ss (_mm_mul_ps (KLN_SWIZZLE b 0 0 0 3) (KLN_SWIZZLE b 1 3 2 3)))) in
  let tmp2 := (_mm_mul_ps tmp2 dc_scale) in
  let tmp3 := (_mm_mul_ps b b) in
  let tmp3 := (_mm_sub_ps tmp3 (_mm_mul_ps b_xwyz b_xwyz)) in
  let tmp3 := (_mm_add_ps tmp3 (_mm_mul_ps b_xxxx b_xxxx)) in
  let tmp3 := (_mm_sub_ps tmp3 (_mm_mul_ps b_xzwy b_xzwy)) in
  let tmp4 := (_mm_mul_ps b_xxxx c) in
  let tmp4 := (_mm_add_ps tmp4 (_mm_mul_ps b_xzwy (KLN_SWIZZLE c 2 1 3 0))) in
  let tmp4 := (_mm_add_ps tmp4 (_mm_mul_ps b (KLN_SWIZZLE c 0 0 0 0))) in
  let tmp4 := (_mm_sub_ps tmp4 (_mm_mul_ps b_xwyz (KLN_SWIZZLE c 1 3 2 0))) in
  let tmp4 := (_mm_mul_ps tmp4 dc_scale) in
  let p := (_mm_mul_ps tmp1 (KLN_SWIZZLE a 1 3 2 0)) in
  let p := (_mm_add_ps p (_mm_mul_ps tmp2 (KLN_SWIZZLE a 2 1 3 0))) in
  let p := (_mm_add_ps p (_mm_mul_ps tmp3 a)) in
  let tmp5 := (hi_dp tmp4 a) in
  let p := (_mm_add_ps p tmp5) in
  p.

(** x86_sandwich_cxx11.inl 649-685: sw012<false, false> *)
Definition sw012_rotor_11 (a : m128 F) (b : m128 F) : m128 F :=
  let dc_scale := (_mm_set_ps (fz 2) (fz 2) (fz 2) (fz 1)) in
  let b_xwyz := (KLN_SWIZZLE b 2 1 3 0) in
  let b_xzwy := (KLN_SWIZZLE b 1 3 2 0) in
  let b_xxxx := (KLN_SWIZZLE b 0 0 0 0) in
  let tmp1 := (_mm_mul_ps (KLN_SWIZZLE b 0 0 0 2) (KLN_SWIZZLE b 2 1 3 2)) in
  let tmp1 := (_mm_add_ps tmp1 (_mm_mul_ps (KLN_SWIZZLE b 1 3 2 1) (KLN_SWIZZLE b 3 2 1 1))) in
  let tmp1 := (_mm_mul_ps tmp1 dc_scale) in
  let tmp2 := (_mm_mul_ps b b_xwyz) in
  let tmp2 := (_mm_sub_ps tmp2
      (_mm_xor_ps sgn_ss (_mm_mul_ps (KLN_SWIZZLE b 0 0 0 3) (KLN_SWIZZLE b 1 3 2 3)))) in
  let tmp2 := (_mm_mul_ps tmp2 dc_scale) in
  let tmp3 := (_mm_mul_ps b b) in
  let tmp3 := (_mm_sub_ps tmp3 (_mm_mul_ps b_xwyz b_xwyz)) in
  let tmp3 := (_mm_add_ps tmp3 (_mm_mul_ps b_xxxx b_xxxx)) in
  let tmp3 := (_mm_sub_ps tmp3 (_mm_mul_ps b_xzwy b_xzwy)) in
  let p := (_mm_mul_ps tmp1 (KLN_SWIZZLE a 1 3 2 0)) in
  let p := (_mm_add_ps p (_mm_mul_ps tmp2 (KLN_SWIZZLE a 2 1 3 0))) in
  let p := (_mm_add_ps p (_mm_mul_ps tmp3 a)) in
  p.

(** x86_sandwich_cxx11.inl 694-738: sw312<true, true> *)
Definition sw312_motor_11_body (a out : nat) (b c : m128 F) (i : nat) (m : mem F) : mem F :=
  let two := (_mm_set_ps (fz 2) (fz 2) (fz 2) (fz 0)) in
  let b_xxxx := (KLN_SWIZZLE b 0 0 0 0) in
  let b_xwyz := (KLN_SWIZZLE b 2 1 3 0) in
  let b_xzwy := (KLN_SWIZZLE b 1 3 2 0) in
  let tmp1 := (_mm_mul_ps b b_xwyz) in
  let tmp1 := (_mm_sub_ps tmp1 (_mm_mul_ps b_xxxx b_xzwy)) in
  let tmp1 := (_mm_mul_ps tmp1 two) in
  let tmp2 := (_mm_mul_ps b_xxxx b_xwyz) in
  let tmp2 := (_mm_add_ps tmp2 (_mm_mul_ps b_xzwy b)) in
  let tmp2 := (_mm_mul_ps tmp2 two) in
  let tmp3 := (_mm_mul_ps b b) in
  let b_tmp := (KLN_SWIZZLE b 0 0 0 1) in
  let tmp3 := (_mm_add_ps tmp3 (_mm_mul_ps b_tmp b_tmp)) in
  let b_tmp := (KLN_SWIZZLE b 2 1 3 2) in
  let tmp4 := (_mm_mul_ps b_tmp b_tmp) in
  let b_tmp := (KLN_SWIZZLE b 1 3 2 3) in
  let tmp4 := (_mm_add_ps tmp4 (_mm_mul_ps b_tmp b_tmp)) in
  let tmp3 := (_mm_sub_ps tmp3 (_mm_xor_ps sgn_ss tmp4)) in
  let tmp4 := (_mm_mul_ps b_xzwy (KLN_SWIZZLE c 2 1 3 0)) in
  let tmp4 := (_mm_sub_ps tmp4 (_mm_mul_ps b_xxxx c)) in
  let tmp4 := (_mm_sub_ps tmp4 (_mm_mul_ps b_xwyz (KLN_SWIZZLE c 1 3 2 0))) in
  let tmp4 := (_mm_sub_ps tmp4 (_mm_mul_ps b (KLN_SWIZZLE c 0 0 0 0))) in
  let tmp4 := (_mm_mul_ps tmp4 two) in
  let m := st m (out + i) (_mm_mul_ps tmp1 (KLN_SWIZZLE (m (a + i)) 2 1 3 0)) in
  let m := st m (out + i)
      (_mm_add_ps (m (out + i)) (_mm_mul_ps tmp2 (KLN_SWIZZLE (m (a + i)) 1 3 2 0))) in
  let m := st m (out + i) (_mm_add_ps (m (out + i)) (_mm_mul_ps tmp3 (m (a + i)))) in
  let m := st m (out + i)
      (_mm_add_ps (m (out + i)) (_mm_mul_ps tmp4 (KLN_SWIZZLE (m (a + i)) 0 0 0 0))) in
  m.

Definition sw312_motor_11_run (a out : nat) (b c : m128 F) (count : nat) (m : mem F) : mem F :=
  for_loop (sw312_motor_11_body a out b c) 0 count m.

(** x86_sandwich_cxx11.inl 740-776: sw312<true, false> *)
Definition sw312_rotor_11_body (a out : nat) (b : m128 F) (i : nat) (m : mem F) : mem F :=
  let two := (_mm_set_ps (fz 2) (fz 2) (fz 2) (fz 0)) in
  let b_xxxx := (KLN_SWIZZLE b 0 0 0 0) in
  let b_xwyz := (KLN_SWIZZLE b 2 1 3 0) in
  let b_xzwy := (KLN_SWIZZLE b 1 3 2 0) in
  let tmp1 := (_mm_mul_ps b b_xwyz) in
  let tmp1 := (_mm_sub_ps tmp1 (_mm_mul_ps b_xxxx b_xzwy)) in
  let tmp1 := (_mm_mul_ps tmp1 two) in
  let tmp2 := (_mm_mul_ps b_xxxx b_xwyz) in
  let tmp2 := (_mm_add_ps tmp2 (_mm_mul_ps b_xzwy b)) in
  let tmp2 := (_mm_mul_ps tmp2 two) in
  let tmp3 := (_mm_mul_ps b b) in
  let b_tmp := (KLN_SWIZZLE b 0 0 0 1) in
  let tmp3 := (_mm_add_ps tmp3 (_mm_mul_ps b_tmp b_tmp)) in
  let b_tmp := (KLN_SWIZZLE b 2 1 3 2) in
  let tmp4 := (_mm_mul_ps b_tmp b_tmp) in
  let b_tmp := (KLN_SWIZZLE b 1 3 2 3) in
  let tmp4 := (_mm_add_ps tmp4 (_mm_mul_ps b_tmp b_tmp)) in
  let tmp3 := (_mm_sub_ps tmp3 (_mm_xor_ps sgn_ss tmp4)) in
  let m := st m (out + i) (_mm_mul_ps tmp1 (KLN_SWIZZLE (m (a + i)) 2 1 3 0)) in
  let m := st m (out + i)
      (_mm_add_ps (m (out + i)) (_mm_mul_ps tmp2 (KLN_SWIZZLE (m (a + i)) 1 3 2 0))) in
  let m := st m (out + i) (_mm_add_ps (m (out + i)) (_mm_mul_ps tmp3 (m (a + i)))) in
  m.

Definition sw312_rotor_11_run (a out : nat) (b : m128 F) (count : nat) (m : mem F) : mem F :=
  for_loop (sw312_rotor_11_body a out b) 0 count m.

(** x86_sandwich_cxx11.inl 778-820: sw312<false, true> *)
Definition sw312_motor_11 (a : m128 F) (b c : m128 F) : m128 F :=
  let two := (_mm_set_ps (fz 2) (fz 2) (fz 2) (fz 0)) in
  let b_xxxx := (KLN_SWIZZLE b 0 0 0 0) in
  let b_xwyz := (KLN_SWIZZLE b 2 1 3 0) in
  let b_xzwy := (KLN_SWIZZLE b 1 3 2 0) in
  let tmp1 := (_mm_mul_ps b b_xwyz) in
  let tmp1 := (_mm_sub_ps tmp1 (_mm_mul_ps b_xxxx b_xzwy)) in
  let tmp1 := (_mm_mul_ps tmp1 two) in
  let tmp2 := (_mm_mul_ps b_xxxx b_xwyz) in
  let tmp2 := (_mm_add_ps tmp2 (_mm_mul_ps b_xzwy b)) in
  let tmp2 := (_mm_mul_ps tmp2 two) in
  let tmp3 := (_mm_mul_ps b b) in
  let b_tmp := (KLN_SWIZZLE b 0 0 0 1) in
  let tmp3 := (_mm_add_ps tmp3 (_mm_mul_ps b_tmp b_tmp)) in
  let b_tmp := (KLN_SWIZZLE b 2 1 3 2) in
  let tmp4 := (_mm_mul_ps b_tmp b_tmp) in
  let b_tmp := (KLN_SWIZZLE b 1 3 2 3) in
  let tmp4 := (_mm_add_ps tmp4 (_mm_mul_ps b_tmp b_tmp)) in
  let tmp3 := (_mm_sub_ps tmp3 (_mm_xor_ps sgn_ss tmp4)) in
  let tmp4 := (_mm_mul_ps b_xzwy (KLN_SWIZZLE c 2 1 3 0)) in
  let tmp4 := (_mm_sub_ps tmp4 (_mm_mul_ps b_xxxx c)) in
  let tmp4 := (_mm_sub_ps tmp4 (_mm_mul_ps b_xwyz (KLN_SWIZZLE c 1 3 2 0))) in
  let tmp4 := (_mm_sub_ps tmp4 (_mm_mul_ps b (KLN_SWIZZLE c 0 0 0 0))) in
  let tmp4 := (_mm_mul_ps tmp4 two) in
  let p := (_mm_mul_ps tmp1 (KLN_SWIZZLE a 2 1 3 0)) in
  let p := (_mm_add_ps p (_mm_mul_ps tmp2 (KLN_SWIZZLE a 1 3 2 0))) in
  let p := (_mm_add_ps p (_mm_mul_ps tmp3 a)) in
  let p := (_mm_add_ps p (_mm_mul_ps tmp4 (KLN_SWIZZLE a 0 0 0 0))) in
  p.

(** x86_sandwich_cxx11.inl 822-854: sw312<false, false> *)
Definition sw312_rotor_11 (a : m128 F) (b : m128 F) : m128 F :=
  let two := (_mm_set_ps (fz 2) (fz 2) (fz 2) (fz 0)) in
  let b_xxxx := (KLN_SWIZZLE b 0 0 0 0) in
  let b_xwyz := (KLN_SWIZZLE b 2 1 3 0) in
  let b_xzwy := (KLN_SWIZZLE b 1 3 2 0) in
  let tmp1 := (_mm_mul_ps b b_xwyz) in
  let tmp1 := (_mm_sub_ps tmp1 (_mm_mul_ps b_xxxx b_xzwy)) in
  let tmp1 := (_mm_mul_ps tmp1 two) in
  let tmp2 := (_mm_mul_ps b_xxxx b_xwyz) in
  let tmp2 := (_mm_add_ps tmp2 (_mm_mul_ps b_xzwy b)) in
  let tmp2 := (_mm_mul_ps tmp2 two) in
  let tmp3 := (_mm_mul_ps b b) in
  let b_tmp := (KLN_SWIZZLE b 0 0 0 1) in
  let tmp3 := (_mm_add_ps tmp3 (_mm_mul_ps b_tmp b_tmp)) in
  let b_tmp := (KLN_SWIZZLE b 2 1 3 2) in
  let tmp4 := (_mm_mul_ps b_tmp b_tmp) in
  let b_tmp := (KLN_SWIZZLE b 1 3 2 3) in
  let tmp4 := (_mm_add_ps tmp4 (_mm_mul_ps b_tmp b_tmp)) in
  let tmp3 := (_mm_sub_ps tmp3 (_mm_xor_ps sgn_ss tmp4)) in
  let p := (_mm_mul_ps tmp1 (KLN_SWIZZLE a 2 1 3 0)) in
  let p := (_mm_add_ps p (_mm_mul_ps tmp2 (KLN_SWIZZLE a 1 3 2 0))) in
  let p := (_mm_add_ps p (_mm_mul_ps tmp3 a)) in
  p.

End SW11.
