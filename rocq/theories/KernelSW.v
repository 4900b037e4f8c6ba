(** Sandwich (conjugation) kernels, C++17 bodies.
    Model of /repo/public/klein/detail/x86/x86_sandwich.hpp.

    [swMM], [sw012] and [sw312] are modelled twice from the same source lines:
    - as pure functions of one element, which is what the non-variadic
      instantiations compute into a fresh local;
    - as programs over a memory of registers ([.._run]), reads and writes in
      program order, which is what the variadic instantiations do with the
      caller's [in]/[out] pointers (possibly overlapping).
    The unused instantiation swMM<_, true, false> is not modelled: no header of
    the library instantiates it. *)
From Coq Require Import ZArith.
From Verif Require Import Scalar SSE.

Section SW.
Context {F : Type} {A : Arith F} {B : Build}.

(** x86_sandwich.hpp 32-59 *)
Definition sw00 (a b : m128 F) : m128 F :=
  let a_zzwy := (KLN_SWIZZLE a 1 3 2 2) in
  let a_wwyz := (KLN_SWIZZLE a 2 1 3 3) in
  let tmp := (_mm_mul_ps a_zzwy (KLN_SWIZZLE b 1 3 2 2)) in
  let tmp := (_mm_add_ps tmp (_mm_mul_ps a_wwyz (KLN_SWIZZLE b 2 1 3 3))) in
  let a1 := (_mm_movehdup_ps a) in
  let b1 := (_mm_movehdup_ps b) in
  let tmp := (_mm_add_ss tmp (_mm_mul_ss a1 b1)) in
  let tmp := (_mm_mul_ps tmp (_mm_add_ps a a)) in
  let a_yyzw := (KLN_SWIZZLE a 3 2 1 1) in
  let tmp2 := (_mm_xor_ps sgn_ss (_mm_mul_ps a_yyzw a_yyzw)) in
  let tmp2 := (_mm_sub_ps tmp2 (_mm_mul_ps a_zzwy a_zzwy)) in
  let tmp2 := (_mm_sub_ps tmp2 (_mm_mul_ps a_wwyz a_wwyz)) in
  let tmp2 := (_mm_mul_ps tmp2 b) in
  let p0_out := (_mm_add_ps tmp tmp2) in
  p0_out.

(** x86_sandwich.hpp 61-98 *)
Definition sw10 (a b : m128 F) : m128 F * m128 F :=
  let a_zyzw := (KLN_SWIZZLE a 3 2 1 2) in
  let a_ywyz := (KLN_SWIZZLE a 2 1 3 1) in
  let a_wzwy := (KLN_SWIZZLE a 1 3 2 3) in
  let b_xzwy := (KLN_SWIZZLE b 1 3 2 0) in
  let two_zero := (_mm_set_ps (fz 2) (fz 2) (fz 2) (fz 0)) in
  let p1 := (_mm_mul_ps a b) in
  let p1 := (_mm_add_ps p1 (_mm_mul_ps a_wzwy b_xzwy)) in
  let p1 := (_mm_mul_ps p1 (_mm_mul_ps a_ywyz two_zero)) in
  let tmp := (_mm_mul_ps a_zyzw a_zyzw) in
  let tmp := (_mm_add_ps tmp (_mm_mul_ps a_wzwy a_wzwy)) in
  let tmp := (_mm_xor_ps sgn_ss tmp) in
  let tmp := (_mm_sub_ps (_mm_mul_ps a_ywyz a_ywyz) tmp) in
  let tmp := (_mm_mul_ps (KLN_SWIZZLE b 2 1 3 0) tmp) in
  let p1 := (KLN_SWIZZLE (_mm_add_ps p1 tmp) 1 3 2 0) in
  let p2 := (_mm_mul_ps a_zyzw b_xzwy) in
  let p2 := (_mm_sub_ps p2 (_mm_mul_ps a_wzwy b)) in
  let p2 := (_mm_mul_ps p2 (_mm_mul_ps (KLN_SWIZZLE a 0 0 0 0) two_zero)) in
  let p2 := (KLN_SWIZZLE p2 1 3 2 0) in
  (p1, p2).

(** x86_sandwich.hpp 100-122 *)
Definition sw20 (a b : m128 F) : m128 F :=
  let a_zzwy := (KLN_SWIZZLE a 1 3 2 2) in
  let a_wwyz := (KLN_SWIZZLE a 2 1 3 3) in
  let p2 := (_mm_mul_ps a b) in
  let p2 := (_mm_add_ps p2 (_mm_mul_ps a_zzwy (KLN_SWIZZLE b 1 3 2 0))) in
  let p2 := (_mm_mul_ps p2
      (_mm_mul_ps a_wwyz (_mm_set_ps (fz (-2)) (fz (-2)) (fz (-2)) (fz 0)))) in
  let a_yyzw := (KLN_SWIZZLE a 3 2 1 1) in
  let tmp := (_mm_mul_ps a_yyzw a_yyzw) in
  let tmp := (_mm_xor_ps sgn_ss (_mm_add_ps tmp (_mm_mul_ps a_zzwy a_zzwy))) in
  let tmp := (_mm_sub_ps tmp (_mm_mul_ps a_wwyz a_wwyz)) in
  let p2 := (_mm_add_ps p2 (_mm_mul_ps tmp (KLN_SWIZZLE b 2 1 3 0))) in
  let p2 := (KLN_SWIZZLE p2 1 3 2 0) in
  p2.

(** x86_sandwich.hpp 124-150 *)
Definition sw30 (a b : m128 F) : m128 F :=
  let a_zwyz := (KLN_SWIZZLE a 2 1 3 2) in
  let a_yzwy := (KLN_SWIZZLE a 1 3 2 1) in
  let p3_out := (_mm_mul_ps (KLN_SWIZZLE a 0 0 0 0) (KLN_SWIZZLE b 0 0 0 0)) in
  let p3_out := (_mm_add_ps p3_out (_mm_mul_ps a_zwyz (KLN_SWIZZLE b 2 1 3 0))) in
  let p3_out := (_mm_add_ps p3_out (_mm_mul_ps a_yzwy (KLN_SWIZZLE b 1 3 2 0))) in
  let p3_out := (_mm_mul_ps p3_out
      (_mm_mul_ps a (_mm_set_ps (fz (-2)) (fz (-2)) (fz (-2)) (fz 0)))) in
  let tmp := (_mm_mul_ps a_yzwy a_yzwy) in
  let tmp := (_mm_add_ps tmp (_mm_mul_ps a_zwyz a_zwyz)) in
  let a_wyzw := (KLN_SWIZZLE a 3 2 1 3) in
  let tmp := (_mm_sub_ps tmp (_mm_xor_ps sgn_ss (_mm_mul_ps a_wyzw a_wyzw))) in
  let p3_out := (_mm_add_ps p3_out (_mm_mul_ps b tmp)) in
  p3_out.

(** x86_sandwich.hpp 197-227 *)
Definition swL2 (a d c : m128 F) : m128 F * m128 F :=
  let p1_out := a in
  let p2_out := (_mm_mul_ps (KLN_SWIZZLE a 1 3 2 0) (KLN_SWIZZLE c 2 1 3 0)) in
  let p2_out := (_mm_sub_ps p2_out
      (_mm_mul_ps (KLN_SWIZZLE a 2 1 3 0) (KLN_SWIZZLE c 1 3 2 0))) in
  let p2_out := (_mm_sub_ps p2_out (_mm_xor_ps sgn_ss (_mm_mul_ps a (KLN_SWIZZLE c 0 0 0 0))))
      in
  let p2_out := (_mm_add_ps p2_out p2_out) in
  let p2_out := (_mm_add_ps p2_out d) in
  (p1_out, p2_out).

(** x86_sandwich.hpp 234-245 *)
Definition sw32 (a b : m128 F) : m128 F :=
  let tmp := (_mm_mul_ps (KLN_SWIZZLE a 0 0 0 0) b) in
  let tmp := (_mm_mul_ps (_mm_set_ps (fz (-2)) (fz (-2)) (fz (-2)) (fz 0)) tmp) in
  let tmp := (_mm_add_ps a tmp) in
  tmp.

(** ** swMM: motor/rotor applied to a line or branch, 254-398 *)

(** Temporaries that depend on b only, 270-294: (tmp, tmp2, tmp3). *)
Definition swMM_rot (b : m128 F) : m128 F * m128 F * m128 F :=
  let b_xwyz := (KLN_SWIZZLE b 2 1 3 0) in
  let b_xzwy := (KLN_SWIZZLE b 1 3 2 0) in
  let b_yxxx := (KLN_SWIZZLE b 0 0 0 1) in
  let b_yxxx_2 := (_mm_mul_ps b_yxxx b_yxxx) in
  let tmp := (_mm_mul_ps b b) in
  let tmp := (_mm_add_ps tmp b_yxxx_2) in
  let b_tmp := (KLN_SWIZZLE b 2 1 3 2) in
  let tmp2 := (_mm_mul_ps b_tmp b_tmp) in
  let b_tmp := (KLN_SWIZZLE b 1 3 2 3) in
  let tmp2 := (_mm_add_ps tmp2 (_mm_mul_ps b_tmp b_tmp)) in
  let tmp := (_mm_sub_ps tmp (_mm_xor_ps sgn_ss tmp2)) in
  let b_xxxx := (KLN_SWIZZLE b 0 0 0 0) in
  let scale := (_mm_set_ps (fz 2) (fz 2) (fz 2) (fz 0)) in
  let tmp2 := (_mm_mul_ps b_xxxx b_xwyz) in
  let tmp2 := (_mm_add_ps tmp2 (_mm_mul_ps b b_xzwy)) in
  let tmp2 := (_mm_mul_ps tmp2 scale) in
  let tmp3 := (_mm_mul_ps b b_xwyz) in
  let tmp3 := (_mm_sub_ps tmp3 (_mm_mul_ps b_xxxx b_xzwy)) in
  let tmp3 := (_mm_mul_ps tmp3 scale) in
  (tmp, tmp2, tmp3).

(** The [if constexpr (Translate)] block, 333-361: (tmp4, tmp5, tmp6).
    b_xwyz .. b_xxxx and scale are recomputed from lines 270-285. *)
Definition swMM_trans (b c : m128 F) : m128 F * m128 F * m128 F :=
  let b_xwyz := (KLN_SWIZZLE b 2 1 3 0) in
  let b_xzwy := (KLN_SWIZZLE b 1 3 2 0) in
  let b_yxxx := (KLN_SWIZZLE b 0 0 0 1) in
  let b_xxxx := (KLN_SWIZZLE b 0 0 0 0) in
  let scale := (_mm_set_ps (fz 2) (fz 2) (fz 2) (fz 0)) in
  let czero := (KLN_SWIZZLE c 0 0 0 0) in
  let c_xzwy := (KLN_SWIZZLE c 1 3 2 0) in
  let c_xwyz := (KLN_SWIZZLE c 2 1 3 0) in
  let tmp4 := (_mm_mul_ps b c) in
  let tmp4 := (_mm_sub_ps tmp4 (_mm_mul_ps b_yxxx (KLN_SWIZZLE c 0 0 0 1))) in
  let tmp4 := (_mm_sub_ps tmp4 (_mm_mul_ps (KLN_SWIZZLE b 1 3 3 2) (KLN_SWIZZLE c 1 3 3 2))) in
  let tmp4 := (_mm_sub_ps tmp4 (_mm_mul_ps (KLN_SWIZZLE b 2 1 2 3) (KLN_SWIZZLE c 2 1 2 3))) in
  let tmp4 := (_mm_add_ps tmp4 tmp4) in
  let tmp5 := (_mm_mul_ps b c_xwyz) in
  let tmp5 := (_mm_add_ps tmp5 (_mm_mul_ps b_xzwy czero)) in
  let tmp5 := (_mm_add_ps tmp5 (_mm_mul_ps b_xwyz c)) in
  let tmp5 := (_mm_sub_ps tmp5 (_mm_mul_ps b_xxxx c_xzwy)) in
  let tmp5 := (_mm_mul_ps tmp5 scale) in
  let tmp6 := (_mm_mul_ps b c_xzwy) in
  let tmp6 := (_mm_add_ps tmp6 (_mm_mul_ps b_xxxx c_xwyz)) in
  let tmp6 := (_mm_add_ps tmp6 (_mm_mul_ps b_xzwy c)) in
  let tmp6 := (_mm_sub_ps tmp6 (_mm_mul_ps b_xwyz czero)) in
  let tmp6 := (_mm_mul_ps tmp6 scale) in
  (tmp4, tmp5, tmp6).

(** swMM<false, true, true>: one line or motor. *)
Definition swMM_line (p1_in p2_in b c : m128 F) : m128 F * m128 F :=
  let '(tmp, tmp2, tmp3) := swMM_rot b in
  let '(tmp4, tmp5, tmp6) := swMM_trans b c in
  let p1_in_xzwy := (KLN_SWIZZLE p1_in 1 3 2 0) in
  let p1_in_xwyz := (KLN_SWIZZLE p1_in 2 1 3 0) in
  let p1_out := (_mm_mul_ps tmp p1_in) in
  let p1_out := (_mm_add_ps p1_out (_mm_mul_ps tmp2 p1_in_xzwy)) in
  let p1_out := (_mm_add_ps p1_out (_mm_mul_ps tmp3 p1_in_xwyz)) in
  let p2_out := (_mm_mul_ps tmp p2_in) in
  let p2_out := (_mm_add_ps p2_out (_mm_mul_ps tmp2 (KLN_SWIZZLE p2_in 1 3 2 0))) in
  let p2_out := (_mm_add_ps p2_out (_mm_mul_ps tmp3 (KLN_SWIZZLE p2_in 2 1 3 0))) in
  let p2_out := (_mm_add_ps p2_out (_mm_mul_ps tmp4 p1_in)) in
  let p2_out := (_mm_add_ps p2_out (_mm_mul_ps tmp5 p1_in_xwyz)) in
  let p2_out := (_mm_add_ps p2_out (_mm_mul_ps tmp6 p1_in_xzwy)) in
  (p1_out, p2_out).

(** swMM<false, false, true>: rotor applied to a line. *)
Definition swMM_rot_line (p1_in p2_in b : m128 F) : m128 F * m128 F :=
  let '(tmp, tmp2, tmp3) := swMM_rot b in
  let p1_in_xzwy := (KLN_SWIZZLE p1_in 1 3 2 0) in
  let p1_in_xwyz := (KLN_SWIZZLE p1_in 2 1 3 0) in
  let p1_out := (_mm_mul_ps tmp p1_in) in
  let p1_out := (_mm_add_ps p1_out (_mm_mul_ps tmp2 p1_in_xzwy)) in
  let p1_out := (_mm_add_ps p1_out (_mm_mul_ps tmp3 p1_in_xwyz)) in
  let p2_out := (_mm_mul_ps tmp p2_in) in
  let p2_out := (_mm_add_ps p2_out (_mm_mul_ps tmp2 (KLN_SWIZZLE p2_in 1 3 2 0))) in
  let p2_out := (_mm_add_ps p2_out (_mm_mul_ps tmp3 (KLN_SWIZZLE p2_in 2 1 3 0))) in
  (p1_out, p2_out).

(** swMM<false, false, false>: rotor applied to a branch. *)
Definition swMM_rot_branch (p1_in b : m128 F) : m128 F :=
  let '(tmp, tmp2, tmp3) := swMM_rot b in
  let p1_in_xzwy := (KLN_SWIZZLE p1_in 1 3 2 0) in
  let p1_in_xwyz := (KLN_SWIZZLE p1_in 2 1 3 0) in
  let p1_out := (_mm_mul_ps tmp p1_in) in
  let p1_out := (_mm_add_ps p1_out (_mm_mul_ps tmp2 p1_in_xzwy)) in
  let p1_out := (_mm_add_ps p1_out (_mm_mul_ps tmp3 p1_in_xwyz)) in
  p1_out.

(** ** sw012: motor/rotor applied to a plane, 407-511 *)

(** 443-470: (tmp1, tmp2, tmp3) *)
Definition sw012_rot (b : m128 F) : m128 F * m128 F * m128 F :=
  let dc_scale := (_mm_set_ps (fz 2) (fz 2) (fz 2) (fz 1)) in
  let b_xwyz := (KLN_SWIZZLE b 2 1 3 0) in
  let b_xzwy := (KLN_SWIZZLE b 1 3 2 0) in
  let b_xxxx := (KLN_SWIZZLE b 0 0 0 0) in
  let tmp1 := (_mm_mul_ps (KLN_SWIZZLE b 0 0 0 2) (KLN_SWIZZLE b 2 1 3 2)) in
  let tmp1 := (_mm_add_ps tmp1 (_mm_mul_ps (KLN_SWIZZLE b 1 3 2 1) (KLN_SWIZZLE b 3 2 1 1))) in
  let tmp1 := (_mm_mul_ps tmp1 dc_scale) in
  let tmp2 := (_mm_mul_ps b b_xwyz) in
  let tmp2 := (_mm_sub_ps tmp2
      (_mm_xor_ps sgn_ss (_mm_mul_ps (KLN_SWIZZLE b 0 0 0 3) (KLN_SWIZZLE b 1 3 2 3)))) in
  let tmp2 := (_mm_mul_ps tmp2 dc_scale) in
  let tmp3 := (_mm_mul_ps b b) in
  let tmp3 := (_mm_sub_ps tmp3 (_mm_mul_ps b_xwyz b_xwyz)) in
  let tmp3 := (_mm_add_ps tmp3 (_mm_mul_ps b_xxxx b_xxxx)) in
  let tmp3 := (_mm_sub_ps tmp3 (_mm_mul_ps b_xzwy b_xzwy)) in
  (tmp1, tmp2, tmp3).

(** 480-491: tmp4 *)
Definition sw012_trans (b c : m128 F) : m128 F :=
  let dc_scale := (_mm_set_ps (fz 2) (fz 2) (fz 2) (fz 1)) in
  let b_xwyz := (KLN_SWIZZLE b 2 1 3 0) in
  let b_xzwy := (KLN_SWIZZLE b 1 3 2 0) in
  let b_xxxx := (KLN_SWIZZLE b 0 0 0 0) in
  let tmp4 := (_mm_mul_ps b_xxxx c) in
  let tmp4 := (_mm_add_ps tmp4 (_mm_mul_ps b_xzwy (KLN_SWIZZLE c 2 1 3 0))) in
  let tmp4 := (_mm_add_ps tmp4 (_mm_mul_ps b (KLN_SWIZZLE c 0 0 0 0))) in
  let tmp4 := (_mm_sub_ps tmp4 (_mm_mul_ps b_xwyz (KLN_SWIZZLE c 1 3 2 0))) in
  let tmp4 := (_mm_mul_ps tmp4 dc_scale) in
  tmp4.

(** sw012<false, true> *)
Definition sw012_motor (a_i b c : m128 F) : m128 F :=
  let '(tmp1, tmp2, tmp3) := sw012_rot b in
  let tmp4 := sw012_trans b c in
  let p := (_mm_mul_ps tmp1 (KLN_SWIZZLE a_i 1 3 2 0)) in
  let p := (_mm_add_ps p (_mm_mul_ps tmp2 (KLN_SWIZZLE a_i 2 1 3 0))) in
  let p := (_mm_add_ps p (_mm_mul_ps tmp3 a_i)) in
  let tmp5 := (hi_dp tmp4 a_i) in
  let p := (_mm_add_ps p tmp5) in
  p.

(** sw012<false, false> *)
Definition sw012_rotor (a_i b : m128 F) : m128 F :=
  let '(tmp1, tmp2, tmp3) := sw012_rot b in
  let p := (_mm_mul_ps tmp1 (KLN_SWIZZLE a_i 1 3 2 0)) in
  let p := (_mm_add_ps p (_mm_mul_ps tmp2 (KLN_SWIZZLE a_i 2 1 3 0))) in
  let p := (_mm_add_ps p (_mm_mul_ps tmp3 a_i)) in
  p.

(** ** sw312: motor/rotor applied to a point, 514-598 *)

(** 546-569: (tmp1, tmp2, tmp3) *)
Definition sw312_rot (b : m128 F) : m128 F * m128 F * m128 F :=
  let two := (_mm_set_ps (fz 2) (fz 2) (fz 2) (fz 0)) in
  let b_xxxx := (KLN_SWIZZLE b 0 0 0 0) in
  let b_xwyz := (KLN_SWIZZLE b 2 1 3 0) in
  let b_xzwy := (KLN_SWIZZLE b 1 3 2 0) in
  let tmp1 := (_mm_mul_ps b b_xwyz) in
  let tmp1 := (_mm_sub_ps tmp1 (_mm_mul_ps b_xxxx b_xzwy)) in
  let tmp1 := (_mm_mul_ps tmp1 two) in
  let tmp2 := (_mm_mul_ps b_xxxx b_xwyz) in
  let tmp2 := (_mm_add_ps tmp2 (_mm_mul_ps b_xzwy b)) in
  let tmp2 := (_mm_mul_ps tmp2 two) in
  let tmp3 := (_mm_mul_ps b b) in
  let b_tmp := (KLN_SWIZZLE b 0 0 0 1) in
  let tmp3 := (_mm_add_ps tmp3 (_mm_mul_ps b_tmp b_tmp)) in
  let b_tmp := (KLN_SWIZZLE b 2 1 3 2) in
  let tmp4 := (_mm_mul_ps b_tmp b_tmp) in
  let b_tmp := (KLN_SWIZZLE b 1 3 2 3) in
  let tmp4 := (_mm_add_ps tmp4 (_mm_mul_ps b_tmp b_tmp)) in
  let tmp3 := (_mm_sub_ps tmp3 (_mm_xor_ps sgn_ss tmp4)) in
  (tmp1, tmp2, tmp3).

(** 571-582: tmp4 *)
Definition sw312_trans (b c : m128 F) : m128 F :=
  let two := (_mm_set_ps (fz 2) (fz 2) (fz 2) (fz 0)) in
  let b_xxxx := (KLN_SWIZZLE b 0 0 0 0) in
  let b_xwyz := (KLN_SWIZZLE b 2 1 3 0) in
  let b_xzwy := (KLN_SWIZZLE b 1 3 2 0) in
  let tmp4 := (_mm_mul_ps b_xzwy (KLN_SWIZZLE c 2 1 3 0)) in
  let tmp4 := (_mm_sub_ps tmp4 (_mm_mul_ps b_xxxx c)) in
  let tmp4 := (_mm_sub_ps tmp4 (_mm_mul_ps b_xwyz (KLN_SWIZZLE c 1 3 2 0))) in
  let tmp4 := (_mm_sub_ps tmp4 (_mm_mul_ps b (KLN_SWIZZLE c 0 0 0 0))) in
  let tmp4 := (_mm_mul_ps tmp4 two) in
  tmp4.

(** sw312<false, true> *)
Definition sw312_motor (a_i b c : m128 F) : m128 F :=
  let '(tmp1, tmp2, tmp3) := sw312_rot b in
  let tmp4 := sw312_trans b c in
  let p := (_mm_mul_ps tmp1 (KLN_SWIZZLE a_i 2 1 3 0)) in
  let p := (_mm_add_ps p (_mm_mul_ps tmp2 (KLN_SWIZZLE a_i 1 3 2 0))) in
  let p := (_mm_add_ps p (_mm_mul_ps tmp3 a_i)) in
  let p := (_mm_add_ps p (_mm_mul_ps tmp4 (KLN_SWIZZLE a_i 0 0 0 0))) in
  p.

(** sw312<false, false> *)
Definition sw312_rotor (a_i b : m128 F) : m128 F :=
  let '(tmp1, tmp2, tmp3) := sw312_rot b in
  let p := (_mm_mul_ps tmp1 (KLN_SWIZZLE a_i 2 1 3 0)) in
  let p := (_mm_add_ps p (_mm_mul_ps tmp2 (KLN_SWIZZLE a_i 1 3 2 0))) in
  let p := (_mm_add_ps p (_mm_mul_ps tmp3 a_i)) in
  p.

(** x86_sandwich.hpp 607-627 *)
Definition swo12 (b c : m128 F) : m128 F :=
  let tmp := (_mm_mul_ps b (KLN_SWIZZLE c 0 0 0 0)) in
  let tmp := (_mm_add_ps tmp (_mm_mul_ps (KLN_SWIZZLE b 0 0 0 0) c)) in
  let tmp := (_mm_add_ps tmp (_mm_mul_ps (KLN_SWIZZLE b 2 1 3 0) (KLN_SWIZZLE c 1 3 2 0))) in
  let tmp := (_mm_sub_ps (_mm_mul_ps (KLN_SWIZZLE b 1 3 2 0) (KLN_SWIZZLE c 2 1 3 0)) tmp) in
  let tmp := (_mm_mul_ps tmp (_mm_set_ps (fz 2) (fz 2) (fz 2) (fz 0))) in
  (_mm_add_ps tmp (_mm_set_ss (fz 1))).

(** ** Variadic instantiations as memory programs.
    Addresses count registers; [in], [a], [out] are the caller's pointers.
    [m] is the memory; every use of a C++ reference is a read of [m] at that
    point.  The motor registers b and c are passed by value here: in the
    source b is a reference or a value and c a pointer into the motor, which
    the callers never place inside the output range. *)
Definition mem := nat -> m128 F.
Definition st (m : mem) (x : nat) (v : m128 F) : mem :=
  fun y => if Nat.eqb y x then v else m y.

(** for (size_t i = 0; i != limit; ++i), run as [limit] steps from [i] *)
Fixpoint for_loop (body : nat -> mem -> mem) (i limit : nat) (m : mem) : mem :=
  match limit with
  | O => m
  | S k => for_loop body (S i) k (body i m)
  end.

(** 365-397 with Translate = InputP2 = true *)
Definition swMM_line_body (src out : nat) (b c : m128 F) (i : nat) (m : mem) : mem :=
  let '(tmp, tmp2, tmp3) := swMM_rot b in
  let '(tmp4, tmp5, tmp6) := swMM_trans b c in
  let p1_in_xzwy := (KLN_SWIZZLE (m (src + 2 * i)) 1 3 2 0) in
  let p1_in_xwyz := (KLN_SWIZZLE (m (src + 2 * i)) 2 1 3 0) in
  let m := st m (out + 2 * i) (_mm_mul_ps tmp (m (src + 2 * i))) in
  let m := st m (out + 2 * i) (_mm_add_ps (m (out + 2 * i)) (_mm_mul_ps tmp2 p1_in_xzwy)) in
  let m := st m (out + 2 * i) (_mm_add_ps (m (out + 2 * i)) (_mm_mul_ps tmp3 p1_in_xwyz)) in
  let m := st m (out + 2 * i + 1) (_mm_mul_ps tmp (m (src + 2 * i + 1))) in
  let m := st m (out + 2 * i + 1)
      (_mm_add_ps (m (out + 2 * i + 1))
      (_mm_mul_ps tmp2 (KLN_SWIZZLE (m (src + 2 * i + 1)) 1 3 2 0))) in
  let m := st m (out + 2 * i + 1)
      (_mm_add_ps (m (out + 2 * i + 1))
      (_mm_mul_ps tmp3 (KLN_SWIZZLE (m (src + 2 * i + 1)) 2 1 3 0))) in
  let m := st m (out + 2 * i + 1)
      (_mm_add_ps (m (out + 2 * i + 1)) (_mm_mul_ps tmp4 (m (src + 2 * i)))) in
  let m := st m (out + 2 * i + 1)
      (_mm_add_ps (m (out + 2 * i + 1)) (_mm_mul_ps tmp5 p1_in_xwyz)) in
  let m := st m (out + 2 * i + 1)
      (_mm_add_ps (m (out + 2 * i + 1)) (_mm_mul_ps tmp6 p1_in_xzwy)) in
  m.

(** swMM<true, true, true> *)
Definition swMM_line_run (src out : nat) (b c : m128 F) (count : nat) (m : mem) : mem :=
  for_loop (swMM_line_body src out b c) 0 count m.

(** 365-397 with Translate = false, InputP2 = true *)
Definition swMM_rot_line_body (src out : nat) (b : m128 F) (i : nat) (m : mem) : mem :=
  let '(tmp, tmp2, tmp3) := swMM_rot b in
  let p1_in_xzwy := (KLN_SWIZZLE (m (src + 2 * i)) 1 3 2 0) in
  let p1_in_xwyz := (KLN_SWIZZLE (m (src + 2 * i)) 2 1 3 0) in
  let m := st m (out + 2 * i) (_mm_mul_ps tmp (m (src + 2 * i))) in
  let m := st m (out + 2 * i) (_mm_add_ps (m (out + 2 * i)) (_mm_mul_ps tmp2 p1_in_xzwy)) in
  let m := st m (out + 2 * i) (_mm_add_ps (m (out + 2 * i)) (_mm_mul_ps tmp3 p1_in_xwyz)) in
  let m := st m (out + 2 * i + 1) (_mm_mul_ps tmp (m (src + 2 * i + 1))) in
  let m := st m (out + 2 * i + 1)
      (_mm_add_ps (m (out + 2 * i + 1))
      (_mm_mul_ps tmp2 (KLN_SWIZZLE (m (src + 2 * i + 1)) 1 3 2 0))) in
  let m := st m (out + 2 * i + 1)
      (_mm_add_ps (m (out + 2 * i + 1))
      (_mm_mul_ps tmp3 (KLN_SWIZZLE (m (src + 2 * i + 1)) 2 1 3 0))) in
  m.

(** swMM<true, false, true> *)
Definition swMM_rot_line_run (src out : nat) (b : m128 F) (count : nat) (m : mem) : mem :=
  for_loop (swMM_rot_line_body src out b) 0 count m.

(** 497-510, Translate = true *)
Definition sw012_motor_body (a out : nat) (b c : m128 F) (i : nat) (m : mem) : mem :=
  let '(tmp1, tmp2, tmp3) := sw012_rot b in
  let tmp4 := sw012_trans b c in
  let m := st m (out + i) (_mm_mul_ps tmp1 (KLN_SWIZZLE (m (a + i)) 1 3 2 0)) in
  let m := st m (out + i)
      (_mm_add_ps (m (out + i)) (_mm_mul_ps tmp2 (KLN_SWIZZLE (m (a + i)) 2 1 3 0))) in
  let m := st m (out + i) (_mm_add_ps (m (out + i)) (_mm_mul_ps tmp3 (m (a + i)))) in
  let tmp5 := (hi_dp tmp4 (m (a + i))) in
  let m := st m (out + i) (_mm_add_ps (m (out + i)) tmp5) in
  m.

(** sw012<true, true> *)
Definition sw012_motor_run (a out : nat) (b c : m128 F) (count : nat) (m : mem) : mem :=
  for_loop (sw012_motor_body a out b c) 0 count m.

(** 497-510, Translate = false *)
Definition sw012_rotor_body (a out : nat) (b : m128 F) (i : nat) (m : mem) : mem :=
  let '(tmp1, tmp2, tmp3) := sw012_rot b in
  let m := st m (out + i) (_mm_mul_ps tmp1 (KLN_SWIZZLE (m (a + i)) 1 3 2 0)) in
  let m := st m (out + i)
      (_mm_add_ps (m (out + i)) (_mm_mul_ps tmp2 (KLN_SWIZZLE (m (a + i)) 2 1 3 0))) in
  let m := st m (out + i) (_mm_add_ps (m (out + i)) (_mm_mul_ps tmp3 (m (a + i)))) in
  m.

(** sw012<true, false> *)
Definition sw012_rotor_run (a out : nat) (b : m128 F) (count : nat) (m : mem) : mem :=
  for_loop (sw012_rotor_body a out b) 0 count m.

(** 585-597, Translate = true *)
Definition sw312_motor_body (a out : nat) (b c : m128 F) (i : nat) (m : mem) : mem :=
  let '(tmp1, tmp2, tmp3) := sw312_rot b in
  let tmp4 := sw312_trans b c in
  let m := st m (out + i) (_mm_mul_ps tmp1 (KLN_SWIZZLE (m (a + i)) 2 1 3 0)) in
  let m := st m (out + i)
      (_mm_add_ps (m (out + i)) (_mm_mul_ps tmp2 (KLN_SWIZZLE (m (a + i)) 1 3 2 0))) in
  let m := st m (out + i) (_mm_add_ps (m (out + i)) (_mm_mul_ps tmp3 (m (a + i)))) in
  let m := st m (out + i)
      (_mm_add_ps (m (out + i)) (_mm_mul_ps tmp4 (KLN_SWIZZLE (m (a + i)) 0 0 0 0))) in
  m.

(** sw312<true, true> *)
Definition sw312_motor_run (a out : nat) (b c : m128 F) (count : nat) (m : mem) : mem :=
  for_loop (sw312_motor_body a out b c) 0 count m.

(** 585-597, Translate = false *)
Definition sw312_rotor_body (a out : nat) (b : m128 F) (i : nat) (m : mem) : mem :=
  let '(tmp1, tmp2, tmp3) := sw312_rot b in
  let m := st m (out + i) (_mm_mul_ps tmp1 (KLN_SWIZZLE (m (a + i)) 2 1 3 0)) in
  let m := st m (out + i)
      (_mm_add_ps (m (out + i)) (_mm_mul_ps tmp2 (KLN_SWIZZLE (m (a + i)) 1 3 2 0))) in
  let m := st m (out + i) (_mm_add_ps (m (out + i)) (_mm_mul_ps tmp3 (m (a + i)))) in
  m.

(** sw312<true, false> *)
Definition sw312_rotor_run (a out : nat) (b : m128 F) (count : nat) (m : mem) : mem :=
  for_loop (sw312_rotor_body a out b) 0 count m.
End SW.
Arguments mem : clear implicits.

Section SWF.
Context {F : Type} {FL : Flo F} {B : Build}.

(** x86_sandwich.hpp 158-190 *)
Definition sw02 (a b : m128 F) : m128 F :=
  let tmp := (hi_dp a b) in
  let inv_b := (rcp_nr1 b) in
  let inv_b := (_mm_add_ss inv_b inv_b) in
  let inv_b := (_mm_and_ps inv_b (lanes_epi32 false false false true)) in
  let tmp := (_mm_mul_ss tmp inv_b) in
  (_mm_add_ps a tmp).
End SWF.
