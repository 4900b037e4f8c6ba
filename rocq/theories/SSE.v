(** __m128 registers and the intrinsics Klein uses, lane by lane.
    Lane 0 is the lowest.  Model of /repo/public/klein/detail/x86/x86_sse.hpp
    and of the Intel intrinsics it and its clients call. *)
From Coq Require Import ZArith Bool List.
From Verif Require Import Scalar.

Record m128 (F : Type) := mk4 { l0 : F; l1 : F; l2 : F; l3 : F }.
Arguments mk4 {F}.
Arguments l0 {F}. Arguments l1 {F}. Arguments l2 {F}. Arguments l3 {F}.

Definition map4 {A B} (f : A -> B) (v : m128 A) : m128 B :=
  mk4 (f (l0 v)) (f (l1 v)) (f (l2 v)) (f (l3 v)).
Definition map4_2 {A B C} (f : A -> B -> C) (v : m128 A) (w : m128 B) : m128 C :=
  mk4 (f (l0 v) (l0 w)) (f (l1 v) (l1 w)) (f (l2 v) (l2 w)) (f (l3 v) (l3 w)).

Definition lane {F} (v : m128 F) (n : nat) : F :=
  match n with 0 => l0 v | 1 => l1 v | 2 => l2 v | _ => l3 v end%nat.

(** [_MM_SHUFFLE(x,y,z,w)] selects source lane w for lane 0, z for lane 1,
    y for lane 2, x for lane 3.  x86_sse.hpp 28-31. *)
Definition KLN_SWIZZLE {F} (r : m128 F) (x y z w : nat) : m128 F :=
  mk4 (lane r w) (lane r z) (lane r y) (lane r x).

(** [_mm_set_ps] takes the highest lane first. *)
Definition _mm_set_ps {F} (d c b a : F) : m128 F := mk4 a b c d.
Definition _mm_set1_ps {F} (a : F) : m128 F := mk4 a a a a.

(** Sign masks: registers holding only 0.f / -0.f, used with [_mm_xor_ps]. *)
Definition sgn_ps (d c b a : bool) : m128 bool := mk4 a b c d.
Definition sgn_ss : m128 bool := mk4 true false false false.
(** Lane masks [_mm_castsi128_ps(_mm_set_epi32(..))] with entries 0 / -1. *)
Definition lanes_epi32 (d c b a : bool) : m128 bool := mk4 a b c d.

Section Intrinsics.
Context {F : Type} {A : Arith F}.

Definition _mm_setzero_ps : m128 F := mk4 (fz 0) (fz 0) (fz 0) (fz 0).
Definition _mm_set_ss (a : F) : m128 F := mk4 a (fz 0) (fz 0) (fz 0).

Definition _mm_add_ps : m128 F -> m128 F -> m128 F := map4_2 fadd.
Definition _mm_sub_ps : m128 F -> m128 F -> m128 F := map4_2 fsub.
Definition _mm_mul_ps : m128 F -> m128 F -> m128 F := map4_2 fmul.

Definition _mm_add_ss (a b : m128 F) := mk4 (fadd (l0 a) (l0 b)) (l1 a) (l2 a) (l3 a).
Definition _mm_sub_ss (a b : m128 F) := mk4 (fsub (l0 a) (l0 b)) (l1 a) (l2 a) (l3 a).
Definition _mm_mul_ss (a b : m128 F) := mk4 (fmul (l0 a) (l0 b)) (l1 a) (l2 a) (l3 a).

Definition _mm_xor_ps (s : m128 bool) (v : m128 F) : m128 F :=
  map4_2 (fun (b : bool) x => if b then fopp x else x) s v.
Definition _mm_and_ps (v : m128 F) (s : m128 bool) : m128 F :=
  map4_2 (fun (b : bool) x => if b then x else fz 0) s v.

(** lane i comes from [b] iff bit i of [imm] is set *)
Definition _mm_blend_ps (a b : m128 F) (imm : Z) : m128 F :=
  mk4 (if Z.testbit imm 0 then l0 b else l0 a) (if Z.testbit imm 1 then l1 b else l1 a)
      (if Z.testbit imm 2 then l2 b else l2 a) (if Z.testbit imm 3 then l3 b else l3 a).

Definition _mm_movehdup_ps (a : m128 F) := mk4 (l1 a) (l1 a) (l3 a) (l3 a).
Definition _mm_moveldup_ps (a : m128 F) := mk4 (l0 a) (l0 a) (l2 a) (l2 a).
Definition _mm_unpacklo_ps (a b : m128 F) := mk4 (l0 a) (l0 b) (l1 a) (l1 b).
Definition _mm_unpackhi_ps (a b : m128 F) := mk4 (l2 a) (l2 b) (l3 a) (l3 b).
Definition _mm_movehl_ps (a b : m128 F) := mk4 (l2 b) (l3 b) (l2 a) (l3 a).
Definition _mm_movelh_ps (a b : m128 F) := mk4 (l0 a) (l1 a) (l0 b) (l1 b).

(** SSE4.1 [dpps]: high immediate bits select the products, low bits the
    lanes that receive the sum ((t0+t1)+(t2+t3)). *)
Definition _mm_dp_ps (a b : m128 F) (imm : Z) : m128 F :=
  let t i x y := if Z.testbit imm (4 + i) then fmul x y else fz 0 in
  let s := fadd (fadd (t 0%Z (l0 a) (l0 b)) (t 1%Z (l1 a) (l1 b)))
                (fadd (t 2%Z (l2 a) (l2 b)) (t 3%Z (l3 a) (l3 b))) in
  let o i := if Z.testbit imm i then s else fz 0 in
  mk4 (o 0%Z) (o 1%Z) (o 2%Z) (o 3%Z).

(** ** detail:: helpers *)
Context {B : Build}.

(** x86_sse.hpp 61-78.  The three high lanes are unspecified by the C++
    comment; the model keeps what the instructions put there. *)
Definition hi_dp_ss (a b : m128 F) : m128 F :=
  let out := _mm_mul_ps a b in
  let hi := _mm_movehdup_ps out in
  let sum := _mm_add_ps hi out in
  let out := _mm_add_ps sum (_mm_unpacklo_ps out out) in
  _mm_movehl_ps out out.

(** x86_sse.hpp 120-123 (SSE4.1) and 141-160 (SSE3) *)
Definition hi_dp (a b : m128 F) : m128 F :=
  if sse41 then _mm_dp_ps a b 225 (* 0b11100001 *)
  else
    let out := _mm_mul_ps a b in
    let hi := _mm_movehdup_ps out in
    let sum := _mm_add_ps hi out in
    let out := _mm_add_ps sum (_mm_unpacklo_ps out out) in
    let out := _mm_movehl_ps out out in
    _mm_and_ps out (lanes_epi32 false false false true).

(** x86_sse.hpp 125-128 and 162-177 *)
Definition hi_dp_bc (a b : m128 F) : m128 F :=
  if sse41 then _mm_dp_ps a b 239 (* 0b11101111 *)
  else
    let out := _mm_mul_ps a b in
    let hi := _mm_movehdup_ps out in
    let sum := _mm_add_ps hi out in
    let out := _mm_add_ps sum (_mm_unpacklo_ps out out) in
    KLN_SWIZZLE out 2 2 2 2.

(** x86_sse.hpp 130-133 and 179-189 *)
Definition dp (a b : m128 F) : m128 F :=
  if sse41 then _mm_dp_ps a b 241 (* 0b11110001 *)
  else
    let out := _mm_mul_ps a b in
    let hi := _mm_movehdup_ps out in
    let out := _mm_add_ps hi out in
    let out := _mm_add_ss out (_mm_movehl_ps hi out) in
    _mm_and_ps out (lanes_epi32 false false false true).

(** x86_sse.hpp 135-138 and 191-201 *)
Definition dp_bc (a b : m128 F) : m128 F :=
  if sse41 then _mm_dp_ps a b 255 (* 0xff *)
  else
    let out := _mm_mul_ps a b in
    let hi := _mm_movehdup_ps out in
    let out := _mm_add_ps hi out in
    let out := _mm_add_ss out (_mm_movehl_ps hi out) in
    KLN_SWIZZLE out 0 0 0 0.
End Intrinsics.

Section FloIntrinsics.
Context {F : Type} {FL : Flo F}.

Definition _mm_rcp_ps : m128 F -> m128 F := map4 frcp.
Definition _mm_rsqrt_ps : m128 F -> m128 F := map4 frsqrt.

(** Comparisons give lane masks; [_mm_movemask_ps(m) == 0xf] is [all4]. *)
Definition _mm_cmpeq_ps (a b : m128 F) : m128 bool := map4_2 feqb a b.
Definition _mm_cmplt_ps (a b : m128 F) : m128 bool := map4_2 fltb a b.
Definition and4 (a b : m128 bool) : m128 bool := map4_2 andb a b.
Definition all4 (m : m128 bool) : bool := l0 m && l1 m && l2 m && l3 m.
(** [_mm_andnot_ps(_mm_set1_ps(-0.f), v)] *)
Definition abs_ps : m128 F -> m128 F := map4 fabs.

(** x86_sse.hpp 81-92 *)
Definition rcp_nr1 (a : m128 F) : m128 F :=
  let xn := _mm_rcp_ps a in
  let axn := _mm_mul_ps a xn in
  _mm_mul_ps xn (_mm_sub_ps (_mm_set1_ps (fz 2)) axn).

(** x86_sse.hpp 95-111 *)
Definition rsqrt_nr1 (a : m128 F) : m128 F :=
  let xn := _mm_rsqrt_ps a in
  let axn2 := _mm_mul_ps xn xn in
  let axn2 := _mm_mul_ps a axn2 in
  let xn3 := _mm_sub_ps (_mm_set1_ps (fz 3)) axn2 in
  _mm_mul_ps (_mm_mul_ps (_mm_set1_ps fhalf) xn) xn3.

(** x86_sse.hpp 114-117 *)
Definition sqrt_nr1 (a : m128 F) : m128 F := _mm_mul_ps a (rsqrt_nr1 a).
End FloIntrinsics.
