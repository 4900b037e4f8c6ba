(** Public API: constructors, operators and call operators of the entity
    classes.  Naming: [<lhs>_<op>_<rhs>] with op in mul (geometric product,
    [*]), quo ([/]), ext ([^]), dot ([|]), join ([&]); [dual_of_x] is [!x];
    [<class>_on_<class>] is the call operator.

    Operators that pass [a.p1_] by reference and reach the neighbouring member
    through [*(&a + 1)] (gpLL, gpMM, dotPTL callers, swMM, swL2) are modelled
    with both registers as arguments: p1_ and p2_ are adjacent members. *)
From Coq Require Import ZArith Bool.
From Verif Require Import Scalar SSE KernelGP KernelEI KernelSW KernelMat KernelExpLog.
From Verif Require Export ApiTypes ApiLin.

Section Api.
Context {F : Type} {A : Arith F} {B : Build}.

(** ** Component-wise constructors *)

(** plane.hpp 34-36: ax + by + cz + d *)
Definition plane_ctor (a b c d : F) : plane F := mkplane (_mm_set_ps c b a d).
(** point.hpp 29-31 *)
Definition point_ctor (x y z : F) : point F := mkpoint (_mm_set_ps z y x (fz 1)).
(** point.hpp 254-265, conversion of [origin] to [point] *)
Definition origin : point F := mkpoint (_mm_set_ss (fz 1)).
(** line.hpp 30-32 *)
Definition ideal_line_ctor (a b c : F) : ideal_line F := mkideal_line (_mm_set_ps c b a (fz 0)).
(** line.hpp 245-247 *)
Definition branch_ctor (a b c : F) : branch F := mkbranch (_mm_set_ps c b a (fz 0)).
(** line.hpp 492-495 *)
Definition line_ctor (a b c d e f : F) : line F :=
  mkline (_mm_set_ps f e d (fz 0)) (_mm_set_ps c b a (fz 0)).
(** line.hpp 502-505 *)
Definition line_of_ideal (l : ideal_line F) : line F := mkline _mm_setzero_ps (ideal_line_p2 l).
(** line.hpp 507-510 *)
Definition line_of_branch (b : branch F) : line F := mkline (branch_p1 b) _mm_setzero_ps.
(** motor.hpp 91-94 *)
Definition motor_ctor (a b c d e f g h : F) : motor F :=
  mkmotor (_mm_set_ps d c b a) (_mm_set_ps g f e h).
(** motor.hpp 111-114 *)
Definition motor_of_rotor (r : rotor F) : motor F := mkmotor (rotor_p1 r) _mm_setzero_ps.
(** motor.hpp 116-119 *)
Definition motor_of_translator (t : translator F) : motor F :=
  mkmotor (_mm_set_ss (fz 1)) (translator_p2 t).
(** motor.hpp 121-126, assignment from a rotor; [m] is the overwritten motor *)
Definition motor_assign_rotor (m : motor F) (r : rotor F) : motor F :=
  mkmotor (rotor_p1 r) _mm_setzero_ps.
(** motor.hpp 128-133, assignment from a translator *)
Definition motor_assign_translator (m : motor F) (t : translator F) : motor F :=
  mkmotor _mm_setzero_ps (translator_p2 t).

(** ** Accessors.  All go through a store of the register and an index. *)

(** plane.hpp 201-247 *)
Definition plane_x (p : plane F) := l1 (plane_p0 p).
Definition plane_y (p : plane F) := l2 (plane_p0 p).
Definition plane_z (p : plane F) := l3 (plane_p0 p).
Definition plane_d (p : plane F) := l0 (plane_p0 p).
(** point.hpp 87-134 *)
Definition point_x (p : point F) := l1 (point_p3 p).
Definition point_y (p : point F) := l2 (point_p3 p).
Definition point_z (p : point F) := l3 (point_p3 p).
Definition point_w (p : point F) := l0 (point_p3 p).
(** direction.hpp 46-65 *)
Definition direction_x (p : direction F) := l1 (direction_p3 p).
Definition direction_y (p : direction F) := l2 (direction_p3 p).
Definition direction_z (p : direction F) := l3 (direction_p3 p).
(** line.hpp 94-128 *)
Definition ideal_line_e01 (l : ideal_line F) := l1 (ideal_line_p2 l).
Definition ideal_line_e02 (l : ideal_line F) := l2 (ideal_line_p2 l).
Definition ideal_line_e03 (l : ideal_line F) := l3 (ideal_line_p2 l).
Definition ideal_line_e10 (l : ideal_line F) := fopp (ideal_line_e01 l).
Definition ideal_line_e20 (l : ideal_line F) := fopp (ideal_line_e02 l).
Definition ideal_line_e30 (l : ideal_line F) := fopp (ideal_line_e03 l).
(** line.hpp 348-397 *)
Definition branch_e12 (l : branch F) := l3 (branch_p1 l).
Definition branch_e31 (l : branch F) := l2 (branch_p1 l).
Definition branch_e23 (l : branch F) := l1 (branch_p1 l).
Definition branch_e21 (l : branch F) := fopp (branch_e12 l).
Definition branch_e13 (l : branch F) := fopp (branch_e31 l).
Definition branch_e32 (l : branch F) := fopp (branch_e23 l).
(** line.hpp 664-734 *)
Definition line_e12 (l : line F) := l3 (line_p1 l).
Definition line_e31 (l : line F) := l2 (line_p1 l).
Definition line_e23 (l : line F) := l1 (line_p1 l).
Definition line_e21 (l : line F) := fopp (line_e12 l).
Definition line_e13 (l : line F) := fopp (line_e31 l).
Definition line_e32 (l : line F) := fopp (line_e23 l).
Definition line_e01 (l : line F) := l1 (line_p2 l).
Definition line_e02 (l : line F) := l2 (line_p2 l).
Definition line_e03 (l : line F) := l3 (line_p2 l).
Definition line_e10 (l : line F) := fopp (line_e01 l).
Definition line_e20 (l : line F) := fopp (line_e02 l).
Definition line_e30 (l : line F) := fopp (line_e03 l).
(** rotor.hpp 399-440 *)
Definition rotor_scalar (r : rotor F) := l0 (rotor_p1 r).
Definition rotor_e12 (r : rotor F) := l3 (rotor_p1 r).
Definition rotor_e31 (r : rotor F) := l2 (rotor_p1 r).
Definition rotor_e23 (r : rotor F) := l1 (rotor_p1 r).
Definition rotor_e21 (r : rotor F) := fopp (rotor_e12 r).
Definition rotor_e13 (r : rotor F) := fopp (rotor_e31 r).
Definition rotor_e32 (r : rotor F) := fopp (rotor_e23 r).
(** translator.hpp 168-207 *)
Definition translator_scalar (t : translator F) : F := fz 1.
Definition translator_e01 (t : translator F) := l1 (translator_p2 t).
Definition translator_e02 (t : translator F) := l2 (translator_p2 t).
Definition translator_e03 (t : translator F) := l3 (translator_p2 t).
Definition translator_e10 (t : translator F) := fopp (translator_e01 t).
Definition translator_e20 (t : translator F) := fopp (translator_e02 t).
Definition translator_e30 (t : translator F) := fopp (translator_e03 t).
(** motor.hpp 438-522 *)
Definition motor_scalar (m : motor F) := l0 (motor_p1 m).
Definition motor_e12 (m : motor F) := l3 (motor_p1 m).
Definition motor_e31 (m : motor F) := l2 (motor_p1 m).
Definition motor_e23 (m : motor F) := l1 (motor_p1 m).
Definition motor_e21 (m : motor F) := fopp (motor_e12 m).
Definition motor_e13 (m : motor F) := fopp (motor_e31 m).
Definition motor_e32 (m : motor F) := fopp (motor_e23 m).
Definition motor_e01 (m : motor F) := l1 (motor_p2 m).
Definition motor_e02 (m : motor F) := l2 (motor_p2 m).
Definition motor_e03 (m : motor F) := l3 (motor_p2 m).
Definition motor_e10 (m : motor F) := fopp (motor_e01 m).
Definition motor_e20 (m : motor F) := fopp (motor_e02 m).
Definition motor_e30 (m : motor F) := fopp (motor_e03 m).
Definition motor_e0123 (m : motor F) := l0 (motor_p2 m).

(** ** Geometric products that need no reciprocal *)

(** geometric_product.hpp 81-86 *)
Definition plane_mul_plane (a b : plane F) : motor F :=
  let '(p1, p2) := gp00 (plane_p0 a) (plane_p0 b) in mkmotor p1 p2.
(** 88-93 *)
Definition plane_mul_point (a : plane F) (b : point F) : motor F :=
  let '(p1, p2) := gp03 false (plane_p0 a) (point_p3 b) in mkmotor p1 p2.
(** 95-100 *)
Definition point_mul_plane (b : point F) (a : plane F) : motor F :=
  let '(p1, p2) := gp03 true (plane_p0 a) (point_p3 b) in mkmotor p1 p2.
(** 104-109 *)
Definition branch_mul_branch (a b : branch F) : rotor F :=
  mkrotor (gp11 (branch_p1 a) (branch_p1 b)).
(** 114-119 *)
Definition line_mul_line (a b : line F) : motor F :=
  let '(p1, p2) := gpLL (line_p1 a) (line_p2 a) (line_p1 b) (line_p2 b) in mkmotor p1 p2.
(** 133-138 *)
Definition rotor_mul_rotor (a b : rotor F) : rotor F :=
  mkrotor (gp11 (rotor_p1 a) (rotor_p1 b)).
(** 145-150 *)
Definition dual_mul_line (a : dual F) (b : line F) : line F :=
  let '(p1, p2) := gpDL (dual_p a) (dual_q a) (line_p1 b) (line_p2 b) in mkline p1 p2.
(** 152-155 *)
Definition line_mul_dual (b : line F) (a : dual F) : line F := dual_mul_line a b.
(** 158-164 *)
Definition rotor_mul_translator (a : rotor F) (b : translator F) : motor F :=
  mkmotor (rotor_p1 a) (gpRT false (rotor_p1 a) (translator_p2 b)).
(** 167-173 *)
Definition translator_mul_rotor (b : translator F) (a : rotor F) : motor F :=
  mkmotor (rotor_p1 a) (gpRT true (rotor_p1 a) (translator_p2 b)).
(** 177-181 *)
Definition translator_mul_translator (a b : translator F) : translator F := translator_add a b.
(** 184-190 *)
Definition rotor_mul_motor (a : rotor F) (b : motor F) : motor F :=
  mkmotor (gp11 (rotor_p1 a) (motor_p1 b)) (gp12 false (rotor_p1 a) (motor_p2 b)).
(** 193-199 *)
Definition motor_mul_rotor (b : motor F) (a : rotor F) : motor F :=
  mkmotor (gp11 (motor_p1 b) (rotor_p1 a)) (gp12 true (rotor_p1 a) (motor_p2 b)).
(** 202-209 *)
Definition translator_mul_motor (a : translator F) (b : motor F) : motor F :=
  let p2 := gpRT true (motor_p1 b) (translator_p2 a) in
  mkmotor (motor_p1 b) (_mm_add_ps p2 (motor_p2 b)).
(** 212-219 *)
Definition motor_mul_translator (b : motor F) (a : translator F) : motor F :=
  let p2 := gpRT false (motor_p1 b) (translator_p2 a) in
  mkmotor (motor_p1 b) (_mm_add_ps p2 (motor_p2 b)).
(** 222-227 *)
Definition motor_mul_motor (a b : motor F) : motor F :=
  let '(p1, p2) := gpMM (motor_p1 a) (motor_p2 a) (motor_p1 b) (motor_p2 b) in mkmotor p1 p2.

(** ** Exterior products (meet.hpp) *)

(** 46-51 *)
Definition plane_ext_plane (a b : plane F) : line F :=
  let '(p1, p2) := ext00 (plane_p0 a) (plane_p0 b) in mkline p1 p2.
(** 53-58, 60-63 *)
Definition plane_ext_branch (a : plane F) (b : branch F) : point F :=
  mkpoint (extPB (plane_p0 a) (branch_p1 b)).
Definition branch_ext_plane (b : branch F) (a : plane F) : point F := plane_ext_branch a b.
(** 65-70, 72-75 *)
Definition plane_ext_ideal (a : plane F) (b : ideal_line F) : point F :=
  mkpoint (ext02 (plane_p0 a) (ideal_line_p2 b)).
Definition ideal_ext_plane (b : ideal_line F) (a : plane F) : point F := plane_ext_ideal a b.
(** 77-85, 87-90 *)
Definition plane_ext_line (a : plane F) (b : line F) : point F :=
  let out := extPB (plane_p0 a) (line_p1 b) in
  let tmp := ext02 (plane_p0 a) (line_p2 b) in
  mkpoint (_mm_add_ps tmp out).
Definition line_ext_plane (b : line F) (a : plane F) : point F := plane_ext_line a b.
(** 92-99 *)
Definition plane_ext_point (a : plane F) (b : point F) : dual F :=
  mkdual (fz 0) (l0 (ext03 false (plane_p0 a) (point_p3 b))).
(** 101-108 *)
Definition point_ext_plane (b : point F) (a : plane F) : dual F :=
  mkdual (fz 0) (l0 (ext03 true (plane_p0 a) (point_p3 b))).
(** 110-116, 118-121 *)
Definition branch_ext_ideal (a : branch F) (b : ideal_line F) : dual F :=
  mkdual (fz 0) (l0 (hi_dp_ss (branch_p1 a) (ideal_line_p2 b))).
Definition ideal_ext_branch (b : ideal_line F) (a : branch F) : dual F := branch_ext_ideal a b.
(** 123-131 *)
Definition line_ext_line (a b : line F) : dual F :=
  let out0 := l0 (hi_dp_ss (line_p1 a) (line_p2 b)) in
  let out1 := l0 (hi_dp_ss (line_p1 b) (line_p2 a)) in
  mkdual (fz 0) (fadd out0 out1).
(** 133-136, 138-141 *)
Definition line_ext_ideal (a : line F) (b : ideal_line F) : dual F :=
  branch_ext_ideal (mkbranch (line_p1 a)) b.
Definition ideal_ext_line (b : ideal_line F) (a : line F) : dual F := line_ext_ideal a b.
(** 143-146, 148-151 *)
Definition line_ext_branch (a : line F) (b : branch F) : dual F :=
  ideal_ext_branch (mkideal_line (line_p2 a)) b.
Definition branch_ext_line (b : branch F) (a : line F) : dual F := line_ext_branch a b.

(** ** Duality and join (join.hpp) *)

(** 28-31, 33-36, 38-41, 43-46, 48-51, 53-56 *)
Definition dual_of_plane (p : plane F) : point F := mkpoint (plane_p0 p).
Definition dual_of_point (p : point F) : plane F := mkplane (point_p3 p).
Definition dual_of_line (l : line F) : line F := mkline (line_p2 l) (line_p1 l).
Definition dual_of_ideal (l : ideal_line F) : branch F := mkbranch (ideal_line_p2 l).
Definition dual_of_branch (b : branch F) : ideal_line F := mkideal_line (branch_p1 b).
Definition dual_of_dual (d : dual F) : dual F := mkdual (dual_q d) (dual_p d).
(** 89-92 *)
Definition point_join_point (a b : point F) : line F :=
  dual_of_line (plane_ext_plane (dual_of_point a) (dual_of_point b)).
(** 94-97, 99-102 *)
Definition point_join_line (a : point F) (b : line F) : plane F :=
  dual_of_point (plane_ext_line (dual_of_point a) (dual_of_line b)).
Definition line_join_point (b : line F) (a : point F) : plane F := point_join_line a b.
(** 104-107, 109-112 *)
Definition point_join_branch (a : point F) (b : branch F) : plane F :=
  dual_of_point (plane_ext_ideal (dual_of_point a) (dual_of_branch b)).
Definition branch_join_point (b : branch F) (a : point F) : plane F := point_join_branch a b.
(** 114-117, 119-122 *)
Definition point_join_ideal (a : point F) (b : ideal_line F) : plane F :=
  dual_of_point (plane_ext_branch (dual_of_point a) (dual_of_ideal b)).
Definition ideal_join_point (b : ideal_line F) (a : point F) : plane F := point_join_ideal a b.
(** 124-127 *)
Definition plane_join_point (a : plane F) (b : point F) : dual F :=
  dual_of_dual (point_ext_plane (dual_of_plane a) (dual_of_point b)).
(** 129-132 *)
Definition point_join_plane (a : point F) (b : plane F) : dual F :=
  dual_of_dual (plane_ext_point (dual_of_point a) (dual_of_plane b)).

(** ** Inner products (inner_product.hpp) *)

(** 51-58 *)
Definition plane_dot_plane (a b : plane F) : F := l0 (dot00 (plane_p0 a) (plane_p0 b)).
(** 60-65 *)
Definition plane_dot_line (a : plane F) (b : line F) : plane F :=
  mkplane (dotPL false (plane_p0 a) (line_p1 b) (line_p2 b)).
(** 67-72 *)
Definition line_dot_plane (b : line F) (a : plane F) : plane F :=
  mkplane (dotPL true (plane_p0 a) (line_p1 b) (line_p2 b)).
(** 74-79 *)
Definition plane_dot_ideal (a : plane F) (b : ideal_line F) : plane F :=
  mkplane (dotPIL false (plane_p0 a) (ideal_line_p2 b)).
(** 81-86 *)
Definition ideal_dot_plane (b : ideal_line F) (a : plane F) : plane F :=
  mkplane (dotPIL true (plane_p0 a) (ideal_line_p2 b)).
(** 88-93, 95-98 *)
Definition plane_dot_point (a : plane F) (b : point F) : line F :=
  let '(p1, p2) := dot03 (plane_p0 a) (point_p3 b) in mkline p1 p2.
Definition point_dot_plane (a : point F) (b : plane F) : line F := plane_dot_point b a.
(** 100-107 *)
Definition line_dot_line (a b : line F) : F := l0 (dot11 (line_p1 a) (line_p1 b)).
(** 109-114, 116-119 *)
Definition point_dot_line (a : point F) (b : line F) : plane F :=
  mkplane (dotPTL (point_p3 a) (line_p1 b)).
Definition line_dot_point (b : line F) (a : point F) : plane F := point_dot_line a b.
(** 121-128 *)
Definition point_dot_point (a b : point F) : F := l0 (dot33 (point_p3 a) (point_p3 b)).

(** ** Projections (projection.hpp 40-86) *)
Definition project_point_line (a : point F) (b : line F) : point F :=
  plane_ext_line (point_dot_line a b) b.
Definition project_point_plane (a : point F) (b : plane F) : point F :=
  line_ext_plane (point_dot_plane a b) b.
Definition project_line_plane (a : line F) (b : plane F) : line F :=
  plane_ext_plane (line_dot_plane a b) b.
Definition project_plane_point (a : plane F) (b : point F) : plane F :=
  line_dot_point (plane_dot_point a b) b.
Definition project_line_point (a : line F) (b : point F) : line F :=
  plane_dot_point (line_dot_point a b) b.
Definition project_plane_line (a : plane F) (b : line F) : plane F :=
  plane_dot_line (plane_dot_line a b) b.

(** ** Call operators *)

(** plane.hpp 128-133 *)
Definition plane_on_plane (q p : plane F) : plane F := mkplane (sw00 (plane_p0 q) (plane_p0 p)).
(** plane.hpp 138-146 *)
Definition plane_on_line (q : plane F) (l : line F) : line F :=
  let '(p1, p2) := sw10 (plane_p0 q) (line_p1 l) in
  let p2_tmp := sw20 (plane_p0 q) (line_p2 l) in
  mkline p1 (_mm_add_ps p2 p2_tmp).
(** plane.hpp 151-156 *)
Definition plane_on_point (q : plane F) (p : point F) : point F :=
  mkpoint (sw30 (plane_p0 q) (point_p3 p)).

(** translator.hpp 109-114 *)
Definition translator_on_line (t : translator F) (l : line F) : line F :=
  let '(p1, p2) := swL2 (line_p1 l) (line_p2 l) (translator_p2 t) in mkline p1 p2.
(** translator.hpp 118-123 *)
Definition translator_on_point (t : translator F) (p : point F) : point F :=
  mkpoint (sw32 (point_p3 p) (translator_p2 t)).

(** rotor.hpp 247-252 *)
Definition rotor_on_plane (r : rotor F) (p : plane F) : plane F :=
  mkplane (sw012_rotor (plane_p0 p) (rotor_p1 r)).
(** rotor.hpp 268-273 *)
Definition rotor_on_branch (r : rotor F) (b : branch F) : branch F :=
  mkbranch (swMM_rot_branch (branch_p1 b) (rotor_p1 r)).
(** rotor.hpp 277-282 *)
Definition rotor_on_line (r : rotor F) (l : line F) : line F :=
  let '(p1, p2) := swMM_rot_line (line_p1 l) (line_p2 l) (rotor_p1 r) in mkline p1 p2.
(** rotor.hpp 300-306: the plane kernel is reused for points *)
Definition rotor_on_point (r : rotor F) (p : point F) : point F :=
  mkpoint (sw012_rotor (point_p3 p) (rotor_p1 r)).
(** rotor.hpp 325-331 *)
Definition rotor_on_direction (r : rotor F) (d : direction F) : direction F :=
  mkdirection (sw012_rotor (direction_p3 d) (rotor_p1 r)).

(** motor.hpp 279-284 *)
Definition motor_on_plane (m : motor F) (p : plane F) : plane F :=
  mkplane (sw012_motor (plane_p0 p) (motor_p1 m) (motor_p2 m)).
(** motor.hpp 302-307 *)
Definition motor_on_line (m : motor F) (l : line F) : line F :=
  let '(p1, p2) := swMM_line (line_p1 l) (line_p2 l) (motor_p1 m) (motor_p2 m) in mkline p1 p2.
(** motor.hpp 325-330 *)
Definition motor_on_point (m : motor F) (p : point F) : point F :=
  mkpoint (sw312_motor (point_p3 p) (motor_p1 m) (motor_p2 m)).
(** motor.hpp 348-353 *)
Definition motor_on_origin (m : motor F) : point F := mkpoint (swo12 (motor_p1 m) (motor_p2 m)).
(** motor.hpp 360-365 *)
Definition motor_on_direction (m : motor F) (d : direction F) : direction F :=
  mkdirection (sw312_rotor (direction_p3 d) (motor_p1 m)).

(** ** Batch call operators: programs over memory, register addresses *)

(** rotor.hpp 263-266, 293-296, 317-321, 342-348 *)
Definition rotor_batch_planes (r : rotor F) src out count m :=
  sw012_rotor_run src out (rotor_p1 r) count m.
Definition rotor_batch_lines (r : rotor F) src out count m :=
  swMM_rot_line_run src out (rotor_p1 r) count m.
Definition rotor_batch_points (r : rotor F) src out count m :=
  sw012_rotor_run src out (rotor_p1 r) count m.
Definition rotor_batch_directions (r : rotor F) src out count m :=
  sw012_rotor_run src out (rotor_p1 r) count m.
(** motor.hpp 295-298, 318-321, 341-344, 379-384 *)
Definition motor_batch_planes (x : motor F) src out count m :=
  sw012_motor_run src out (motor_p1 x) (motor_p2 x) count m.
Definition motor_batch_lines (x : motor F) src out count m :=
  swMM_line_run src out (motor_p1 x) (motor_p2 x) count m.
Definition motor_batch_points (x : motor F) src out count m :=
  sw312_motor_run src out (motor_p1 x) (motor_p2 x) count m.
Definition motor_batch_directions (x : motor F) src out count m :=
  sw312_rotor_run src out (motor_p1 x) count m.

(** ** Matrices *)

(** motor.hpp 261-266, 270-275 *)
Definition motor_as_mat3x4 (m : motor F) : outcome (mat4 F) :=
  Ok (mat4x4_12_t true (motor_p1 m) (motor_p2 m)).
Definition motor_as_mat4x4 (m : motor F) : outcome (mat4 F) :=
  Ok (mat4x4_12_t false (motor_p1 m) (motor_p2 m)).
(** rotor.hpp 186-191, 194-199.  [out] is default-initialised, so column 3 is
    indeterminate when the kernel reads it; [c3] is the (unknowable) contents
    and the [.._raw] forms show what is computed from it. *)
Definition rotor_as_mat3x4_raw (c3 : m128 F) (r : rotor F) : mat4 F :=
  mat4x4_12_f true (rotor_p1 r) c3.
Definition rotor_as_mat4x4_raw (c3 : m128 F) (r : rotor F) : mat4 F :=
  mat4x4_12_f false (rotor_p1 r) c3.
(** A read of column 3 when it holds nothing ([None]) is undefined. *)
Definition with_col3 (c3 : option (m128 F)) (k : m128 F -> mat4 F) : outcome (mat4 F) :=
  match c3 with Some v => Ok (k v) | None => UB end.
Definition rotor_as_mat3x4 (r : rotor F) : outcome (mat4 F) :=
  with_col3 None (fun c3 => rotor_as_mat3x4_raw c3 r).
Definition rotor_as_mat4x4 (r : rotor F) : outcome (mat4 F) :=
  with_col3 None (fun c3 => rotor_as_mat4x4_raw c3 r).
(** mat4x4.hpp 19-26 and mat3x4.hpp 20-27 (same body) *)
Definition mat_apply (M : mat4 F) (xyzw : m128 F) : m128 F :=
  let out := _mm_mul_ps (col0 M) (KLN_SWIZZLE xyzw 0 0 0 0) in
  let out := _mm_add_ps out (_mm_mul_ps (col1 M) (KLN_SWIZZLE xyzw 1 1 1 1)) in
  let out := _mm_add_ps out (_mm_mul_ps (col2 M) (KLN_SWIZZLE xyzw 2 2 2 2)) in
  let out := _mm_add_ps out (_mm_mul_ps (col3 M) (KLN_SWIZZLE xyzw 3 3 3 3)) in
  out.

(** ** Norms that need no square root, inverse of a translator *)

(** line.hpp 38-44, 257-263, 523-529 *)
Definition ideal_line_squared_norm (l : ideal_line F) : F :=
  l0 (hi_dp (ideal_line_p2 l) (ideal_line_p2 l)).
Definition branch_squared_norm (b : branch F) : F := l0 (hi_dp (branch_p1 b) (branch_p1 b)).
Definition line_squared_norm (l : line F) : F := l0 (hi_dp (line_p1 l) (line_p1 l)).
(** translator.hpp 81-84 *)
Definition translator_inverse (t : translator F) : translator F :=
  mktranslator (_mm_xor_ps sgn_hi (translator_p2 t)).
End Api.

Section ApiF.
Context {F : Type} {FL : Flo F} {B : Build}.

(** translator.hpp 95-105 *)
Definition translator_on_plane (t : translator F) (p : plane F) : plane F :=
  let tmp := if sse41 then _mm_blend_ps (translator_p2 t) (_mm_set_ss (fz 1)) 1
             else _mm_add_ps (translator_p2 t) (_mm_set_ss (fz 1)) in
  mkplane (sw02 (plane_p0 p) tmp).

(** geometric_product.hpp 124-129 *)
Definition point_mul_point (a b : point F) : translator F :=
  mktranslator (gp33 (point_p3 a) (point_p3 b)).

(** ** Norms, normalization, inversion *)

(** plane.hpp 90-95 *)
Definition plane_norm (p : plane F) : F := l0 (sqrt_nr1 (hi_dp (plane_p0 p) (plane_p0 p))).
(** line.hpp 46-49, 266-269, 514-517 *)
Definition ideal_line_norm (l : ideal_line F) : F := fsqrt (ideal_line_squared_norm l).
Definition branch_norm (b : branch F) : F := fsqrt (branch_squared_norm b).
Definition line_norm (l : line F) : F := fsqrt (line_squared_norm l).

(** plane.hpp 65-74 *)
Definition plane_normalized (p : plane F) : plane F :=
  let inv_norm := rsqrt_nr1 (hi_dp_bc (plane_p0 p) (plane_p0 p)) in
  let inv_norm := if sse41 then _mm_blend_ps inv_norm (_mm_set_ss (fz 1)) 1
                  else _mm_add_ps inv_norm (_mm_set_ss (fz 1)) in
  mkplane (_mm_mul_ps inv_norm (plane_p0 p)).
(** plane.hpp 97-102 *)
Definition plane_inverse (p : plane F) : plane F :=
  let inv_norm := rsqrt_nr1 (hi_dp_bc (plane_p0 p) (plane_p0 p)) in
  let p0 := _mm_mul_ps inv_norm (plane_p0 p) in
  let p0 := _mm_mul_ps inv_norm p0 in
  mkplane p0.
(** point.hpp 59-63 *)
Definition point_normalized (p : point F) : point F :=
  let tmp := rcp_nr1 (KLN_SWIZZLE (point_p3 p) 0 0 0 0) in
  mkpoint (_mm_mul_ps (point_p3 p) tmp).
(** point.hpp 73-78 *)
Definition point_inverse (p : point F) : point F :=
  let inv_norm := rcp_nr1 (KLN_SWIZZLE (point_p3 p) 0 0 0 0) in
  let p3 := _mm_mul_ps inv_norm (point_p3 p) in
  let p3 := _mm_mul_ps inv_norm p3 in
  mkpoint p3.
(** direction.hpp 70-74 *)
Definition direction_normalized (d : direction F) : direction F :=
  let tmp := rsqrt_nr1 (hi_dp_bc (direction_p3 d) (direction_p3 d)) in
  mkdirection (_mm_mul_ps (direction_p3 d) tmp).
(** direction.hpp 24-28 *)
Definition direction_ctor (x y z : F) : direction F :=
  direction_normalized (mkdirection (_mm_set_ps z y x (fz 0))).
(** line.hpp 271-275 *)
Definition branch_normalized (b : branch F) : branch F :=
  let inv_norm := rsqrt_nr1 (hi_dp_bc (branch_p1 b) (branch_p1 b)) in
  mkbranch (_mm_mul_ps (branch_p1 b) inv_norm).
(** line.hpp 284-290 *)
Definition branch_inverse (b : branch F) : branch F :=
  let inv_norm := rsqrt_nr1 (hi_dp_bc (branch_p1 b) (branch_p1 b)) in
  let p1 := _mm_mul_ps (branch_p1 b) inv_norm in
  let p1 := _mm_mul_ps p1 inv_norm in
  let p1 := _mm_xor_ps sgn_hi p1 in
  mkbranch p1.
(** line.hpp 532-550 *)
Definition line_normalized (l : line F) : line F :=
  let p1 := line_p1 l in
  let p2 := line_p2 l in
  let b2 := hi_dp_bc p1 p1 in
  let s := rsqrt_nr1 b2 in
  let bc := hi_dp_bc p1 p2 in
  let t := _mm_mul_ps (_mm_mul_ps bc (rcp_nr1 b2)) s in
  let tmp := _mm_mul_ps p2 s in
  let p2 := _mm_sub_ps tmp (_mm_mul_ps p1 t) in
  let p1 := _mm_mul_ps p1 s in
  mkline p1 p2.
(** line.hpp 560-581 *)
Definition line_inverse (l : line F) : line F :=
  let p1 := line_p1 l in
  let p2 := line_p2 l in
  let b2 := hi_dp_bc p1 p1 in
  let s := rsqrt_nr1 b2 in
  let bc := hi_dp_bc p1 p2 in
  let b2_inv := rcp_nr1 b2 in
  let t := _mm_mul_ps (_mm_mul_ps bc b2_inv) s in
  let neg := sgn_hi in
  let st := _mm_mul_ps s t in
  let st := _mm_mul_ps p1 st in
  let p2 := _mm_sub_ps (_mm_mul_ps p2 b2_inv) (_mm_add_ps st st) in
  let p2 := _mm_xor_ps neg p2 in
  let p1 := _mm_xor_ps neg (_mm_mul_ps p1 b2_inv) in
  mkline p1 p2.
(** rotor.hpp 125-130 *)
Definition rotor_normalized (r : rotor F) : rotor F :=
  let inv_norm := rsqrt_nr1 (dp_bc (rotor_p1 r) (rotor_p1 r)) in
  mkrotor (_mm_mul_ps (rotor_p1 r) inv_norm).
(** rotor.hpp 140-146: note hi_dp_bc, where normalize uses dp_bc *)
Definition rotor_inverse (r : rotor F) : rotor F :=
  let inv_norm := rsqrt_nr1 (hi_dp_bc (rotor_p1 r) (rotor_p1 r)) in
  let p1 := _mm_mul_ps (rotor_p1 r) inv_norm in
  let p1 := _mm_mul_ps p1 inv_norm in
  let p1 := _mm_xor_ps sgn_hi p1 in
  mkrotor p1.
(** motor.hpp 146-179 *)
Definition motor_normalized (m : motor F) : motor F :=
  let p1 := motor_p1 m in
  let p2 := motor_p2 m in
  let b2 := dp_bc p1 p1 in
  let s := rsqrt_nr1 b2 in
  let bc := dp_bc (_mm_xor_ps sgn_ss p1) p2 in
  let t := _mm_mul_ps (_mm_mul_ps bc (rcp_nr1 b2)) s in
  let tmp := _mm_mul_ps p2 s in
  let p2 := _mm_sub_ps tmp (_mm_xor_ps sgn_ss (_mm_mul_ps p1 t)) in
  let p1 := _mm_mul_ps p1 s in
  mkmotor p1 p2.
(** motor.hpp 189-211 *)
Definition motor_inverse (m : motor F) : motor F :=
  let p1 := motor_p1 m in
  let p2 := motor_p2 m in
  let b2 := dp_bc p1 p1 in
  let s := rsqrt_nr1 b2 in
  let bc := dp_bc (_mm_xor_ps sgn_ss p1) p2 in
  let b2_inv := rcp_nr1 b2 in
  let t := _mm_mul_ps (_mm_mul_ps bc b2_inv) s in
  let neg := sgn_hi in
  let st := _mm_mul_ps s t in
  let st := _mm_mul_ps p1 st in
  let p2 := _mm_sub_ps (_mm_mul_ps p2 b2_inv) (_mm_xor_ps sgn_ss (_mm_add_ps st st)) in
  let p2 := _mm_xor_ps neg p2 in
  let p1 := _mm_xor_ps neg (_mm_mul_ps p1 b2_inv) in
  mkmotor p1 p2.

(** [_mm_and_ps(p1_, _mm_set_ss(-0.f))] broadcast: the sign bit of lane 0 as
    a sign mask.  rotor.hpp 156-160, motor.hpp 221-226. *)
Definition sign_mask (v : m128 F) : m128 bool := _mm_set1_ps (fsign (l0 v)).
Definition rotor_constrained (r : rotor F) : rotor F :=
  mkrotor (_mm_xor_ps (sign_mask (rotor_p1 r)) (rotor_p1 r)).
Definition motor_constrained (m : motor F) : motor F :=
  mkmotor (_mm_xor_ps (sign_mask (motor_p1 m)) (motor_p1 m))
          (_mm_xor_ps (sign_mask (motor_p1 m)) (motor_p2 m)).

(** ** Comparison *)
Definition approx4 (a b : m128 F) (eps : F) : m128 bool :=
  _mm_cmplt_ps (abs_ps (_mm_sub_ps a b)) (_mm_set1_ps eps).
(** plane.hpp 111-114, 116-123 *)
Definition plane_eq (a b : plane F) : bool := all4 (_mm_cmpeq_ps (plane_p0 a) (plane_p0 b)).
Definition plane_approx_eq (a b : plane F) (eps : F) : bool :=
  all4 (approx4 (plane_p0 a) (plane_p0 b) eps).
(** rotor.hpp 169-172, 174-181 *)
Definition rotor_eq (a b : rotor F) : bool := all4 (_mm_cmpeq_ps (rotor_p1 a) (rotor_p1 b)).
Definition rotor_approx_eq (a b : rotor F) (eps : F) : bool :=
  all4 (approx4 (rotor_p1 a) (rotor_p1 b) eps).
(** line.hpp 591-597, 599-610 *)
Definition line_eq (a b : line F) : bool :=
  all4 (and4 (_mm_cmpeq_ps (line_p1 a) (line_p1 b)) (_mm_cmpeq_ps (line_p2 a) (line_p2 b))).
Definition line_approx_eq (a b : line F) (eps : F) : bool :=
  all4 (and4 (approx4 (line_p1 a) (line_p1 b) eps) (approx4 (line_p2 a) (line_p2 b) eps)).
(** motor.hpp 236-242, 244-255 *)
Definition motor_eq (a b : motor F) : bool :=
  all4 (and4 (_mm_cmpeq_ps (motor_p1 a) (motor_p1 b)) (_mm_cmpeq_ps (motor_p2 a) (motor_p2 b))).
Definition motor_approx_eq (a b : motor F) (eps : F) : bool :=
  all4 (and4 (approx4 (motor_p1 a) (motor_p1 b) eps) (approx4 (motor_p2 a) (motor_p2 b) eps)).

(** ** Constructors using libm *)

(** translator.hpp 56-64 *)
Definition translator_ctor (delta x y z : F) : translator F :=
  let norm := fsqrt (fadd (fadd (fmul x x) (fmul y y)) (fmul z z)) in
  let inv_norm := fdiv (fz 1) norm in
  let half_d := fmul (fopp fhalf) delta in
  let p2 := _mm_mul_ps (_mm_set1_ps half_d) (_mm_set_ps z y x (fz 0)) in
  let p2 := _mm_mul_ps p2 (_mm_set_ps inv_norm inv_norm inv_norm (fz 0)) in
  mktranslator p2.
(** rotor.hpp 72-84 *)
Definition rotor_ctor (ang_rad x y z : F) : rotor F :=
  let norm := fsqrt (fadd (fadd (fmul x x) (fmul y y)) (fmul z z)) in
  let inv_norm := fdiv (fz 1) norm in
  let half := fmul fhalf ang_rad in
  let sin_ang := fsin half in
  let scale := fmul sin_ang inv_norm in
  let p1 := _mm_set_ps z y x (fcos half) in
  let p1 := _mm_mul_ps p1 (_mm_set_ps scale scale scale (fz 1)) in
  mkrotor p1.
(** rotor.hpp 86-104 *)
Definition rotor_of_euler (ea : euler_angles F) : rotor F :=
  let half_yaw := fmul (yaw ea) fhalf in
  let half_pitch := fmul (pitch ea) fhalf in
  let half_roll := fmul (roll ea) fhalf in
  let cos_y := fcos half_yaw in
  let sin_y := fsin half_yaw in
  let cos_p := fcos half_pitch in
  let sin_p := fsin half_pitch in
  let cos_r := fcos half_roll in
  let sin_r := fsin half_roll in
  let p1 := _mm_set_ps
    (fsub (fmul (fmul cos_r cos_p) sin_y) (fmul (fmul sin_r sin_p) cos_y))
    (fadd (fmul (fmul cos_r sin_p) cos_y) (fmul (fmul sin_r cos_p) sin_y))
    (fsub (fmul (fmul sin_r cos_p) cos_y) (fmul (fmul cos_r sin_p) sin_y))
    (fadd (fmul (fmul cos_r cos_p) cos_y) (fmul (fmul sin_r sin_p) sin_y)) in
  rotor_normalized (mkrotor p1).
(** rotor.hpp 201-243 *)
Definition rotor_as_euler_angles (r : rotor F) : euler_angles F :=
  let b0 := l0 (rotor_p1 r) in
  let b1 := l1 (rotor_p1 r) in
  let b2 := l2 (rotor_p1 r) in
  let b3 := l3 (rotor_p1 r) in
  let test := fadd (fmul b1 b2) (fmul b3 b0) in
  if fltb f04999 test then
    mkeuler (fmul (fz 2) (fatan2 b1 b0)) fpi_2 (fz 0)
  else if fltb test (fopp f04999) then
    mkeuler (fmul (fz (-2)) (fatan2 b1 b0)) (fopp fpi_2) (fz 0)
  else
  let b1_2 := fmul b1 b1 in
  let b2_2 := fmul b2 b2 in
  let b3_2 := fmul b3 b3 in
  let roll := fatan2 (fmul (fz 2) (fadd (fmul b0 b1) (fmul b2 b3)))
                     (fsub (fz 1) (fmul (fz 2) (fadd b1_2 b2_2))) in
  let sinp := fmul (fz 2) (fsub (fmul b0 b2) (fmul b1 b3)) in
  let pitch := if fltb (fz 1) (fabs sinp)
               then (if fsign sinp then fopp fpi_2 else fpi_2)
               else fasin sinp in
  let yaw := fatan2 (fmul (fz 2) (fadd (fmul b0 b3) (fmul b1 b2)))
                    (fsub (fz 1) (fmul (fz 2) (fadd b2_2 b3_2))) in
  mkeuler roll pitch yaw.
(** motor.hpp 98-104 *)
Definition motor_screw (ang_rad d : F) (l : line F) : motor F :=
  let '(lp1, lp2) := gpDL (fmul (fopp ang_rad) fhalf) (fmul d fhalf) (line_p1 l) (line_p2 l) in
  let '(p1, p2) := exp_kernel lp1 lp2 in
  mkmotor p1 p2.

(** ** exp, log, sqrt (exp_log.hpp) *)

(** 38-43 *)
Definition motor_log (m : motor F) : line F :=
  let '(p1, p2) := log_kernel (motor_p1 m) (motor_p2 m) in mkline p1 p2.
(** 50-55 *)
Definition line_exp (l : line F) : motor F :=
  let '(p1, p2) := exp_kernel (line_p1 l) (line_p2 l) in mkmotor p1 p2.
(** 60-65 *)
Definition translator_log (t : translator F) : ideal_line F := mkideal_line (translator_p2 t).
(** 74-79 *)
Definition ideal_line_exp (l : ideal_line F) : translator F := mktranslator (ideal_line_p2 l).
(** 89-105 *)
Definition rotor_log (r : rotor F) : branch F :=
  let cos_ang := l0 (rotor_p1 r) in
  let ang := facos cos_ang in
  let sin_ang := fsin ang in
  let p1 := _mm_mul_ps (rotor_p1 r) (rcp_nr1 (_mm_set1_ps sin_ang)) in
  let p1 := _mm_mul_ps p1 (_mm_set1_ps ang) in
  let p1 := if sse41 then _mm_blend_ps p1 _mm_setzero_ps 1
            else _mm_and_ps p1 (lanes_epi32 true true true false) in
  mkbranch p1.
(** 108-120 *)
Definition branch_exp (b : branch F) : rotor F :=
  let ang := l0 (sqrt_nr1 (hi_dp (branch_p1 b) (branch_p1 b))) in
  let cos_ang := fcos ang in
  let sin_ang := fdiv (fsin ang) ang in
  let p1 := _mm_mul_ps (_mm_set1_ps sin_ang) (branch_p1 b) in
  let p1 := _mm_add_ps p1 (_mm_set_ps (fz 0) (fz 0) (fz 0) cos_ang) in
  mkrotor p1.
(** 123-128 *)
Definition rotor_sqrt (r : rotor F) : rotor F :=
  rotor_normalized (mkrotor (_mm_add_ss (rotor_p1 r) (_mm_set_ss (fz 1)))).
(** 130-136 *)
Definition branch_sqrt (b : branch F) : rotor F :=
  rotor_normalized (mkrotor (_mm_add_ss (branch_p1 b) (_mm_set_ss (fz 1)))).
(** 139-143 *)
Definition translator_sqrt (t : translator F) : translator F := translator_imul_f t fhalf.
(** 146-151 *)
Definition motor_sqrt (m : motor F) : motor F :=
  motor_normalized (mkmotor (_mm_add_ss (motor_p1 m) (_mm_set_ss (fz 1))) (motor_p2 m)).

(** ** Quotients (geometric_product.hpp 231-284): invert b, then multiply *)
Definition plane_quo_plane (a b : plane F) : motor F := plane_mul_plane a (plane_inverse b).
Definition point_quo_point (a b : point F) : translator F := point_mul_point a (point_inverse b).
Definition branch_quo_branch (a b : branch F) : rotor F := branch_mul_branch a (branch_inverse b).
Definition rotor_quo_rotor (a b : rotor F) : rotor F := rotor_mul_rotor a (rotor_inverse b).
Definition translator_quo_translator (a b : translator F) : translator F :=
  translator_mul_translator a (translator_inverse b).
Definition line_quo_line (a b : line F) : motor F := line_mul_line a (line_inverse b).
Definition motor_quo_rotor (a : motor F) (b : rotor F) : motor F :=
  motor_mul_rotor a (rotor_inverse b).
Definition motor_quo_translator (a : motor F) (b : translator F) : motor F :=
  motor_mul_translator a (translator_inverse b).
Definition motor_quo_motor (a b : motor F) : motor F := motor_mul_motor a (motor_inverse b).
End ApiF.
