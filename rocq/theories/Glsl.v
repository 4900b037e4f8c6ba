(** The shader port: /repo/glsl/klein.glsl.

    [vec4] is a register (x y z w = lanes 0 1 2 3); a kln_* struct holds the
    same partitions as the C++ type of the same name, so the C++ records are
    reused.  Assignments to components ([t.x = -t.x]) are [set_x].  Only exact
    arithmetic is of interest: GLSL leaves rounding to the implementation. *)
From Coq Require Import ZArith.
From Verif Require Import Scalar SSE Api.

Section Glsl.
Context {F : Type} {A : Arith F}.

Inductive comp := X | Y | Z_ | W.
Definition at_ (v : m128 F) (c : comp) : F :=
  match c with X => l0 v | Y => l1 v | Z_ => l2 v | W => l3 v end.
(** [v.abcd] *)
Definition swz (v : m128 F) (a b c d : comp) : m128 F := mk4 (at_ v a) (at_ v b) (at_ v c) (at_ v d).
Definition vadd : m128 F -> m128 F -> m128 F := map4_2 fadd.
Definition vsub : m128 F -> m128 F -> m128 F := map4_2 fsub.
Definition vmul : m128 F -> m128 F -> m128 F := map4_2 fmul.
(** float * vec4 and vec4 * float *)
Definition smul (s : F) (v : m128 F) : m128 F := map4 (fmul s) v.
Definition muls (v : m128 F) (s : F) : m128 F := map4 (fun x => fmul x s) v.
Definition vec4 (x y z w : Z) : m128 F := mk4 (fz x) (fz y) (fz z) (fz w).
Definition set_x (v : m128 F) (x : F) : m128 F := mk4 x (l1 v) (l2 v) (l3 v).
(** GLSL [dot] *)
Definition vdot (v w : m128 F) : F :=
  fadd (fadd (fadd (fmul (l0 v) (l0 w)) (fmul (l1 v) (l1 w))) (fmul (l2 v) (l2 w))) (fmul (l3 v) (l3 w)).

(** klein.glsl 44-56 *)
Definition glsl_mul_rotor (a b : rotor F) : rotor F :=
  let a1 := rotor_p1 a in let b1 := rotor_p1 b in
  let c := smul (l0 a1) b1 in
  let c := vsub c (vmul (swz a1 Y Z_ W Y) (swz b1 Y W Y Z_)) in
  let t := vmul (swz a1 Z_ Y Z_ W) (swz b1 Z_ X X X) in
  let t := vadd t (vmul (swz a1 W W Y Z_) (swz b1 W Z_ W Y)) in
  let t := set_x t (fopp (l0 t)) in
  mkrotor (vadd c t).

(** klein.glsl 58-64 *)
Definition glsl_mul_translator (a b : translator F) : translator F :=
  mktranslator (vadd (translator_p2 a) (translator_p2 b)).

(** klein.glsl 66-93 *)
Definition glsl_mul_motor (a b : motor F) : motor F :=
  let a1 := motor_p1 a in let a2 := motor_p2 a in
  let b1 := motor_p1 b in let b2 := motor_p2 b in
  let a_zyzw := swz a1 Z_ Y Z_ W in
  let a_ywyz := swz a1 Y W Y Z_ in
  let a_wzwy := swz a1 W Z_ W Y in
  let c_wwyz := swz b1 W W Y Z_ in
  let c_yzwy := swz b1 Y Z_ W Y in
  let c1 := smul (l0 a1) b1 in
  let t := vmul a_ywyz c_yzwy in
  let t := vadd t (vmul a_zyzw (swz b1 Z_ X X X)) in
  let t := set_x t (fopp (l0 t)) in
  let c1 := vadd c1 t in
  let c1 := vsub c1 (vmul a_wzwy c_wwyz) in
  let c2 := smul (l0 a1) b2 in
  let c2 := vadd c2 (muls a2 (l0 b1)) in
  let c2 := vadd c2 (vmul a_ywyz (swz b2 Y Z_ W Y)) in
  let c2 := vadd c2 (vmul (swz a2 Y W Y Z_) c_yzwy) in
  let t := vmul a_zyzw (swz b2 Z_ X X X) in
  let t := vadd t (vmul a_wzwy (swz b2 W W Y Z_)) in
  let t := vadd t (vmul (swz a2 Z_ X X X) (swz b1 Z_ Y Z_ W)) in
  let t := vadd t (vmul (swz a2 W Z_ W Y) c_wwyz) in
  let t := set_x t (fopp (l0 t)) in
  mkmotor c1 (vsub c2 t).

(** the block shared by the two plane overloads, klein.glsl 97-112 and 124-139 *)
Definition glsl_plane_rot (r : m128 F) : m128 F * m128 F * m128 F :=
  let dc_scale := vec4 1 2 2 2 in
  let neg_low := vec4 (-1) 1 1 1 in
  let t1 := vmul (swz r Z_ X X X) (swz r Z_ W Y Z_) in
  let t1 := vadd t1 (vmul (swz r Y Z_ W Y) (swz r Y Y Z_ W)) in
  let t1 := vmul t1 dc_scale in
  let t2 := vmul r (swz r X W Y Z_) in
  let t2 := vsub t2 (vmul (vmul (swz r W X X X) (swz r W Z_ W Y)) neg_low) in
  let t2 := vmul t2 dc_scale in
  let t3 := vmul r r in
  let t3 := vsub t3 (vmul (swz r X W Y Z_) (swz r X W Y Z_)) in
  let t3 := vadd t3 (vmul (swz r X X X X) (swz r X X X X)) in
  let t3 := vsub t3 (vmul (swz r X Z_ W Y) (swz r X Z_ W Y)) in
  (t1, t2, t3).

(** klein.glsl 95-120 *)
Definition glsl_apply_rotor_plane (r : rotor F) (p : plane F) : plane F :=
  let '(t1, t2, t3) := glsl_plane_rot (rotor_p1 r) in
  let p0 := plane_p0 p in
  let q := vmul t1 (swz p0 X Z_ W Y) in
  let q := vadd q (vmul t2 (swz p0 X W Y Z_)) in
  let q := vadd q (vmul t3 p0) in
  mkplane q.

(** klein.glsl 122-154 *)
Definition glsl_apply_motor_plane (m : motor F) (p : plane F) : plane F :=
  let m1 := motor_p1 m in let m2 := motor_p2 m in
  let '(t1, t2, t3) := glsl_plane_rot m1 in
  let t4 := smul (l0 m1) m2 in
  let t4 := vadd t4 (vmul (swz m1 X Z_ W Y) (swz m2 X W Y Z_)) in
  let t4 := vadd t4 (muls m1 (l0 m2)) in
  let t4 := vsub t4 (vmul (swz m1 X W Y Z_) (swz m2 X Z_ W Y)) in
  let t4 := vmul t4 (vec4 0 2 2 2) in
  let p0 := plane_p0 p in
  let q := vmul t1 (swz p0 X Z_ W Y) in
  let q := vadd q (vmul t2 (swz p0 X W Y Z_)) in
  let q := vadd q (vmul t3 p0) in
  let q := vadd q (mk4 (vdot t4 p0) (fz 0) (fz 0) (fz 0)) in
  mkplane q.

(** the block shared by the two point overloads, klein.glsl 158-172 and 184-198 *)
Definition glsl_point_rot (r : m128 F) : m128 F * m128 F * m128 F :=
  let scale := vec4 0 2 2 2 in
  let t1 := vmul r (swz r X W Y Z_) in
  let t1 := vsub t1 (smul (l0 r) (swz r X Z_ W Y)) in
  let t1 := vmul t1 scale in
  let t2 := smul (l0 r) (swz r X W Y Z_) in
  let t2 := vadd t2 (vmul (swz r X Z_ W Y) r) in
  let t2 := vmul t2 scale in
  let t3 := vmul r r in
  let t3 := vadd t3 (vmul (swz r Y X X X) (swz r Y X X X)) in
  let t4 := vmul (swz r Z_ W Y Z_) (swz r Z_ W Y Z_) in
  let t4 := vadd t4 (vmul (swz r W Z_ W Y) (swz r W Z_ W Y)) in
  let t3 := vsub t3 (vmul t4 (vec4 (-1) 1 1 1)) in
  (t1, t2, t3).

(** klein.glsl 156-180 *)
Definition glsl_apply_rotor_point (r : rotor F) (p : point F) : point F :=
  let '(t1, t2, t3) := glsl_point_rot (rotor_p1 r) in
  let p3 := point_p3 p in
  let q := vmul t1 (swz p3 X W Y Z_) in
  let q := vadd q (vmul t2 (swz p3 X Z_ W Y)) in
  let q := vadd q (vmul t3 p3) in
  mkpoint q.

(** klein.glsl 182-212 *)
Definition glsl_apply_motor_point (m : motor F) (p : point F) : point F :=
  let m1 := motor_p1 m in let m2 := motor_p2 m in
  let '(t1, t2, t3) := glsl_point_rot m1 in
  let t4 := vmul (swz m1 X Z_ W Y) (swz m2 X W Y Z_) in
  let t4 := vsub t4 (smul (l0 m1) m2) in
  let t4 := vsub t4 (vmul (swz m1 X W Y Z_) (swz m2 X Z_ W Y)) in
  let t4 := vsub t4 (muls m1 (l0 m2)) in
  let t4 := vmul t4 (vec4 0 2 2 2) in
  let p3 := point_p3 p in
  let q := vmul t1 (swz p3 X W Y Z_) in
  let q := vadd q (vmul t2 (swz p3 X Z_ W Y)) in
  let q := vadd q (vmul t3 p3) in
  let q := vadd q (muls t4 (l0 p3)) in
  mkpoint q.

(** klein.glsl 214-228: the motor applied to the origin *)
Definition glsl_apply_motor_origin (m : motor F) : point F :=
  let m1 := motor_p1 m in let m2 := motor_p2 m in
  let p := muls m1 (l0 m2) in
  let p := vadd p (smul (l0 m1) m2) in
  let p := vadd p (vmul (swz m1 X W Y Z_) (swz m2 X Z_ W Y)) in
  let p := vsub (vmul (swz m1 X Z_ W Y) (swz m2 X W Y Z_)) p in
  let p := vmul p (vec4 0 2 2 2) in
  mkpoint (set_x p (fz 1)).
End Glsl.
