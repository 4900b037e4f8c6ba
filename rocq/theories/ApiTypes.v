(** The entity classes of /repo/public/klein.  Each wraps its partition
    registers; the C++ class has no other state. *)
From Coq Require Import ZArith.
From Verif Require Import Scalar SSE.

(** plane.hpp 22-251: p0_ = (e0, e1, e2, e3) *)
Record plane (F : Type) := mkplane { plane_p0 : m128 F }.
(** point.hpp 18-180: p3_ = (e123, e032, e013, e021) *)
Record point (F : Type) := mkpoint { point_p3 : m128 F }.
(** direction.hpp 18-128: p3_ *)
Record direction (F : Type) := mkdirection { direction_p3 : m128 F }.
(** line.hpp 25-131: p2_ = (e0123, e01, e02, e03) *)
Record ideal_line (F : Type) := mkideal_line { ideal_line_p2 : m128 F }.
(** line.hpp 233-400: p1_ = (1, e23, e31, e12) *)
Record branch (F : Type) := mkbranch { branch_p1 : m128 F }.
(** line.hpp 479-738: p1_, p2_ *)
Record line (F : Type) := mkline { line_p1 : m128 F; line_p2 : m128 F }.
(** rotor.hpp 65-443: p1_ *)
Record rotor (F : Type) := mkrotor { rotor_p1 : m128 F }.
(** translator.hpp 51-210: p2_; the scalar part 1 is implicit *)
Record translator (F : Type) := mktranslator { translator_p2 : m128 F }.
(** motor.hpp 80-526: p1_, p2_ *)
Record motor (F : Type) := mkmotor { motor_p1 : m128 F; motor_p2 : m128 F }.
(** dual.hpp 12-55: p + q e0123 *)
Record dual (F : Type) := mkdual { dual_p : F; dual_q : F }.
(** rotor.hpp 14-19 *)
Record euler_angles (F : Type) := mkeuler { roll : F; pitch : F; yaw : F }.

Arguments mkplane {F}. Arguments plane_p0 {F}.
Arguments mkpoint {F}. Arguments point_p3 {F}.
Arguments mkdirection {F}. Arguments direction_p3 {F}.
Arguments mkideal_line {F}. Arguments ideal_line_p2 {F}.
Arguments mkbranch {F}. Arguments branch_p1 {F}.
Arguments mkline {F}. Arguments line_p1 {F}. Arguments line_p2 {F}.
Arguments mkrotor {F}. Arguments rotor_p1 {F}.
Arguments mktranslator {F}. Arguments translator_p2 {F}.
Arguments mkmotor {F}. Arguments motor_p1 {F}. Arguments motor_p2 {F}.
Arguments mkdual {F}. Arguments dual_p {F}. Arguments dual_q {F}.
Arguments mkeuler {F}. Arguments roll {F}. Arguments pitch {F}. Arguments yaw {F}.
