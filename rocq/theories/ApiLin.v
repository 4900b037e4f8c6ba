(** Linear operators of the entity classes: +, -, scaling by float and int,
    inverse scaling, and the compound-assignment forms (which return the new
    value of [*this]).  One definition per C++ overload. *)
From Coq Require Import ZArith.
From Verif Require Import Scalar SSE ApiTypes.

Section Lin.
Context {F : Type} {A : Arith F}.

(** plane.hpp 159-163 *)
Definition plane_iadd (a b : plane F) : plane F :=
  mkplane (_mm_add_ps (plane_p0 a) (plane_p0 b)).

(** plane.hpp 253-258 *)
Definition plane_add (a b : plane F) : plane F :=
  mkplane (_mm_add_ps (plane_p0 a) (plane_p0 b)).

(** plane.hpp 166-170 *)
Definition plane_isub (a b : plane F) : plane F :=
  mkplane (_mm_sub_ps (plane_p0 a) (plane_p0 b)).

(** plane.hpp 261-266 *)
Definition plane_sub (a b : plane F) : plane F :=
  mkplane (_mm_sub_ps (plane_p0 a) (plane_p0 b)).

(** plane.hpp 173-177 *)
Definition plane_imul_f (a : plane F) (s : F) : plane F :=
  mkplane (_mm_mul_ps (plane_p0 a) (_mm_set1_ps s)).

(** plane.hpp 180-184 *)
Definition plane_imul_i (a : plane F) (s : Z) : plane F :=
  mkplane (_mm_mul_ps (plane_p0 a) (_mm_set1_ps (fz s))).

(** plane.hpp 269-274 *)
Definition plane_mul_f (a : plane F) (s : F) : plane F :=
  mkplane (_mm_mul_ps (plane_p0 a) (_mm_set1_ps s)).

(** plane.hpp 277-280 *)
Definition f_mul_plane (s : F) (a : plane F) : plane F :=
  plane_mul_f a s.

(** plane.hpp 283-286 *)
Definition plane_mul_i (a : plane F) (s : Z) : plane F :=
  plane_mul_f a (fz s).

(** plane.hpp 289-292 *)
Definition i_mul_plane (s : Z) (a : plane F) : plane F :=
  plane_mul_f a (fz s).

(** point.hpp 137-141 *)
Definition point_iadd (a b : point F) : point F :=
  mkpoint (_mm_add_ps (point_p3 a) (point_p3 b)).

(** point.hpp 183-188 *)
Definition point_add (a b : point F) : point F :=
  mkpoint (_mm_add_ps (point_p3 a) (point_p3 b)).

(** point.hpp 144-148 *)
Definition point_isub (a b : point F) : point F :=
  mkpoint (_mm_sub_ps (point_p3 a) (point_p3 b)).

(** point.hpp 191-196 *)
Definition point_sub (a b : point F) : point F :=
  mkpoint (_mm_sub_ps (point_p3 a) (point_p3 b)).

(** point.hpp 151-155 *)
Definition point_imul_f (a : point F) (s : F) : point F :=
  mkpoint (_mm_mul_ps (point_p3 a) (_mm_set1_ps s)).

(** point.hpp 158-162 *)
Definition point_imul_i (a : point F) (s : Z) : point F :=
  mkpoint (_mm_mul_ps (point_p3 a) (_mm_set1_ps (fz s))).

(** point.hpp 199-204 *)
Definition point_mul_f (a : point F) (s : F) : point F :=
  mkpoint (_mm_mul_ps (point_p3 a) (_mm_set1_ps s)).

(** point.hpp 207-210 *)
Definition f_mul_point (s : F) (a : point F) : point F :=
  point_mul_f a s.

(** point.hpp 213-216 *)
Definition point_mul_i (a : point F) (s : Z) : point F :=
  point_mul_f a (fz s).

(** point.hpp 219-222 *)
Definition i_mul_point (s : Z) (a : point F) : point F :=
  point_mul_f a (fz s).

(** direction.hpp 85-89 *)
Definition direction_iadd (a b : direction F) : direction F :=
  mkdirection (_mm_add_ps (direction_p3 a) (direction_p3 b)).

(** direction.hpp 131-137 *)
Definition direction_add (a b : direction F) : direction F :=
  mkdirection (_mm_add_ps (direction_p3 a) (direction_p3 b)).

(** direction.hpp 92-96 *)
Definition direction_isub (a b : direction F) : direction F :=
  mkdirection (_mm_sub_ps (direction_p3 a) (direction_p3 b)).

(** direction.hpp 140-146 *)
Definition direction_sub (a b : direction F) : direction F :=
  mkdirection (_mm_sub_ps (direction_p3 a) (direction_p3 b)).

(** direction.hpp 99-103 *)
Definition direction_imul_f (a : direction F) (s : F) : direction F :=
  mkdirection (_mm_mul_ps (direction_p3 a) (_mm_set1_ps s)).

(** direction.hpp 106-110 *)
Definition direction_imul_i (a : direction F) (s : Z) : direction F :=
  mkdirection (_mm_mul_ps (direction_p3 a) (_mm_set1_ps (fz s))).

(** direction.hpp 149-154 *)
Definition direction_mul_f (a : direction F) (s : F) : direction F :=
  mkdirection (_mm_mul_ps (direction_p3 a) (_mm_set1_ps s)).

(** direction.hpp 157-160 *)
Definition f_mul_direction (s : F) (a : direction F) : direction F :=
  direction_mul_f a s.

(** direction.hpp 163-166 *)
Definition direction_mul_i (a : direction F) (s : Z) : direction F :=
  direction_mul_f a (fz s).

(** direction.hpp 169-172 *)
Definition i_mul_direction (s : Z) (a : direction F) : direction F :=
  direction_mul_f a (fz s).

(** line.hpp 52-56 *)
Definition ideal_line_iadd (a b : ideal_line F) : ideal_line F :=
  mkideal_line (_mm_add_ps (ideal_line_p2 a) (ideal_line_p2 b)).

(** line.hpp 134-140 *)
Definition ideal_line_add (a b : ideal_line F) : ideal_line F :=
  mkideal_line (_mm_add_ps (ideal_line_p2 a) (ideal_line_p2 b)).

(** line.hpp 59-63 *)
Definition ideal_line_isub (a b : ideal_line F) : ideal_line F :=
  mkideal_line (_mm_sub_ps (ideal_line_p2 a) (ideal_line_p2 b)).

(** line.hpp 143-149 *)
Definition ideal_line_sub (a b : ideal_line F) : ideal_line F :=
  mkideal_line (_mm_sub_ps (ideal_line_p2 a) (ideal_line_p2 b)).

(** line.hpp 66-70 *)
Definition ideal_line_imul_f (a : ideal_line F) (s : F) : ideal_line F :=
  mkideal_line (_mm_mul_ps (ideal_line_p2 a) (_mm_set1_ps s)).

(** line.hpp 73-77 *)
Definition ideal_line_imul_i (a : ideal_line F) (s : Z) : ideal_line F :=
  mkideal_line (_mm_mul_ps (ideal_line_p2 a) (_mm_set1_ps (fz s))).

(** line.hpp 152-158 *)
Definition ideal_line_mul_f (a : ideal_line F) (s : F) : ideal_line F :=
  mkideal_line (_mm_mul_ps (ideal_line_p2 a) (_mm_set1_ps s)).

(** line.hpp 169-173 *)
Definition f_mul_ideal_line (s : F) (a : ideal_line F) : ideal_line F :=
  ideal_line_mul_f a s.

(** line.hpp 161-166 *)
Definition ideal_line_mul_i (a : ideal_line F) (s : Z) : ideal_line F :=
  mkideal_line (_mm_mul_ps (ideal_line_p2 a) (_mm_set1_ps (fz s))).

(** line.hpp 176-179 *)
Definition i_mul_ideal_line (s : Z) (a : ideal_line F) : ideal_line F :=
  ideal_line_mul_f a (fz s).

(** line.hpp 300-304 *)
Definition branch_iadd (a b : branch F) : branch F :=
  mkbranch (_mm_add_ps (branch_p1 a) (branch_p1 b)).

(** line.hpp 403-408 *)
Definition branch_add (a b : branch F) : branch F :=
  mkbranch (_mm_add_ps (branch_p1 a) (branch_p1 b)).

(** line.hpp 307-311 *)
Definition branch_isub (a b : branch F) : branch F :=
  mkbranch (_mm_sub_ps (branch_p1 a) (branch_p1 b)).

(** line.hpp 411-416 *)
Definition branch_sub (a b : branch F) : branch F :=
  mkbranch (_mm_sub_ps (branch_p1 a) (branch_p1 b)).

(** line.hpp 314-318 *)
Definition branch_imul_f (a : branch F) (s : F) : branch F :=
  mkbranch (_mm_mul_ps (branch_p1 a) (_mm_set1_ps s)).

(** line.hpp 321-325 *)
Definition branch_imul_i (a : branch F) (s : Z) : branch F :=
  mkbranch (_mm_mul_ps (branch_p1 a) (_mm_set1_ps (fz s))).

(** line.hpp 419-424 *)
Definition branch_mul_f (a : branch F) (s : F) : branch F :=
  mkbranch (_mm_mul_ps (branch_p1 a) (_mm_set1_ps s)).

(** line.hpp 433-436 *)
Definition f_mul_branch (s : F) (a : branch F) : branch F :=
  branch_mul_f a s.

(** line.hpp 427-430 *)
Definition branch_mul_i (a : branch F) (s : Z) : branch F :=
  branch_mul_f a (fz s).

(** line.hpp 439-442 *)
Definition i_mul_branch (s : Z) (a : branch F) : branch F :=
  branch_mul_f a (fz s).

(** line.hpp 613-618 *)
Definition line_iadd (a b : line F) : line F :=
  mkline (_mm_add_ps (line_p1 a) (line_p1 b)) (_mm_add_ps (line_p2 a) (line_p2 b)).

(** line.hpp 741-747 *)
Definition line_add (a b : line F) : line F :=
  mkline (_mm_add_ps (line_p1 a) (line_p1 b)) (_mm_add_ps (line_p2 a) (line_p2 b)).

(** line.hpp 621-626 *)
Definition line_isub (a b : line F) : line F :=
  mkline (_mm_sub_ps (line_p1 a) (line_p1 b)) (_mm_sub_ps (line_p2 a) (line_p2 b)).

(** line.hpp 750-756 *)
Definition line_sub (a b : line F) : line F :=
  mkline (_mm_sub_ps (line_p1 a) (line_p1 b)) (_mm_sub_ps (line_p2 a) (line_p2 b)).

(** line.hpp 629-635 *)
Definition line_imul_f (a : line F) (s : F) : line F :=
  mkline (_mm_mul_ps (line_p1 a) (_mm_set1_ps s)) (_mm_mul_ps (line_p2 a) (_mm_set1_ps s)).

(** line.hpp 638-644 *)
Definition line_imul_i (a : line F) (s : Z) : line F :=
  mkline (_mm_mul_ps (line_p1 a) (_mm_set1_ps (fz s))) (_mm_mul_ps (line_p2 a) (_mm_set1_ps (fz s))).

(** line.hpp 759-766 *)
Definition line_mul_f (a : line F) (s : F) : line F :=
  mkline (_mm_mul_ps (line_p1 a) (_mm_set1_ps s)) (_mm_mul_ps (line_p2 a) (_mm_set1_ps s)).

(** line.hpp 775-778 *)
Definition f_mul_line (s : F) (a : line F) : line F :=
  line_mul_f a s.

(** line.hpp 769-772 *)
Definition line_mul_i (a : line F) (s : Z) : line F :=
  line_mul_f a (fz s).

(** line.hpp 781-784 *)
Definition i_mul_line (s : Z) (a : line F) : line F :=
  line_mul_f a (fz s).

(** rotor.hpp 351-355 *)
Definition rotor_iadd (a b : rotor F) : rotor F :=
  mkrotor (_mm_add_ps (rotor_p1 a) (rotor_p1 b)).

(** rotor.hpp 446-451 *)
Definition rotor_add (a b : rotor F) : rotor F :=
  mkrotor (_mm_add_ps (rotor_p1 a) (rotor_p1 b)).

(** rotor.hpp 358-362 *)
Definition rotor_isub (a b : rotor F) : rotor F :=
  mkrotor (_mm_sub_ps (rotor_p1 a) (rotor_p1 b)).

(** rotor.hpp 454-459 *)
Definition rotor_sub (a b : rotor F) : rotor F :=
  mkrotor (_mm_sub_ps (rotor_p1 a) (rotor_p1 b)).

(** rotor.hpp 365-369 *)
Definition rotor_imul_f (a : rotor F) (s : F) : rotor F :=
  mkrotor (_mm_mul_ps (rotor_p1 a) (_mm_set1_ps s)).

(** rotor.hpp 372-376 *)
Definition rotor_imul_i (a : rotor F) (s : Z) : rotor F :=
  mkrotor (_mm_mul_ps (rotor_p1 a) (_mm_set1_ps (fz s))).

(** rotor.hpp 462-467 *)
Definition rotor_mul_f (a : rotor F) (s : F) : rotor F :=
  mkrotor (_mm_mul_ps (rotor_p1 a) (_mm_set1_ps s)).

(** rotor.hpp 476-479 *)
Definition f_mul_rotor (s : F) (a : rotor F) : rotor F :=
  rotor_mul_f a s.

(** rotor.hpp 470-473 *)
Definition rotor_mul_i (a : rotor F) (s : Z) : rotor F :=
  rotor_mul_f a (fz s).

(** rotor.hpp 482-485 *)
Definition i_mul_rotor (s : Z) (a : rotor F) : rotor F :=
  rotor_mul_f a (fz s).

(** translator.hpp 126-130 *)
Definition translator_iadd (a b : translator F) : translator F :=
  mktranslator (_mm_add_ps (translator_p2 a) (translator_p2 b)).

(** translator.hpp 213-219 *)
Definition translator_add (a b : translator F) : translator F :=
  mktranslator (_mm_add_ps (translator_p2 a) (translator_p2 b)).

(** translator.hpp 133-137 *)
Definition translator_isub (a b : translator F) : translator F :=
  mktranslator (_mm_sub_ps (translator_p2 a) (translator_p2 b)).

(** translator.hpp 222-228 *)
Definition translator_sub (a b : translator F) : translator F :=
  mktranslator (_mm_sub_ps (translator_p2 a) (translator_p2 b)).

(** translator.hpp 140-144 *)
Definition translator_imul_f (a : translator F) (s : F) : translator F :=
  mktranslator (_mm_mul_ps (translator_p2 a) (_mm_set1_ps s)).

(** translator.hpp 147-151 *)
Definition translator_imul_i (a : translator F) (s : Z) : translator F :=
  mktranslator (_mm_mul_ps (translator_p2 a) (_mm_set1_ps (fz s))).

(** translator.hpp 231-237 *)
Definition translator_mul_f (a : translator F) (s : F) : translator F :=
  mktranslator (_mm_mul_ps (translator_p2 a) (_mm_set1_ps s)).

(** translator.hpp 248-252 *)
Definition f_mul_translator (s : F) (a : translator F) : translator F :=
  translator_mul_f a s.

(** translator.hpp 240-245 *)
Definition translator_mul_i (a : translator F) (s : Z) : translator F :=
  mktranslator (_mm_mul_ps (translator_p2 a) (_mm_set1_ps (fz s))).

(** translator.hpp 255-258 *)
Definition i_mul_translator (s : Z) (a : translator F) : translator F :=
  translator_mul_i a s.

(** motor.hpp 387-392 *)
Definition motor_iadd (a b : motor F) : motor F :=
  mkmotor (_mm_add_ps (motor_p1 a) (motor_p1 b)) (_mm_add_ps (motor_p2 a) (motor_p2 b)).

(** motor.hpp 529-535 *)
Definition motor_add (a b : motor F) : motor F :=
  mkmotor (_mm_add_ps (motor_p1 a) (motor_p1 b)) (_mm_add_ps (motor_p2 a) (motor_p2 b)).

(** motor.hpp 395-400 *)
Definition motor_isub (a b : motor F) : motor F :=
  mkmotor (_mm_sub_ps (motor_p1 a) (motor_p1 b)) (_mm_sub_ps (motor_p2 a) (motor_p2 b)).

(** motor.hpp 538-544 *)
Definition motor_sub (a b : motor F) : motor F :=
  mkmotor (_mm_sub_ps (motor_p1 a) (motor_p1 b)) (_mm_sub_ps (motor_p2 a) (motor_p2 b)).

(** motor.hpp 403-409 *)
Definition motor_imul_f (a : motor F) (s : F) : motor F :=
  mkmotor (_mm_mul_ps (motor_p1 a) (_mm_set1_ps s)) (_mm_mul_ps (motor_p2 a) (_mm_set1_ps s)).

(** motor.hpp 412-418 *)
Definition motor_imul_i (a : motor F) (s : Z) : motor F :=
  mkmotor (_mm_mul_ps (motor_p1 a) (_mm_set1_ps (fz s))) (_mm_mul_ps (motor_p2 a) (_mm_set1_ps (fz s))).

(** motor.hpp 547-554 *)
Definition motor_mul_f (a : motor F) (s : F) : motor F :=
  mkmotor (_mm_mul_ps (motor_p1 a) (_mm_set1_ps s)) (_mm_mul_ps (motor_p2 a) (_mm_set1_ps s)).

(** motor.hpp 563-566 *)
Definition f_mul_motor (s : F) (a : motor F) : motor F :=
  motor_mul_f a s.

(** motor.hpp 557-560 *)
Definition motor_mul_i (a : motor F) (s : Z) : motor F :=
  motor_mul_f a (fz s).

(** motor.hpp 569-572 *)
Definition i_mul_motor (s : Z) (a : motor F) : motor F :=
  motor_mul_f a (fz s).

(** dual.hpp 25-30, 57-60 *)
Definition dual_iadd (a b : dual F) : dual F :=
  mkdual (fadd (dual_p a) (dual_p b)) (fadd (dual_q a) (dual_q b)).
Definition dual_add (a b : dual F) : dual F :=
  mkdual (fadd (dual_p a) (dual_p b)) (fadd (dual_q a) (dual_q b)).
(** dual.hpp 32-37, 62-65 *)
Definition dual_isub (a b : dual F) : dual F :=
  mkdual (fsub (dual_p a) (dual_p b)) (fsub (dual_q a) (dual_q b)).
Definition dual_sub (a b : dual F) : dual F :=
  mkdual (fsub (dual_p a) (dual_p b)) (fsub (dual_q a) (dual_q b)).
(** dual.hpp 39-44, 67-70, 72-75 *)
Definition dual_imul_f (a : dual F) (s : F) : dual F :=
  mkdual (fmul (dual_p a) s) (fmul (dual_q a) s).
Definition dual_mul_f (a : dual F) (s : F) : dual F :=
  mkdual (fmul (dual_p a) s) (fmul (dual_q a) s).
Definition f_mul_dual (s : F) (a : dual F) : dual F :=
  mkdual (fmul (dual_p a) s) (fmul (dual_q a) s).

(** Unary minus and reversion.  [all] flips every lane, [hi] lanes 1-3. *)
Definition sgn_all : m128 bool := sgn_ps true true true true.
Definition sgn_hi : m128 bool := sgn_ps true true true false.

(** plane.hpp 310-313: e0 keeps its sign *)
Definition plane_neg (p : plane F) : plane F := mkplane (_mm_xor_ps sgn_hi (plane_p0 p)).
(** point.hpp 239-242: e123 keeps its sign *)
Definition point_neg (p : point F) : point F := mkpoint (_mm_xor_ps sgn_hi (point_p3 p)).
(** point.hpp 245-249 *)
Definition point_rev (p : point F) : point F := mkpoint (_mm_xor_ps sgn_all (point_p3 p)).
(** direction.hpp 189-192 *)
Definition direction_neg (d : direction F) : direction F :=
  mkdirection (_mm_xor_ps sgn_all (direction_p3 d)).
(** line.hpp 196-199, 202-206 *)
Definition ideal_line_neg (l : ideal_line F) : ideal_line F :=
  mkideal_line (_mm_xor_ps sgn_all (ideal_line_p2 l)).
Definition ideal_line_rev (l : ideal_line F) : ideal_line F :=
  mkideal_line (_mm_xor_ps sgn_hi (ideal_line_p2 l)).
(** line.hpp 459-462, 465-469 *)
Definition branch_neg (b : branch F) : branch F := mkbranch (_mm_xor_ps sgn_all (branch_p1 b)).
Definition branch_rev (b : branch F) : branch F := mkbranch (_mm_xor_ps sgn_hi (branch_p1 b)).
(** line.hpp 803-807, 810-814 *)
Definition line_neg (l : line F) : line F :=
  mkline (_mm_xor_ps sgn_all (line_p1 l)) (_mm_xor_ps sgn_all (line_p2 l)).
Definition line_rev (l : line F) : line F :=
  mkline (_mm_xor_ps sgn_hi (line_p1 l)) (_mm_xor_ps sgn_hi (line_p2 l)).
(** rotor.hpp 502-506, 509-512 *)
Definition rotor_rev (r : rotor F) : rotor F := mkrotor (_mm_xor_ps sgn_hi (rotor_p1 r)).
Definition rotor_neg (r : rotor F) : rotor F := mkrotor (_mm_xor_ps sgn_all (rotor_p1 r)).
(** motor.hpp 591-595, 598-602 *)
Definition motor_neg (m : motor F) : motor F :=
  mkmotor (_mm_xor_ps sgn_all (motor_p1 m)) (_mm_xor_ps sgn_all (motor_p2 m)).
Definition motor_rev (m : motor F) : motor F :=
  mkmotor (_mm_xor_ps sgn_hi (motor_p1 m)) (_mm_xor_ps sgn_hi (motor_p2 m)).
End Lin.

Section LinF.
Context {F : Type} {FL : Flo F}.

(** plane.hpp 187-191 *)
Definition plane_idiv_f (a : plane F) (s : F) : plane F :=
  mkplane (_mm_mul_ps (plane_p0 a) (rcp_nr1 (_mm_set1_ps s))).

(** plane.hpp 194-199 *)
Definition plane_idiv_i (a : plane F) (s : Z) : plane F :=
  mkplane (_mm_mul_ps (plane_p0 a) (rcp_nr1 (_mm_set1_ps (fz s)))).

(** plane.hpp 295-300 *)
Definition plane_div_f (a : plane F) (s : F) : plane F :=
  mkplane (_mm_mul_ps (plane_p0 a) (rcp_nr1 (_mm_set1_ps s))).

(** plane.hpp 303-306 *)
Definition plane_div_i (a : plane F) (s : Z) : plane F :=
  plane_div_f a (fz s).

(** point.hpp 165-169 *)
Definition point_idiv_f (a : point F) (s : F) : point F :=
  mkpoint (_mm_mul_ps (point_p3 a) (rcp_nr1 (_mm_set1_ps s))).

(** point.hpp 172-177 *)
Definition point_idiv_i (a : point F) (s : Z) : point F :=
  mkpoint (_mm_mul_ps (point_p3 a) (rcp_nr1 (_mm_set1_ps (fz s)))).

(** point.hpp 225-230 *)
Definition point_div_f (a : point F) (s : F) : point F :=
  mkpoint (_mm_mul_ps (point_p3 a) (rcp_nr1 (_mm_set1_ps s))).

(** point.hpp 233-236 *)
Definition point_div_i (a : point F) (s : Z) : point F :=
  point_div_f a (fz s).

(** direction.hpp 113-117 *)
Definition direction_idiv_f (a : direction F) (s : F) : direction F :=
  mkdirection (_mm_mul_ps (direction_p3 a) (rcp_nr1 (_mm_set1_ps s))).

(** direction.hpp 120-125 *)
Definition direction_idiv_i (a : direction F) (s : Z) : direction F :=
  mkdirection (_mm_mul_ps (direction_p3 a) (rcp_nr1 (_mm_set1_ps (fz s)))).

(** direction.hpp 175-180 *)
Definition direction_div_f (a : direction F) (s : F) : direction F :=
  mkdirection (_mm_mul_ps (direction_p3 a) (rcp_nr1 (_mm_set1_ps s))).

(** direction.hpp 183-186 *)
Definition direction_div_i (a : direction F) (s : Z) : direction F :=
  direction_div_f a (fz s).

(** line.hpp 80-84 *)
Definition ideal_line_idiv_f (a : ideal_line F) (s : F) : ideal_line F :=
  mkideal_line (_mm_mul_ps (ideal_line_p2 a) (rcp_nr1 (_mm_set1_ps s))).

(** line.hpp 87-92 *)
Definition ideal_line_idiv_i (a : ideal_line F) (s : Z) : ideal_line F :=
  mkideal_line (_mm_mul_ps (ideal_line_p2 a) (rcp_nr1 (_mm_set1_ps (fz s)))).

(** line.hpp 182-188 *)
Definition ideal_line_div_f (a : ideal_line F) (s : F) : ideal_line F :=
  mkideal_line (_mm_mul_ps (ideal_line_p2 a) (rcp_nr1 (_mm_set1_ps s))).

(** line.hpp 190-193 *)
Definition ideal_line_div_i (a : ideal_line F) (s : Z) : ideal_line F :=
  ideal_line_div_f a (fz s).

(** line.hpp 328-332 *)
Definition branch_idiv_f (a : branch F) (s : F) : branch F :=
  mkbranch (_mm_mul_ps (branch_p1 a) (rcp_nr1 (_mm_set1_ps s))).

(** line.hpp 335-340 *)
Definition branch_idiv_i (a : branch F) (s : Z) : branch F :=
  mkbranch (_mm_mul_ps (branch_p1 a) (rcp_nr1 (_mm_set1_ps (fz s)))).

(** line.hpp 445-450 *)
Definition branch_div_f (a : branch F) (s : F) : branch F :=
  mkbranch (_mm_mul_ps (branch_p1 a) (rcp_nr1 (_mm_set1_ps s))).

(** line.hpp 453-456 *)
Definition branch_div_i (a : branch F) (s : Z) : branch F :=
  branch_div_f a (fz s).

(** line.hpp 647-653 *)
Definition line_idiv_f (a : line F) (s : F) : line F :=
  mkline (_mm_mul_ps (line_p1 a) (rcp_nr1 (_mm_set1_ps s))) (_mm_mul_ps (line_p2 a) (rcp_nr1 (_mm_set1_ps s))).

(** line.hpp 656-662 *)
Definition line_idiv_i (a : line F) (s : Z) : line F :=
  mkline (_mm_mul_ps (line_p1 a) (rcp_nr1 (_mm_set1_ps (fz s)))) (_mm_mul_ps (line_p2 a) (rcp_nr1 (_mm_set1_ps (fz s)))).

(** line.hpp 787-794 *)
Definition line_div_f (a : line F) (s : F) : line F :=
  mkline (_mm_mul_ps (line_p1 a) (rcp_nr1 (_mm_set1_ps s))) (_mm_mul_ps (line_p2 a) (rcp_nr1 (_mm_set1_ps s))).

(** line.hpp 797-800 *)
Definition line_div_i (a : line F) (s : Z) : line F :=
  line_div_f a (fz s).

(** rotor.hpp 379-383 *)
Definition rotor_idiv_f (a : rotor F) (s : F) : rotor F :=
  mkrotor (_mm_mul_ps (rotor_p1 a) (rcp_nr1 (_mm_set1_ps s))).

(** rotor.hpp 386-391 *)
Definition rotor_idiv_i (a : rotor F) (s : Z) : rotor F :=
  mkrotor (_mm_mul_ps (rotor_p1 a) (rcp_nr1 (_mm_set1_ps (fz s)))).

(** rotor.hpp 488-493 *)
Definition rotor_div_f (a : rotor F) (s : F) : rotor F :=
  mkrotor (_mm_mul_ps (rotor_p1 a) (rcp_nr1 (_mm_set1_ps s))).

(** rotor.hpp 496-499 *)
Definition rotor_div_i (a : rotor F) (s : Z) : rotor F :=
  rotor_div_f a (fz s).

(** translator.hpp 154-158 *)
Definition translator_idiv_f (a : translator F) (s : F) : translator F :=
  mktranslator (_mm_mul_ps (translator_p2 a) (rcp_nr1 (_mm_set1_ps s))).

(** translator.hpp 161-166 *)
Definition translator_idiv_i (a : translator F) (s : Z) : translator F :=
  mktranslator (_mm_mul_ps (translator_p2 a) (rcp_nr1 (_mm_set1_ps (fz s)))).

(** translator.hpp 261-267 *)
Definition translator_div_f (a : translator F) (s : F) : translator F :=
  mktranslator (_mm_mul_ps (translator_p2 a) (rcp_nr1 (_mm_set1_ps s))).

(** translator.hpp 270-273 *)
Definition translator_div_i (a : translator F) (s : Z) : translator F :=
  translator_div_f a (fz s).

(** motor.hpp 421-427 *)
Definition motor_idiv_f (a : motor F) (s : F) : motor F :=
  mkmotor (_mm_mul_ps (motor_p1 a) (rcp_nr1 (_mm_set1_ps s))) (_mm_mul_ps (motor_p2 a) (rcp_nr1 (_mm_set1_ps s))).

(** motor.hpp 430-436 *)
Definition motor_idiv_i (a : motor F) (s : Z) : motor F :=
  mkmotor (_mm_mul_ps (motor_p1 a) (rcp_nr1 (_mm_set1_ps (fz s)))) (_mm_mul_ps (motor_p2 a) (rcp_nr1 (_mm_set1_ps (fz s)))).

(** motor.hpp 575-582 *)
Definition motor_div_f (a : motor F) (s : F) : motor F :=
  mkmotor (_mm_mul_ps (motor_p1 a) (rcp_nr1 (_mm_set1_ps s))) (_mm_mul_ps (motor_p2 a) (rcp_nr1 (_mm_set1_ps s))).

(** motor.hpp 585-588 *)
Definition motor_div_i (a : motor F) (s : Z) : motor F :=
  motor_div_f a (fz s).

(** dual.hpp 46-51, 77-80: plain IEEE division *)
Definition dual_idiv_f (a : dual F) (s : F) : dual F :=
  mkdual (fdiv (dual_p a) s) (fdiv (dual_q a) s).
Definition dual_div_f (a : dual F) (s : F) : dual F :=
  mkdual (fdiv (dual_p a) s) (fdiv (dual_q a) s).
End LinF.
