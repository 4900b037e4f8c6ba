(** C41 without a lower bound on the operands: [accurate_any] (FloatAbs.v) adds an
    absolute term for products that underflow. *)
From Coq Require Import ZArith Reals List Bool Lra Lia.
From Flocq Require Import Core BinarySingleNaN.
From Verif Require Import AlgTac SpecMass Float32 FloatFacts ExprSyntax FloatErr FloatMass FloatOps FloatAbs.
Import ListNotations.
Local Open Scope R_scope.

Ltac acc t := refine (t _ _ _ _ _); try discriminate;
  match goal with b : Build |- _ => destruct b as [[|]] end; vm_compute; reflexivity.

(** ** C41.  Coefficients of any magnitude up to 2^60 (2^39 for sandwiches), subnormal
    ones included: finite results, with the error of Props12.v plus 2^-144 (2^-103 for
    sandwiches of rotors, translators and motors, 2^-67 for reflections of lines and points). *)
Theorem C41_any_geometric_product_partial : forall B : Build,
  accurate_any (k1 := KPlane) (k2 := KPlane) (k3 := KMotor) 60 3 (-144) plane_mul_plane SGp /\
  accurate_any (k1 := KPlane) (k2 := KPoint) (k3 := KMotor) 60 4 (-144) plane_mul_point SGp /\
  accurate_any (k1 := KPoint) (k2 := KPlane) (k3 := KMotor) 60 4 (-144) point_mul_plane SGp /\
  accurate_any (k1 := KBranch) (k2 := KBranch) (k3 := KRotor) 60 3 (-144) branch_mul_branch SGp /\
  accurate_any (k1 := KRotor) (k2 := KRotor) (k3 := KRotor) 60 3 (-144) rotor_mul_rotor SGp /\
  accurate_any (k1 := KDual) (k2 := KLine) (k3 := KLine) 60 2 (-144) dual_mul_line SGp /\
  accurate_any (k1 := KLine) (k2 := KDual) (k3 := KLine) 60 2 (-144) line_mul_dual SGp /\
  accurate_any (k1 := KRotor) (k2 := KTranslator) (k3 := KMotor) 60 3 (-144) rotor_mul_translator SGp /\
  accurate_any (k1 := KTranslator) (k2 := KRotor) (k3 := KMotor) 60 3 (-144) translator_mul_rotor SGp /\
  accurate_any (k1 := KTranslator) (k2 := KTranslator) (k3 := KTranslator) 60 1 (-144) translator_mul_translator SGp /\
  accurate_any (k1 := KRotor) (k2 := KMotor) (k3 := KMotor) 60 4 (-144) rotor_mul_motor SGp /\
  accurate_any (k1 := KMotor) (k2 := KRotor) (k3 := KMotor) 60 4 (-144) motor_mul_rotor SGp /\
  accurate_any (k1 := KTranslator) (k2 := KMotor) (k3 := KMotor) 60 4 (-144) translator_mul_motor SGp /\
  accurate_any (k1 := KMotor) (k2 := KTranslator) (k3 := KMotor) 60 4 (-144) motor_mul_translator SGp /\
  accurate_any (k1 := KMotor) (k2 := KMotor) (k3 := KMotor) 60 5 (-144) motor_mul_motor SGp.
Proof.
  intro B. repeat match goal with |- _ /\ _ => split end.
  - acc (op_accurate_any (o_plane_mul_plane B) SGp 60 (-144) 3 (o_plane_mul_plane_natural B) (o_plane_mul_plane_correct B)).
  - acc (op_accurate_any (o_plane_mul_point B) SGp 60 (-144) 4 (o_plane_mul_point_natural B) (o_plane_mul_point_correct B)).
  - acc (op_accurate_any (o_point_mul_plane B) SGp 60 (-144) 4 (o_point_mul_plane_natural B) (o_point_mul_plane_correct B)).
  - acc (op_accurate_any (o_branch_mul_branch B) SGp 60 (-144) 3 (o_branch_mul_branch_natural B) (o_branch_mul_branch_correct B)).
  - acc (op_accurate_any (o_rotor_mul_rotor B) SGp 60 (-144) 3 (o_rotor_mul_rotor_natural B) (o_rotor_mul_rotor_correct B)).
  - acc (op_accurate_any (o_dual_mul_line B) SGp 60 (-144) 2 (o_dual_mul_line_natural B) (o_dual_mul_line_correct B)).
  - acc (op_accurate_any (o_line_mul_dual B) SGp 60 (-144) 2 (o_line_mul_dual_natural B) (o_line_mul_dual_correct B)).
  - acc (op_accurate_any (o_rotor_mul_translator B) SGp 60 (-144) 3 (o_rotor_mul_translator_natural B) (o_rotor_mul_translator_correct B)).
  - acc (op_accurate_any (o_translator_mul_rotor B) SGp 60 (-144) 3 (o_translator_mul_rotor_natural B) (o_translator_mul_rotor_correct B)).
  - acc (op_accurate_any (o_translator_mul_translator B) SGp 60 (-144) 1 (o_translator_mul_translator_natural B) (o_translator_mul_translator_correct B)).
  - acc (op_accurate_any (o_rotor_mul_motor B) SGp 60 (-144) 4 (o_rotor_mul_motor_natural B) (o_rotor_mul_motor_correct B)).
  - acc (op_accurate_any (o_motor_mul_rotor B) SGp 60 (-144) 4 (o_motor_mul_rotor_natural B) (o_motor_mul_rotor_correct B)).
  - acc (op_accurate_any (o_translator_mul_motor B) SGp 60 (-144) 4 (o_translator_mul_motor_natural B) (o_translator_mul_motor_correct B)).
  - acc (op_accurate_any (o_motor_mul_translator B) SGp 60 (-144) 4 (o_motor_mul_translator_natural B) (o_motor_mul_translator_correct B)).
  - acc (op_accurate_any (o_motor_mul_motor B) SGp 60 (-144) 5 (o_motor_mul_motor_natural B) (o_motor_mul_motor_correct B)).
Qed.
Theorem C41_any_meet : forall B : Build,
  accurate_any (k1 := KPlane) (k2 := KPlane) (k3 := KLine) 60 2 (-144) plane_ext_plane SExt /\
  accurate_any (k1 := KPlane) (k2 := KBranch) (k3 := KPoint) 60 4 (-144) plane_ext_branch SExt /\
  accurate_any (k1 := KBranch) (k2 := KPlane) (k3 := KPoint) 60 4 (-144) branch_ext_plane SExt /\
  accurate_any (k1 := KPlane) (k2 := KIdeal) (k3 := KPoint) 60 2 (-144) plane_ext_ideal SExt /\
  accurate_any (k1 := KIdeal) (k2 := KPlane) (k3 := KPoint) 60 2 (-144) ideal_ext_plane SExt /\
  accurate_any (k1 := KPlane) (k2 := KLine) (k3 := KPoint) 60 5 (-144) plane_ext_line SExt /\
  accurate_any (k1 := KLine) (k2 := KPlane) (k3 := KPoint) 60 5 (-144) line_ext_plane SExt /\
  accurate_any (k1 := KPlane) (k2 := KPoint) (k3 := KDual) 60 3 (-144) plane_ext_point SExt /\
  accurate_any (k1 := KPoint) (k2 := KPlane) (k3 := KDual) 60 3 (-144) point_ext_plane SExt /\
  accurate_any (k1 := KBranch) (k2 := KIdeal) (k3 := KDual) 60 3 (-144) branch_ext_ideal SExt /\
  accurate_any (k1 := KIdeal) (k2 := KBranch) (k3 := KDual) 60 3 (-144) ideal_ext_branch SExt /\
  accurate_any (k1 := KLine) (k2 := KLine) (k3 := KDual) 60 4 (-144) line_ext_line SExt /\
  accurate_any (k1 := KLine) (k2 := KIdeal) (k3 := KDual) 60 3 (-144) line_ext_ideal SExt /\
  accurate_any (k1 := KIdeal) (k2 := KLine) (k3 := KDual) 60 3 (-144) ideal_ext_line SExt /\
  accurate_any (k1 := KLine) (k2 := KBranch) (k3 := KDual) 60 3 (-144) line_ext_branch SExt /\
  accurate_any (k1 := KBranch) (k2 := KLine) (k3 := KDual) 60 3 (-144) branch_ext_line SExt.
Proof.
  intro B. repeat match goal with |- _ /\ _ => split end.
  - acc (op_accurate_any (o_plane_ext_plane B) SExt 60 (-144) 2 (o_plane_ext_plane_natural B) (o_plane_ext_plane_correct B)).
  - acc (op_accurate_any (o_plane_ext_branch B) SExt 60 (-144) 4 (o_plane_ext_branch_natural B) (o_plane_ext_branch_correct B)).
  - acc (op_accurate_any (o_branch_ext_plane B) SExt 60 (-144) 4 (o_branch_ext_plane_natural B) (o_branch_ext_plane_correct B)).
  - acc (op_accurate_any (o_plane_ext_ideal B) SExt 60 (-144) 2 (o_plane_ext_ideal_natural B) (o_plane_ext_ideal_correct B)).
  - acc (op_accurate_any (o_ideal_ext_plane B) SExt 60 (-144) 2 (o_ideal_ext_plane_natural B) (o_ideal_ext_plane_correct B)).
  - acc (op_accurate_any (o_plane_ext_line B) SExt 60 (-144) 5 (o_plane_ext_line_natural B) (o_plane_ext_line_correct B)).
  - acc (op_accurate_any (o_line_ext_plane B) SExt 60 (-144) 5 (o_line_ext_plane_natural B) (o_line_ext_plane_correct B)).
  - acc (op_accurate_any (o_plane_ext_point B) SExt 60 (-144) 3 (o_plane_ext_point_natural B) (o_plane_ext_point_correct B)).
  - acc (op_accurate_any (o_point_ext_plane B) SExt 60 (-144) 3 (o_point_ext_plane_natural B) (o_point_ext_plane_correct B)).
  - acc (op_accurate_any (o_branch_ext_ideal B) SExt 60 (-144) 3 (o_branch_ext_ideal_natural B) (o_branch_ext_ideal_correct B)).
  - acc (op_accurate_any (o_ideal_ext_branch B) SExt 60 (-144) 3 (o_ideal_ext_branch_natural B) (o_ideal_ext_branch_correct B)).
  - acc (op_accurate_any (o_line_ext_line B) SExt 60 (-144) 4 (o_line_ext_line_natural B) (o_line_ext_line_correct B)).
  - acc (op_accurate_any (o_line_ext_ideal B) SExt 60 (-144) 3 (o_line_ext_ideal_natural B) (o_line_ext_ideal_correct B)).
  - acc (op_accurate_any (o_ideal_ext_line B) SExt 60 (-144) 3 (o_ideal_ext_line_natural B) (o_ideal_ext_line_correct B)).
  - acc (op_accurate_any (o_line_ext_branch B) SExt 60 (-144) 3 (o_line_ext_branch_natural B) (o_line_ext_branch_correct B)).
  - acc (op_accurate_any (o_branch_ext_line B) SExt 60 (-144) 3 (o_branch_ext_line_natural B) (o_branch_ext_line_correct B)).
Qed.
Theorem C41_any_inner_product : forall B : Build,
  accurate_any (k1 := KPlane) (k2 := KPlane) (k3 := KScalar) 60 3 (-144) plane_dot_plane SDot /\
  accurate_any (k1 := KPlane) (k2 := KLine) (k3 := KPlane) 60 4 (-144) plane_dot_line SDot /\
  accurate_any (k1 := KLine) (k2 := KPlane) (k3 := KPlane) 60 4 (-144) line_dot_plane SDot /\
  accurate_any (k1 := KPlane) (k2 := KIdeal) (k3 := KPlane) 60 3 (-144) plane_dot_ideal SDot /\
  accurate_any (k1 := KIdeal) (k2 := KPlane) (k3 := KPlane) 60 3 (-144) ideal_dot_plane SDot /\
  accurate_any (k1 := KPlane) (k2 := KPoint) (k3 := KLine) 60 2 (-144) plane_dot_point SDot /\
  accurate_any (k1 := KPoint) (k2 := KPlane) (k3 := KLine) 60 2 (-144) point_dot_plane SDot /\
  accurate_any (k1 := KLine) (k2 := KLine) (k3 := KScalar) 60 3 (-144) line_dot_line SDot /\
  accurate_any (k1 := KPoint) (k2 := KLine) (k3 := KPlane) 60 4 (-144) point_dot_line SDot /\
  accurate_any (k1 := KLine) (k2 := KPoint) (k3 := KPlane) 60 4 (-144) line_dot_point SDot /\
  accurate_any (k1 := KPoint) (k2 := KPoint) (k3 := KScalar) 60 2 (-144) point_dot_point SDot.
Proof.
  intro B. repeat match goal with |- _ /\ _ => split end.
  - acc (op_accurate_any (o_plane_dot_plane B) SDot 60 (-144) 3 (o_plane_dot_plane_natural B) (o_plane_dot_plane_correct B)).
  - acc (op_accurate_any (o_plane_dot_line B) SDot 60 (-144) 4 (o_plane_dot_line_natural B) (o_plane_dot_line_correct B)).
  - acc (op_accurate_any (o_line_dot_plane B) SDot 60 (-144) 4 (o_line_dot_plane_natural B) (o_line_dot_plane_correct B)).
  - acc (op_accurate_any (o_plane_dot_ideal B) SDot 60 (-144) 3 (o_plane_dot_ideal_natural B) (o_plane_dot_ideal_correct B)).
  - acc (op_accurate_any (o_ideal_dot_plane B) SDot 60 (-144) 3 (o_ideal_dot_plane_natural B) (o_ideal_dot_plane_correct B)).
  - acc (op_accurate_any (o_plane_dot_point B) SDot 60 (-144) 2 (o_plane_dot_point_natural B) (o_plane_dot_point_correct B)).
  - acc (op_accurate_any (o_point_dot_plane B) SDot 60 (-144) 2 (o_point_dot_plane_natural B) (o_point_dot_plane_correct B)).
  - acc (op_accurate_any (o_line_dot_line B) SDot 60 (-144) 3 (o_line_dot_line_natural B) (o_line_dot_line_correct B)).
  - acc (op_accurate_any (o_point_dot_line B) SDot 60 (-144) 4 (o_point_dot_line_natural B) (o_point_dot_line_correct B)).
  - acc (op_accurate_any (o_line_dot_point B) SDot 60 (-144) 4 (o_line_dot_point_natural B) (o_line_dot_point_correct B)).
  - acc (op_accurate_any (o_point_dot_point B) SDot 60 (-144) 2 (o_point_dot_point_natural B) (o_point_dot_point_correct B)).
Qed.
Theorem C41_any_join : forall B : Build,
  accurate_any (k1 := KPoint) (k2 := KPoint) (k3 := KLine) 60 2 (-144) point_join_point SReg /\
  accurate_any (k1 := KPoint) (k2 := KLine) (k3 := KPlane) 60 5 (-144) point_join_line SReg /\
  accurate_any (k1 := KLine) (k2 := KPoint) (k3 := KPlane) 60 5 (-144) line_join_point SReg /\
  accurate_any (k1 := KPoint) (k2 := KBranch) (k3 := KPlane) 60 2 (-144) point_join_branch SReg /\
  accurate_any (k1 := KBranch) (k2 := KPoint) (k3 := KPlane) 60 2 (-144) branch_join_point SReg /\
  accurate_any (k1 := KPoint) (k2 := KIdeal) (k3 := KPlane) 60 4 (-144) point_join_ideal SReg /\
  accurate_any (k1 := KIdeal) (k2 := KPoint) (k3 := KPlane) 60 4 (-144) ideal_join_point SReg /\
  accurate_any (k1 := KPlane) (k2 := KPoint) (k3 := KDual) 60 3 (-144) plane_join_point SReg /\
  accurate_any (k1 := KPoint) (k2 := KPlane) (k3 := KDual) 60 3 (-144) point_join_plane SReg.
Proof.
  intro B. repeat match goal with |- _ /\ _ => split end.
  - acc (op_accurate_any (o_point_join_point B) SReg 60 (-144) 2 (o_point_join_point_natural B) (o_point_join_point_correct B)).
  - acc (op_accurate_any (o_point_join_line B) SReg 60 (-144) 5 (o_point_join_line_natural B) (o_point_join_line_correct B)).
  - acc (op_accurate_any (o_line_join_point B) SReg 60 (-144) 5 (o_line_join_point_natural B) (o_line_join_point_correct B)).
  - acc (op_accurate_any (o_point_join_branch B) SReg 60 (-144) 2 (o_point_join_branch_natural B) (o_point_join_branch_correct B)).
  - acc (op_accurate_any (o_branch_join_point B) SReg 60 (-144) 2 (o_branch_join_point_natural B) (o_branch_join_point_correct B)).
  - acc (op_accurate_any (o_point_join_ideal B) SReg 60 (-144) 4 (o_point_join_ideal_natural B) (o_point_join_ideal_correct B)).
  - acc (op_accurate_any (o_ideal_join_point B) SReg 60 (-144) 4 (o_ideal_join_point_natural B) (o_ideal_join_point_correct B)).
  - acc (op_accurate_any (o_plane_join_point B) SReg 60 (-144) 3 (o_plane_join_point_natural B) (o_plane_join_point_correct B)).
  - acc (op_accurate_any (o_point_join_plane B) SReg 60 (-144) 3 (o_point_join_plane_natural B) (o_point_join_plane_correct B)).
Qed.
Theorem C41_any_sandwich : forall B : Build,
  accurate_any (k1 := KRotor) (k2 := KPlane) (k3 := KPlane) 39 18 (-103) rotor_on_plane SSandwich /\
  accurate_any (k1 := KRotor) (k2 := KBranch) (k3 := KBranch) 39 6 (-103) rotor_on_branch SSandwich /\
  accurate_any (k1 := KRotor) (k2 := KLine) (k3 := KLine) 39 6 (-103) rotor_on_line SSandwich /\
  accurate_any (k1 := KRotor) (k2 := KPoint) (k3 := KPoint) 39 18 (-103) rotor_on_point SSandwich /\
  accurate_any (k1 := KRotor) (k2 := KDirection) (k3 := KDirection) 39 6 (-103) rotor_on_direction SSandwich /\
  accurate_any (k1 := KTranslator) (k2 := KLine) (k3 := KLine) 39 5 (-103) translator_on_line SSandwich /\
  accurate_any (k1 := KTranslator) (k2 := KPoint) (k3 := KPoint) 39 3 (-103) translator_on_point SSandwich /\
  accurate_any (k1 := KMotor) (k2 := KPlane) (k3 := KPlane) 39 27 (-103) motor_on_plane SSandwich /\
  accurate_any (k1 := KMotor) (k2 := KLine) (k3 := KLine) 39 9 (-103) motor_on_line SSandwich /\
  accurate_any (k1 := KMotor) (k2 := KPoint) (k3 := KPoint) 39 7 (-103) motor_on_point SSandwich /\
  accurate_any (k1 := KMotor) (k2 := KDirection) (k3 := KDirection) 39 6 (-103) motor_on_direction SSandwich /\
  accurate_any (k1 := KPlane) (k2 := KPlane) (k3 := KPlane) 39 6 (-103) plane_on_plane SSandwich /\
  accurate_any (k1 := KPlane) (k2 := KLine) (k3 := KLine) 39 6 (-67) plane_on_line SSandwich /\
  accurate_any (k1 := KPlane) (k2 := KPoint) (k3 := KPoint) 39 6 (-67) plane_on_point SSandwich.
Proof.
  intro B. repeat match goal with |- _ /\ _ => split end.
  - acc (op_accurate_any (o_rotor_on_plane B) SSandwich 39 (-103) 18 (o_rotor_on_plane_natural B) (o_rotor_on_plane_correct B)).
  - acc (op_accurate_any (o_rotor_on_branch B) SSandwich 39 (-103) 6 (o_rotor_on_branch_natural B) (o_rotor_on_branch_correct B)).
  - acc (op_accurate_any (o_rotor_on_line B) SSandwich 39 (-103) 6 (o_rotor_on_line_natural B) (o_rotor_on_line_correct B)).
  - acc (op_accurate_any (o_rotor_on_point B) SSandwich 39 (-103) 18 (o_rotor_on_point_natural B) (o_rotor_on_point_correct B)).
  - acc (op_accurate_any (o_rotor_on_direction B) SSandwich 39 (-103) 6 (o_rotor_on_direction_natural B) (o_rotor_on_direction_correct B)).
  - acc (op_accurate_any (o_translator_on_line B) SSandwich 39 (-103) 5 (o_translator_on_line_natural B) (o_translator_on_line_correct B)).
  - acc (op_accurate_any (o_translator_on_point B) SSandwich 39 (-103) 3 (o_translator_on_point_natural B) (o_translator_on_point_correct B)).
  - acc (op_accurate_any (o_motor_on_plane B) SSandwich 39 (-103) 27 (o_motor_on_plane_natural B) (o_motor_on_plane_correct B)).
  - acc (op_accurate_any (o_motor_on_line B) SSandwich 39 (-103) 9 (o_motor_on_line_natural B) (o_motor_on_line_correct B)).
  - acc (op_accurate_any (o_motor_on_point B) SSandwich 39 (-103) 7 (o_motor_on_point_natural B) (o_motor_on_point_correct B)).
  - acc (op_accurate_any (o_motor_on_direction B) SSandwich 39 (-103) 6 (o_motor_on_direction_natural B) (o_motor_on_direction_correct B)).
  - acc (op_accurate_any (o_plane_on_plane B) SSandwich 39 (-103) 6 (o_plane_on_plane_natural B) (o_plane_on_plane_correct B)).
  - acc (op_accurate_any (o_plane_on_line B) SSandwich 39 (-67) 6 (o_plane_on_line_natural B) (o_plane_on_line_correct B)).
  - acc (op_accurate_any (o_plane_on_point B) SSandwich 39 (-67) 6 (o_plane_on_point_natural B) (o_plane_on_point_correct B)).
Qed.
Theorem C41_any_sandwich_20 : forall B : Build,
  accurate_any (k1 := KRotor) (k2 := KPlane) (k3 := KPlane) 20 18 (-122) rotor_on_plane SSandwich /\
  accurate_any (k1 := KRotor) (k2 := KBranch) (k3 := KBranch) 20 6 (-122) rotor_on_branch SSandwich /\
  accurate_any (k1 := KRotor) (k2 := KLine) (k3 := KLine) 20 6 (-122) rotor_on_line SSandwich /\
  accurate_any (k1 := KRotor) (k2 := KPoint) (k3 := KPoint) 20 18 (-122) rotor_on_point SSandwich /\
  accurate_any (k1 := KRotor) (k2 := KDirection) (k3 := KDirection) 20 6 (-122) rotor_on_direction SSandwich /\
  accurate_any (k1 := KTranslator) (k2 := KLine) (k3 := KLine) 20 5 (-122) translator_on_line SSandwich /\
  accurate_any (k1 := KTranslator) (k2 := KPoint) (k3 := KPoint) 20 3 (-122) translator_on_point SSandwich /\
  accurate_any (k1 := KMotor) (k2 := KPlane) (k3 := KPlane) 20 27 (-122) motor_on_plane SSandwich /\
  accurate_any (k1 := KMotor) (k2 := KLine) (k3 := KLine) 20 9 (-122) motor_on_line SSandwich /\
  accurate_any (k1 := KMotor) (k2 := KPoint) (k3 := KPoint) 20 7 (-122) motor_on_point SSandwich /\
  accurate_any (k1 := KMotor) (k2 := KDirection) (k3 := KDirection) 20 6 (-122) motor_on_direction SSandwich /\
  accurate_any (k1 := KPlane) (k2 := KPlane) (k3 := KPlane) 20 6 (-122) plane_on_plane SSandwich /\
  accurate_any (k1 := KPlane) (k2 := KLine) (k3 := KLine) 20 6 (-105) plane_on_line SSandwich /\
  accurate_any (k1 := KPlane) (k2 := KPoint) (k3 := KPoint) 20 6 (-105) plane_on_point SSandwich.
Proof.
  intro B. repeat match goal with |- _ /\ _ => split end.
  - acc (op_accurate_any (o_rotor_on_plane B) SSandwich 20 (-122) 18 (o_rotor_on_plane_natural B) (o_rotor_on_plane_correct B)).
  - acc (op_accurate_any (o_rotor_on_branch B) SSandwich 20 (-122) 6 (o_rotor_on_branch_natural B) (o_rotor_on_branch_correct B)).
  - acc (op_accurate_any (o_rotor_on_line B) SSandwich 20 (-122) 6 (o_rotor_on_line_natural B) (o_rotor_on_line_correct B)).
  - acc (op_accurate_any (o_rotor_on_point B) SSandwich 20 (-122) 18 (o_rotor_on_point_natural B) (o_rotor_on_point_correct B)).
  - acc (op_accurate_any (o_rotor_on_direction B) SSandwich 20 (-122) 6 (o_rotor_on_direction_natural B) (o_rotor_on_direction_correct B)).
  - acc (op_accurate_any (o_translator_on_line B) SSandwich 20 (-122) 5 (o_translator_on_line_natural B) (o_translator_on_line_correct B)).
  - acc (op_accurate_any (o_translator_on_point B) SSandwich 20 (-122) 3 (o_translator_on_point_natural B) (o_translator_on_point_correct B)).
  - acc (op_accurate_any (o_motor_on_plane B) SSandwich 20 (-122) 27 (o_motor_on_plane_natural B) (o_motor_on_plane_correct B)).
  - acc (op_accurate_any (o_motor_on_line B) SSandwich 20 (-122) 9 (o_motor_on_line_natural B) (o_motor_on_line_correct B)).
  - acc (op_accurate_any (o_motor_on_point B) SSandwich 20 (-122) 7 (o_motor_on_point_natural B) (o_motor_on_point_correct B)).
  - acc (op_accurate_any (o_motor_on_direction B) SSandwich 20 (-122) 6 (o_motor_on_direction_natural B) (o_motor_on_direction_correct B)).
  - acc (op_accurate_any (o_plane_on_plane B) SSandwich 20 (-122) 6 (o_plane_on_plane_natural B) (o_plane_on_plane_correct B)).
  - acc (op_accurate_any (o_plane_on_line B) SSandwich 20 (-105) 6 (o_plane_on_line_natural B) (o_plane_on_line_correct B)).
  - acc (op_accurate_any (o_plane_on_point B) SSandwich 20 (-105) 6 (o_plane_on_point_natural B) (o_plane_on_point_correct B)).
Qed.

(** the hypotheses are met by operands with subnormal coefficients, which [safe] excludes *)
Example C41_any_operand : let a := mkplane (mk4 (f32_of 1 (-149)) (f32_of 3 0) (f32_of (-5) (-130)) (f32_of 7 20)) in
  Forall (bounded 60) (coefs (k := KPlane) a) /\ ~ Forall (safe (-51) 60) (coefs (k := KPlane) a).
Proof.
  assert (P : bpow radix2 60 = 1152921504606846976) by (cbn; lra).
  cbn zeta. split.
  - repeat apply Forall_cons; try apply Forall_nil; (split; [reflexivity|]); rewrite P; vm_compute; repeat destruct Rcase_abs; lra.
  - intro H. inversion_clear H as [|? ? [_ K] _].
    assert (V : val (f32_of 1 (-149)) = bpow radix2 (-149)) by (vm_compute; lra).
    assert (L : bpow radix2 (-149) < bpow radix2 (-51)) by (apply bpow_lt; lia). pose proof (bpow_gt_0 radix2 (-149)) as G.
    assert (K' : val (f32_of 1 (-149)) = 0 \/ bpow radix2 (-51) <= Rabs (val (f32_of 1 (-149))) <= bpow radix2 60) by exact K.
    clear K. destruct K' as [K|[K _]]; rewrite V in K; [|rewrite Rabs_pos_eq in K by lra]; lra.
Qed.

Print Assumptions C41_any_geometric_product_partial.
Print Assumptions C41_any_meet.
Print Assumptions C41_any_inner_product.
Print Assumptions C41_any_join.
Print Assumptions C41_any_sandwich.
Print Assumptions C41_any_sandwich_20.
