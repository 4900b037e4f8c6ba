(** Properties C41 and C42: the kernels in binary32 arithmetic.
    [accurate] and [exact_on_integers] are defined in FloatMass.v, the sums of
    absolute values of monomials ([gp_mass], ...) in SpecMass.v. *)
From Coq Require Import ZArith Reals List Bool Lra Lia.
From Flocq Require Import Core BinarySingleNaN.
From Verif Require Import AlgTac SpecMass Float32 FloatFacts ExprSyntax FloatErr FloatMass FloatOps.
Import ListNotations.
Local Open Scope R_scope.

Ltac acc t := refine (t _ _ _ _ _) || refine (t _ _); try (split; discriminate); try discriminate;
  match goal with b : Build |- _ => destruct b as [[|]] end; vm_compute; reflexivity.

(** ** C41.  For coefficients that are zero or between 2^-51 and 2^60 in magnitude
    (2^-26 and 2^40 for sandwiches) every coefficient is finite and its error is at
    most the given number times 2^-24 (and 1.00001) times the sum of the absolute values
    of the monomials of the exact result.  The number is what the code's own order of
    operations gives: at most 5 for products, 27 for sandwiches.  Full statement: all
    overloads; missing here: line*line, whose exact result differs from the
    specification ([C01_line_mul_line_refuted]), and the overloads that divide; see
    Props21.v for what holds of these. *)
Theorem C41_geometric_product_partial : forall B : Build,
  accurate (k1 := KPlane) (k2 := KPlane) (k3 := KMotor) (-51) 60 3 plane_mul_plane SGp /\
  accurate (k1 := KPlane) (k2 := KPoint) (k3 := KMotor) (-51) 60 4 plane_mul_point SGp /\
  accurate (k1 := KPoint) (k2 := KPlane) (k3 := KMotor) (-51) 60 4 point_mul_plane SGp /\
  accurate (k1 := KBranch) (k2 := KBranch) (k3 := KRotor) (-51) 60 3 branch_mul_branch SGp /\
  accurate (k1 := KRotor) (k2 := KRotor) (k3 := KRotor) (-51) 60 3 rotor_mul_rotor SGp /\
  accurate (k1 := KDual) (k2 := KLine) (k3 := KLine) (-51) 60 2 dual_mul_line SGp /\
  accurate (k1 := KLine) (k2 := KDual) (k3 := KLine) (-51) 60 2 line_mul_dual SGp /\
  accurate (k1 := KRotor) (k2 := KTranslator) (k3 := KMotor) (-51) 60 3 rotor_mul_translator SGp /\
  accurate (k1 := KTranslator) (k2 := KRotor) (k3 := KMotor) (-51) 60 3 translator_mul_rotor SGp /\
  accurate (k1 := KTranslator) (k2 := KTranslator) (k3 := KTranslator) (-51) 60 1 translator_mul_translator SGp /\
  accurate (k1 := KRotor) (k2 := KMotor) (k3 := KMotor) (-51) 60 4 rotor_mul_motor SGp /\
  accurate (k1 := KMotor) (k2 := KRotor) (k3 := KMotor) (-51) 60 4 motor_mul_rotor SGp /\
  accurate (k1 := KTranslator) (k2 := KMotor) (k3 := KMotor) (-51) 60 4 translator_mul_motor SGp /\
  accurate (k1 := KMotor) (k2 := KTranslator) (k3 := KMotor) (-51) 60 4 motor_mul_translator SGp /\
  accurate (k1 := KMotor) (k2 := KMotor) (k3 := KMotor) (-51) 60 5 motor_mul_motor SGp.
Proof.
  intro B. repeat match goal with |- _ /\ _ => split end.
  - acc (op_accurate (o_plane_mul_plane B) SGp (-51) 60 3 (o_plane_mul_plane_natural B) (o_plane_mul_plane_correct B)).
  - acc (op_accurate (o_plane_mul_point B) SGp (-51) 60 4 (o_plane_mul_point_natural B) (o_plane_mul_point_correct B)).
  - acc (op_accurate (o_point_mul_plane B) SGp (-51) 60 4 (o_point_mul_plane_natural B) (o_point_mul_plane_correct B)).
  - acc (op_accurate (o_branch_mul_branch B) SGp (-51) 60 3 (o_branch_mul_branch_natural B) (o_branch_mul_branch_correct B)).
  - acc (op_accurate (o_rotor_mul_rotor B) SGp (-51) 60 3 (o_rotor_mul_rotor_natural B) (o_rotor_mul_rotor_correct B)).
  - acc (op_accurate (o_dual_mul_line B) SGp (-51) 60 2 (o_dual_mul_line_natural B) (o_dual_mul_line_correct B)).
  - acc (op_accurate (o_line_mul_dual B) SGp (-51) 60 2 (o_line_mul_dual_natural B) (o_line_mul_dual_correct B)).
  - acc (op_accurate (o_rotor_mul_translator B) SGp (-51) 60 3 (o_rotor_mul_translator_natural B) (o_rotor_mul_translator_correct B)).
  - acc (op_accurate (o_translator_mul_rotor B) SGp (-51) 60 3 (o_translator_mul_rotor_natural B) (o_translator_mul_rotor_correct B)).
  - acc (op_accurate (o_translator_mul_translator B) SGp (-51) 60 1 (o_translator_mul_translator_natural B) (o_translator_mul_translator_correct B)).
  - acc (op_accurate (o_rotor_mul_motor B) SGp (-51) 60 4 (o_rotor_mul_motor_natural B) (o_rotor_mul_motor_correct B)).
  - acc (op_accurate (o_motor_mul_rotor B) SGp (-51) 60 4 (o_motor_mul_rotor_natural B) (o_motor_mul_rotor_correct B)).
  - acc (op_accurate (o_translator_mul_motor B) SGp (-51) 60 4 (o_translator_mul_motor_natural B) (o_translator_mul_motor_correct B)).
  - acc (op_accurate (o_motor_mul_translator B) SGp (-51) 60 4 (o_motor_mul_translator_natural B) (o_motor_mul_translator_correct B)).
  - acc (op_accurate (o_motor_mul_motor B) SGp (-51) 60 5 (o_motor_mul_motor_natural B) (o_motor_mul_motor_correct B)).
Qed.
Print Assumptions C41_geometric_product_partial.

Theorem C41_meet : forall B : Build,
  accurate (k1 := KPlane) (k2 := KPlane) (k3 := KLine) (-51) 60 2 plane_ext_plane SExt /\
  accurate (k1 := KPlane) (k2 := KBranch) (k3 := KPoint) (-51) 60 4 plane_ext_branch SExt /\
  accurate (k1 := KBranch) (k2 := KPlane) (k3 := KPoint) (-51) 60 4 branch_ext_plane SExt /\
  accurate (k1 := KPlane) (k2 := KIdeal) (k3 := KPoint) (-51) 60 2 plane_ext_ideal SExt /\
  accurate (k1 := KIdeal) (k2 := KPlane) (k3 := KPoint) (-51) 60 2 ideal_ext_plane SExt /\
  accurate (k1 := KPlane) (k2 := KLine) (k3 := KPoint) (-51) 60 5 plane_ext_line SExt /\
  accurate (k1 := KLine) (k2 := KPlane) (k3 := KPoint) (-51) 60 5 line_ext_plane SExt /\
  accurate (k1 := KPlane) (k2 := KPoint) (k3 := KDual) (-51) 60 3 plane_ext_point SExt /\
  accurate (k1 := KPoint) (k2 := KPlane) (k3 := KDual) (-51) 60 3 point_ext_plane SExt /\
  accurate (k1 := KBranch) (k2 := KIdeal) (k3 := KDual) (-51) 60 3 branch_ext_ideal SExt /\
  accurate (k1 := KIdeal) (k2 := KBranch) (k3 := KDual) (-51) 60 3 ideal_ext_branch SExt /\
  accurate (k1 := KLine) (k2 := KLine) (k3 := KDual) (-51) 60 4 line_ext_line SExt /\
  accurate (k1 := KLine) (k2 := KIdeal) (k3 := KDual) (-51) 60 3 line_ext_ideal SExt /\
  accurate (k1 := KIdeal) (k2 := KLine) (k3 := KDual) (-51) 60 3 ideal_ext_line SExt /\
  accurate (k1 := KLine) (k2 := KBranch) (k3 := KDual) (-51) 60 3 line_ext_branch SExt /\
  accurate (k1 := KBranch) (k2 := KLine) (k3 := KDual) (-51) 60 3 branch_ext_line SExt.
Proof.
  intro B. repeat match goal with |- _ /\ _ => split end.
  - acc (op_accurate (o_plane_ext_plane B) SExt (-51) 60 2 (o_plane_ext_plane_natural B) (o_plane_ext_plane_correct B)).
  - acc (op_accurate (o_plane_ext_branch B) SExt (-51) 60 4 (o_plane_ext_branch_natural B) (o_plane_ext_branch_correct B)).
  - acc (op_accurate (o_branch_ext_plane B) SExt (-51) 60 4 (o_branch_ext_plane_natural B) (o_branch_ext_plane_correct B)).
  - acc (op_accurate (o_plane_ext_ideal B) SExt (-51) 60 2 (o_plane_ext_ideal_natural B) (o_plane_ext_ideal_correct B)).
  - acc (op_accurate (o_ideal_ext_plane B) SExt (-51) 60 2 (o_ideal_ext_plane_natural B) (o_ideal_ext_plane_correct B)).
  - acc (op_accurate (o_plane_ext_line B) SExt (-51) 60 5 (o_plane_ext_line_natural B) (o_plane_ext_line_correct B)).
  - acc (op_accurate (o_line_ext_plane B) SExt (-51) 60 5 (o_line_ext_plane_natural B) (o_line_ext_plane_correct B)).
  - acc (op_accurate (o_plane_ext_point B) SExt (-51) 60 3 (o_plane_ext_point_natural B) (o_plane_ext_point_correct B)).
  - acc (op_accurate (o_point_ext_plane B) SExt (-51) 60 3 (o_point_ext_plane_natural B) (o_point_ext_plane_correct B)).
  - acc (op_accurate (o_branch_ext_ideal B) SExt (-51) 60 3 (o_branch_ext_ideal_natural B) (o_branch_ext_ideal_correct B)).
  - acc (op_accurate (o_ideal_ext_branch B) SExt (-51) 60 3 (o_ideal_ext_branch_natural B) (o_ideal_ext_branch_correct B)).
  - acc (op_accurate (o_line_ext_line B) SExt (-51) 60 4 (o_line_ext_line_natural B) (o_line_ext_line_correct B)).
  - acc (op_accurate (o_line_ext_ideal B) SExt (-51) 60 3 (o_line_ext_ideal_natural B) (o_line_ext_ideal_correct B)).
  - acc (op_accurate (o_ideal_ext_line B) SExt (-51) 60 3 (o_ideal_ext_line_natural B) (o_ideal_ext_line_correct B)).
  - acc (op_accurate (o_line_ext_branch B) SExt (-51) 60 3 (o_line_ext_branch_natural B) (o_line_ext_branch_correct B)).
  - acc (op_accurate (o_branch_ext_line B) SExt (-51) 60 3 (o_branch_ext_line_natural B) (o_branch_ext_line_correct B)).
Qed.
Print Assumptions C41_meet.

Theorem C41_inner_product : forall B : Build,
  accurate (k1 := KPlane) (k2 := KPlane) (k3 := KScalar) (-51) 60 3 plane_dot_plane SDot /\
  accurate (k1 := KPlane) (k2 := KLine) (k3 := KPlane) (-51) 60 4 plane_dot_line SDot /\
  accurate (k1 := KLine) (k2 := KPlane) (k3 := KPlane) (-51) 60 4 line_dot_plane SDot /\
  accurate (k1 := KPlane) (k2 := KIdeal) (k3 := KPlane) (-51) 60 3 plane_dot_ideal SDot /\
  accurate (k1 := KIdeal) (k2 := KPlane) (k3 := KPlane) (-51) 60 3 ideal_dot_plane SDot /\
  accurate (k1 := KPlane) (k2 := KPoint) (k3 := KLine) (-51) 60 2 plane_dot_point SDot /\
  accurate (k1 := KPoint) (k2 := KPlane) (k3 := KLine) (-51) 60 2 point_dot_plane SDot /\
  accurate (k1 := KLine) (k2 := KLine) (k3 := KScalar) (-51) 60 3 line_dot_line SDot /\
  accurate (k1 := KPoint) (k2 := KLine) (k3 := KPlane) (-51) 60 4 point_dot_line SDot /\
  accurate (k1 := KLine) (k2 := KPoint) (k3 := KPlane) (-51) 60 4 line_dot_point SDot /\
  accurate (k1 := KPoint) (k2 := KPoint) (k3 := KScalar) (-51) 60 2 point_dot_point SDot.
Proof.
  intro B. repeat match goal with |- _ /\ _ => split end.
  - acc (op_accurate (o_plane_dot_plane B) SDot (-51) 60 3 (o_plane_dot_plane_natural B) (o_plane_dot_plane_correct B)).
  - acc (op_accurate (o_plane_dot_line B) SDot (-51) 60 4 (o_plane_dot_line_natural B) (o_plane_dot_line_correct B)).
  - acc (op_accurate (o_line_dot_plane B) SDot (-51) 60 4 (o_line_dot_plane_natural B) (o_line_dot_plane_correct B)).
  - acc (op_accurate (o_plane_dot_ideal B) SDot (-51) 60 3 (o_plane_dot_ideal_natural B) (o_plane_dot_ideal_correct B)).
  - acc (op_accurate (o_ideal_dot_plane B) SDot (-51) 60 3 (o_ideal_dot_plane_natural B) (o_ideal_dot_plane_correct B)).
  - acc (op_accurate (o_plane_dot_point B) SDot (-51) 60 2 (o_plane_dot_point_natural B) (o_plane_dot_point_correct B)).
  - acc (op_accurate (o_point_dot_plane B) SDot (-51) 60 2 (o_point_dot_plane_natural B) (o_point_dot_plane_correct B)).
  - acc (op_accurate (o_line_dot_line B) SDot (-51) 60 3 (o_line_dot_line_natural B) (o_line_dot_line_correct B)).
  - acc (op_accurate (o_point_dot_line B) SDot (-51) 60 4 (o_point_dot_line_natural B) (o_point_dot_line_correct B)).
  - acc (op_accurate (o_line_dot_point B) SDot (-51) 60 4 (o_line_dot_point_natural B) (o_line_dot_point_correct B)).
  - acc (op_accurate (o_point_dot_point B) SDot (-51) 60 2 (o_point_dot_point_natural B) (o_point_dot_point_correct B)).
Qed.
Print Assumptions C41_inner_product.

Theorem C41_join : forall B : Build,
  accurate (k1 := KPoint) (k2 := KPoint) (k3 := KLine) (-51) 60 2 point_join_point SReg /\
  accurate (k1 := KPoint) (k2 := KLine) (k3 := KPlane) (-51) 60 5 point_join_line SReg /\
  accurate (k1 := KLine) (k2 := KPoint) (k3 := KPlane) (-51) 60 5 line_join_point SReg /\
  accurate (k1 := KPoint) (k2 := KBranch) (k3 := KPlane) (-51) 60 2 point_join_branch SReg /\
  accurate (k1 := KBranch) (k2 := KPoint) (k3 := KPlane) (-51) 60 2 branch_join_point SReg /\
  accurate (k1 := KPoint) (k2 := KIdeal) (k3 := KPlane) (-51) 60 4 point_join_ideal SReg /\
  accurate (k1 := KIdeal) (k2 := KPoint) (k3 := KPlane) (-51) 60 4 ideal_join_point SReg /\
  accurate (k1 := KPlane) (k2 := KPoint) (k3 := KDual) (-51) 60 3 plane_join_point SReg /\
  accurate (k1 := KPoint) (k2 := KPlane) (k3 := KDual) (-51) 60 3 point_join_plane SReg.
Proof.
  intro B. repeat match goal with |- _ /\ _ => split end.
  - acc (op_accurate (o_point_join_point B) SReg (-51) 60 2 (o_point_join_point_natural B) (o_point_join_point_correct B)).
  - acc (op_accurate (o_point_join_line B) SReg (-51) 60 5 (o_point_join_line_natural B) (o_point_join_line_correct B)).
  - acc (op_accurate (o_line_join_point B) SReg (-51) 60 5 (o_line_join_point_natural B) (o_line_join_point_correct B)).
  - acc (op_accurate (o_point_join_branch B) SReg (-51) 60 2 (o_point_join_branch_natural B) (o_point_join_branch_correct B)).
  - acc (op_accurate (o_branch_join_point B) SReg (-51) 60 2 (o_branch_join_point_natural B) (o_branch_join_point_correct B)).
  - acc (op_accurate (o_point_join_ideal B) SReg (-51) 60 4 (o_point_join_ideal_natural B) (o_point_join_ideal_correct B)).
  - acc (op_accurate (o_ideal_join_point B) SReg (-51) 60 4 (o_ideal_join_point_natural B) (o_ideal_join_point_correct B)).
  - acc (op_accurate (o_plane_join_point B) SReg (-51) 60 3 (o_plane_join_point_natural B) (o_plane_join_point_correct B)).
  - acc (op_accurate (o_point_join_plane B) SReg (-51) 60 3 (o_point_join_plane_natural B) (o_point_join_plane_correct B)).
Qed.
Print Assumptions C41_join.

Theorem C41_sandwich : forall B : Build,
  accurate (k1 := KRotor) (k2 := KPlane) (k3 := KPlane) (-26) 40 18 rotor_on_plane SSandwich /\
  accurate (k1 := KRotor) (k2 := KBranch) (k3 := KBranch) (-26) 40 6 rotor_on_branch SSandwich /\
  accurate (k1 := KRotor) (k2 := KLine) (k3 := KLine) (-26) 40 6 rotor_on_line SSandwich /\
  accurate (k1 := KRotor) (k2 := KPoint) (k3 := KPoint) (-26) 40 18 rotor_on_point SSandwich /\
  accurate (k1 := KRotor) (k2 := KDirection) (k3 := KDirection) (-26) 40 6 rotor_on_direction SSandwich /\
  accurate (k1 := KTranslator) (k2 := KLine) (k3 := KLine) (-26) 40 5 translator_on_line SSandwich /\
  accurate (k1 := KTranslator) (k2 := KPoint) (k3 := KPoint) (-26) 40 3 translator_on_point SSandwich /\
  accurate (k1 := KMotor) (k2 := KPlane) (k3 := KPlane) (-26) 40 27 motor_on_plane SSandwich /\
  accurate (k1 := KMotor) (k2 := KLine) (k3 := KLine) (-26) 40 9 motor_on_line SSandwich /\
  accurate (k1 := KMotor) (k2 := KPoint) (k3 := KPoint) (-26) 40 7 motor_on_point SSandwich /\
  accurate (k1 := KMotor) (k2 := KDirection) (k3 := KDirection) (-26) 40 6 motor_on_direction SSandwich /\
  accurate (k1 := KPlane) (k2 := KPlane) (k3 := KPlane) (-26) 40 6 plane_on_plane SSandwich /\
  accurate (k1 := KPlane) (k2 := KLine) (k3 := KLine) (-26) 40 6 plane_on_line SSandwich /\
  accurate (k1 := KPlane) (k2 := KPoint) (k3 := KPoint) (-26) 40 6 plane_on_point SSandwich.
Proof.
  intro B. repeat match goal with |- _ /\ _ => split end.
  - acc (op_accurate (o_rotor_on_plane B) SSandwich (-26) 40 18 (o_rotor_on_plane_natural B) (o_rotor_on_plane_correct B)).
  - acc (op_accurate (o_rotor_on_branch B) SSandwich (-26) 40 6 (o_rotor_on_branch_natural B) (o_rotor_on_branch_correct B)).
  - acc (op_accurate (o_rotor_on_line B) SSandwich (-26) 40 6 (o_rotor_on_line_natural B) (o_rotor_on_line_correct B)).
  - acc (op_accurate (o_rotor_on_point B) SSandwich (-26) 40 18 (o_rotor_on_point_natural B) (o_rotor_on_point_correct B)).
  - acc (op_accurate (o_rotor_on_direction B) SSandwich (-26) 40 6 (o_rotor_on_direction_natural B) (o_rotor_on_direction_correct B)).
  - acc (op_accurate (o_translator_on_line B) SSandwich (-26) 40 5 (o_translator_on_line_natural B) (o_translator_on_line_correct B)).
  - acc (op_accurate (o_translator_on_point B) SSandwich (-26) 40 3 (o_translator_on_point_natural B) (o_translator_on_point_correct B)).
  - acc (op_accurate (o_motor_on_plane B) SSandwich (-26) 40 27 (o_motor_on_plane_natural B) (o_motor_on_plane_correct B)).
  - acc (op_accurate (o_motor_on_line B) SSandwich (-26) 40 9 (o_motor_on_line_natural B) (o_motor_on_line_correct B)).
  - acc (op_accurate (o_motor_on_point B) SSandwich (-26) 40 7 (o_motor_on_point_natural B) (o_motor_on_point_correct B)).
  - acc (op_accurate (o_motor_on_direction B) SSandwich (-26) 40 6 (o_motor_on_direction_natural B) (o_motor_on_direction_correct B)).
  - acc (op_accurate (o_plane_on_plane B) SSandwich (-26) 40 6 (o_plane_on_plane_natural B) (o_plane_on_plane_correct B)).
  - acc (op_accurate (o_plane_on_line B) SSandwich (-26) 40 6 (o_plane_on_line_natural B) (o_plane_on_line_correct B)).
  - acc (op_accurate (o_plane_on_point B) SSandwich (-26) 40 6 (o_plane_on_point_natural B) (o_plane_on_point_correct B)).
Qed.
Print Assumptions C41_sandwich.

(** the bound cannot be relative to the result: the inner product of two planes can
    lose everything to cancellation *)
Definition cancel_a : plane f32 := mkplane (mk4 (f32_of 0 0) (f32_of 4097 (-12)) (f32_of 1 0) (f32_of 0 0)).
Definition cancel_b : plane f32 := mkplane (mk4 (f32_of 0 0) (f32_of 4097 (-12)) (f32_of (-2049) (-11)) (f32_of 0 0)).
Theorem C41_relative_error_refuted : exists a b : plane f32,
  Forall (safe (-51) 60) (coefs (k := KPlane) a) /\ Forall (safe (-51) 60) (coefs (k := KPlane) b) /\
  forall B : Build, val (plane_dot_plane a b) = 0 /\
    plane_dot_plane (emap (k := KPlane) val a) (emap (k := KPlane) val b) = / 2 ^ 24.
Proof.
  assert (O : forall x v, fin x -> val x = v -> / 2 <= Rabs v <= 2 -> safe (-51) 60 x).
  { intros x v F <- [L U]. split; [exact F|]. right. split.
    - eapply Rle_trans; [|exact L]. change (/ 2) with (bpow radix2 (-1)). apply bpow_le. lia.
    - eapply Rle_trans; [exact U|]. change 2 with (bpow radix2 1). apply bpow_le. lia. }
  assert (Z0 : safe (-51) 60 (f32_of 0 0)) by (split; [reflexivity|left; reflexivity]).
  assert (V1 : val (f32_of 4097 (-12)) = 4097 / 4096) by (vm_compute; lra).
  assert (V2 : val (f32_of (-2049) (-11)) = - 2049 / 2048) by (vm_compute; lra).
  assert (V3 : val (f32_of 1 0) = 1) by (vm_compute; lra).
  exists cancel_a, cancel_b. split; [|split; [|intro B; split]].
  - repeat apply Forall_cons; [exact Z0| | |exact Z0|apply Forall_nil].
    + eapply O; [reflexivity|exact V1|rewrite Rabs_right; lra].
    + eapply O; [reflexivity|exact V3|rewrite Rabs_right; lra].
  - repeat apply Forall_cons; [exact Z0| | |exact Z0|apply Forall_nil].
    + eapply O; [reflexivity|exact V1|rewrite Rabs_right; lra].
    + eapply O; [reflexivity|exact V2|rewrite Rabs_left; lra].
  - destruct B as [[|]]; vm_compute; reflexivity.
  - assert (E1 : emap (k := KPlane) val cancel_a = mkplane (mk4 0 (4097 / 4096) 1 0))
      by (rewrite <- V1, <- V3; reflexivity).
    assert (E2 : emap (k := KPlane) val cancel_b = mkplane (mk4 0 (4097 / 4096) (- 2049 / 2048) 0))
      by (rewrite <- V1, <- V2; reflexivity).
    rewrite E1, E2. destruct B as [[|]]; cbn; lra.
Qed.
Print Assumptions C41_relative_error_refuted.

(** ** C42.  Operands with integer coefficients up to 1448 in magnitude (77 for
    sandwiches) give the exact result.  Missing in the geometric product: the same
    overloads as in C41. *)
Theorem C42_geometric_product_partial : forall B : Build,
  exact_on_integers (k1 := KPlane) (k2 := KPlane) (k3 := KMotor) 1448 plane_mul_plane SGp /\
  exact_on_integers (k1 := KPlane) (k2 := KPoint) (k3 := KMotor) 1448 plane_mul_point SGp /\
  exact_on_integers (k1 := KPoint) (k2 := KPlane) (k3 := KMotor) 1448 point_mul_plane SGp /\
  exact_on_integers (k1 := KBranch) (k2 := KBranch) (k3 := KRotor) 1448 branch_mul_branch SGp /\
  exact_on_integers (k1 := KRotor) (k2 := KRotor) (k3 := KRotor) 1448 rotor_mul_rotor SGp /\
  exact_on_integers (k1 := KDual) (k2 := KLine) (k3 := KLine) 1448 dual_mul_line SGp /\
  exact_on_integers (k1 := KLine) (k2 := KDual) (k3 := KLine) 1448 line_mul_dual SGp /\
  exact_on_integers (k1 := KRotor) (k2 := KTranslator) (k3 := KMotor) 1448 rotor_mul_translator SGp /\
  exact_on_integers (k1 := KTranslator) (k2 := KRotor) (k3 := KMotor) 1448 translator_mul_rotor SGp /\
  exact_on_integers (k1 := KTranslator) (k2 := KTranslator) (k3 := KTranslator) 1448 translator_mul_translator SGp /\
  exact_on_integers (k1 := KRotor) (k2 := KMotor) (k3 := KMotor) 1448 rotor_mul_motor SGp /\
  exact_on_integers (k1 := KMotor) (k2 := KRotor) (k3 := KMotor) 1448 motor_mul_rotor SGp /\
  exact_on_integers (k1 := KTranslator) (k2 := KMotor) (k3 := KMotor) 1448 translator_mul_motor SGp /\
  exact_on_integers (k1 := KMotor) (k2 := KTranslator) (k3 := KMotor) 1448 motor_mul_translator SGp /\
  exact_on_integers (k1 := KMotor) (k2 := KMotor) (k3 := KMotor) 1448 motor_mul_motor SGp.
Proof.
  intro B. repeat match goal with |- _ /\ _ => split end.
  - acc (op_integers (o_plane_mul_plane B) SGp 1448 (o_plane_mul_plane_natural B) (o_plane_mul_plane_correct B)).
  - acc (op_integers (o_plane_mul_point B) SGp 1448 (o_plane_mul_point_natural B) (o_plane_mul_point_correct B)).
  - acc (op_integers (o_point_mul_plane B) SGp 1448 (o_point_mul_plane_natural B) (o_point_mul_plane_correct B)).
  - acc (op_integers (o_branch_mul_branch B) SGp 1448 (o_branch_mul_branch_natural B) (o_branch_mul_branch_correct B)).
  - acc (op_integers (o_rotor_mul_rotor B) SGp 1448 (o_rotor_mul_rotor_natural B) (o_rotor_mul_rotor_correct B)).
  - acc (op_integers (o_dual_mul_line B) SGp 1448 (o_dual_mul_line_natural B) (o_dual_mul_line_correct B)).
  - acc (op_integers (o_line_mul_dual B) SGp 1448 (o_line_mul_dual_natural B) (o_line_mul_dual_correct B)).
  - acc (op_integers (o_rotor_mul_translator B) SGp 1448 (o_rotor_mul_translator_natural B) (o_rotor_mul_translator_correct B)).
  - acc (op_integers (o_translator_mul_rotor B) SGp 1448 (o_translator_mul_rotor_natural B) (o_translator_mul_rotor_correct B)).
  - acc (op_integers (o_translator_mul_translator B) SGp 1448 (o_translator_mul_translator_natural B) (o_translator_mul_translator_correct B)).
  - acc (op_integers (o_rotor_mul_motor B) SGp 1448 (o_rotor_mul_motor_natural B) (o_rotor_mul_motor_correct B)).
  - acc (op_integers (o_motor_mul_rotor B) SGp 1448 (o_motor_mul_rotor_natural B) (o_motor_mul_rotor_correct B)).
  - acc (op_integers (o_translator_mul_motor B) SGp 1448 (o_translator_mul_motor_natural B) (o_translator_mul_motor_correct B)).
  - acc (op_integers (o_motor_mul_translator B) SGp 1448 (o_motor_mul_translator_natural B) (o_motor_mul_translator_correct B)).
  - acc (op_integers (o_motor_mul_motor B) SGp 1448 (o_motor_mul_motor_natural B) (o_motor_mul_motor_correct B)).
Qed.
Print Assumptions C42_geometric_product_partial.

Theorem C42_meet : forall B : Build,
  exact_on_integers (k1 := KPlane) (k2 := KPlane) (k3 := KLine) 1448 plane_ext_plane SExt /\
  exact_on_integers (k1 := KPlane) (k2 := KBranch) (k3 := KPoint) 1448 plane_ext_branch SExt /\
  exact_on_integers (k1 := KBranch) (k2 := KPlane) (k3 := KPoint) 1448 branch_ext_plane SExt /\
  exact_on_integers (k1 := KPlane) (k2 := KIdeal) (k3 := KPoint) 1448 plane_ext_ideal SExt /\
  exact_on_integers (k1 := KIdeal) (k2 := KPlane) (k3 := KPoint) 1448 ideal_ext_plane SExt /\
  exact_on_integers (k1 := KPlane) (k2 := KLine) (k3 := KPoint) 1448 plane_ext_line SExt /\
  exact_on_integers (k1 := KLine) (k2 := KPlane) (k3 := KPoint) 1448 line_ext_plane SExt /\
  exact_on_integers (k1 := KPlane) (k2 := KPoint) (k3 := KDual) 1448 plane_ext_point SExt /\
  exact_on_integers (k1 := KPoint) (k2 := KPlane) (k3 := KDual) 1448 point_ext_plane SExt /\
  exact_on_integers (k1 := KBranch) (k2 := KIdeal) (k3 := KDual) 1448 branch_ext_ideal SExt /\
  exact_on_integers (k1 := KIdeal) (k2 := KBranch) (k3 := KDual) 1448 ideal_ext_branch SExt /\
  exact_on_integers (k1 := KLine) (k2 := KLine) (k3 := KDual) 1448 line_ext_line SExt /\
  exact_on_integers (k1 := KLine) (k2 := KIdeal) (k3 := KDual) 1448 line_ext_ideal SExt /\
  exact_on_integers (k1 := KIdeal) (k2 := KLine) (k3 := KDual) 1448 ideal_ext_line SExt /\
  exact_on_integers (k1 := KLine) (k2 := KBranch) (k3 := KDual) 1448 line_ext_branch SExt /\
  exact_on_integers (k1 := KBranch) (k2 := KLine) (k3 := KDual) 1448 branch_ext_line SExt.
Proof.
  intro B. repeat match goal with |- _ /\ _ => split end.
  - acc (op_integers (o_plane_ext_plane B) SExt 1448 (o_plane_ext_plane_natural B) (o_plane_ext_plane_correct B)).
  - acc (op_integers (o_plane_ext_branch B) SExt 1448 (o_plane_ext_branch_natural B) (o_plane_ext_branch_correct B)).
  - acc (op_integers (o_branch_ext_plane B) SExt 1448 (o_branch_ext_plane_natural B) (o_branch_ext_plane_correct B)).
  - acc (op_integers (o_plane_ext_ideal B) SExt 1448 (o_plane_ext_ideal_natural B) (o_plane_ext_ideal_correct B)).
  - acc (op_integers (o_ideal_ext_plane B) SExt 1448 (o_ideal_ext_plane_natural B) (o_ideal_ext_plane_correct B)).
  - acc (op_integers (o_plane_ext_line B) SExt 1448 (o_plane_ext_line_natural B) (o_plane_ext_line_correct B)).
  - acc (op_integers (o_line_ext_plane B) SExt 1448 (o_line_ext_plane_natural B) (o_line_ext_plane_correct B)).
  - acc (op_integers (o_plane_ext_point B) SExt 1448 (o_plane_ext_point_natural B) (o_plane_ext_point_correct B)).
  - acc (op_integers (o_point_ext_plane B) SExt 1448 (o_point_ext_plane_natural B) (o_point_ext_plane_correct B)).
  - acc (op_integers (o_branch_ext_ideal B) SExt 1448 (o_branch_ext_ideal_natural B) (o_branch_ext_ideal_correct B)).
  - acc (op_integers (o_ideal_ext_branch B) SExt 1448 (o_ideal_ext_branch_natural B) (o_ideal_ext_branch_correct B)).
  - acc (op_integers (o_line_ext_line B) SExt 1448 (o_line_ext_line_natural B) (o_line_ext_line_correct B)).
  - acc (op_integers (o_line_ext_ideal B) SExt 1448 (o_line_ext_ideal_natural B) (o_line_ext_ideal_correct B)).
  - acc (op_integers (o_ideal_ext_line B) SExt 1448 (o_ideal_ext_line_natural B) (o_ideal_ext_line_correct B)).
  - acc (op_integers (o_line_ext_branch B) SExt 1448 (o_line_ext_branch_natural B) (o_line_ext_branch_correct B)).
  - acc (op_integers (o_branch_ext_line B) SExt 1448 (o_branch_ext_line_natural B) (o_branch_ext_line_correct B)).
Qed.
Print Assumptions C42_meet.

Theorem C42_inner_product : forall B : Build,
  exact_on_integers (k1 := KPlane) (k2 := KPlane) (k3 := KScalar) 1448 plane_dot_plane SDot /\
  exact_on_integers (k1 := KPlane) (k2 := KLine) (k3 := KPlane) 1448 plane_dot_line SDot /\
  exact_on_integers (k1 := KLine) (k2 := KPlane) (k3 := KPlane) 1448 line_dot_plane SDot /\
  exact_on_integers (k1 := KPlane) (k2 := KIdeal) (k3 := KPlane) 1448 plane_dot_ideal SDot /\
  exact_on_integers (k1 := KIdeal) (k2 := KPlane) (k3 := KPlane) 1448 ideal_dot_plane SDot /\
  exact_on_integers (k1 := KPlane) (k2 := KPoint) (k3 := KLine) 1448 plane_dot_point SDot /\
  exact_on_integers (k1 := KPoint) (k2 := KPlane) (k3 := KLine) 1448 point_dot_plane SDot /\
  exact_on_integers (k1 := KLine) (k2 := KLine) (k3 := KScalar) 1448 line_dot_line SDot /\
  exact_on_integers (k1 := KPoint) (k2 := KLine) (k3 := KPlane) 1448 point_dot_line SDot /\
  exact_on_integers (k1 := KLine) (k2 := KPoint) (k3 := KPlane) 1448 line_dot_point SDot /\
  exact_on_integers (k1 := KPoint) (k2 := KPoint) (k3 := KScalar) 1448 point_dot_point SDot.
Proof.
  intro B. repeat match goal with |- _ /\ _ => split end.
  - acc (op_integers (o_plane_dot_plane B) SDot 1448 (o_plane_dot_plane_natural B) (o_plane_dot_plane_correct B)).
  - acc (op_integers (o_plane_dot_line B) SDot 1448 (o_plane_dot_line_natural B) (o_plane_dot_line_correct B)).
  - acc (op_integers (o_line_dot_plane B) SDot 1448 (o_line_dot_plane_natural B) (o_line_dot_plane_correct B)).
  - acc (op_integers (o_plane_dot_ideal B) SDot 1448 (o_plane_dot_ideal_natural B) (o_plane_dot_ideal_correct B)).
  - acc (op_integers (o_ideal_dot_plane B) SDot 1448 (o_ideal_dot_plane_natural B) (o_ideal_dot_plane_correct B)).
  - acc (op_integers (o_plane_dot_point B) SDot 1448 (o_plane_dot_point_natural B) (o_plane_dot_point_correct B)).
  - acc (op_integers (o_point_dot_plane B) SDot 1448 (o_point_dot_plane_natural B) (o_point_dot_plane_correct B)).
  - acc (op_integers (o_line_dot_line B) SDot 1448 (o_line_dot_line_natural B) (o_line_dot_line_correct B)).
  - acc (op_integers (o_point_dot_line B) SDot 1448 (o_point_dot_line_natural B) (o_point_dot_line_correct B)).
  - acc (op_integers (o_line_dot_point B) SDot 1448 (o_line_dot_point_natural B) (o_line_dot_point_correct B)).
  - acc (op_integers (o_point_dot_point B) SDot 1448 (o_point_dot_point_natural B) (o_point_dot_point_correct B)).
Qed.
Print Assumptions C42_inner_product.

Theorem C42_join : forall B : Build,
  exact_on_integers (k1 := KPoint) (k2 := KPoint) (k3 := KLine) 1448 point_join_point SReg /\
  exact_on_integers (k1 := KPoint) (k2 := KLine) (k3 := KPlane) 1448 point_join_line SReg /\
  exact_on_integers (k1 := KLine) (k2 := KPoint) (k3 := KPlane) 1448 line_join_point SReg /\
  exact_on_integers (k1 := KPoint) (k2 := KBranch) (k3 := KPlane) 1448 point_join_branch SReg /\
  exact_on_integers (k1 := KBranch) (k2 := KPoint) (k3 := KPlane) 1448 branch_join_point SReg /\
  exact_on_integers (k1 := KPoint) (k2 := KIdeal) (k3 := KPlane) 1448 point_join_ideal SReg /\
  exact_on_integers (k1 := KIdeal) (k2 := KPoint) (k3 := KPlane) 1448 ideal_join_point SReg /\
  exact_on_integers (k1 := KPlane) (k2 := KPoint) (k3 := KDual) 1448 plane_join_point SReg /\
  exact_on_integers (k1 := KPoint) (k2 := KPlane) (k3 := KDual) 1448 point_join_plane SReg.
Proof.
  intro B. repeat match goal with |- _ /\ _ => split end.
  - acc (op_integers (o_point_join_point B) SReg 1448 (o_point_join_point_natural B) (o_point_join_point_correct B)).
  - acc (op_integers (o_point_join_line B) SReg 1448 (o_point_join_line_natural B) (o_point_join_line_correct B)).
  - acc (op_integers (o_line_join_point B) SReg 1448 (o_line_join_point_natural B) (o_line_join_point_correct B)).
  - acc (op_integers (o_point_join_branch B) SReg 1448 (o_point_join_branch_natural B) (o_point_join_branch_correct B)).
  - acc (op_integers (o_branch_join_point B) SReg 1448 (o_branch_join_point_natural B) (o_branch_join_point_correct B)).
  - acc (op_integers (o_point_join_ideal B) SReg 1448 (o_point_join_ideal_natural B) (o_point_join_ideal_correct B)).
  - acc (op_integers (o_ideal_join_point B) SReg 1448 (o_ideal_join_point_natural B) (o_ideal_join_point_correct B)).
  - acc (op_integers (o_plane_join_point B) SReg 1448 (o_plane_join_point_natural B) (o_plane_join_point_correct B)).
  - acc (op_integers (o_point_join_plane B) SReg 1448 (o_point_join_plane_natural B) (o_point_join_plane_correct B)).
Qed.
Print Assumptions C42_join.

Theorem C42_sandwich : forall B : Build,
  exact_on_integers (k1 := KRotor) (k2 := KPlane) (k3 := KPlane) 77 rotor_on_plane SSandwich /\
  exact_on_integers (k1 := KRotor) (k2 := KBranch) (k3 := KBranch) 77 rotor_on_branch SSandwich /\
  exact_on_integers (k1 := KRotor) (k2 := KLine) (k3 := KLine) 77 rotor_on_line SSandwich /\
  exact_on_integers (k1 := KRotor) (k2 := KPoint) (k3 := KPoint) 77 rotor_on_point SSandwich /\
  exact_on_integers (k1 := KRotor) (k2 := KDirection) (k3 := KDirection) 77 rotor_on_direction SSandwich /\
  exact_on_integers (k1 := KTranslator) (k2 := KLine) (k3 := KLine) 77 translator_on_line SSandwich /\
  exact_on_integers (k1 := KTranslator) (k2 := KPoint) (k3 := KPoint) 77 translator_on_point SSandwich /\
  exact_on_integers (k1 := KMotor) (k2 := KPlane) (k3 := KPlane) 77 motor_on_plane SSandwich /\
  exact_on_integers (k1 := KMotor) (k2 := KLine) (k3 := KLine) 77 motor_on_line SSandwich /\
  exact_on_integers (k1 := KMotor) (k2 := KPoint) (k3 := KPoint) 77 motor_on_point SSandwich /\
  exact_on_integers (k1 := KMotor) (k2 := KDirection) (k3 := KDirection) 77 motor_on_direction SSandwich /\
  exact_on_integers (k1 := KPlane) (k2 := KPlane) (k3 := KPlane) 77 plane_on_plane SSandwich /\
  exact_on_integers (k1 := KPlane) (k2 := KLine) (k3 := KLine) 77 plane_on_line SSandwich /\
  exact_on_integers (k1 := KPlane) (k2 := KPoint) (k3 := KPoint) 77 plane_on_point SSandwich.
Proof.
  intro B. repeat match goal with |- _ /\ _ => split end.
  - acc (op_integers (o_rotor_on_plane B) SSandwich 77 (o_rotor_on_plane_natural B) (o_rotor_on_plane_correct B)).
  - acc (op_integers (o_rotor_on_branch B) SSandwich 77 (o_rotor_on_branch_natural B) (o_rotor_on_branch_correct B)).
  - acc (op_integers (o_rotor_on_line B) SSandwich 77 (o_rotor_on_line_natural B) (o_rotor_on_line_correct B)).
  - acc (op_integers (o_rotor_on_point B) SSandwich 77 (o_rotor_on_point_natural B) (o_rotor_on_point_correct B)).
  - acc (op_integers (o_rotor_on_direction B) SSandwich 77 (o_rotor_on_direction_natural B) (o_rotor_on_direction_correct B)).
  - acc (op_integers (o_translator_on_line B) SSandwich 77 (o_translator_on_line_natural B) (o_translator_on_line_correct B)).
  - acc (op_integers (o_translator_on_point B) SSandwich 77 (o_translator_on_point_natural B) (o_translator_on_point_correct B)).
  - acc (op_integers (o_motor_on_plane B) SSandwich 77 (o_motor_on_plane_natural B) (o_motor_on_plane_correct B)).
  - acc (op_integers (o_motor_on_line B) SSandwich 77 (o_motor_on_line_natural B) (o_motor_on_line_correct B)).
  - acc (op_integers (o_motor_on_point B) SSandwich 77 (o_motor_on_point_natural B) (o_motor_on_point_correct B)).
  - acc (op_integers (o_motor_on_direction B) SSandwich 77 (o_motor_on_direction_natural B) (o_motor_on_direction_correct B)).
  - acc (op_integers (o_plane_on_plane B) SSandwich 77 (o_plane_on_plane_natural B) (o_plane_on_plane_correct B)).
  - acc (op_integers (o_plane_on_line B) SSandwich 77 (o_plane_on_line_natural B) (o_plane_on_line_correct B)).
  - acc (op_integers (o_plane_on_point B) SSandwich 77 (o_plane_on_point_natural B) (o_plane_on_point_correct B)).
Qed.
Print Assumptions C42_sandwich.

(** operands meeting the hypotheses: a motor product, as the tests do it *)
Definition int_motor (a b c d e f g h : Z) : motor f32 :=
  mkmotor (mk4 (f32_of a 0) (f32_of b 0) (f32_of c 0) (f32_of d 0)) (mk4 (f32_of e 0) (f32_of f 0) (f32_of g 0) (f32_of h 0)).
Example C42_operands : Forall (integer 1448) (coefs (k := KMotor) (int_motor 2 3 4 5 9 6 7 8)) /\
  Forall (integer 1448) (coefs (k := KMotor) (int_motor 6 7 8 9 13 10 11 12)).
Proof.
  assert (I : forall z, (Z.abs z <= 1448)%Z -> integer 1448 (f32_of z 0)).
  { intros z H. destruct (fz_ok z) as [F V]; [lia|]. split; [exact F|]. exists z. split; [exact V|exact H]. }
  split; repeat constructor; apply I; cbn; lia.
Qed.
(** motor*motor of test_gp.cpp, lines 282-295, in binary32 *)
Example C42_motor_product : forall B : Build, exists m1 m2,
  motor_mul_motor (int_motor 2 3 4 5 9 6 7 8) (int_motor 6 7 8 9 13 10 11 12) = mkmotor m1 m2 /\
  map (fun p => Beqb (fst p) (f32_of (snd p) 0)) (combine (reg_list m1 ++ reg_list m2) [-86; 36; 32; 52; 384; -38; -76; -66]%Z) = repeat true 8.
Proof. intro B. destruct B as [[|]]; do 2 eexists; split; [reflexivity|vm_compute; reflexivity|reflexivity|vm_compute; reflexivity]. Qed.
