(** The kernels as operations over any arithmetic: what they compute on variables
    is what they compute on numbers ([o_*_natural]) and over the reals they agree
    with the specification ([o_*_correct], from the files behind Props01.v). *)
From Coq Require Import ZArith List Reals.
From Verif Require Import AlgTac AlgGP AlgEI AlgSW AlgInv SpecMass Float32 FloatFacts ExprSyntax FloatErr FloatMass.

Definition o_plane_mul_plane (B : Build) : op2 KPlane KPlane KMotor := fun F A (a : ent KPlane F) (b : ent KPlane F) => (plane_mul_plane a b : ent KMotor F).
Lemma o_plane_mul_plane_natural B : natural (o_plane_mul_plane B). Proof. intros F A x. destruct B as [[|]]; reflexivity. Qed.
Lemma o_plane_mul_plane_correct B : correct (o_plane_mul_plane B) SGp. Proof. intros a b Wa Wb. exact (plane_mul_plane_gp B a b). Qed.
Definition o_plane_mul_point (B : Build) : op2 KPlane KPoint KMotor := fun F A (a : ent KPlane F) (b : ent KPoint F) => (plane_mul_point a b : ent KMotor F).
Lemma o_plane_mul_point_natural B : natural (o_plane_mul_point B). Proof. intros F A x. destruct B as [[|]]; reflexivity. Qed.
Lemma o_plane_mul_point_correct B : correct (o_plane_mul_point B) SGp. Proof. intros a b Wa Wb. exact (plane_mul_point_gp B a b). Qed.
Definition o_point_mul_plane (B : Build) : op2 KPoint KPlane KMotor := fun F A (a : ent KPoint F) (b : ent KPlane F) => (point_mul_plane a b : ent KMotor F).
Lemma o_point_mul_plane_natural B : natural (o_point_mul_plane B). Proof. intros F A x. destruct B as [[|]]; reflexivity. Qed.
Lemma o_point_mul_plane_correct B : correct (o_point_mul_plane B) SGp. Proof. intros a b Wa Wb. exact (point_mul_plane_gp B a b). Qed.
Definition o_branch_mul_branch (B : Build) : op2 KBranch KBranch KRotor := fun F A (a : ent KBranch F) (b : ent KBranch F) => (branch_mul_branch a b : ent KRotor F).
Lemma o_branch_mul_branch_natural B : natural (o_branch_mul_branch B). Proof. intros F A x. destruct B as [[|]]; reflexivity. Qed.
Lemma o_branch_mul_branch_correct B : correct (o_branch_mul_branch B) SGp. Proof. intros a b Wa Wb. exact (branch_mul_branch_gp B a b). Qed.
Definition o_rotor_mul_rotor (B : Build) : op2 KRotor KRotor KRotor := fun F A (a : ent KRotor F) (b : ent KRotor F) => (rotor_mul_rotor a b : ent KRotor F).
Lemma o_rotor_mul_rotor_natural B : natural (o_rotor_mul_rotor B). Proof. intros F A x. destruct B as [[|]]; reflexivity. Qed.
Lemma o_rotor_mul_rotor_correct B : correct (o_rotor_mul_rotor B) SGp. Proof. intros a b Wa Wb. exact (rotor_mul_rotor_gp B a b). Qed.
Definition o_dual_mul_line (B : Build) : op2 KDual KLine KLine := fun F A (a : ent KDual F) (b : ent KLine F) => (dual_mul_line a b : ent KLine F).
Lemma o_dual_mul_line_natural B : natural (o_dual_mul_line B). Proof. intros F A x. destruct B as [[|]]; reflexivity. Qed.
Lemma o_dual_mul_line_correct B : correct (o_dual_mul_line B) SGp. Proof. intros a b Wa Wb. exact (dual_mul_line_gp B a b Wb). Qed.
Definition o_line_mul_dual (B : Build) : op2 KLine KDual KLine := fun F A (a : ent KLine F) (b : ent KDual F) => (line_mul_dual a b : ent KLine F).
Lemma o_line_mul_dual_natural B : natural (o_line_mul_dual B). Proof. intros F A x. destruct B as [[|]]; reflexivity. Qed.
Lemma o_line_mul_dual_correct B : correct (o_line_mul_dual B) SGp. Proof. intros a b Wa Wb. exact (line_mul_dual_gp B a b Wa). Qed.
Definition o_rotor_mul_translator (B : Build) : op2 KRotor KTranslator KMotor := fun F A (a : ent KRotor F) (b : ent KTranslator F) => (rotor_mul_translator a b : ent KMotor F).
Lemma o_rotor_mul_translator_natural B : natural (o_rotor_mul_translator B). Proof. intros F A x. destruct B as [[|]]; reflexivity. Qed.
Lemma o_rotor_mul_translator_correct B : correct (o_rotor_mul_translator B) SGp. Proof. intros a b Wa Wb. exact (rotor_mul_translator_gp B a b Wb). Qed.
Definition o_translator_mul_rotor (B : Build) : op2 KTranslator KRotor KMotor := fun F A (a : ent KTranslator F) (b : ent KRotor F) => (translator_mul_rotor a b : ent KMotor F).
Lemma o_translator_mul_rotor_natural B : natural (o_translator_mul_rotor B). Proof. intros F A x. destruct B as [[|]]; reflexivity. Qed.
Lemma o_translator_mul_rotor_correct B : correct (o_translator_mul_rotor B) SGp. Proof. intros a b Wa Wb. exact (translator_mul_rotor_gp B a b Wa). Qed.
Definition o_translator_mul_translator (B : Build) : op2 KTranslator KTranslator KTranslator := fun F A (a : ent KTranslator F) (b : ent KTranslator F) => (translator_mul_translator a b : ent KTranslator F).
Lemma o_translator_mul_translator_natural B : natural (o_translator_mul_translator B). Proof. intros F A x. destruct B as [[|]]; reflexivity. Qed.
Lemma o_translator_mul_translator_correct B : correct (o_translator_mul_translator B) SGp. Proof. intros a b Wa Wb. exact (translator_mul_translator_gp B a b). Qed.
Definition o_rotor_mul_motor (B : Build) : op2 KRotor KMotor KMotor := fun F A (a : ent KRotor F) (b : ent KMotor F) => (rotor_mul_motor a b : ent KMotor F).
Lemma o_rotor_mul_motor_natural B : natural (o_rotor_mul_motor B). Proof. intros F A x. destruct B as [[|]]; reflexivity. Qed.
Lemma o_rotor_mul_motor_correct B : correct (o_rotor_mul_motor B) SGp. Proof. intros a b Wa Wb. exact (rotor_mul_motor_gp B a b). Qed.
Definition o_motor_mul_rotor (B : Build) : op2 KMotor KRotor KMotor := fun F A (a : ent KMotor F) (b : ent KRotor F) => (motor_mul_rotor a b : ent KMotor F).
Lemma o_motor_mul_rotor_natural B : natural (o_motor_mul_rotor B). Proof. intros F A x. destruct B as [[|]]; reflexivity. Qed.
Lemma o_motor_mul_rotor_correct B : correct (o_motor_mul_rotor B) SGp. Proof. intros a b Wa Wb. exact (motor_mul_rotor_gp B a b). Qed.
Definition o_translator_mul_motor (B : Build) : op2 KTranslator KMotor KMotor := fun F A (a : ent KTranslator F) (b : ent KMotor F) => (translator_mul_motor a b : ent KMotor F).
Lemma o_translator_mul_motor_natural B : natural (o_translator_mul_motor B). Proof. intros F A x. destruct B as [[|]]; reflexivity. Qed.
Lemma o_translator_mul_motor_correct B : correct (o_translator_mul_motor B) SGp. Proof. intros a b Wa Wb. exact (translator_mul_motor_gp B a b Wa). Qed.
Definition o_motor_mul_translator (B : Build) : op2 KMotor KTranslator KMotor := fun F A (a : ent KMotor F) (b : ent KTranslator F) => (motor_mul_translator a b : ent KMotor F).
Lemma o_motor_mul_translator_natural B : natural (o_motor_mul_translator B). Proof. intros F A x. destruct B as [[|]]; reflexivity. Qed.
Lemma o_motor_mul_translator_correct B : correct (o_motor_mul_translator B) SGp. Proof. intros a b Wa Wb. exact (motor_mul_translator_gp B a b Wb). Qed.
Definition o_motor_mul_motor (B : Build) : op2 KMotor KMotor KMotor := fun F A (a : ent KMotor F) (b : ent KMotor F) => (motor_mul_motor a b : ent KMotor F).
Lemma o_motor_mul_motor_natural B : natural (o_motor_mul_motor B). Proof. intros F A x. destruct B as [[|]]; reflexivity. Qed.
Lemma o_motor_mul_motor_correct B : correct (o_motor_mul_motor B) SGp. Proof. intros a b Wa Wb. exact (motor_mul_motor_gp B a b). Qed.
Definition o_plane_ext_plane (B : Build) : op2 KPlane KPlane KLine := fun F A (a : ent KPlane F) (b : ent KPlane F) => (plane_ext_plane a b : ent KLine F).
Lemma o_plane_ext_plane_natural B : natural (o_plane_ext_plane B). Proof. intros F A x. destruct B as [[|]]; reflexivity. Qed.
Lemma o_plane_ext_plane_correct B : correct (o_plane_ext_plane B) SExt. Proof. intros a b Wa Wb. exact (plane_ext_plane_ext B a b). Qed.
Definition o_plane_ext_branch (B : Build) : op2 KPlane KBranch KPoint := fun F A (a : ent KPlane F) (b : ent KBranch F) => (plane_ext_branch a b : ent KPoint F).
Lemma o_plane_ext_branch_natural B : natural (o_plane_ext_branch B). Proof. intros F A x. destruct B as [[|]]; reflexivity. Qed.
Lemma o_plane_ext_branch_correct B : correct (o_plane_ext_branch B) SExt. Proof. intros a b Wa Wb. exact (plane_ext_branch_ext B a b Wb). Qed.
Definition o_branch_ext_plane (B : Build) : op2 KBranch KPlane KPoint := fun F A (a : ent KBranch F) (b : ent KPlane F) => (branch_ext_plane a b : ent KPoint F).
Lemma o_branch_ext_plane_natural B : natural (o_branch_ext_plane B). Proof. intros F A x. destruct B as [[|]]; reflexivity. Qed.
Lemma o_branch_ext_plane_correct B : correct (o_branch_ext_plane B) SExt. Proof. intros a b Wa Wb. exact (branch_ext_plane_ext B a b Wa). Qed.
Definition o_plane_ext_ideal (B : Build) : op2 KPlane KIdeal KPoint := fun F A (a : ent KPlane F) (b : ent KIdeal F) => (plane_ext_ideal a b : ent KPoint F).
Lemma o_plane_ext_ideal_natural B : natural (o_plane_ext_ideal B). Proof. intros F A x. destruct B as [[|]]; reflexivity. Qed.
Lemma o_plane_ext_ideal_correct B : correct (o_plane_ext_ideal B) SExt. Proof. intros a b Wa Wb. exact (plane_ext_ideal_ext B a b Wb). Qed.
Definition o_ideal_ext_plane (B : Build) : op2 KIdeal KPlane KPoint := fun F A (a : ent KIdeal F) (b : ent KPlane F) => (ideal_ext_plane a b : ent KPoint F).
Lemma o_ideal_ext_plane_natural B : natural (o_ideal_ext_plane B). Proof. intros F A x. destruct B as [[|]]; reflexivity. Qed.
Lemma o_ideal_ext_plane_correct B : correct (o_ideal_ext_plane B) SExt. Proof. intros a b Wa Wb. exact (ideal_ext_plane_ext B a b Wa). Qed.
Definition o_plane_ext_line (B : Build) : op2 KPlane KLine KPoint := fun F A (a : ent KPlane F) (b : ent KLine F) => (plane_ext_line a b : ent KPoint F).
Lemma o_plane_ext_line_natural B : natural (o_plane_ext_line B). Proof. intros F A x. destruct B as [[|]]; reflexivity. Qed.
Lemma o_plane_ext_line_correct B : correct (o_plane_ext_line B) SExt. Proof. intros a b Wa Wb. exact (plane_ext_line_ext B a b Wb). Qed.
Definition o_line_ext_plane (B : Build) : op2 KLine KPlane KPoint := fun F A (a : ent KLine F) (b : ent KPlane F) => (line_ext_plane a b : ent KPoint F).
Lemma o_line_ext_plane_natural B : natural (o_line_ext_plane B). Proof. intros F A x. destruct B as [[|]]; reflexivity. Qed.
Lemma o_line_ext_plane_correct B : correct (o_line_ext_plane B) SExt. Proof. intros a b Wa Wb. exact (line_ext_plane_ext B a b Wa). Qed.
Definition o_plane_ext_point (B : Build) : op2 KPlane KPoint KDual := fun F A (a : ent KPlane F) (b : ent KPoint F) => (plane_ext_point a b : ent KDual F).
Lemma o_plane_ext_point_natural B : natural (o_plane_ext_point B). Proof. intros F A x. destruct B as [[|]]; reflexivity. Qed.
Lemma o_plane_ext_point_correct B : correct (o_plane_ext_point B) SExt. Proof. intros a b Wa Wb. exact (plane_ext_point_ext B a b). Qed.
Definition o_point_ext_plane (B : Build) : op2 KPoint KPlane KDual := fun F A (a : ent KPoint F) (b : ent KPlane F) => (point_ext_plane a b : ent KDual F).
Lemma o_point_ext_plane_natural B : natural (o_point_ext_plane B). Proof. intros F A x. destruct B as [[|]]; reflexivity. Qed.
Lemma o_point_ext_plane_correct B : correct (o_point_ext_plane B) SExt. Proof. intros a b Wa Wb. exact (point_ext_plane_ext B a b). Qed.
Definition o_branch_ext_ideal (B : Build) : op2 KBranch KIdeal KDual := fun F A (a : ent KBranch F) (b : ent KIdeal F) => (branch_ext_ideal a b : ent KDual F).
Lemma o_branch_ext_ideal_natural B : natural (o_branch_ext_ideal B). Proof. intros F A x. destruct B as [[|]]; reflexivity. Qed.
Lemma o_branch_ext_ideal_correct B : correct (o_branch_ext_ideal B) SExt. Proof. intros a b Wa Wb. exact (branch_ext_ideal_ext B a b Wa Wb). Qed.
Definition o_ideal_ext_branch (B : Build) : op2 KIdeal KBranch KDual := fun F A (a : ent KIdeal F) (b : ent KBranch F) => (ideal_ext_branch a b : ent KDual F).
Lemma o_ideal_ext_branch_natural B : natural (o_ideal_ext_branch B). Proof. intros F A x. destruct B as [[|]]; reflexivity. Qed.
Lemma o_ideal_ext_branch_correct B : correct (o_ideal_ext_branch B) SExt. Proof. intros a b Wa Wb. exact (ideal_ext_branch_ext B a b Wa Wb). Qed.
Definition o_line_ext_line (B : Build) : op2 KLine KLine KDual := fun F A (a : ent KLine F) (b : ent KLine F) => (line_ext_line a b : ent KDual F).
Lemma o_line_ext_line_natural B : natural (o_line_ext_line B). Proof. intros F A x. destruct B as [[|]]; reflexivity. Qed.
Lemma o_line_ext_line_correct B : correct (o_line_ext_line B) SExt. Proof. intros a b Wa Wb. exact (line_ext_line_ext B a b Wa Wb). Qed.
Definition o_line_ext_ideal (B : Build) : op2 KLine KIdeal KDual := fun F A (a : ent KLine F) (b : ent KIdeal F) => (line_ext_ideal a b : ent KDual F).
Lemma o_line_ext_ideal_natural B : natural (o_line_ext_ideal B). Proof. intros F A x. destruct B as [[|]]; reflexivity. Qed.
Lemma o_line_ext_ideal_correct B : correct (o_line_ext_ideal B) SExt. Proof. intros a b Wa Wb. exact (line_ext_ideal_ext B a b Wa Wb). Qed.
Definition o_ideal_ext_line (B : Build) : op2 KIdeal KLine KDual := fun F A (a : ent KIdeal F) (b : ent KLine F) => (ideal_ext_line a b : ent KDual F).
Lemma o_ideal_ext_line_natural B : natural (o_ideal_ext_line B). Proof. intros F A x. destruct B as [[|]]; reflexivity. Qed.
Lemma o_ideal_ext_line_correct B : correct (o_ideal_ext_line B) SExt. Proof. intros a b Wa Wb. exact (ideal_ext_line_ext B a b Wa Wb). Qed.
Definition o_line_ext_branch (B : Build) : op2 KLine KBranch KDual := fun F A (a : ent KLine F) (b : ent KBranch F) => (line_ext_branch a b : ent KDual F).
Lemma o_line_ext_branch_natural B : natural (o_line_ext_branch B). Proof. intros F A x. destruct B as [[|]]; reflexivity. Qed.
Lemma o_line_ext_branch_correct B : correct (o_line_ext_branch B) SExt. Proof. intros a b Wa Wb. exact (line_ext_branch_ext B a b Wa Wb). Qed.
Definition o_branch_ext_line (B : Build) : op2 KBranch KLine KDual := fun F A (a : ent KBranch F) (b : ent KLine F) => (branch_ext_line a b : ent KDual F).
Lemma o_branch_ext_line_natural B : natural (o_branch_ext_line B). Proof. intros F A x. destruct B as [[|]]; reflexivity. Qed.
Lemma o_branch_ext_line_correct B : correct (o_branch_ext_line B) SExt. Proof. intros a b Wa Wb. exact (branch_ext_line_ext B a b Wa Wb). Qed.
Definition o_plane_dot_plane (B : Build) : op2 KPlane KPlane KScalar := fun F A (a : ent KPlane F) (b : ent KPlane F) => (plane_dot_plane a b : ent KScalar F).
Lemma o_plane_dot_plane_natural B : natural (o_plane_dot_plane B). Proof. intros F A x. destruct B as [[|]]; reflexivity. Qed.
Lemma o_plane_dot_plane_correct B : correct (o_plane_dot_plane B) SDot. Proof. intros a b Wa Wb. exact (plane_dot_plane_dot B a b). Qed.
Definition o_plane_dot_line (B : Build) : op2 KPlane KLine KPlane := fun F A (a : ent KPlane F) (b : ent KLine F) => (plane_dot_line a b : ent KPlane F).
Lemma o_plane_dot_line_natural B : natural (o_plane_dot_line B). Proof. intros F A x. destruct B as [[|]]; reflexivity. Qed.
Lemma o_plane_dot_line_correct B : correct (o_plane_dot_line B) SDot. Proof. intros a b Wa Wb. exact (plane_dot_line_dot B a b Wb). Qed.
Definition o_line_dot_plane (B : Build) : op2 KLine KPlane KPlane := fun F A (a : ent KLine F) (b : ent KPlane F) => (line_dot_plane a b : ent KPlane F).
Lemma o_line_dot_plane_natural B : natural (o_line_dot_plane B). Proof. intros F A x. destruct B as [[|]]; reflexivity. Qed.
Lemma o_line_dot_plane_correct B : correct (o_line_dot_plane B) SDot. Proof. intros a b Wa Wb. exact (line_dot_plane_dot B a b Wa). Qed.
Definition o_plane_dot_ideal (B : Build) : op2 KPlane KIdeal KPlane := fun F A (a : ent KPlane F) (b : ent KIdeal F) => (plane_dot_ideal a b : ent KPlane F).
Lemma o_plane_dot_ideal_natural B : natural (o_plane_dot_ideal B). Proof. intros F A x. destruct B as [[|]]; reflexivity. Qed.
Lemma o_plane_dot_ideal_correct B : correct (o_plane_dot_ideal B) SDot. Proof. intros a b Wa Wb. exact (plane_dot_ideal_dot B a b Wb). Qed.
Definition o_ideal_dot_plane (B : Build) : op2 KIdeal KPlane KPlane := fun F A (a : ent KIdeal F) (b : ent KPlane F) => (ideal_dot_plane a b : ent KPlane F).
Lemma o_ideal_dot_plane_natural B : natural (o_ideal_dot_plane B). Proof. intros F A x. destruct B as [[|]]; reflexivity. Qed.
Lemma o_ideal_dot_plane_correct B : correct (o_ideal_dot_plane B) SDot. Proof. intros a b Wa Wb. exact (ideal_dot_plane_dot B a b Wa). Qed.
Definition o_plane_dot_point (B : Build) : op2 KPlane KPoint KLine := fun F A (a : ent KPlane F) (b : ent KPoint F) => (plane_dot_point a b : ent KLine F).
Lemma o_plane_dot_point_natural B : natural (o_plane_dot_point B). Proof. intros F A x. destruct B as [[|]]; reflexivity. Qed.
Lemma o_plane_dot_point_correct B : correct (o_plane_dot_point B) SDot. Proof. intros a b Wa Wb. exact (plane_dot_point_dot B a b). Qed.
Definition o_point_dot_plane (B : Build) : op2 KPoint KPlane KLine := fun F A (a : ent KPoint F) (b : ent KPlane F) => (point_dot_plane a b : ent KLine F).
Lemma o_point_dot_plane_natural B : natural (o_point_dot_plane B). Proof. intros F A x. destruct B as [[|]]; reflexivity. Qed.
Lemma o_point_dot_plane_correct B : correct (o_point_dot_plane B) SDot. Proof. intros a b Wa Wb. exact (point_dot_plane_dot B a b). Qed.
Definition o_line_dot_line (B : Build) : op2 KLine KLine KScalar := fun F A (a : ent KLine F) (b : ent KLine F) => (line_dot_line a b : ent KScalar F).
Lemma o_line_dot_line_natural B : natural (o_line_dot_line B). Proof. intros F A x. destruct B as [[|]]; reflexivity. Qed.
Lemma o_line_dot_line_correct B : correct (o_line_dot_line B) SDot. Proof. intros a b Wa Wb. exact (line_dot_line_dot B a b Wa Wb). Qed.
Definition o_point_dot_line (B : Build) : op2 KPoint KLine KPlane := fun F A (a : ent KPoint F) (b : ent KLine F) => (point_dot_line a b : ent KPlane F).
Lemma o_point_dot_line_natural B : natural (o_point_dot_line B). Proof. intros F A x. destruct B as [[|]]; reflexivity. Qed.
Lemma o_point_dot_line_correct B : correct (o_point_dot_line B) SDot. Proof. intros a b Wa Wb. exact (point_dot_line_dot B a b Wb). Qed.
Definition o_line_dot_point (B : Build) : op2 KLine KPoint KPlane := fun F A (a : ent KLine F) (b : ent KPoint F) => (line_dot_point a b : ent KPlane F).
Lemma o_line_dot_point_natural B : natural (o_line_dot_point B). Proof. intros F A x. destruct B as [[|]]; reflexivity. Qed.
Lemma o_line_dot_point_correct B : correct (o_line_dot_point B) SDot. Proof. intros a b Wa Wb. exact (line_dot_point_dot B a b Wa). Qed.
Definition o_point_dot_point (B : Build) : op2 KPoint KPoint KScalar := fun F A (a : ent KPoint F) (b : ent KPoint F) => (point_dot_point a b : ent KScalar F).
Lemma o_point_dot_point_natural B : natural (o_point_dot_point B). Proof. intros F A x. destruct B as [[|]]; reflexivity. Qed.
Lemma o_point_dot_point_correct B : correct (o_point_dot_point B) SDot. Proof. intros a b Wa Wb. exact (point_dot_point_dot B a b). Qed.
Definition o_point_join_point (B : Build) : op2 KPoint KPoint KLine := fun F A (a : ent KPoint F) (b : ent KPoint F) => (point_join_point a b : ent KLine F).
Lemma o_point_join_point_natural B : natural (o_point_join_point B). Proof. intros F A x. destruct B as [[|]]; reflexivity. Qed.
Lemma o_point_join_point_correct B : correct (o_point_join_point B) SReg. Proof. intros a b Wa Wb. exact (point_join_point_reg B a b). Qed.
Definition o_point_join_line (B : Build) : op2 KPoint KLine KPlane := fun F A (a : ent KPoint F) (b : ent KLine F) => (point_join_line a b : ent KPlane F).
Lemma o_point_join_line_natural B : natural (o_point_join_line B). Proof. intros F A x. destruct B as [[|]]; reflexivity. Qed.
Lemma o_point_join_line_correct B : correct (o_point_join_line B) SReg. Proof. intros a b Wa Wb. exact (point_join_line_reg B a b Wb). Qed.
Definition o_line_join_point (B : Build) : op2 KLine KPoint KPlane := fun F A (a : ent KLine F) (b : ent KPoint F) => (line_join_point a b : ent KPlane F).
Lemma o_line_join_point_natural B : natural (o_line_join_point B). Proof. intros F A x. destruct B as [[|]]; reflexivity. Qed.
Lemma o_line_join_point_correct B : correct (o_line_join_point B) SReg. Proof. intros a b Wa Wb. exact (line_join_point_reg B a b Wa). Qed.
Definition o_point_join_branch (B : Build) : op2 KPoint KBranch KPlane := fun F A (a : ent KPoint F) (b : ent KBranch F) => (point_join_branch a b : ent KPlane F).
Lemma o_point_join_branch_natural B : natural (o_point_join_branch B). Proof. intros F A x. destruct B as [[|]]; reflexivity. Qed.
Lemma o_point_join_branch_correct B : correct (o_point_join_branch B) SReg. Proof. intros a b Wa Wb. exact (point_join_branch_reg B a b Wb). Qed.
Definition o_branch_join_point (B : Build) : op2 KBranch KPoint KPlane := fun F A (a : ent KBranch F) (b : ent KPoint F) => (branch_join_point a b : ent KPlane F).
Lemma o_branch_join_point_natural B : natural (o_branch_join_point B). Proof. intros F A x. destruct B as [[|]]; reflexivity. Qed.
Lemma o_branch_join_point_correct B : correct (o_branch_join_point B) SReg. Proof. intros a b Wa Wb. exact (branch_join_point_reg B a b Wa). Qed.
Definition o_point_join_ideal (B : Build) : op2 KPoint KIdeal KPlane := fun F A (a : ent KPoint F) (b : ent KIdeal F) => (point_join_ideal a b : ent KPlane F).
Lemma o_point_join_ideal_natural B : natural (o_point_join_ideal B). Proof. intros F A x. destruct B as [[|]]; reflexivity. Qed.
Lemma o_point_join_ideal_correct B : correct (o_point_join_ideal B) SReg. Proof. intros a b Wa Wb. exact (point_join_ideal_reg B a b Wb). Qed.
Definition o_ideal_join_point (B : Build) : op2 KIdeal KPoint KPlane := fun F A (a : ent KIdeal F) (b : ent KPoint F) => (ideal_join_point a b : ent KPlane F).
Lemma o_ideal_join_point_natural B : natural (o_ideal_join_point B). Proof. intros F A x. destruct B as [[|]]; reflexivity. Qed.
Lemma o_ideal_join_point_correct B : correct (o_ideal_join_point B) SReg. Proof. intros a b Wa Wb. exact (ideal_join_point_reg B a b Wa). Qed.
Definition o_plane_join_point (B : Build) : op2 KPlane KPoint KDual := fun F A (a : ent KPlane F) (b : ent KPoint F) => (plane_join_point a b : ent KDual F).
Lemma o_plane_join_point_natural B : natural (o_plane_join_point B). Proof. intros F A x. destruct B as [[|]]; reflexivity. Qed.
Lemma o_plane_join_point_correct B : correct (o_plane_join_point B) SReg. Proof. intros a b Wa Wb. exact (plane_join_point_reg B a b). Qed.
Definition o_point_join_plane (B : Build) : op2 KPoint KPlane KDual := fun F A (a : ent KPoint F) (b : ent KPlane F) => (point_join_plane a b : ent KDual F).
Lemma o_point_join_plane_natural B : natural (o_point_join_plane B). Proof. intros F A x. destruct B as [[|]]; reflexivity. Qed.
Lemma o_point_join_plane_correct B : correct (o_point_join_plane B) SReg. Proof. intros a b Wa Wb. exact (point_join_plane_reg B a b). Qed.
Definition o_rotor_on_plane (B : Build) : op2 KRotor KPlane KPlane := fun F A (a : ent KRotor F) (b : ent KPlane F) => (rotor_on_plane a b : ent KPlane F).
Lemma o_rotor_on_plane_natural B : natural (o_rotor_on_plane B). Proof. intros F A x. destruct B as [[|]]; reflexivity. Qed.
Lemma o_rotor_on_plane_correct B : correct (o_rotor_on_plane B) SSandwich. Proof. intros a b Wa Wb. exact (rotor_on_plane_sw B a b). Qed.
Definition o_rotor_on_branch (B : Build) : op2 KRotor KBranch KBranch := fun F A (a : ent KRotor F) (b : ent KBranch F) => (rotor_on_branch a b : ent KBranch F).
Lemma o_rotor_on_branch_natural B : natural (o_rotor_on_branch B). Proof. intros F A x. destruct B as [[|]]; reflexivity. Qed.
Lemma o_rotor_on_branch_correct B : correct (o_rotor_on_branch B) SSandwich. Proof. intros a b Wa Wb. exact (rotor_on_branch_sw B a b Wb). Qed.
Definition o_rotor_on_line (B : Build) : op2 KRotor KLine KLine := fun F A (a : ent KRotor F) (b : ent KLine F) => (rotor_on_line a b : ent KLine F).
Lemma o_rotor_on_line_natural B : natural (o_rotor_on_line B). Proof. intros F A x. destruct B as [[|]]; reflexivity. Qed.
Lemma o_rotor_on_line_correct B : correct (o_rotor_on_line B) SSandwich. Proof. intros a b Wa Wb. exact (rotor_on_line_sw B a b Wb). Qed.
Definition o_rotor_on_point (B : Build) : op2 KRotor KPoint KPoint := fun F A (a : ent KRotor F) (b : ent KPoint F) => (rotor_on_point a b : ent KPoint F).
Lemma o_rotor_on_point_natural B : natural (o_rotor_on_point B). Proof. intros F A x. destruct B as [[|]]; reflexivity. Qed.
Lemma o_rotor_on_point_correct B : correct (o_rotor_on_point B) SSandwich. Proof. intros a b Wa Wb. exact (rotor_on_point_sw B a b). Qed.
Definition o_rotor_on_direction (B : Build) : op2 KRotor KDirection KDirection := fun F A (a : ent KRotor F) (b : ent KDirection F) => (rotor_on_direction a b : ent KDirection F).
Lemma o_rotor_on_direction_natural B : natural (o_rotor_on_direction B). Proof. intros F A x. destruct B as [[|]]; reflexivity. Qed.
Lemma o_rotor_on_direction_correct B : correct (o_rotor_on_direction B) SSandwich. Proof. intros a b Wa Wb. exact (rotor_on_direction_sw B a b). Qed.
Definition o_translator_on_line (B : Build) : op2 KTranslator KLine KLine := fun F A (a : ent KTranslator F) (b : ent KLine F) => (translator_on_line a b : ent KLine F).
Lemma o_translator_on_line_natural B : natural (o_translator_on_line B). Proof. intros F A x. destruct B as [[|]]; reflexivity. Qed.
Lemma o_translator_on_line_correct B : correct (o_translator_on_line B) SSandwich. Proof. intros a b Wa Wb. exact (translator_on_line_sw B a b Wa Wb). Qed.
Definition o_translator_on_point (B : Build) : op2 KTranslator KPoint KPoint := fun F A (a : ent KTranslator F) (b : ent KPoint F) => (translator_on_point a b : ent KPoint F).
Lemma o_translator_on_point_natural B : natural (o_translator_on_point B). Proof. intros F A x. destruct B as [[|]]; reflexivity. Qed.
Lemma o_translator_on_point_correct B : correct (o_translator_on_point B) SSandwich. Proof. intros a b Wa Wb. exact (translator_on_point_sw B a b Wa). Qed.
Definition o_motor_on_plane (B : Build) : op2 KMotor KPlane KPlane := fun F A (a : ent KMotor F) (b : ent KPlane F) => (motor_on_plane a b : ent KPlane F).
Lemma o_motor_on_plane_natural B : natural (o_motor_on_plane B). Proof. intros F A x. destruct B as [[|]]; reflexivity. Qed.
Lemma o_motor_on_plane_correct B : correct (o_motor_on_plane B) SSandwich. Proof. intros a b Wa Wb. exact (motor_on_plane_sw B a b). Qed.
Definition o_motor_on_line (B : Build) : op2 KMotor KLine KLine := fun F A (a : ent KMotor F) (b : ent KLine F) => (motor_on_line a b : ent KLine F).
Lemma o_motor_on_line_natural B : natural (o_motor_on_line B). Proof. intros F A x. destruct B as [[|]]; reflexivity. Qed.
Lemma o_motor_on_line_correct B : correct (o_motor_on_line B) SSandwich. Proof. intros a b Wa Wb. exact (motor_on_line_sw B a b Wb). Qed.
Definition o_motor_on_point (B : Build) : op2 KMotor KPoint KPoint := fun F A (a : ent KMotor F) (b : ent KPoint F) => (motor_on_point a b : ent KPoint F).
Lemma o_motor_on_point_natural B : natural (o_motor_on_point B). Proof. intros F A x. destruct B as [[|]]; reflexivity. Qed.
Lemma o_motor_on_point_correct B : correct (o_motor_on_point B) SSandwich. Proof. intros a b Wa Wb. exact (motor_on_point_sw B a b). Qed.
Definition o_motor_on_direction (B : Build) : op2 KMotor KDirection KDirection := fun F A (a : ent KMotor F) (b : ent KDirection F) => (motor_on_direction a b : ent KDirection F).
Lemma o_motor_on_direction_natural B : natural (o_motor_on_direction B). Proof. intros F A x. destruct B as [[|]]; reflexivity. Qed.
Lemma o_motor_on_direction_correct B : correct (o_motor_on_direction B) SSandwich. Proof. intros a b Wa Wb. exact (motor_on_direction_sw B a b Wb). Qed.
Definition o_plane_on_plane (B : Build) : op2 KPlane KPlane KPlane := fun F A (a : ent KPlane F) (b : ent KPlane F) => (plane_on_plane a b : ent KPlane F).
Lemma o_plane_on_plane_natural B : natural (o_plane_on_plane B). Proof. intros F A x. destruct B as [[|]]; reflexivity. Qed.
Lemma o_plane_on_plane_correct B : correct (o_plane_on_plane B) SSandwich. Proof. intros a b Wa Wb. exact (plane_on_plane_sw B a b). Qed.
Definition o_plane_on_line (B : Build) : op2 KPlane KLine KLine := fun F A (a : ent KPlane F) (b : ent KLine F) => (plane_on_line a b : ent KLine F).
Lemma o_plane_on_line_natural B : natural (o_plane_on_line B). Proof. intros F A x. destruct B as [[|]]; reflexivity. Qed.
Lemma o_plane_on_line_correct B : correct (o_plane_on_line B) SSandwich. Proof. intros a b Wa Wb. exact (plane_on_line_sw B a b Wb). Qed.
Definition o_plane_on_point (B : Build) : op2 KPlane KPoint KPoint := fun F A (a : ent KPlane F) (b : ent KPoint F) => (plane_on_point a b : ent KPoint F).
Lemma o_plane_on_point_natural B : natural (o_plane_on_point B). Proof. intros F A x. destruct B as [[|]]; reflexivity. Qed.
Lemma o_plane_on_point_correct B : correct (o_plane_on_point B) SSandwich. Proof. intros a b Wa Wb. exact (plane_on_point_sw B a b). Qed.
