(** Properties C01-C06: products and sandwiches are those of the algebra.
    Every statement is for both builds ([B : Build]) and all real
    coefficients; [gp], [ext], [dot], [reg], [J], [rev], [sandwich] come from
    SpecPGA.v, the reading of entities as multivectors from Embed.v. *)
From Coq Require Import Reals ZArith Lra.
From Verif Require Import AlgTac AlgGP AlgEI AlgSW FloR Closed AlgInv.
Local Open Scope R_scope.

(** ** C01.  Full statement: [operator*] is the geometric product for every
    overload.  Missing here: line*line, for which it is false
    ([C01_line_mul_line_refuted]). *)
Theorem C01_geometric_product_partial : forall B : Build,
  (forall a b, mv_motor (plane_mul_plane a b) == gp (mv_plane a) (mv_plane b)) /\
  (forall a b, mv_motor (plane_mul_point a b) == gp (mv_plane a) (mv_point b)) /\
  (forall a b, mv_motor (point_mul_plane a b) == gp (mv_point a) (mv_plane b)) /\
  (forall a b, mv_rotor (branch_mul_branch a b) == gp (mv_branch a) (mv_branch b)) /\
  (forall a b, mv_rotor (rotor_mul_rotor a b) == gp (mv_rotor a) (mv_rotor b)) /\
  (forall a b, wf_line b -> mv_line (dual_mul_line a b) == gp (mv_dual a) (mv_line b)) /\
  (forall a b, wf_line a -> mv_line (line_mul_dual a b) == gp (mv_line a) (mv_dual b)) /\
  (forall a b, wf_translator b ->
     mv_motor (rotor_mul_translator a b) == gp (mv_rotor a) (mv_translator b)) /\
  (forall a b, wf_translator a ->
     mv_motor (translator_mul_rotor a b) == gp (mv_translator a) (mv_rotor b)) /\
  (forall a b,
     mv_translator (translator_mul_translator a b) == gp (mv_translator a) (mv_translator b)) /\
  (forall a b, mv_motor (rotor_mul_motor a b) == gp (mv_rotor a) (mv_motor b)) /\
  (forall a b, mv_motor (motor_mul_rotor a b) == gp (mv_motor a) (mv_rotor b)) /\
  (forall a b, wf_translator a ->
     mv_motor (translator_mul_motor a b) == gp (mv_translator a) (mv_motor b)) /\
  (forall a b, wf_translator b ->
     mv_motor (motor_mul_translator a b) == gp (mv_motor a) (mv_translator b)) /\
  (forall a b, mv_motor (motor_mul_motor a b) == gp (mv_motor a) (mv_motor b)).
Proof.
  intro B. repeat match goal with |- _ /\ _ => split end.
  - exact (plane_mul_plane_gp B).
  - exact (plane_mul_point_gp B).
  - exact (point_mul_plane_gp B).
  - exact (branch_mul_branch_gp B).
  - exact (rotor_mul_rotor_gp B).
  - exact (dual_mul_line_gp B).
  - exact (line_mul_dual_gp B).
  - exact (rotor_mul_translator_gp B).
  - exact (translator_mul_rotor_gp B).
  - exact (translator_mul_translator_gp B).
  - exact (rotor_mul_motor_gp B).
  - exact (motor_mul_rotor_gp B).
  - exact (translator_mul_motor_gp B).
  - exact (motor_mul_translator_gp B).
  - exact (motor_mul_motor_gp B).
Qed.
Print Assumptions C01_geometric_product_partial.

(** point*point: the product divided by its scalar part, for ideal hardware *)
Theorem C01_point_mul_point : forall (B : Build) rcp rsqrt sz a b,
  exact_rcp rcp -> point_w a <> 0 -> point_w b <> 0 ->
  mvscale (gp (mv_point a) (mv_point b) (Bl false false false false))
          (mv_translator (@point_mul_point R (Flo_R rcp rsqrt sz) B a b))
  == gp (mv_point a) (mv_point b).
Proof.
  intros B rcp rsqrt sz a b H Ha Hb.
  etransitivity; [|symmetry; exact (point_mul_point_gp rcp rsqrt sz H B a b Ha Hb)].
  replace (gp (mv_point a) (mv_point b) (Bl false false false false))
    with (- (point_w a * point_w b)); [reflexivity|].
  destruct a as [[? ? ? ?]], b as [[? ? ? ?]]. mvcbv. ring.
Qed.
Print Assumptions C01_point_mul_point.
Example C01_point_mul_point_ex :
  exact_rcp Rinv /\ point_w (point_ctor 1 2 3) <> 0 /\ point_w (mkpoint (mk4 2 4 6 8)) <> 0.
Proof. repeat split; try (intros; reflexivity); unfold point_w; cbn; lra. Qed.

(** line*line is not the geometric product: e12 and e23 are exchanged. *)
Theorem C01_line_mul_line_refuted : forall B : Build,
  exists a b : line R, wf_line a /\ wf_line b /\
    ~ (mv_motor (line_mul_line a b) == gp (mv_line a) (mv_line b)).
Proof.
  intro B. exists (line_ctor 0 0 0 1 0 0), (line_ctor 0 0 0 0 1 0).
  assert (Wa : wf_line (line_ctor 0 0 0 1 0 0)) by (split; reflexivity).
  assert (Wb : wf_line (line_ctor 0 0 0 0 1 0)) by (split; reflexivity).
  split; [exact Wa|]. split; [exact Wb|].
  rewrite (line_mul_line_iff B _ _ Wa Wb). cbv -[IZR Rmult Rminus]. lra.
Qed.
Print Assumptions C01_line_mul_line_refuted.

(** Exactly when it is right, and what it is otherwise. *)
Theorem C01_line_mul_line_exact : forall (B : Build) a b, wf_line a -> wf_line b ->
  mv_motor (swap_e12_e23 (line_mul_line a b)) == gp (mv_line a) (mv_line b) /\
  (mv_motor (line_mul_line a b) == gp (mv_line a) (mv_line b) <->
   line_e31 a * line_e23 b - line_e23 a * line_e31 b
   = line_e12 a * line_e31 b - line_e31 a * line_e12 b).
Proof.
  intros B a b Wa Wb. split; [apply (line_mul_line_swapped B)|apply (line_mul_line_iff B)]; assumption.
Qed.
Print Assumptions C01_line_mul_line_exact.
(** The operands of the repository's own test (test_gp.cpp 107-121) satisfy
    the coincidence, so that test cannot see the exchange. *)
Example C01_line_mul_line_test_blind :
  let a := line_ctor 1 0 0 3 2 1 in let b := line_ctor 0 1 0 4 1 (-2) in
  wf_line a /\ wf_line b /\
  line_e31 a * line_e23 b - line_e23 a * line_e31 b
  = line_e12 a * line_e31 b - line_e31 a * line_e12 b.
Proof. cbv zeta. repeat split. cbv -[IZR Rmult Rminus]. lra. Qed.

(** ** C02 *)
Theorem C02_meet : forall B : Build,
  (forall a b, mv_line (plane_ext_plane a b) == ext (mv_plane a) (mv_plane b)) /\
  (forall a b, wf_branch b -> mv_point (plane_ext_branch a b) == ext (mv_plane a) (mv_branch b)) /\
  (forall a b, wf_branch a -> mv_point (branch_ext_plane a b) == ext (mv_branch a) (mv_plane b)) /\
  (forall a b, wf_ideal b -> mv_point (plane_ext_ideal a b) == ext (mv_plane a) (mv_ideal b)) /\
  (forall a b, wf_ideal a -> mv_point (ideal_ext_plane a b) == ext (mv_ideal a) (mv_plane b)) /\
  (forall a b, wf_line b -> mv_point (plane_ext_line a b) == ext (mv_plane a) (mv_line b)) /\
  (forall a b, wf_line a -> mv_point (line_ext_plane a b) == ext (mv_line a) (mv_plane b)) /\
  (forall a b, mv_dual (plane_ext_point a b) == ext (mv_plane a) (mv_point b)) /\
  (forall a b, mv_dual (point_ext_plane a b) == ext (mv_point a) (mv_plane b)) /\
  (forall a b, wf_branch a -> wf_ideal b ->
     mv_dual (branch_ext_ideal a b) == ext (mv_branch a) (mv_ideal b)) /\
  (forall a b, wf_ideal a -> wf_branch b ->
     mv_dual (ideal_ext_branch a b) == ext (mv_ideal a) (mv_branch b)) /\
  (forall a b, wf_line a -> wf_line b ->
     mv_dual (line_ext_line a b) == ext (mv_line a) (mv_line b)) /\
  (forall a b, wf_line a -> wf_ideal b ->
     mv_dual (line_ext_ideal a b) == ext (mv_line a) (mv_ideal b)) /\
  (forall a b, wf_ideal a -> wf_line b ->
     mv_dual (ideal_ext_line a b) == ext (mv_ideal a) (mv_line b)) /\
  (forall a b, wf_line a -> wf_branch b ->
     mv_dual (line_ext_branch a b) == ext (mv_line a) (mv_branch b)) /\
  (forall a b, wf_branch a -> wf_line b ->
     mv_dual (branch_ext_line a b) == ext (mv_branch a) (mv_line b)).
Proof.
  intro B. repeat match goal with |- _ /\ _ => split end.
  - exact (plane_ext_plane_ext B).
  - exact (plane_ext_branch_ext B).
  - exact (branch_ext_plane_ext B).
  - exact (plane_ext_ideal_ext B).
  - exact (ideal_ext_plane_ext B).
  - exact (plane_ext_line_ext B).
  - exact (line_ext_plane_ext B).
  - exact (plane_ext_point_ext B).
  - exact (point_ext_plane_ext B).
  - exact (branch_ext_ideal_ext B).
  - exact (ideal_ext_branch_ext B).
  - exact (line_ext_line_ext B).
  - exact (line_ext_ideal_ext B).
  - exact (ideal_ext_line_ext B).
  - exact (line_ext_branch_ext B).
  - exact (branch_ext_line_ext B).
Qed.
Print Assumptions C02_meet.
(** the well-formedness premises hold for what the constructors build *)
Example wf_ctor_ex : wf_line (line_ctor 1 2 3 4 5 6) /\ wf_branch (branch_ctor 1 2 3)
  /\ wf_ideal (ideal_line_ctor 1 2 3).
Proof. repeat split. Qed.

(** ** C03 *)
Theorem C03_inner_product : forall B : Build,
  (forall a b, scalar_mv (plane_dot_plane a b) == dot (mv_plane a) (mv_plane b)) /\
  (forall a b, wf_line b -> mv_plane (plane_dot_line a b) == dot (mv_plane a) (mv_line b)) /\
  (forall a b, wf_line a -> mv_plane (line_dot_plane a b) == dot (mv_line a) (mv_plane b)) /\
  (forall a b, wf_ideal b -> mv_plane (plane_dot_ideal a b) == dot (mv_plane a) (mv_ideal b)) /\
  (forall a b, wf_ideal a -> mv_plane (ideal_dot_plane a b) == dot (mv_ideal a) (mv_plane b)) /\
  (forall a b, mv_line (plane_dot_point a b) == dot (mv_plane a) (mv_point b)) /\
  (forall a b, mv_line (point_dot_plane a b) == dot (mv_point a) (mv_plane b)) /\
  (forall a b, wf_line a -> wf_line b ->
     scalar_mv (line_dot_line a b) == dot (mv_line a) (mv_line b)) /\
  (forall a b, wf_line b -> mv_plane (point_dot_line a b) == dot (mv_point a) (mv_line b)) /\
  (forall a b, wf_line a -> mv_plane (line_dot_point a b) == dot (mv_line a) (mv_point b)) /\
  (forall a b, scalar_mv (point_dot_point a b) == dot (mv_point a) (mv_point b)).
Proof.
  intro B. repeat match goal with |- _ /\ _ => split end.
  - exact (plane_dot_plane_dot B).
  - exact (plane_dot_line_dot B).
  - exact (line_dot_plane_dot B).
  - exact (plane_dot_ideal_dot B).
  - exact (ideal_dot_plane_dot B).
  - exact (plane_dot_point_dot B).
  - exact (point_dot_plane_dot B).
  - exact (line_dot_line_dot B).
  - exact (point_dot_line_dot B).
  - exact (line_dot_point_dot B).
  - exact (point_dot_point_dot B).
Qed.
Print Assumptions C03_inner_product.

(** ** C04 *)
Theorem C04_dual : 
  (forall x, mv_point (dual_of_plane x) == J (mv_plane x)) /\
  (forall x, mv_plane (dual_of_point x) == J (mv_point x)) /\
  (forall x, mv_line (dual_of_line x) == J (mv_line x)) /\
  (forall x, mv_branch (dual_of_ideal x) == J (mv_ideal x)) /\
  (forall x, mv_ideal (dual_of_branch x) == J (mv_branch x)) /\
  (forall x, mv_dual (dual_of_dual x) == J (mv_dual x)).
Proof.
  exact (conj dual_of_plane_J (conj dual_of_point_J (conj dual_of_line_J
         (conj dual_of_ideal_J (conj dual_of_branch_J dual_of_dual_J))))).
Qed.
Print Assumptions C04_dual.
(** what J is: the complement of each blade, involutive, wedging to e0123 *)
Theorem C04_dual_spec :
  (forall a, J (J a) == a) /\
  (forall i, (grade i <= 2)%nat -> ext (basis i) (J (basis i)) == I4) /\
  (forall i, (2 <= grade i)%nat -> ext (J (basis i)) (basis i) == I4).
Proof. exact (conj J_J (conj J_right J_left)). Qed.
Print Assumptions C04_dual_spec.
Theorem C04_join : forall B : Build,
  (forall a b, mv_line (point_join_point a b) == reg (mv_point a) (mv_point b)) /\
  (forall a b, wf_line b -> mv_plane (point_join_line a b) == reg (mv_point a) (mv_line b)) /\
  (forall a b, wf_line a -> mv_plane (line_join_point a b) == reg (mv_line a) (mv_point b)) /\
  (forall a b, wf_branch b -> mv_plane (point_join_branch a b) == reg (mv_point a) (mv_branch b)) /\
  (forall a b, wf_branch a -> mv_plane (branch_join_point a b) == reg (mv_branch a) (mv_point b)) /\
  (forall a b, wf_ideal b -> mv_plane (point_join_ideal a b) == reg (mv_point a) (mv_ideal b)) /\
  (forall a b, wf_ideal a -> mv_plane (ideal_join_point a b) == reg (mv_ideal a) (mv_point b)) /\
  (forall a b, mv_dual (plane_join_point a b) == reg (mv_plane a) (mv_point b)) /\
  (forall a b, mv_dual (point_join_plane a b) == reg (mv_point a) (mv_plane b)).
Proof.
  intro B. repeat match goal with |- _ /\ _ => split end.
  - exact (point_join_point_reg B).
  - exact (point_join_line_reg B).
  - exact (line_join_point_reg B).
  - exact (point_join_branch_reg B).
  - exact (branch_join_point_reg B).
  - exact (point_join_ideal_reg B).
  - exact (ideal_join_point_reg B).
  - exact (plane_join_point_reg B).
  - exact (point_join_plane_reg B).
Qed.
Print Assumptions C04_join.

(** ** C05 *)
Theorem C05_sandwich : forall B : Build,
  (forall a b, mv_plane (rotor_on_plane a b) == sandwich (mv_rotor a) (mv_plane b)) /\
  (forall a b, wf_branch b ->
     mv_branch (rotor_on_branch a b) == sandwich (mv_rotor a) (mv_branch b)) /\
  (forall a b, wf_line b -> mv_line (rotor_on_line a b) == sandwich (mv_rotor a) (mv_line b)) /\
  (forall a b, mv_point (rotor_on_point a b) == sandwich (mv_rotor a) (mv_point b)) /\
  (forall a b, mv_direction (rotor_on_direction a b) == sandwich (mv_rotor a) (mv_direction b)) /\
  (forall a b, wf_translator a -> wf_line b ->
     mv_line (translator_on_line a b) == sandwich (mv_translator a) (mv_line b)) /\
  (forall a b, wf_translator a ->
     mv_point (translator_on_point a b) == sandwich (mv_translator a) (mv_point b)) /\
  (forall a b, mv_plane (motor_on_plane a b) == sandwich (mv_motor a) (mv_plane b)) /\
  (forall a b, wf_line b -> mv_line (motor_on_line a b) == sandwich (mv_motor a) (mv_line b)) /\
  (forall a b, mv_point (motor_on_point a b) == sandwich (mv_motor a) (mv_point b)) /\
  (forall a b, wf_direction b ->
     mv_direction (motor_on_direction a b) == sandwich (mv_motor a) (mv_direction b)).
Proof.
  intro B. repeat match goal with |- _ /\ _ => split end.
  - exact (rotor_on_plane_sw B).
  - exact (rotor_on_branch_sw B).
  - exact (rotor_on_line_sw B).
  - exact (rotor_on_point_sw B).
  - exact (rotor_on_direction_sw B).
  - exact (translator_on_line_sw B).
  - exact (translator_on_point_sw B).
  - exact (motor_on_plane_sw B).
  - exact (motor_on_line_sw B).
  - exact (motor_on_point_sw B).
  - exact (motor_on_direction_sw B).
Qed.
Print Assumptions C05_sandwich.
Theorem C05_translator_on_plane : forall (B : Build) rcp rsqrt sz t p,
  exact_rcp rcp -> wf_translator t ->
  mv_plane (@translator_on_plane R (Flo_R rcp rsqrt sz) B t p)
  == sandwich (mv_translator t) (mv_plane p).
Proof. intros B rcp rsqrt sz t p H W. exact (translator_on_plane_sw rcp rsqrt sz H B t p W). Qed.
Print Assumptions C05_translator_on_plane.
Example C05_ex : wf_translator (mktranslator (mk4 0 1 2 3)) /\ wf_direction (mkdirection (mk4 0 1 2 3)).
Proof. split; reflexivity. Qed.

(** ** C06 (algebraic part; the geometry is in Props03.v) *)
Theorem C06_reflection_sandwich : forall B : Build,
  (forall a b, mv_plane (plane_on_plane a b) == sandwich (mv_plane a) (mv_plane b)) /\
  (forall a b, wf_line b -> mv_line (plane_on_line a b) == sandwich (mv_plane a) (mv_line b)) /\
  (forall a b, mv_point (plane_on_point a b) == sandwich (mv_plane a) (mv_point b)).
Proof.
  intro B. repeat match goal with |- _ /\ _ => split end.
  - exact (plane_on_plane_sw B).
  - exact (plane_on_line_sw B).
  - exact (plane_on_point_sw B).
Qed.
Print Assumptions C06_reflection_sandwich.
