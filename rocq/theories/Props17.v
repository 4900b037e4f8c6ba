(** Property C69: operations read only the documented coefficients.

    Directions, ideal lines, branches, lines and translators are stored in
    four-lane registers of which lane 0 carries no documented coefficient.  No
    accessor shows it, and it is zero in every object the library builds from
    coefficients (C45), but [line(__m128, __m128)], [translator::load_normalized]
    and their like let the caller fill it.  [same_X] says that all accessors agree;
    [Proper (same_X ==> ... )] says that arguments which agree in every accessor
    give results which agree in every accessor (for types that use all lanes,
    equal results). *)
From Coq Require Import Reals ZArith Lra Lia List Bool Morphisms.
From Verif Require Import AlgTac FloR Closed AlgNorm.
Local Open Scope R_scope.

Definition same_direction (a b : direction R) : Prop :=
  direction_x a = direction_x b /\ direction_y a = direction_y b /\ direction_z a = direction_z b.
Definition same_ideal_line (a b : ideal_line R) : Prop :=
  ideal_line_e01 a = ideal_line_e01 b /\ ideal_line_e02 a = ideal_line_e02 b /\
  ideal_line_e03 a = ideal_line_e03 b.
Definition same_branch (a b : branch R) : Prop :=
  branch_e23 a = branch_e23 b /\ branch_e31 a = branch_e31 b /\ branch_e12 a = branch_e12 b.
Definition same_translator (a b : translator R) : Prop :=
  translator_e01 a = translator_e01 b /\ translator_e02 a = translator_e02 b /\
  translator_e03 a = translator_e03 b.
Definition same_line (a b : line R) : Prop :=
  line_e23 a = line_e23 b /\ line_e31 a = line_e31 b /\ line_e12 a = line_e12 b /\
  line_e01 a = line_e01 b /\ line_e02 a = line_e02 b /\ line_e03 a = line_e03 b.

(** lines that agree in every accessor and differ *)
Example same_line_ex :
  let a := mkline (mk4 5 1 2 3) (mk4 7 4 5 6) in
  let b := mkline (mk4 0 1 2 3) (mk4 (-2) 4 5 6) in
  same_line a b /\ a <> b.
Proof.
  split.
  - repeat split.
  - intro H. injection H as H _. lra.
Qed.

Ltac opens :=
  repeat match goal with
  | H : same_direction _ _ |- _ => unfold same_direction, direction_x, direction_y, direction_z in H
  | H : same_ideal_line _ _ |- _ =>
      unfold same_ideal_line, ideal_line_e01, ideal_line_e02, ideal_line_e03 in H
  | H : same_branch _ _ |- _ => unfold same_branch, branch_e23, branch_e31, branch_e12 in H
  | H : same_translator _ _ |- _ =>
      unfold same_translator, translator_e01, translator_e02, translator_e03 in H
  | H : same_line _ _ |- _ =>
      unfold same_line, line_e23, line_e31, line_e12, line_e01, line_e02, line_e03 in H
  end; repeat open1;
  cbn [direction_p3 ideal_line_p2 branch_p1 translator_p2 line_p1 line_p2 l0 l1 l2 l3] in *;
  repeat match goal with H : _ /\ _ |- _ => destruct H end; subst.
Ltac low :=
  unfold Proper, respectful; intros; subst; opens;
  first [ solve [repeat split; rcbv; ring]
        | repeat split; rcbv; repeat (reflexivity || ring || (f_equal; try ring)) ].

Section P.
(** any hardware estimates *)
Context (rcp rsqrt : R -> R) (sz : bool).
Local Instance FLw : Flo R := Flo_R rcp rsqrt sz.

(** Geometric products and quotients. *)
Theorem C69_products : forall B : Build,
  Proper (same_line ==> same_line ==> eq) (line_mul_line (F := R)) /\
  Proper (eq ==> same_line ==> same_line) (dual_mul_line (F := R)) /\
  Proper (same_line ==> eq ==> same_line) (line_mul_dual (F := R)) /\
  Proper (eq ==> same_translator ==> eq) (rotor_mul_translator (F := R)) /\
  Proper (same_translator ==> eq ==> eq) (translator_mul_rotor (F := R)) /\
  Proper (same_translator ==> same_translator ==> same_translator) (translator_mul_translator (F := R)) /\
  Proper (same_translator ==> eq ==> eq) (translator_mul_motor (F := R)) /\
  Proper (eq ==> same_translator ==> eq) (motor_mul_translator (F := R)) /\
  Proper (same_translator ==> same_translator ==> same_translator) (translator_quo_translator (F := R)) /\
  Proper (same_line ==> same_line ==> eq) (line_quo_line (F := R)) /\
  Proper (eq ==> same_translator ==> eq) (motor_quo_translator (F := R)).
Proof. intros B; repeat match goal with |- _ /\ _ => split end; low. Qed.

(** Exterior, regressive and inner products, dual, projections. *)
Theorem C69_meet_join : forall B : Build,
  Proper (eq ==> same_branch ==> eq) (plane_ext_branch (F := R)) /\
  Proper (same_branch ==> eq ==> eq) (branch_ext_plane (F := R)) /\
  Proper (eq ==> same_ideal_line ==> eq) (plane_ext_ideal (F := R)) /\
  Proper (same_ideal_line ==> eq ==> eq) (ideal_ext_plane (F := R)) /\
  Proper (eq ==> same_line ==> eq) (plane_ext_line (F := R)) /\
  Proper (same_line ==> eq ==> eq) (line_ext_plane (F := R)) /\
  Proper (same_branch ==> same_ideal_line ==> eq) (branch_ext_ideal (F := R)) /\
  Proper (same_ideal_line ==> same_branch ==> eq) (ideal_ext_branch (F := R)) /\
  Proper (same_line ==> same_line ==> eq) (line_ext_line (F := R)) /\
  Proper (same_line ==> same_ideal_line ==> eq) (line_ext_ideal (F := R)) /\
  Proper (same_ideal_line ==> same_line ==> eq) (ideal_ext_line (F := R)) /\
  Proper (same_line ==> same_branch ==> eq) (line_ext_branch (F := R)) /\
  Proper (same_branch ==> same_line ==> eq) (branch_ext_line (F := R)) /\
  Proper (same_line ==> same_line) (dual_of_line (F := R)) /\
  Proper (same_ideal_line ==> same_branch) (dual_of_ideal (F := R)) /\
  Proper (same_branch ==> same_ideal_line) (dual_of_branch (F := R)) /\
  Proper (eq ==> same_line ==> eq) (point_join_line (F := R)) /\
  Proper (same_line ==> eq ==> eq) (line_join_point (F := R)) /\
  Proper (eq ==> same_branch ==> eq) (point_join_branch (F := R)) /\
  Proper (same_branch ==> eq ==> eq) (branch_join_point (F := R)) /\
  Proper (eq ==> same_ideal_line ==> eq) (point_join_ideal (F := R)) /\
  Proper (same_ideal_line ==> eq ==> eq) (ideal_join_point (F := R)) /\
  Proper (eq ==> same_line ==> eq) (plane_dot_line (F := R)) /\
  Proper (same_line ==> eq ==> eq) (line_dot_plane (F := R)) /\
  Proper (eq ==> same_ideal_line ==> eq) (plane_dot_ideal (F := R)) /\
  Proper (same_ideal_line ==> eq ==> eq) (ideal_dot_plane (F := R)) /\
  Proper (same_line ==> same_line ==> eq) (line_dot_line (F := R)) /\
  Proper (same_line ==> eq ==> same_line) (project_line_plane (F := R)) /\
  Proper (same_line ==> eq ==> same_line) (project_line_point (F := R)) /\
  Proper (eq ==> same_line ==> eq) (project_plane_line (F := R)).
Proof. intros B; repeat match goal with |- _ /\ _ => split end; low. Qed.

(** Reflections and motions. *)
Theorem C69_sandwiches : forall B : Build,
  Proper (eq ==> same_line ==> same_line) (plane_on_line (F := R)) /\
  Proper (same_translator ==> eq ==> eq) (translator_on_point (F := R)) /\
  Proper (eq ==> same_branch ==> same_branch) (rotor_on_branch (F := R)) /\
  Proper (eq ==> same_line ==> same_line) (rotor_on_line (F := R)) /\
  Proper (eq ==> same_direction ==> same_direction) (rotor_on_direction (F := R)) /\
  Proper (eq ==> same_line ==> same_line) (motor_on_line (F := R)) /\
  Proper (eq ==> same_direction ==> same_direction) (motor_on_direction (F := R)).
Proof. intros B; repeat match goal with |- _ /\ _ => split end; low. Qed.

(** Conversions, norms, normalization, inverse, logarithm, square root. *)
Theorem C69_unary : forall B : Build,
  Proper (same_ideal_line ==> same_line) (line_of_ideal (F := R)) /\
  Proper (same_branch ==> same_line) (line_of_branch (F := R)) /\
  Proper (same_translator ==> eq) (translator_scalar (F := R)) /\
  Proper (same_ideal_line ==> eq) (ideal_line_squared_norm (F := R)) /\
  Proper (same_branch ==> eq) (branch_squared_norm (F := R)) /\
  Proper (same_line ==> eq) (line_squared_norm (F := R)) /\
  Proper (same_translator ==> same_translator) (translator_inverse (F := R)) /\
  Proper (same_ideal_line ==> eq) (ideal_line_norm (F := R)) /\
  Proper (same_branch ==> eq) (branch_norm (F := R)) /\
  Proper (same_line ==> eq) (line_norm (F := R)) /\
  Proper (same_direction ==> same_direction) (direction_normalized (F := R)) /\
  Proper (same_branch ==> same_branch) (branch_normalized (F := R)) /\
  Proper (same_branch ==> same_branch) (branch_inverse (F := R)) /\
  Proper (same_line ==> same_line) (line_normalized (F := R)) /\
  Proper (same_line ==> same_line) (line_inverse (F := R)) /\
  Proper (same_translator ==> same_ideal_line) (translator_log (F := R)) /\
  Proper (same_ideal_line ==> same_translator) (ideal_line_exp (F := R)) /\
  Proper (same_translator ==> same_translator) (translator_sqrt (F := R)).
Proof. intros B; repeat match goal with |- _ /\ _ => split end; low. Qed.

(** Sums, scalings, negation and reversion. *)
Theorem C69_linear : forall B : Build,
  Proper (same_direction ==> same_direction ==> same_direction) (direction_iadd (F := R)) /\
  Proper (same_direction ==> same_direction ==> same_direction) (direction_add (F := R)) /\
  Proper (same_direction ==> same_direction ==> same_direction) (direction_isub (F := R)) /\
  Proper (same_direction ==> same_direction ==> same_direction) (direction_sub (F := R)) /\
  Proper (same_direction ==> eq ==> same_direction) (direction_imul_f (F := R)) /\
  Proper (same_direction ==> eq ==> same_direction) (direction_imul_i (F := R)) /\
  Proper (same_direction ==> eq ==> same_direction) (direction_mul_f (F := R)) /\
  Proper (eq ==> same_direction ==> same_direction) (f_mul_direction (F := R)) /\
  Proper (same_direction ==> eq ==> same_direction) (direction_mul_i (F := R)) /\
  Proper (eq ==> same_direction ==> same_direction) (i_mul_direction (F := R)) /\
  Proper (same_ideal_line ==> same_ideal_line ==> same_ideal_line) (ideal_line_iadd (F := R)) /\
  Proper (same_ideal_line ==> same_ideal_line ==> same_ideal_line) (ideal_line_add (F := R)) /\
  Proper (same_ideal_line ==> same_ideal_line ==> same_ideal_line) (ideal_line_isub (F := R)) /\
  Proper (same_ideal_line ==> same_ideal_line ==> same_ideal_line) (ideal_line_sub (F := R)) /\
  Proper (same_ideal_line ==> eq ==> same_ideal_line) (ideal_line_imul_f (F := R)) /\
  Proper (same_ideal_line ==> eq ==> same_ideal_line) (ideal_line_imul_i (F := R)) /\
  Proper (same_ideal_line ==> eq ==> same_ideal_line) (ideal_line_mul_f (F := R)) /\
  Proper (eq ==> same_ideal_line ==> same_ideal_line) (f_mul_ideal_line (F := R)) /\
  Proper (same_ideal_line ==> eq ==> same_ideal_line) (ideal_line_mul_i (F := R)) /\
  Proper (eq ==> same_ideal_line ==> same_ideal_line) (i_mul_ideal_line (F := R)) /\
  Proper (same_branch ==> same_branch ==> same_branch) (branch_iadd (F := R)) /\
  Proper (same_branch ==> same_branch ==> same_branch) (branch_add (F := R)) /\
  Proper (same_branch ==> same_branch ==> same_branch) (branch_isub (F := R)) /\
  Proper (same_branch ==> same_branch ==> same_branch) (branch_sub (F := R)) /\
  Proper (same_branch ==> eq ==> same_branch) (branch_imul_f (F := R)) /\
  Proper (same_branch ==> eq ==> same_branch) (branch_imul_i (F := R)) /\
  Proper (same_branch ==> eq ==> same_branch) (branch_mul_f (F := R)) /\
  Proper (eq ==> same_branch ==> same_branch) (f_mul_branch (F := R)) /\
  Proper (same_branch ==> eq ==> same_branch) (branch_mul_i (F := R)) /\
  Proper (eq ==> same_branch ==> same_branch) (i_mul_branch (F := R)) /\
  Proper (same_line ==> same_line ==> same_line) (line_iadd (F := R)) /\
  Proper (same_line ==> same_line ==> same_line) (line_add (F := R)) /\
  Proper (same_line ==> same_line ==> same_line) (line_isub (F := R)) /\
  Proper (same_line ==> same_line ==> same_line) (line_sub (F := R)) /\
  Proper (same_line ==> eq ==> same_line) (line_imul_f (F := R)) /\
  Proper (same_line ==> eq ==> same_line) (line_imul_i (F := R)) /\
  Proper (same_line ==> eq ==> same_line) (line_mul_f (F := R)) /\
  Proper (eq ==> same_line ==> same_line) (f_mul_line (F := R)) /\
  Proper (same_line ==> eq ==> same_line) (line_mul_i (F := R)) /\
  Proper (eq ==> same_line ==> same_line) (i_mul_line (F := R)) /\
  Proper (same_translator ==> same_translator ==> same_translator) (translator_iadd (F := R)) /\
  Proper (same_translator ==> same_translator ==> same_translator) (translator_add (F := R)) /\
  Proper (same_translator ==> same_translator ==> same_translator) (translator_isub (F := R)) /\
  Proper (same_translator ==> same_translator ==> same_translator) (translator_sub (F := R)) /\
  Proper (same_translator ==> eq ==> same_translator) (translator_imul_f (F := R)) /\
  Proper (same_translator ==> eq ==> same_translator) (translator_imul_i (F := R)) /\
  Proper (same_translator ==> eq ==> same_translator) (translator_mul_f (F := R)) /\
  Proper (eq ==> same_translator ==> same_translator) (f_mul_translator (F := R)) /\
  Proper (same_translator ==> eq ==> same_translator) (translator_mul_i (F := R)) /\
  Proper (eq ==> same_translator ==> same_translator) (i_mul_translator (F := R)) /\
  Proper (same_direction ==> same_direction) (direction_neg (F := R)) /\
  Proper (same_ideal_line ==> same_ideal_line) (ideal_line_neg (F := R)) /\
  Proper (same_ideal_line ==> same_ideal_line) (ideal_line_rev (F := R)) /\
  Proper (same_branch ==> same_branch) (branch_neg (F := R)) /\
  Proper (same_branch ==> same_branch) (branch_rev (F := R)) /\
  Proper (same_line ==> same_line) (line_neg (F := R)) /\
  Proper (same_line ==> same_line) (line_rev (F := R)) /\
  Proper (same_direction ==> eq ==> same_direction) (direction_idiv_f (F := R)) /\
  Proper (same_direction ==> eq ==> same_direction) (direction_idiv_i (F := R)) /\
  Proper (same_direction ==> eq ==> same_direction) (direction_div_f (F := R)) /\
  Proper (same_direction ==> eq ==> same_direction) (direction_div_i (F := R)) /\
  Proper (same_ideal_line ==> eq ==> same_ideal_line) (ideal_line_idiv_f (F := R)) /\
  Proper (same_ideal_line ==> eq ==> same_ideal_line) (ideal_line_idiv_i (F := R)) /\
  Proper (same_ideal_line ==> eq ==> same_ideal_line) (ideal_line_div_f (F := R)) /\
  Proper (same_ideal_line ==> eq ==> same_ideal_line) (ideal_line_div_i (F := R)) /\
  Proper (same_branch ==> eq ==> same_branch) (branch_idiv_f (F := R)) /\
  Proper (same_branch ==> eq ==> same_branch) (branch_idiv_i (F := R)) /\
  Proper (same_branch ==> eq ==> same_branch) (branch_div_f (F := R)) /\
  Proper (same_branch ==> eq ==> same_branch) (branch_div_i (F := R)) /\
  Proper (same_line ==> eq ==> same_line) (line_idiv_f (F := R)) /\
  Proper (same_line ==> eq ==> same_line) (line_idiv_i (F := R)) /\
  Proper (same_line ==> eq ==> same_line) (line_div_f (F := R)) /\
  Proper (same_line ==> eq ==> same_line) (line_div_i (F := R)) /\
  Proper (same_translator ==> eq ==> same_translator) (translator_idiv_f (F := R)) /\
  Proper (same_translator ==> eq ==> same_translator) (translator_idiv_i (F := R)) /\
  Proper (same_translator ==> eq ==> same_translator) (translator_div_f (F := R)) /\
  Proper (same_translator ==> eq ==> same_translator) (translator_div_i (F := R)).
Proof. intros B; repeat match goal with |- _ /\ _ => split end; low. Qed.

(** Four more operations in the SSE4.1 build. *)
Theorem C69_sse41 : let B := {| sse41 := true |} in
  Proper (eq ==> same_line ==> eq) (point_dot_line (F := R) (B := B)) /\
  Proper (same_line ==> eq ==> eq) (line_dot_point (F := R) (B := B)) /\
  Proper (eq ==> same_line ==> eq) (project_point_line (F := R) (B := B)) /\
  Proper (same_translator ==> eq ==> eq) (translator_on_plane (F := R) (B := B)).
Proof. intro B; repeat match goal with |- _ /\ _ => split end; unfold B; low. Qed.

End P.

(** ** The rest read the hidden lane. *)
Definition tl (x : R) : translator R := mktranslator (mk4 x 1 2 3).
Definition br (x : R) : branch R := mkbranch (mk4 x 1 0 0).
Definition li (x y : R) : line R := mkline (mk4 x 0 0 1) (mk4 y 1 0 0).
Lemma tl_same x y : same_translator (tl x) (tl y). Proof. repeat split. Qed.
Lemma br_same x y : same_branch (br x) (br y). Proof. repeat split. Qed.
Lemma li_same x y z w : same_line (li x y) (li z w). Proof. repeat split. Qed.

Section Q.
Context (rcp rsqrt : R -> R) (sz : bool) (Hrcp : exact_rcp rcp) (Hrsq : exact_rsqrt rsqrt).
Local Instance FLq : Flo R := Flo_R rcp rsqrt sz.
Lemma rsqrt_1 : rsqrt 1 = 1.
Proof. rewrite Hrsq by lra. rewrite sqrt_1. field. Qed.
Ltac at1 :=
  repeat match goal with
  | |- context [rsqrt ?x] => lazymatch x with 1 => fail | 2 => fail | _ => idtac end; first [replace x with 1 by lra | replace x with 2 by lra]
  end; rewrite ?rsqrt_1.
(** Conversion and assignment from a translator copy the lane into e0123 of the
    motor; the products and quotients of branches, [branch::sqrt] and
    [exp(branch)] take it for a scalar part; [exp(line)] and the screw constructor
    copy or mix it; a translator applied to a line doubles its rotation part by
    it; lines that print alike compare unequal. *)
Theorem C69_refuted : forall B : Build,
  (exists a b, same_translator a b /\ motor_e0123 (motor_of_translator a) <> motor_e0123 (motor_of_translator b)) /\
  (exists m a b, same_translator a b /\
     motor_e0123 (motor_assign_translator m a) <> motor_e0123 (motor_assign_translator m b)) /\
  (exists a b c, same_branch a b /\ rotor_e23 (branch_mul_branch a c) <> rotor_e23 (branch_mul_branch b c)) /\
  (exists a b c, same_branch a b /\ rotor_e23 (branch_quo_branch a c) <> rotor_e23 (branch_quo_branch b c)) /\
  (exists a b l, same_translator a b /\ line_e03 (translator_on_line a l) <> line_e03 (translator_on_line b l)) /\
  (exists a b, same_line a b /\ line_eq a a = true /\ line_eq a b = false) /\
  (exists a b, same_line a b /\ line_approx_eq a b 1 = false) /\
  (exists a b, same_line a b /\ motor_e0123 (line_exp a) <> motor_e0123 (line_exp b)) /\
  (exists a b, same_line a b /\ motor_e0123 (motor_screw 2 1 a) <> motor_e0123 (motor_screw 2 1 b)) /\
  (exists a b, same_branch a b /\ rotor_scalar (branch_exp a) <> rotor_scalar (branch_exp b)) /\
  (exists a b, same_branch a b /\ rotor_scalar (branch_sqrt a) <> rotor_scalar (branch_sqrt b)).
Proof.
  intro B. repeat match goal with |- _ /\ _ => split end.
  - exists (tl 0), (tl 1). split; [apply tl_same|]. cbn. lra.
  - exists (mkmotor (mk4 1 0 0 0) (mk4 0 0 0 0)), (tl 0), (tl 1). split; [apply tl_same|]. cbn. lra.
  - exists (br 0), (br 1), (br 0). split; [apply br_same|]. destruct B as [[|]]; rcbv; lra.
  - exists (br 0), (br 1), (br 0). split; [apply br_same|].
    destruct B as [[|]]; rcbv; at1; lra.
  - exists (tl 0), (tl 1), (li 0 0). split; [apply tl_same|]. destruct B as [[|]]; rcbv; lra.
  - exists (li 0 0), (li 1 0). split; [apply li_same|]. split; rcbv;
      repeat (destruct (Req_EM_T _ _); try lra; try reflexivity).
  - exists (li 0 0), (li 1 0). split; [apply li_same|]. rcbv.
    repeat (destruct (Rcase_abs _); try lra). repeat (destruct (Rlt_dec _ _); try lra; try reflexivity).
  - exists (mkline (mk4 0 0 0 0) (mk4 0 1 0 0)), (mkline (mk4 0 0 0 0) (mk4 1 1 0 0)).
    split; [repeat split|]. destruct B as [[|]]; rcbv;
      repeat (destruct (Req_EM_T _ _); try lra).
  - exists (mkline (mk4 0 0 0 0) (mk4 0 1 0 0)), (mkline (mk4 0 0 0 0) (mk4 1 1 0 0)).
    split; [repeat split|]. destruct B as [[|]]; rcbv;
      repeat (destruct (Req_EM_T _ _); try lra).
  - exists (br 0), (br 1). split; [apply br_same|]. pose proof (sin_gt_0 1 ltac:(lra) ltac:(pose proof PI2_1; lra)).
    destruct B as [[|]]; rcbv; at1;
      repeat match goal with
      | |- context [sin ?x] => lazymatch x with 1 => fail | _ => replace x with 1 by field end
      | |- context [cos ?x] => lazymatch x with 1 => fail | _ => replace x with 1 by field end
      end; lra.
  - exists (br 0), (br (-1)). split; [apply br_same|].
    assert (0 < / sqrt 2) by (apply Rinv_0_lt_compat, sqrt_lt_R0; lra).
    assert (E : sqrt 2 * sqrt 2 = 2) by (apply sqrt_sqrt; lra).
    destruct B as [[|]]; rcbv; at1; rewrite Hrsq by lra; intro K;
    assert (J : / sqrt 2 * / sqrt 2 = / 2) by (rewrite <- Rinv_mult, E; lra); nra.
Qed.


(** Four more in the SSE3 build, so the builds disagree on such arguments. *)
Theorem C69_sse3_refuted : let B := {| sse41 := false |} in
  (exists p a b, same_line a b /\
     plane_d (point_dot_line (B := B) p a) <> plane_d (point_dot_line (B := B) p b)) /\
  (exists p a b, same_line a b /\
     plane_d (line_dot_point (B := B) a p) <> plane_d (line_dot_point (B := B) b p)) /\
  (exists p a b, same_line a b /\
     point_w (project_point_line (B := B) p a) = point_w (project_point_line (B := B) p b) /\
     point_z (project_point_line (B := B) p a) <> point_z (project_point_line (B := B) p b)) /\
  (exists p a b, same_translator a b /\
     plane_d (translator_on_plane (B := B) a p) <> plane_d (translator_on_plane (B := B) b p)).
Proof.
  intro B. unfold B.
  repeat match goal with |- _ /\ _ => split end.
  - exists (mkpoint (mk4 1 1 2 3)), (li 0 0), (li 1 0). split; [apply li_same|]. rcbv. lra.
  - exists (mkpoint (mk4 1 1 2 3)), (li 0 0), (li 1 0). split; [apply li_same|]. rcbv. lra.
  - exists (mkpoint (mk4 1 1 2 3)), (li 0 0), (li 1 0). split; [apply li_same|]. split; rcbv; lra.
  - exists (mkplane (mk4 1 1 2 3)), (tl 0), (tl 1). split; [apply tl_same|]. rcbv.
    rewrite !Hrcp by lra. lra.
Qed.

End Q.

Print Assumptions C69_products.
Print Assumptions C69_meet_join.
Print Assumptions C69_sandwiches.
Print Assumptions C69_unary.
Print Assumptions C69_linear.
Print Assumptions C69_sse41.
Print Assumptions C69_refuted.
Print Assumptions C69_sse3_refuted.
