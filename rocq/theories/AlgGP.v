(** C01: every [operator*] is the geometric product. *)
From Coq Require Import Reals ZArith Lra.
From Verif Require Import AlgTac.
Local Open Scope R_scope.


Lemma plane_mul_plane_gp (B : Build) a b :
  mv_motor (plane_mul_plane a b) == gp (mv_plane a) (mv_plane b).
Proof. alg. Qed.
Lemma plane_mul_point_gp (B : Build) a b :
  mv_motor (plane_mul_point a b) == gp (mv_plane a) (mv_point b).
Proof. alg. Qed.
Lemma point_mul_plane_gp (B : Build) a b :
  mv_motor (point_mul_plane a b) == gp (mv_point a) (mv_plane b).
Proof. alg. Qed.
Lemma branch_mul_branch_gp (B : Build) a b :
  mv_rotor (branch_mul_branch a b) == gp (mv_branch a) (mv_branch b).
Proof. alg. Qed.
(** [line * line] stores its e12 and e23 coefficients in each other's lane:
    with the two exchanged it is the geometric product ... *)
Definition swap_e12_e23 (m : motor R) : motor R :=
  let p := motor_p1 m in mkmotor (mk4 (l0 p) (l3 p) (l2 p) (l1 p)) (motor_p2 m).
Lemma line_mul_line_swapped (B : Build) a b : wf_line a -> wf_line b ->
  mv_motor (swap_e12_e23 (line_mul_line a b)) == gp (mv_line a) (mv_line b).
Proof. alg. Qed.
(** ... so it is the geometric product exactly when these agree. *)
Lemma line_mul_line_iff (B : Build) a b : wf_line a -> wf_line b ->
  (mv_motor (line_mul_line a b) == gp (mv_line a) (mv_line b) <->
   line_e31 a * line_e23 b - line_e23 a * line_e31 b
   = line_e12 a * line_e31 b - line_e31 a * line_e12 b).
Proof.
  intros Wa Wb. split.
  - intro H. generalize (H (Bl false true true false)). clear H. revert Wa Wb.
    opn; match goal with H : _ = _ |- _ => revert H end; mvcbv; intro; lra.
  - intro H. intro k. rewrite <- (line_mul_line_swapped B a b Wa Wb k). revert H.
    opn; match goal with H : _ = _ |- _ => revert H end; destruct k as [[|] [|] [|] [|]]; mvcbv; intro H; lra.
Qed.
Lemma rotor_mul_rotor_gp (B : Build) a b :
  mv_rotor (rotor_mul_rotor a b) == gp (mv_rotor a) (mv_rotor b).
Proof. alg. Qed.
Lemma dual_mul_line_gp (B : Build) a b : wf_line b ->
  mv_line (dual_mul_line a b) == gp (mv_dual a) (mv_line b).
Proof. alg. Qed.
Lemma line_mul_dual_gp (B : Build) a b : wf_line a ->
  mv_line (line_mul_dual a b) == gp (mv_line a) (mv_dual b).
Proof. alg. Qed.
Lemma rotor_mul_translator_gp (B : Build) a b : wf_translator b ->
  mv_motor (rotor_mul_translator a b) == gp (mv_rotor a) (mv_translator b).
Proof. alg. Qed.
Lemma translator_mul_rotor_gp (B : Build) a b : wf_translator a ->
  mv_motor (translator_mul_rotor a b) == gp (mv_translator a) (mv_rotor b).
Proof. alg. Qed.
Lemma translator_mul_translator_gp (B : Build) a b : 
  mv_translator (translator_mul_translator a b) == gp (mv_translator a) (mv_translator b).
Proof. alg. Qed.
Lemma rotor_mul_motor_gp (B : Build) a b :
  mv_motor (rotor_mul_motor a b) == gp (mv_rotor a) (mv_motor b).
Proof. alg. Qed.
Lemma motor_mul_rotor_gp (B : Build) a b :
  mv_motor (motor_mul_rotor a b) == gp (mv_motor a) (mv_rotor b).
Proof. alg. Qed.
Lemma translator_mul_motor_gp (B : Build) a b : wf_translator a ->
  mv_motor (translator_mul_motor a b) == gp (mv_translator a) (mv_motor b).
Proof. alg. Qed.
Lemma motor_mul_translator_gp (B : Build) a b : wf_translator b ->
  mv_motor (motor_mul_translator a b) == gp (mv_motor a) (mv_translator b).
Proof. alg. Qed.
Lemma motor_mul_motor_gp (B : Build) a b :
  mv_motor (motor_mul_motor a b) == gp (mv_motor a) (mv_motor b).
Proof. alg. Qed.
