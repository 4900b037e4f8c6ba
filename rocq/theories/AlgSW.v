(** C05, C06 (algebra): the call operators are the sandwich product m x ~m.
    No normalization is needed except for [motor(origin)]. *)
From Coq Require Import Reals ZArith Lra.
From Verif Require Import AlgTac.
Local Open Scope R_scope.

Lemma plane_on_plane_sw (B : Build) a b :
  mv_plane (plane_on_plane a b) == sandwich (mv_plane a) (mv_plane b).
Proof. alg. Qed.
Lemma plane_on_line_sw (B : Build) a b : wf_line b ->
  mv_line (plane_on_line a b) == sandwich (mv_plane a) (mv_line b).
Proof. alg. Qed.
Lemma plane_on_point_sw (B : Build) a b :
  mv_point (plane_on_point a b) == sandwich (mv_plane a) (mv_point b).
Proof. alg. Qed.
Lemma translator_on_line_sw (B : Build) a b : wf_translator a -> wf_line b ->
  mv_line (translator_on_line a b) == sandwich (mv_translator a) (mv_line b).
Proof. alg. Qed.
Lemma translator_on_point_sw (B : Build) a b : wf_translator a ->
  mv_point (translator_on_point a b) == sandwich (mv_translator a) (mv_point b).
Proof. alg. Qed.
Lemma rotor_on_plane_sw (B : Build) a b :
  mv_plane (rotor_on_plane a b) == sandwich (mv_rotor a) (mv_plane b).
Proof. alg. Qed.
Lemma rotor_on_branch_sw (B : Build) a b : wf_branch b ->
  mv_branch (rotor_on_branch a b) == sandwich (mv_rotor a) (mv_branch b).
Proof. alg. Qed.
Lemma rotor_on_line_sw (B : Build) a b : wf_line b ->
  mv_line (rotor_on_line a b) == sandwich (mv_rotor a) (mv_line b).
Proof. alg. Qed.
Lemma rotor_on_point_sw (B : Build) a b :
  mv_point (rotor_on_point a b) == sandwich (mv_rotor a) (mv_point b).
Proof. alg. Qed.
Lemma rotor_on_direction_sw (B : Build) a b :
  mv_direction (rotor_on_direction a b) == sandwich (mv_rotor a) (mv_direction b).
Proof. alg. Qed.
Lemma motor_on_plane_sw (B : Build) a b :
  mv_plane (motor_on_plane a b) == sandwich (mv_motor a) (mv_plane b).
Proof. alg. Qed.
Lemma motor_on_line_sw (B : Build) a b : wf_line b ->
  mv_line (motor_on_line a b) == sandwich (mv_motor a) (mv_line b).
Proof. alg. Qed.
Lemma motor_on_point_sw (B : Build) a b :
  mv_point (motor_on_point a b) == sandwich (mv_motor a) (mv_point b).
Proof. alg. Qed.
Lemma motor_on_direction_sw (B : Build) a b : wf_direction b ->
  mv_direction (motor_on_direction a b) == sandwich (mv_motor a) (mv_direction b).
Proof. alg. Qed.

(** squared length of the rotation part of a motor *)
Definition motor_norm2 (m : motor R) : R :=
  motor_scalar m * motor_scalar m + motor_e23 m * motor_e23 m
  + motor_e31 m * motor_e31 m + motor_e12 m * motor_e12 m.
Lemma motor_on_origin_sw (B : Build) a : motor_norm2 a = 1 ->
  mv_point (motor_on_origin a) == sandwich (mv_motor a) (mv_point origin).
Proof.
  opn; match goal with H : _ = _ |- _ => unfold motor_norm2, motor_scalar, motor_e23, motor_e31, motor_e12 in H;
    cbn [motor_p1 l0 l1 l2 l3] in H; revert H end; intros H k;
  destruct k as [[|] [|] [|] [|]]; mvcbv; try ring;
  ring_simplify; rewrite <- H; ring.
Qed.
