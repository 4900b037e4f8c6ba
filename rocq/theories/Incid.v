(** C36: motions commute with meet, join and inner product, up to the squared
    norm of the motor. *)
From Coq Require Import Reals ZArith Lra.
From Verif Require Import AlgTac SpecGeom Geom Motion.
Local Open Scope R_scope.

Ltac study_out S0 :=
  opn; revert S0; gcbv; intro S0;
  match type of S0 with ?a * ?e - (?b * ?f + ?c * ?g + ?d * ?h) = 0 =>
    let A := fresh "A" in
    assert (A : a * e = b * f + c * g + d * h) by lra; clear S0; revert A
  end.
Ltac incid S0 :=
  study_out S0; intros A k; destruct k as [[|] [|] [|] [|]]; mvcbv; ring [A].

Lemma motor_plane_ext_plane (B : Build) m a b : motor_study m = 0 ->
  mv_line (plane_ext_plane (motor_on_plane m a) (motor_on_plane m b))
  == mvscale (motor_n m) (mv_line (motor_on_line m (plane_ext_plane a b))).
Proof. intros S0; incid S0. Qed.
Lemma motor_plane_ext_line (B : Build) m a b : motor_study m = 0 -> wf_line b ->
  mv_point (plane_ext_line (motor_on_plane m a) (motor_on_line m b))
  == mvscale (motor_n m) (mv_point (motor_on_point m (plane_ext_line a b))).
Proof. intros S0; incid S0. Qed.
Lemma motor_line_ext_plane (B : Build) m a b : motor_study m = 0 -> wf_line a ->
  mv_point (line_ext_plane (motor_on_line m a) (motor_on_plane m b))
  == mvscale (motor_n m) (mv_point (motor_on_point m (line_ext_plane a b))).
Proof. intros S0; incid S0. Qed.
Lemma motor_plane_ext_point (B : Build) m a b : motor_study m = 0 ->
  mv_dual (plane_ext_point (motor_on_plane m a) (motor_on_point m b))
  == mvscale (motor_n m * motor_n m) (mv_dual (plane_ext_point a b)).
Proof. intros S0; incid S0. Qed.
Lemma motor_point_ext_plane (B : Build) m a b : motor_study m = 0 ->
  mv_dual (point_ext_plane (motor_on_point m a) (motor_on_plane m b))
  == mvscale (motor_n m * motor_n m) (mv_dual (point_ext_plane a b)).
Proof. intros S0; incid S0. Qed.
Lemma motor_line_ext_line (B : Build) m a b : motor_study m = 0 -> wf_line a -> wf_line b ->
  mv_dual (line_ext_line (motor_on_line m a) (motor_on_line m b))
  == mvscale (motor_n m * motor_n m) (mv_dual (line_ext_line a b)).
Proof. intros S0; incid S0. Qed.
Lemma motor_point_join_point (B : Build) m a b : motor_study m = 0 ->
  mv_line (point_join_point (motor_on_point m a) (motor_on_point m b))
  == mvscale (motor_n m) (mv_line (motor_on_line m (point_join_point a b))).
Proof. intros S0; incid S0. Qed.
Lemma motor_point_join_line (B : Build) m a b : motor_study m = 0 -> wf_line b ->
  mv_plane (point_join_line (motor_on_point m a) (motor_on_line m b))
  == mvscale (motor_n m) (mv_plane (motor_on_plane m (point_join_line a b))).
Proof. intros S0; incid S0. Qed.
Lemma motor_line_join_point (B : Build) m a b : motor_study m = 0 -> wf_line a ->
  mv_plane (line_join_point (motor_on_line m a) (motor_on_point m b))
  == mvscale (motor_n m) (mv_plane (motor_on_plane m (line_join_point a b))).
Proof. intros S0; incid S0. Qed.
Lemma motor_plane_join_point (B : Build) m a b : motor_study m = 0 ->
  mv_dual (plane_join_point (motor_on_plane m a) (motor_on_point m b))
  == mvscale (motor_n m * motor_n m) (mv_dual (plane_join_point a b)).
Proof. intros S0; incid S0. Qed.
Lemma motor_point_join_plane (B : Build) m a b : motor_study m = 0 ->
  mv_dual (point_join_plane (motor_on_point m a) (motor_on_plane m b))
  == mvscale (motor_n m * motor_n m) (mv_dual (point_join_plane a b)).
Proof. intros S0; incid S0. Qed.
Lemma motor_plane_dot_plane (B : Build) m a b : motor_study m = 0 ->
  plane_dot_plane (motor_on_plane m a) (motor_on_plane m b)
  = motor_n m * motor_n m * plane_dot_plane a b.
Proof. intros S0; study_out S0; intro A; gcbv; ring [A]. Qed.
Lemma motor_plane_dot_line (B : Build) m a b : motor_study m = 0 -> wf_line b ->
  mv_plane (plane_dot_line (motor_on_plane m a) (motor_on_line m b))
  == mvscale (motor_n m) (mv_plane (motor_on_plane m (plane_dot_line a b))).
Proof. intros S0; incid S0. Qed.
Lemma motor_line_dot_plane (B : Build) m a b : motor_study m = 0 -> wf_line a ->
  mv_plane (line_dot_plane (motor_on_line m a) (motor_on_plane m b))
  == mvscale (motor_n m) (mv_plane (motor_on_plane m (line_dot_plane a b))).
Proof. intros S0; incid S0. Qed.
Lemma motor_plane_dot_point (B : Build) m a b : motor_study m = 0 ->
  mv_line (plane_dot_point (motor_on_plane m a) (motor_on_point m b))
  == mvscale (motor_n m) (mv_line (motor_on_line m (plane_dot_point a b))).
Proof. intros S0; incid S0. Qed.
Lemma motor_point_dot_plane (B : Build) m a b : motor_study m = 0 ->
  mv_line (point_dot_plane (motor_on_point m a) (motor_on_plane m b))
  == mvscale (motor_n m) (mv_line (motor_on_line m (point_dot_plane a b))).
Proof. intros S0; incid S0. Qed.
Lemma motor_line_dot_line (B : Build) m a b : motor_study m = 0 -> wf_line a -> wf_line b ->
  line_dot_line (motor_on_line m a) (motor_on_line m b)
  = motor_n m * motor_n m * line_dot_line a b.
Proof. intros S0; study_out S0; intro A; gcbv; ring [A]. Qed.
Lemma motor_point_dot_line (B : Build) m a b : motor_study m = 0 -> wf_line b ->
  mv_plane (point_dot_line (motor_on_point m a) (motor_on_line m b))
  == mvscale (motor_n m) (mv_plane (motor_on_plane m (point_dot_line a b))).
Proof. intros S0; incid S0. Qed.
Lemma motor_line_dot_point (B : Build) m a b : motor_study m = 0 -> wf_line a ->
  mv_plane (line_dot_point (motor_on_line m a) (motor_on_point m b))
  == mvscale (motor_n m) (mv_plane (motor_on_plane m (line_dot_point a b))).
Proof. intros S0; incid S0. Qed.
Lemma motor_point_dot_point (B : Build) m a b : motor_study m = 0 ->
  point_dot_point (motor_on_point m a) (motor_on_point m b)
  = motor_n m * motor_n m * point_dot_point a b.
Proof. intros S0; study_out S0; intro A; gcbv; ring [A]. Qed.
