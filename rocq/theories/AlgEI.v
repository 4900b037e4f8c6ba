(** C02, C03, C04: [operator^] is the exterior product, [operator|] the
    symmetric inner product, [operator!] Poincare duality and [operator&] the
    regressive product. *)
From Coq Require Import Reals ZArith Lra.
From Verif Require Import AlgTac.
Local Open Scope R_scope.

(** ** Meet *)
Lemma plane_ext_plane_ext (B : Build) a b : 
  mv_line (plane_ext_plane a b) == ext (mv_plane a) (mv_plane b).
Proof. alg. Qed.
Lemma plane_ext_branch_ext (B : Build) a b : wf_branch b -> 
  mv_point (plane_ext_branch a b) == ext (mv_plane a) (mv_branch b).
Proof. alg. Qed.
Lemma branch_ext_plane_ext (B : Build) a b : wf_branch a -> 
  mv_point (branch_ext_plane a b) == ext (mv_branch a) (mv_plane b).
Proof. alg. Qed.
Lemma plane_ext_ideal_ext (B : Build) a b : wf_ideal b -> 
  mv_point (plane_ext_ideal a b) == ext (mv_plane a) (mv_ideal b).
Proof. alg. Qed.
Lemma ideal_ext_plane_ext (B : Build) a b : wf_ideal a -> 
  mv_point (ideal_ext_plane a b) == ext (mv_ideal a) (mv_plane b).
Proof. alg. Qed.
Lemma plane_ext_line_ext (B : Build) a b : wf_line b -> 
  mv_point (plane_ext_line a b) == ext (mv_plane a) (mv_line b).
Proof. alg. Qed.
Lemma line_ext_plane_ext (B : Build) a b : wf_line a -> 
  mv_point (line_ext_plane a b) == ext (mv_line a) (mv_plane b).
Proof. alg. Qed.
Lemma plane_ext_point_ext (B : Build) a b : 
  mv_dual (plane_ext_point a b) == ext (mv_plane a) (mv_point b).
Proof. alg. Qed.
Lemma point_ext_plane_ext (B : Build) a b : 
  mv_dual (point_ext_plane a b) == ext (mv_point a) (mv_plane b).
Proof. alg. Qed.
Lemma branch_ext_ideal_ext (B : Build) a b : wf_branch a -> wf_ideal b -> 
  mv_dual (branch_ext_ideal a b) == ext (mv_branch a) (mv_ideal b).
Proof. alg. Qed.
Lemma ideal_ext_branch_ext (B : Build) a b : wf_ideal a -> wf_branch b -> 
  mv_dual (ideal_ext_branch a b) == ext (mv_ideal a) (mv_branch b).
Proof. alg. Qed.
Lemma line_ext_line_ext (B : Build) a b : wf_line a -> wf_line b -> 
  mv_dual (line_ext_line a b) == ext (mv_line a) (mv_line b).
Proof. alg. Qed.
Lemma line_ext_ideal_ext (B : Build) a b : wf_line a -> wf_ideal b -> 
  mv_dual (line_ext_ideal a b) == ext (mv_line a) (mv_ideal b).
Proof. alg. Qed.
Lemma ideal_ext_line_ext (B : Build) a b : wf_ideal a -> wf_line b -> 
  mv_dual (ideal_ext_line a b) == ext (mv_ideal a) (mv_line b).
Proof. alg. Qed.
Lemma line_ext_branch_ext (B : Build) a b : wf_line a -> wf_branch b -> 
  mv_dual (line_ext_branch a b) == ext (mv_line a) (mv_branch b).
Proof. alg. Qed.
Lemma branch_ext_line_ext (B : Build) a b : wf_branch a -> wf_line b -> 
  mv_dual (branch_ext_line a b) == ext (mv_branch a) (mv_line b).
Proof. alg. Qed.

(** ** Inner product *)
Lemma plane_dot_plane_dot (B : Build) a b : 
  scalar_mv (plane_dot_plane a b) == dot (mv_plane a) (mv_plane b).
Proof. alg. Qed.
Lemma plane_dot_line_dot (B : Build) a b : wf_line b -> 
  mv_plane (plane_dot_line a b) == dot (mv_plane a) (mv_line b).
Proof. alg. Qed.
Lemma line_dot_plane_dot (B : Build) a b : wf_line a -> 
  mv_plane (line_dot_plane a b) == dot (mv_line a) (mv_plane b).
Proof. alg. Qed.
Lemma plane_dot_ideal_dot (B : Build) a b : wf_ideal b -> 
  mv_plane (plane_dot_ideal a b) == dot (mv_plane a) (mv_ideal b).
Proof. alg. Qed.
Lemma ideal_dot_plane_dot (B : Build) a b : wf_ideal a -> 
  mv_plane (ideal_dot_plane a b) == dot (mv_ideal a) (mv_plane b).
Proof. alg. Qed.
Lemma plane_dot_point_dot (B : Build) a b : 
  mv_line (plane_dot_point a b) == dot (mv_plane a) (mv_point b).
Proof. alg. Qed.
Lemma point_dot_plane_dot (B : Build) a b : 
  mv_line (point_dot_plane a b) == dot (mv_point a) (mv_plane b).
Proof. alg. Qed.
Lemma line_dot_line_dot (B : Build) a b : wf_line a -> wf_line b -> 
  scalar_mv (line_dot_line a b) == dot (mv_line a) (mv_line b).
Proof. alg. Qed.
Lemma point_dot_line_dot (B : Build) a b : wf_line b -> 
  mv_plane (point_dot_line a b) == dot (mv_point a) (mv_line b).
Proof. alg. Qed.
Lemma line_dot_point_dot (B : Build) a b : wf_line a -> 
  mv_plane (line_dot_point a b) == dot (mv_line a) (mv_point b).
Proof. alg. Qed.
Lemma point_dot_point_dot (B : Build) a b : 
  scalar_mv (point_dot_point a b) == dot (mv_point a) (mv_point b).
Proof. alg. Qed.

(** ** Duality and join *)
Lemma dual_of_plane_J x : mv_point (dual_of_plane x) == J (mv_plane x).
Proof. alg. Qed.
Lemma dual_of_point_J x : mv_plane (dual_of_point x) == J (mv_point x).
Proof. alg. Qed.
Lemma dual_of_line_J x : mv_line (dual_of_line x) == J (mv_line x).
Proof. alg. Qed.
Lemma dual_of_ideal_J x : mv_branch (dual_of_ideal x) == J (mv_ideal x).
Proof. alg. Qed.
Lemma dual_of_branch_J x : mv_ideal (dual_of_branch x) == J (mv_branch x).
Proof. alg. Qed.
Lemma dual_of_dual_J x : mv_dual (dual_of_dual x) == J (mv_dual x).
Proof. alg. Qed.
Lemma point_join_point_reg (B : Build) a b : 
  mv_line (point_join_point a b) == reg (mv_point a) (mv_point b).
Proof. alg. Qed.
Lemma point_join_line_reg (B : Build) a b : wf_line b -> 
  mv_plane (point_join_line a b) == reg (mv_point a) (mv_line b).
Proof. alg. Qed.
Lemma line_join_point_reg (B : Build) a b : wf_line a -> 
  mv_plane (line_join_point a b) == reg (mv_line a) (mv_point b).
Proof. alg. Qed.
Lemma point_join_branch_reg (B : Build) a b : wf_branch b -> 
  mv_plane (point_join_branch a b) == reg (mv_point a) (mv_branch b).
Proof. alg. Qed.
Lemma branch_join_point_reg (B : Build) a b : wf_branch a -> 
  mv_plane (branch_join_point a b) == reg (mv_branch a) (mv_point b).
Proof. alg. Qed.
Lemma point_join_ideal_reg (B : Build) a b : wf_ideal b -> 
  mv_plane (point_join_ideal a b) == reg (mv_point a) (mv_ideal b).
Proof. alg. Qed.
Lemma ideal_join_point_reg (B : Build) a b : wf_ideal a -> 
  mv_plane (ideal_join_point a b) == reg (mv_ideal a) (mv_point b).
Proof. alg. Qed.
Lemma plane_join_point_reg (B : Build) a b : 
  mv_dual (plane_join_point a b) == reg (mv_plane a) (mv_point b).
Proof. alg. Qed.
Lemma point_join_plane_reg (B : Build) a b : 
  mv_dual (point_join_plane a b) == reg (mv_point a) (mv_plane b).
Proof. alg. Qed.
