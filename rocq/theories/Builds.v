(** The two instruction-set builds compared, exact real arithmetic, any
    reciprocal estimates. *)
From Coq Require Import Reals ZArith Lra.
From Verif Require Import AlgTac FloR KernelGP KernelEI KernelSW KernelMat KernelExpLog.
Local Open Scope R_scope.

(** the value does not depend on the build *)
Definition agree {X} (f : Build -> X) : Prop := forall b1 b2, f b1 = f b2.

Ltac lanes := repeat match goal with
  | |- @eq R _ _ => ring
  | |- _ = _ => f_equal
  end.
Ltac agr := let b1 := fresh "b" in let b2 := fresh "b" in
  intros; intros b1 b2; repeat open1; open_wf;
  (reflexivity || (cbv -[Rplus Rmult Ropp Rminus IZR]; lanes)).

Lemma hi_dp_b (b1 b2 : Build) (v w : m128 R) : @hi_dp R _ b1 v w = @hi_dp R _ b2 v w.
Proof. revert b1 b2. change (agree (fun B => hi_dp v w)). agr. Qed.
Lemma hi_dp_bc_b (b1 b2 : Build) (v w : m128 R) : @hi_dp_bc R _ b1 v w = @hi_dp_bc R _ b2 v w.
Proof. revert b1 b2. change (agree (fun B => hi_dp_bc v w)). agr. Qed.
Lemma dp_b (b1 b2 : Build) (v w : m128 R) : @dp R _ b1 v w = @dp R _ b2 v w.
Proof. revert b1 b2. change (agree (fun B => dp v w)). agr. Qed.
Lemma dp_bc_b (b1 b2 : Build) (v w : m128 R) : @dp_bc R _ b1 v w = @dp_bc R _ b2 v w.
Proof. revert b1 b2. change (agree (fun B => dp_bc v w)). agr. Qed.

(** ** Products, joins, inner products, projections, sandwiches, matrices *)
Lemma b_plane_mul_point (p : plane R) (q : point R) : agree (fun B => plane_mul_point p q).
Proof. agr. Qed.
Lemma b_point_mul_plane (p : plane R) (q : point R) : agree (fun B => point_mul_plane q p).
Proof. agr. Qed.
Lemma b_plane_ext_branch (p : plane R) (q : branch R) : agree (fun B => plane_ext_branch p q).
Proof. agr. Qed.
Lemma b_branch_ext_plane (p : plane R) (q : branch R) : agree (fun B => branch_ext_plane q p).
Proof. agr. Qed.
Lemma b_plane_ext_line (p : plane R) (q : line R) : agree (fun B => plane_ext_line p q).
Proof. agr. Qed.
Lemma b_line_ext_plane (p : plane R) (q : line R) : agree (fun B => line_ext_plane q p).
Proof. agr. Qed.
Lemma b_plane_ext_point (p : plane R) (q : point R) : agree (fun B => plane_ext_point p q).
Proof. agr. Qed.
Lemma b_point_ext_plane (p : plane R) (q : point R) : agree (fun B => point_ext_plane q p).
Proof. agr. Qed.
Lemma b_point_join_line (p : point R) (q : line R) : agree (fun B => point_join_line p q).
Proof. agr. Qed.
Lemma b_line_join_point (p : point R) (q : line R) : agree (fun B => line_join_point q p).
Proof. agr. Qed.
Lemma b_point_join_ideal (p : point R) (q : ideal_line R) : agree (fun B => point_join_ideal p q).
Proof. agr. Qed.
Lemma b_ideal_join_point (p : point R) (q : ideal_line R) : agree (fun B => ideal_join_point q p).
Proof. agr. Qed.
Lemma b_plane_join_point (p : plane R) (q : point R) : agree (fun B => plane_join_point p q).
Proof. agr. Qed.
Lemma b_point_join_plane (p : plane R) (q : point R) : agree (fun B => point_join_plane q p).
Proof. agr. Qed.
Lemma b_plane_dot_plane (p q : plane R) : agree (fun B => plane_dot_plane p q).
Proof. agr. Qed.
Lemma b_plane_dot_ideal (p : plane R) (q : ideal_line R) : agree (fun B => plane_dot_ideal p q).
Proof. agr. Qed.
Lemma b_ideal_dot_plane (p : plane R) (q : ideal_line R) : agree (fun B => ideal_dot_plane q p).
Proof. agr. Qed.
Lemma b_plane_dot_point (p : plane R) (q : point R) : agree (fun B => plane_dot_point p q).
Proof. agr. Qed.
Lemma b_point_dot_plane (p : plane R) (q : point R) : agree (fun B => point_dot_plane q p).
Proof. agr. Qed.
Lemma b_point_dot_line (p : point R) (q : line R) : wf_line q -> agree (fun B => point_dot_line p q).
Proof. agr. Qed.
Lemma b_line_dot_point (p : point R) (q : line R) : wf_line q -> agree (fun B => line_dot_point q p).
Proof. agr. Qed.
Lemma b_project_point_line (p : point R) (q : line R) : wf_line q -> agree (fun B => project_point_line p q).
Proof.
  intros W b1 b2. unfold project_point_line. rewrite (b_point_dot_line p q W b1 b2). apply b_plane_ext_line.
Qed.
Lemma b_project_point_plane (p : plane R) (q : point R) : agree (fun B => project_point_plane q p).
Proof.
  intros b1 b2. unfold project_point_plane. rewrite (b_point_dot_plane p q b1 b2). apply b_line_ext_plane.
Qed.
Lemma b_motor_on_plane (m : motor R) (p : plane R) : agree (fun B => motor_on_plane m p).
Proof.
  intros b1 b2. unfold motor_on_plane, sw012_motor. destruct (sw012_rot (motor_p1 m)) as [[t1 t2] t3].
  cbv zeta. now rewrite (hi_dp_b b1 b2).
Qed.
Lemma b_motor_as_mat3x4 (m : motor R) : agree (fun B => motor_as_mat3x4 m).
Proof. agr. Qed.
Lemma b_motor_as_mat4x4 (m : motor R) : agree (fun B => motor_as_mat4x4 m).
Proof. agr. Qed.
Lemma b_ideal_squared_norm (x : ideal_line R) : agree (fun B => ideal_line_squared_norm x).
Proof. agr. Qed.
Lemma b_branch_squared_norm (x : branch R) : agree (fun B => branch_squared_norm x).
Proof. agr. Qed.
Lemma b_line_squared_norm (x : line R) : agree (fun B => line_squared_norm x).
Proof. agr. Qed.

Section FB.
Context (rcp rsqrt : R -> R) (sz : bool).
Local Instance FLb : Flo R := Flo_R rcp rsqrt sz.

Lemma b_exp_kernel (v w : m128 R) : agree (fun B => exp_kernel v w).
Proof.
  intros b1 b2. unfold exp_kernel. now rewrite !(hi_dp_bc_b b1 b2).
Qed.
Lemma b_log_kernel (v w : m128 R) : agree (fun B => log_kernel v w).
Proof.
  intros b1 b2. unfold log_kernel. now rewrite !(hi_dp_bc_b b1 b2).
Qed.
Lemma b_rotor_normalized (x : rotor R) : agree (fun B => rotor_normalized x).
Proof. intros b1 b2. unfold rotor_normalized. now rewrite !(dp_bc_b b1 b2). Qed.
Lemma b_rotor_inverse (x : rotor R) : agree (fun B => rotor_inverse x).
Proof. intros b1 b2. unfold rotor_inverse. now rewrite !(hi_dp_bc_b b1 b2). Qed.
Lemma b_motor_normalized (x : motor R) : agree (fun B => motor_normalized x).
Proof. intros b1 b2. unfold motor_normalized. now rewrite !(dp_bc_b b1 b2). Qed.
Lemma b_motor_inverse (x : motor R) : agree (fun B => motor_inverse x).
Proof. intros b1 b2. unfold motor_inverse. now rewrite !(dp_bc_b b1 b2). Qed.
Lemma b_line_normalized (x : line R) : agree (fun B => line_normalized x).
Proof. intros b1 b2. unfold line_normalized. now rewrite !(hi_dp_bc_b b1 b2). Qed.
Lemma b_line_inverse (x : line R) : agree (fun B => line_inverse x).
Proof. intros b1 b2. unfold line_inverse. now rewrite !(hi_dp_bc_b b1 b2). Qed.
Lemma b_branch_normalized (x : branch R) : agree (fun B => branch_normalized x).
Proof. intros b1 b2. unfold branch_normalized. now rewrite !(hi_dp_bc_b b1 b2). Qed.
Lemma b_branch_inverse (x : branch R) : agree (fun B => branch_inverse x).
Proof. intros b1 b2. unfold branch_inverse. now rewrite !(hi_dp_bc_b b1 b2). Qed.
Lemma b_direction_normalized (x : direction R) : agree (fun B => direction_normalized x).
Proof. intros b1 b2. unfold direction_normalized. now rewrite !(hi_dp_bc_b b1 b2). Qed.
Lemma b_plane_inverse (x : plane R) : agree (fun B => plane_inverse x).
Proof. intros b1 b2. unfold plane_inverse. now rewrite !(hi_dp_bc_b b1 b2). Qed.
Lemma b_plane_norm (x : plane R) : agree (fun B => plane_norm x).
Proof. intros b1 b2. unfold plane_norm. now rewrite !(hi_dp_b b1 b2). Qed.
Lemma b_ideal_norm (x : ideal_line R) : agree (fun B => ideal_line_norm x).
Proof. intros b1 b2. unfold ideal_line_norm. f_equal. apply b_ideal_squared_norm. Qed.
Lemma b_branch_norm (x : branch R) : agree (fun B => branch_norm x).
Proof. intros b1 b2. unfold branch_norm. f_equal. apply b_branch_squared_norm. Qed.
Lemma b_line_norm (x : line R) : agree (fun B => line_norm x).
Proof. intros b1 b2. unfold line_norm. f_equal. apply b_line_squared_norm. Qed.
Lemma b_line_exp (x : line R) : agree (fun B => line_exp x).
Proof. intros b1 b2. unfold line_exp. now rewrite (b_exp_kernel _ _ b1 b2). Qed.
Lemma b_motor_log (x : motor R) : agree (fun B => motor_log x).
Proof. intros b1 b2. unfold motor_log. now rewrite (b_log_kernel _ _ b1 b2). Qed.
Lemma b_branch_exp (x : branch R) : agree (fun B => branch_exp x).
Proof. intros b1 b2. unfold branch_exp. now rewrite !(hi_dp_b b1 b2). Qed.
Lemma b_rotor_log (x : rotor R) : agree (fun B => rotor_log x).
Proof. intros [[|]] [[|]]; reflexivity. Qed.
Lemma b_point_mul_point (x y : point R) : agree (fun B => point_mul_point x y).
Proof. intros [[|]] [[|]]; reflexivity. Qed.
Lemma b_motor_screw a d (x : line R) : agree (fun B => motor_screw a d x).
Proof. intros b1 b2. unfold motor_screw. destruct (gpDL _ _ _ _). now rewrite (b_exp_kernel _ _ b1 b2). Qed.
Lemma b_translator_on_plane (t : translator R) (p : plane R) : wf_translator t -> agree (fun B => translator_on_plane t p).
Proof.
  intros W b1 b2. unfold translator_on_plane, sw02. rewrite !(hi_dp_b b1 b2).
  set (k := @hi_dp R _ b2).
  assert (E : forall B : Build, (if @sse41 B then _mm_blend_ps (translator_p2 t) (_mm_set_ss (fz 1)) 1
             else _mm_add_ps (translator_p2 t) (_mm_set_ss (fz 1))) =
          mk4 1 (l1 (translator_p2 t)) (l2 (translator_p2 t)) (l3 (translator_p2 t))).
  { destruct t as [[t0 t1 t2 t3]]. unfold wf_translator in W. cbn in W. subst t0.
    intros [[|]]; cbv -[Rplus Rmult Ropp Rminus IZR]; lanes. }
  now rewrite !E.
Qed.
(** plane::normalize: the SSE3 build also rescales e0 *)
Lemma plane_normalized_differs (p : plane R) : exists k : R,
  l0 (plane_p0 (plane_normalized (B := SSE41) p)) = l0 (plane_p0 p) /\
  l0 (plane_p0 (plane_normalized (B := SSE3) p)) = (k + 1) * l0 (plane_p0 p) /\
  l1 (plane_p0 (plane_normalized (B := SSE3) p)) = k * l1 (plane_p0 p) /\
  l2 (plane_p0 (plane_normalized (B := SSE3) p)) = k * l2 (plane_p0 p) /\
  l3 (plane_p0 (plane_normalized (B := SSE3) p)) = k * l3 (plane_p0 p) /\
  l1 (plane_p0 (plane_normalized (B := SSE41) p)) = k * l1 (plane_p0 p) /\
  l2 (plane_p0 (plane_normalized (B := SSE41) p)) = k * l2 (plane_p0 p) /\
  l3 (plane_p0 (plane_normalized (B := SSE41) p)) = k * l3 (plane_p0 p).
Proof.
  exists (l1 (rsqrt_nr1 (hi_dp_bc (B := SSE3) (plane_p0 p) (plane_p0 p)))).
  unfold plane_normalized. rewrite (hi_dp_bc_b SSE41 SSE3).
  set (h := hi_dp_bc _ _).
  assert (E : exists x : R, h = mk4 x x x x) by (unfold h; unfold hi_dp_bc, KLN_SWIZZLE; cbn [sse41 SSE3]; eexists; reflexivity).
  destruct E as [x E]. rewrite E. clearbody h. clear E.
  destruct p as [[p0 p1 p2 p3]].
  set (r := rsqrt_nr1 _).
  assert (E : exists y : R, r = mk4 y y y y) by (eexists; reflexivity).
  destruct E as [y E]. rewrite E.
  cbv -[Rplus Rmult Ropp Rminus IZR]. repeat split; ring.
Qed.
Lemma b_plane_normalized (p : plane R) : l0 (plane_p0 p) = 0 -> agree (fun B => plane_normalized p).
Proof.
  intros Z. assert (H : plane_normalized (B := SSE41) p = plane_normalized (B := SSE3) p).
  { destruct (plane_normalized_differs p) as (k & H0 & H1 & H2 & H3 & H4 & H5 & H6 & H7).
    revert H0 H1 H2 H3 H4 H5 H6 H7.
    destruct (plane_normalized (B := SSE41) p) as [[a0 a1 a2 a3]].
    destruct (plane_normalized (B := SSE3) p) as [[b0 b1 b2 b3]].
    cbn [plane_p0 l0 l1 l2 l3]. rewrite Z. intros. f_equal. f_equal; lra. }
  intros [[|]] [[|]]; (reflexivity || exact H || exact (eq_sym H)).
Qed.
End FB.
