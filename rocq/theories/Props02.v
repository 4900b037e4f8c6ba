(** Properties C14-C18: inverses, normalization, reversal, square roots.
    Exact real arithmetic; [rcp] and [rsqrt] are ideal hardware estimates
    (Props11.v bounds the effect of real ones).  [dot3] is the sum of the
    squares of lanes 1-3, [dot4] of all lanes. *)
From Coq Require Import Reals ZArith Lra.
From Verif Require Import AlgTac SpecGeom AlgGP AlgSW FloR Closed AlgInv AlgNorm.
Local Open Scope R_scope.

Section P.
Context (rcp rsqrt : R -> R) (sz : bool) (Hrcp : exact_rcp rcp) (Hrsq : exact_rsqrt rsqrt).
Local Instance FLp : Flo R := Flo_R rcp rsqrt sz.

(** ** C14.  Full statement: x * x.inverse() = 1 and (a/b)*b = a for every
    type.  It fails for points (sign), rotors, and the quotients built on
    them and on line*line; these are refuted below. *)
Theorem C14_inverse_partial : forall B : Build,
  (forall p, 0 < dot3 (plane_p0 p) (plane_p0 p) ->
     gp (mv_plane p) (mv_plane (plane_inverse p)) == one) /\
  (forall b, wf_branch b -> 0 < dot3 (branch_p1 b) (branch_p1 b) ->
     gp (mv_branch b) (mv_branch (branch_inverse b)) == one) /\
  (forall l, wf_line l -> 0 < dot3 (line_p1 l) (line_p1 l) ->
     gp (mv_line l) (mv_line (line_inverse l)) == one) /\
  (forall t, wf_translator t ->
     gp (mv_translator t) (mv_translator (translator_inverse t)) == one) /\
  (forall m, 0 < dot4 (motor_p1 m) (motor_p1 m) ->
     gp (mv_motor m) (mv_motor (motor_inverse m)) == one).
Proof.
  intro B. repeat match goal with |- _ /\ _ => split end.
  - exact (plane_inverse_gp rcp rsqrt sz Hrsq B).
  - exact (branch_inverse_gp rcp rsqrt sz Hrsq B).
  - exact (line_inverse_gp rcp rsqrt sz Hrcp Hrsq B).
  - exact translator_inverse_gp.
  - exact (motor_inverse_gp rcp rsqrt sz Hrcp Hrsq B).
Qed.
Theorem C14_quotient_partial : forall B : Build,
  (forall a b, 0 < dot3 (plane_p0 b) (plane_p0 b) ->
     gp (mv_motor (plane_quo_plane a b)) (mv_plane b) == mv_plane a) /\
  (forall a b, wf_branch b -> 0 < dot3 (branch_p1 b) (branch_p1 b) ->
     gp (mv_rotor (branch_quo_branch a b)) (mv_branch b) == mv_branch a) /\
  (forall a b, wf_translator b ->
     gp (mv_translator (translator_quo_translator a b)) (mv_translator b) == mv_translator a) /\
  (forall a b, wf_translator b ->
     gp (mv_motor (motor_quo_translator a b)) (mv_translator b) == mv_motor a) /\
  (forall a b, 0 < dot4 (motor_p1 b) (motor_p1 b) ->
     gp (mv_motor (motor_quo_motor a b)) (mv_motor b) == mv_motor a).
Proof.
  intro B. repeat match goal with |- _ /\ _ => split end.
  - exact (plane_quo_gp rcp rsqrt sz Hrsq B).
  - exact (branch_quo_gp rcp rsqrt sz Hrsq B).
  - exact (translator_quo_gp rcp rsqrt sz B).
  - exact (motor_quo_translator_gp rcp rsqrt sz B).
  - exact (motor_quo_motor_gp rcp rsqrt sz Hrcp Hrsq B).
Qed.
(** the product of a rotor with its inverse is 1 + s^2/(|r|^2 - s^2), which is
    1 only for half-turns (s = 0) *)
Theorem C14_rotor_inverse_exact : forall (B : Build) r, 0 < dot3 (rotor_p1 r) (rotor_p1 r) ->
  gp (mv_rotor r) (mv_rotor (rotor_inverse r))
  == scalar_mv (1 + rotor_scalar r * rotor_scalar r / dot3 (rotor_p1 r) (rotor_p1 r)).
Proof. exact (rotor_inverse_gp rcp rsqrt sz Hrsq). Qed.
Theorem C14_rotor_inverse_refuted : forall B : Build, exists r,
  dot4 (rotor_p1 r) (rotor_p1 r) = 1 /\
  ~ (gp (mv_rotor r) (mv_rotor (rotor_inverse r)) == one).
Proof.
  intro B. exists (mkrotor (mk4 (3/5) (4/5) 0 0)).
  split; [unfold dot4; cbn; lra|]. intro H.
  assert (P : 0 < dot3 (rotor_p1 (mkrotor (mk4 (3/5) (4/5) 0 0))) (rotor_p1 (mkrotor (mk4 (3/5) (4/5) 0 0))))
    by (unfold dot3; cbn; lra).
  assert (Q := C14_rotor_inverse_exact B _ P (Bl false false false false)).
  rewrite (H (Bl false false false false)) in Q. revert Q. clear.
  cbv -[Rplus Rmult Rdiv Rinv IZR]. lra.
Qed.
(** rotor / rotor inherits it: (r / r) is not the identity *)
Theorem C14_rotor_quotient_refuted : forall B : Build, exists a b,
  dot4 (rotor_p1 b) (rotor_p1 b) = 1 /\
  ~ (gp (mv_rotor (rotor_quo_rotor a b)) (mv_rotor b) == mv_rotor a).
Proof.
  intro B. pose (r := mkrotor (mk4 (3/5) (4/5) 0 0) : rotor R).
  exists (mkrotor (mk4 1 0 0 0)), r. split; [unfold r, dot4; cbn; lra|]. intro H.
  assert (P : 0 < dot3 (rotor_p1 r) (rotor_p1 r)) by (unfold r, dot3; cbn; lra).
  assert (E : rotor_inverse r = mkrotor (mk4 (15/16) (-5/4) 0 0)).
  { unfold FLp. rewrite rotor_inverse_R by assumption. unfold r. f_equal.
    lanes; unfold dot3; cbn; lra. }
  generalize (H (Bl false false false false)). unfold rotor_quo_rotor. rewrite E. clear. unfold r.
  mvcbv. lra.
Qed.
(** the point inverse has the wrong sign *)
Theorem C14_point_inverse_exact : forall (B : Build) p, point_w p <> 0 ->
  gp (mv_point p) (mv_point (point_inverse p)) == mvopp one.
Proof. exact (point_inverse_gp rcp rsqrt sz Hrcp). Qed.
Theorem C14_point_inverse_refuted : forall B : Build, exists p,
  point_w p = 1 /\ ~ (gp (mv_point p) (mv_point (point_inverse p)) == one).
Proof.
  intro B. exists (point_ctor 1 2 3). split; [reflexivity|]. intro H.
  assert (P : point_w (point_ctor 1 2 3) <> 0) by (unfold point_w; cbn; lra).
  generalize (C14_point_inverse_exact B _ P (Bl false false false false)).
  rewrite (H (Bl false false false false)). mvcbv. lra.
Qed.
(** line / line: wrong because line*line is *)
Theorem C14_line_quotient_refuted : forall B : Build, exists a b,
  wf_line a /\ wf_line b /\ dot3 (line_p1 b) (line_p1 b) = 1 /\
  ~ (gp (mv_motor (line_quo_line a b)) (mv_line b) == mv_line a).
Proof.
  intro B. pose (b := line_ctor 0 0 0 0 1 0 : line R). exists (line_ctor 0 0 0 1 0 0), b.
  repeat split; [unfold b, dot3; cbn; lra|]. intro H.
  assert (P : 0 < dot3 (line_p1 b) (line_p1 b)) by (unfold b, dot3; cbn; lra).
  assert (E : line_inverse b = mkline (mk4 0 0 (-1) 0) (mk4 0 0 0 0)).
  { unfold FLp. rewrite line_inverse_R by assumption. unfold b. cbv zeta. f_equal;
    lanes; unfold dot3; cbn; lra. }
  generalize (H (Bl false false true true)). unfold line_quo_line. rewrite E. clear. unfold b.
  mvcbv. lra.
Qed.
Example C14_ex :
  0 < dot3 (plane_p0 (plane_ctor 1 2 3 4)) (plane_p0 (plane_ctor 1 2 3 4)) /\
  wf_line (line_ctor 1 2 3 4 5 6) /\
  0 < dot3 (line_p1 (line_ctor 1 2 3 4 5 6)) (line_p1 (line_ctor 1 2 3 4 5 6)) /\
  0 < dot4 (motor_p1 (motor_ctor 1 2 3 4 5 6 7 8)) (motor_p1 (motor_ctor 1 2 3 4 5 6 7 8)).
Proof. repeat split; unfold dot3, dot4; cbn; lra. Qed.

(** ** C15 *)
Theorem C15_normalize_unit : forall B : Build,
  (forall p, 0 < dot3 (plane_p0 p) (plane_p0 p) ->
     dot (mv_plane (plane_normalized p)) (mv_plane (plane_normalized p)) == one) /\
  (forall p, point_w p <> 0 -> point_w (point_normalized p) = 1) /\
  (forall d, 0 < dot3 (direction_p3 d) (direction_p3 d) ->
     dot3 (direction_p3 (direction_normalized d)) (direction_p3 (direction_normalized d)) = 1) /\
  (forall b, wf_branch b -> 0 < dot3 (branch_p1 b) (branch_p1 b) ->
     gp (mv_branch (branch_normalized b)) (rev (mv_branch (branch_normalized b))) == one) /\
  (forall l, wf_line l -> 0 < dot3 (line_p1 l) (line_p1 l) ->
     gp (mv_line (line_normalized l)) (rev (mv_line (line_normalized l))) == one) /\
  (forall r, 0 < dot4 (rotor_p1 r) (rotor_p1 r) ->
     gp (mv_rotor (rotor_normalized r)) (rev (mv_rotor (rotor_normalized r))) == one) /\
  (forall m, 0 < dot4 (motor_p1 m) (motor_p1 m) ->
     gp (mv_motor (motor_normalized m)) (rev (mv_motor (motor_normalized m))) == one).
Proof.
  intro B. repeat match goal with |- _ /\ _ => split end.
  - exact (plane_normalized_unit rcp rsqrt sz Hrsq B).
  - exact (point_normalized_w rcp rsqrt sz Hrcp B).
  - exact (direction_normalized_unit rcp rsqrt sz Hrsq B).
  - exact (branch_normalized_unit rcp rsqrt sz Hrsq B).
  - exact (line_normalized_unit rcp rsqrt sz Hrcp Hrsq B).
  - exact (rotor_normalized_unit rcp rsqrt sz Hrsq B).
  - exact (motor_normalized_unit rcp rsqrt sz Hrcp Hrsq B).
Qed.
Lemma plane_dot_dot3 p : dot (mv_plane p) (mv_plane p) == one -> dot3 (plane_p0 p) (plane_p0 p) = 1.
Proof.
  intro H. generalize (H (Bl false false false false)). clear H. destruct p as [[c c0 c1 c2]].
  mvcbv. lra.
Qed.
(** Full statement: normalizing twice is normalizing once.  Missing: planes
    in the SSE3 build, refuted below. *)
Theorem C15_normalize_idempotent_partial : forall B : Build,
  (forall p, point_w p <> 0 -> point_normalized (point_normalized p) = point_normalized p) /\
  (forall d, 0 < dot3 (direction_p3 d) (direction_p3 d) ->
     direction_normalized (direction_normalized d) = direction_normalized d) /\
  (forall b, wf_branch b -> 0 < dot3 (branch_p1 b) (branch_p1 b) ->
     branch_normalized (branch_normalized b) = branch_normalized b) /\
  (forall l, wf_line l -> 0 < dot3 (line_p1 l) (line_p1 l) ->
     line_normalized (line_normalized l) = line_normalized l) /\
  (forall r, 0 < dot4 (rotor_p1 r) (rotor_p1 r) ->
     rotor_normalized (rotor_normalized r) = rotor_normalized r) /\
  (forall m, 0 < dot4 (motor_p1 m) (motor_p1 m) ->
     motor_normalized (motor_normalized m) = motor_normalized m) /\
  (sse41 = true -> forall p, 0 < dot3 (plane_p0 p) (plane_p0 p) ->
     plane_normalized (plane_normalized p) = plane_normalized p).
Proof.
  intro B. repeat match goal with |- _ /\ _ => split end.
  - exact (point_normalized_idem rcp rsqrt sz Hrcp B).
  - exact (direction_normalized_idem rcp rsqrt sz Hrsq B).
  - exact (branch_normalized_idem rcp rsqrt sz Hrsq B).
  - exact (line_normalized_idem rcp rsqrt sz Hrcp Hrsq B).
  - exact (rotor_normalized_idem rcp rsqrt sz Hrsq B).
  - exact (motor_normalized_idem rcp rsqrt sz Hrcp Hrsq B).
  - intros S p H.
    unfold FLp in *. rewrite (plane_normalized_unitR rcp rsqrt sz Hrsq B (plane_normalized p)).
    + rewrite S. destruct (plane_normalized p) as [[? ? ? ?]]. reflexivity.
    + exact (plane_dot_dot3 _ (plane_normalized_unit rcp rsqrt sz Hrsq B p H)).
Qed.
Theorem C15_plane_normalize_idempotent_refuted : exists p,
  dot3 (plane_p0 p) (plane_p0 p) = 1 /\
  @plane_normalized R FLp SSE3 (@plane_normalized R FLp SSE3 p) <> @plane_normalized R FLp SSE3 p.
Proof.
  exists (plane_ctor 1 0 0 1). split; [unfold dot3; cbn; lra|].
  pose (q := mkplane (mk4 2 1 0 0) : plane R).
  assert (E : @plane_normalized R FLp SSE3 (plane_ctor 1 0 0 1) = q).
  { etransitivity; [apply (plane_normalized_unitR rcp rsqrt sz Hrsq SSE3); unfold dot3; cbn; lra|].
    unfold q. f_equal. apply m128_ext; cbn; lra. }
  assert (E' : @plane_normalized R FLp SSE3 q = mkplane (mk4 4 1 0 0)).
  { etransitivity; [apply (plane_normalized_unitR rcp rsqrt sz Hrsq SSE3); unfold dot3; cbn; lra|].
    apply (f_equal mkplane). apply m128_ext; cbn; lra. }
  rewrite E, E'. unfold q.
  intro H. apply (f_equal plane_d) in H. revert H. unfold plane_d. cbn. lra.
Qed.

(** ** C16.  Full statement: normalization does not change the object.
    Missing: planes, refuted below. *)
Theorem C16_normalize_same_object_partial : forall B : Build,
  (** the same homogeneous element, up to a non-zero factor *)
  (forall p, point_w p <> 0 ->
     mv_point (point_normalized p) == mvscale (/ point_w p) (mv_point p)) /\
  (forall b, 0 < dot3 (branch_p1 b) (branch_p1 b) ->
     mv_branch (branch_normalized b) == mvscale (/ sqrt (dot3 (branch_p1 b) (branch_p1 b))) (mv_branch b)) /\
  (forall r, 0 < dot4 (rotor_p1 r) (rotor_p1 r) ->
     mv_rotor (rotor_normalized r) == mvscale (/ sqrt (dot4 (rotor_p1 r) (rotor_p1 r))) (mv_rotor r)) /\
  (** lines that are lines (direction orthogonal to moment) *)
  (forall l, 0 < dot3 (line_p1 l) (line_p1 l) -> dot3 (line_p1 l) (line_p2 l) = 0 ->
     mv_line (line_normalized l) == mvscale (/ sqrt (dot3 (line_p1 l) (line_p1 l))) (mv_line l)) /\
  (** every motor acts on points as before, up to the common weight |m|^2 *)
  (forall m p, 0 < dot4 (motor_p1 m) (motor_p1 m) ->
     sandwich (mv_motor m) (mv_point p)
     == mvscale (dot4 (motor_p1 m) (motor_p1 m))
          (sandwich (mv_motor (motor_normalized m)) (mv_point p))) /\
  (forall m, 0 < dot4 (motor_p1 m) (motor_p1 m) -> study (motor_p1 m) (motor_p2 m) = 0 ->
     mv_motor (motor_normalized m) == mvscale (/ sqrt (dot4 (motor_p1 m) (motor_p1 m))) (mv_motor m)).
Proof.
  intro B. repeat match goal with |- _ /\ _ => split end.
  - exact (point_normalized_scale rcp rsqrt sz Hrcp B).
  - exact (branch_normalized_scale rcp rsqrt sz Hrsq B).
  - exact (rotor_normalized_scale rcp rsqrt sz Hrsq B).
  - exact (line_normalized_scale rcp rsqrt sz Hrcp Hrsq B).
  - exact (motor_normalized_action rcp rsqrt sz Hrcp Hrsq B).
  - exact (motor_normalized_scale rcp rsqrt sz Hrcp Hrsq B).
Qed.
(** a plane and a point on it such that the point is off the normalized plane *)
Definition plane_n (p : plane R) : vec := V (plane_x p) (plane_y p) (plane_z p).
Theorem C16_plane_normalize_moves_refuted : forall B : Build, exists p x,
  on_plane (plane_n p) (plane_d p) x /\
  ~ on_plane (plane_n (plane_normalized p)) (plane_d (plane_normalized p)) x.
Proof.
  intro B. exists (plane_ctor 2 0 0 2), (V (-1) 0 0).
  split; [unfold on_plane, vdot; cbn; lra|].
  assert (P : 0 < dot3 (plane_p0 (plane_ctor 2 0 0 2)) (plane_p0 (plane_ctor 2 0 0 2)))
    by (unfold dot3; cbn; lra).
  unfold FLp. rewrite plane_normalized_R by assumption.
  replace (dot3 (plane_p0 (plane_ctor 2 0 0 2)) (plane_p0 (plane_ctor 2 0 0 2))) with (2 * 2)
    by (unfold dot3; cbn; lra).
  rewrite sqrt_square by lra.
  unfold on_plane, vdot, plane_n, plane_x, plane_y, plane_z, plane_d. cbn. destruct B as [[|]]; cbn; lra.
Qed.
(** exactly the planes that survive: unit normal or through the origin
    (SSE4.1); through the origin (SSE3) *)
Theorem C16_plane_normalize_exact : forall (B : Build) p, 0 < dot3 (plane_p0 p) (plane_p0 p) ->
  ((forall x, on_plane (plane_n p) (plane_d p) x ->
              on_plane (plane_n (plane_normalized p)) (plane_d (plane_normalized p)) x)
   <-> plane_d p = 0 \/ (sse41 = true /\ dot3 (plane_p0 p) (plane_p0 p) = 1)).
Proof.
  intros B p P. unfold FLp. rewrite plane_normalized_R by assumption. cbv zeta.
  assert (Sq := sqrt_lt_R0 _ P). assert (SS := sqrt_sqrt _ (Rlt_le _ _ P)).
  set (n2 := dot3 (plane_p0 p) (plane_p0 p)) in *. set (n := sqrt n2) in *.
  assert (N : n2 = dot3 (plane_p0 p) (plane_p0 p)) by reflexivity. clearbody n2 n.
  destruct p as [[d a b c]]. unfold dot3 in N. cbn [plane_p0 l0 l1 l2 l3] in N.
  unfold on_plane, vdot, plane_n, plane_x, plane_y, plane_z, plane_d. cbn [plane_p0 l0 l1 l2 l3 vx vy vz].
  split.
  - intro H. specialize (H (V (- d * a / n2) (- d * b / n2) (- d * c / n2))). cbn [vx vy vz] in H.
    assert (E : a * (- d * a / n2) + b * (- d * b / n2) + c * (- d * c / n2) = - d).
    { transitivity (- d * (a * a + b * b + c * c) / n2); [field; lra|]. rewrite <- N. field. lra. }
    assert (E' : / n * a * (- d * a / n2) + / n * b * (- d * b / n2) + / n * c * (- d * c / n2) = - d * / n).
    { rewrite <- E at 4. field. lra. }
    assert (H' := H ltac:(rewrite E; lra)). rewrite E' in H'. clear H E E'.
    destruct sse41.
    + assert (d * (n - 1) = 0).
      { apply (f_equal (fun z => z * n)) in H'. rewrite Rmult_0_l in H'. rewrite <- H'. field. lra. }
      destruct (Req_dec d 0); [left; assumption|right]. split; [reflexivity|].
      assert (n = 1) by nra. subst n. lra.
    + left. lra.
  - intros [D|[S D]] x H.
    + subst d. replace (if sse41 then 0 else (/ n + 1) * 0) with 0 by (destruct sse41; ring).
      transitivity (/ n * (a * vx x + b * vy x + c * vz x + 0)); [ring|rewrite H; ring].
    + rewrite S. assert (n = 1) by nra. subst n. rewrite Rinv_1, !Rmult_1_l. exact H.
Qed.

(** ** C17 *)
Theorem C17_reverse :
  (forall l, wf_line l -> mv_line (line_rev l) == rev (mv_line l)) /\
  (forall l, wf_ideal l -> mv_ideal (ideal_line_rev l) == rev (mv_ideal l)) /\
  (forall l, wf_branch l -> mv_branch (branch_rev l) == rev (mv_branch l)) /\
  (forall r, mv_rotor (rotor_rev r) == rev (mv_rotor r)) /\
  (forall m, mv_motor (motor_rev m) == rev (mv_motor m)) /\
  (forall p, mv_point (point_rev p) == rev (mv_point p)).
Proof.
  exact (conj line_rev_rev (conj ideal_rev_rev (conj branch_rev_rev
        (conj rotor_rev_rev (conj motor_rev_rev point_rev_rev))))).
Qed.
(** [rev] is the reverse: it fixes vectors and turns products round *)
Theorem C17_reverse_spec :
  (forall a b, rev (gp a b) == gp (rev b) (rev a)) /\ (forall a, rev (rev a) == a) /\
  (rev e0 == e0 /\ rev e1 == e1 /\ rev e2 == e2 /\ rev e3 == e3).
Proof. exact (conj rev_gp (conj rev_rev rev_generators)). Qed.
Theorem C17_reverse_antiautomorphism : forall B : Build,
  (forall a b, mv_rotor (rotor_rev (rotor_mul_rotor a b))
               == mv_rotor (rotor_mul_rotor (rotor_rev b) (rotor_rev a))) /\
  (forall a b, mv_motor (motor_rev (motor_mul_motor a b))
               == mv_motor (motor_mul_motor (motor_rev b) (motor_rev a))) /\
  (forall a, motor_rev (motor_rev a) = a) /\ (forall a, rotor_rev (rotor_rev a) = a).
Proof.
  intro B. repeat split.
  - intros. rewrite rotor_rev_rev, !(rotor_mul_rotor_gp B), rev_gp, !rotor_rev_rev. reflexivity.
  - intros. rewrite motor_rev_rev, !(motor_mul_motor_gp B), rev_gp, !motor_rev_rev. reflexivity.
  - intros [[? ? ? ?] [? ? ? ?]]. unfold motor_rev. f_equal; lanes; cbv -[Ropp]; ring.
  - intros [[? ? ? ?]]. unfold rotor_rev. f_equal; lanes; cbv -[Ropp]; ring.
Qed.
(** a unit motor is undone by its reverse, on every multivector *)
Theorem C17_reverse_undoes : forall m x, gp (mv_motor m) (rev (mv_motor m)) == one ->
  sandwich (mv_motor (motor_rev m)) (sandwich (mv_motor m) x) == x.
Proof. exact motor_rev_undoes. Qed.
Example C17_ex : gp (mv_motor (motor_ctor (3/5) (4/5) 0 0 0 1 2 0))
                    (rev (mv_motor (motor_ctor (3/5) (4/5) 0 0 0 1 2 0))) == one.
Proof. apply unit_motor_iff. unfold study, dot4. cbn. split; lra. Qed.

(** ** C18 *)
Theorem C18_sqrt : forall B : Build,
  (forall r, gp (mv_rotor r) (rev (mv_rotor r)) == one -> rotor_scalar r <> -1 ->
     gp (mv_rotor (rotor_sqrt r)) (mv_rotor (rotor_sqrt r)) == mv_rotor r) /\
  (forall b, wf_branch b -> gp (mv_branch b) (rev (mv_branch b)) == one ->
     gp (mv_rotor (branch_sqrt b)) (mv_rotor (branch_sqrt b)) == mv_branch b) /\
  (forall t, wf_translator t ->
     gp (mv_translator (translator_sqrt t)) (mv_translator (translator_sqrt t)) == mv_translator t) /\
  (forall m, gp (mv_motor m) (rev (mv_motor m)) == one -> motor_scalar m <> -1 ->
     gp (mv_motor (motor_sqrt m)) (mv_motor (motor_sqrt m)) == mv_motor m).
Proof.
  intro B. repeat match goal with |- _ /\ _ => split end.
  - exact (rotor_sqrt_sq rcp rsqrt sz Hrsq B).
  - exact (branch_sqrt_sq rcp rsqrt sz Hrsq B).
  - exact (translator_sqrt_sq rcp rsqrt sz B).
  - exact (motor_sqrt_sq rcp rsqrt sz Hrcp Hrsq B).
Qed.
(** performing sqrt(m) twice performs m *)
Theorem C18_sqrt_half_motion : forall (B : Build) m x,
  gp (mv_motor m) (rev (mv_motor m)) == one -> motor_scalar m <> -1 ->
  mv_point (motor_on_point (motor_sqrt m) (motor_on_point (motor_sqrt m) x))
  == mv_point (motor_on_point m x).
Proof.
  intros B m x U S. rewrite !(motor_on_point_sw B), <- sandwich_gp.
  rewrite (motor_sqrt_sq rcp rsqrt sz Hrcp Hrsq B m U S). reflexivity.
Qed.
Example C18_ex : gp (mv_motor (motor_ctor (3/5) (4/5) 0 0 0 1 2 0))
                    (rev (mv_motor (motor_ctor (3/5) (4/5) 0 0 0 1 2 0))) == one
   /\ motor_scalar (motor_ctor (3/5) (4/5) 0 0 0 1 2 0) <> -1.
Proof. split; [exact C17_ex|]. unfold motor_scalar. cbn. lra. Qed.
End P.

(** ideal hardware exists, so the premises of the section can be met *)
Example ideal_hardware : exact_rcp Rinv /\ exact_rsqrt (fun x => / sqrt x).
Proof. split; intros x H; reflexivity. Qed.

Print Assumptions C14_inverse_partial.
Print Assumptions C14_quotient_partial.
Print Assumptions C14_rotor_inverse_exact.
Print Assumptions C14_rotor_inverse_refuted.
Print Assumptions C14_rotor_quotient_refuted.
Print Assumptions C14_point_inverse_exact.
Print Assumptions C14_point_inverse_refuted.
Print Assumptions C14_line_quotient_refuted.
Print Assumptions C15_normalize_unit.
Print Assumptions C15_normalize_idempotent_partial.
Print Assumptions C15_plane_normalize_idempotent_refuted.
Print Assumptions C16_normalize_same_object_partial.
Print Assumptions C16_plane_normalize_moves_refuted.
Print Assumptions C16_plane_normalize_exact.
Print Assumptions C17_reverse.
Print Assumptions C17_reverse_spec.
Print Assumptions C17_reverse_antiautomorphism.
Print Assumptions C17_reverse_undoes.
Print Assumptions C18_sqrt.
Print Assumptions C18_sqrt_half_motion.
