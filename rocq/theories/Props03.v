(** Properties C06-C13, C25, C32, C36, C43, C47: motions of space.
    Exact real arithmetic, ideal hardware estimates.  [pos] is the position of
    a point of non-zero weight, [plane_has]/[line_has] incidence of a position
    with a plane/line ([Geom.v]); [rodrigues] and [mirror] are the textbook
    maps ([SpecGeom.v]); "unit" elements satisfy x * ~x = 1. *)
From Coq Require Import Reals ZArith Lra List.
From Verif Require Import AlgTac SpecGeom FloR Closed Geom AlgGP AlgSW AlgInv AlgNorm Motion Incid Ctors ExpLog Euler.
Import ListNotations.
Local Open Scope R_scope.

(** ** C06 *)
Theorem C06_reflection : forall (B : Build) q, unit (mv_plane q) ->
  (** points: mirror image, same weight *)
  (forall x, point_w x <> 0 -> point_w (plane_on_point q x) = point_w x /\
     pos (plane_on_point q x) = mirror (plane_n q) (plane_d q) (pos x)) /\
  (** planes and lines: images of their points *)
  (forall p x, plane_has p x -> plane_has (plane_on_plane q p) (mirror (plane_n q) (plane_d q) x)) /\
  (forall l x, wf_line l -> line_has l x ->
     line_has (plane_on_line q l) (mirror (plane_n q) (plane_d q) x)) /\
  (** reflecting twice gives back the operand *)
  (forall p, plane_on_plane q (plane_on_plane q p) = p) /\
  (forall l, wf_line l -> plane_on_line q (plane_on_line q l) = l) /\
  (forall p, plane_on_point q (plane_on_point q p) = p) /\
  (** points of the mirror are fixed *)
  (forall x, point_w x <> 0 -> plane_has q (pos x) -> pos (plane_on_point q x) = pos x).
Proof.
  intros B q U. repeat match goal with |- _ /\ _ => split end.
  - intros x W. exact (conj (mirror_point_w B q U x) (mirror_point B q U x W)).
  - exact (mirror_plane_has B q U).
  - exact (mirror_line_has B q U).
  - exact (mirror_plane_invol B q U).
  - exact (mirror_line_invol B q U).
  - exact (mirror_point_invol B q U).
  - intros x W H. rewrite (mirror_point B q U x W). apply mirror_fixes. exact H.
Qed.
Example C06_ex : unit (mv_plane (plane_ctor (3/5) 0 (4/5) 7)) /\ plane_has (plane_ctor (3/5) 0 (4/5) 7) (V (-5) 1 (-5)).
Proof. split; [apply unit_plane_iff; unfold dot3; cbn; lra|unfold plane_has, on_plane, vdot; cbn; lra]. Qed.
Print Assumptions C06_reflection.

(** ** C07: any number of factors, bracketed in any way, in any mixture *)
Theorem C07_composition : forall (B : Build) rcp rsqrt sz, exact_rcp rcp ->
  forall t : prod, Forall mo_wf (factors t) ->
  (forall x, mo_point (value t) x = fold_right mo_point x (factors t)) /\
  (forall x, mo_plane rcp rsqrt sz B (value t) x = fold_right (mo_plane rcp rsqrt sz B) x (factors t)) /\
  (forall x, wf_line x -> mo_line (value t) x = fold_right mo_line x (factors t)) /\
  (forall x, wf_direction x -> mo_direction (value t) x = fold_right mo_direction x (factors t)).
Proof.
  intros B rcp rsqrt sz H t W. repeat match goal with |- _ /\ _ => split end; intros.
  - exact (chain_point B t x W).
  - exact (chain_plane rcp rsqrt sz H B t x W).
  - apply (chain_line B); assumption.
  - apply (chain_direction B); assumption.
Qed.
Example C07_ex : let t := Node (Node (Leaf (MR (mkrotor (mk4 1 2 3 4)))) (Leaf (MT (mktranslator (mk4 0 5 6 7)))))
                              (Leaf (MM (motor_ctor 1 2 3 4 5 6 7 8))) in
  Forall mo_wf (factors t) /\ length (factors t) = 3%nat.
Proof. cbn. repeat constructor. Qed.
Print Assumptions C07_composition.

(** ** C08 *)
Theorem C08_rigid_motion : forall (B : Build) m, unit (mv_motor m) ->
  (forall x, point_w (motor_on_point m x) = point_w x) /\
  (forall x y, point_w x <> 0 -> point_w y <> 0 ->
     dist (pos (motor_on_point m x)) (pos (motor_on_point m y)) = dist (pos x) (pos y)) /\
  (forall a b c o, point_w a <> 0 -> point_w b <> 0 -> point_w c <> 0 -> point_w o <> 0 ->
     let v x := vsub (pos (motor_on_point m x)) (pos (motor_on_point m o)) in
     let w x := vsub (pos x) (pos o) in vdet (v a) (v b) (v c) = vdet (w a) (w b) (w c)) /\
  (forall p, unit (mv_plane p) -> unit (mv_plane (motor_on_plane m p))) /\
  (forall l, wf_line l -> unit (mv_line l) ->
     wf_line (motor_on_line m l) /\ unit (mv_line (motor_on_line m l))) /\
  (** planes and lines move with their points *)
  (forall p x, point_w x <> 0 ->
     (plane_has p (pos x) <-> plane_has (motor_on_plane m p) (pos (motor_on_point m x)))) /\
  (forall l x, wf_line l -> point_w x <> 0 -> line_has l (pos x) ->
     line_has (motor_on_line m l) (pos (motor_on_point m x))).
Proof.
  intros B m U. repeat match goal with |- _ /\ _ => split end.
  - exact (motor_point_w B m U).
  - intros x y X Y. rewrite !(motor_point_pos B m U) by assumption. apply motion_dist; assumption.
  - intros a b c o A B' C O v w. unfold v, w. rewrite !(motor_point_pos B m U) by assumption.
    apply motion_volume; assumption.
  - exact (motor_plane_unit B m U).
  - intros l W H. exact (conj (motor_on_line_wf B m l W) (motor_line_unit B m U l W H)).
  - intros p x W. rewrite (motor_point_pos B m U) by assumption. exact (motor_plane_has B m U p (pos x)).
  - intros l x W K H. rewrite (motor_point_pos B m U) by assumption. exact (motor_line_has B m U l (pos x) W H).
Qed.
Example C08_ex : unit (mv_motor (motor_ctor (3/5) (4/5) 0 0 0 1 2 0)).
Proof. apply unit_motor_iff. unfold study, dot4. cbn. split; lra. Qed.
Print Assumptions C08_rigid_motion.

Section P.
Context (rcp rsqrt : R -> R) (sz : bool) (Hrcp : exact_rcp rcp) (Hrsq : exact_rsqrt rsqrt) (B : Build).
Local Instance FLq : Flo R := Flo_R rcp rsqrt sz.

(** ** C09 *)
Theorem C09_translator : forall delta x y z, 0 < vdot (V x y z) (V x y z) ->
  let t := translator_ctor delta x y z in let v := vscale delta (vunit (V x y z)) in
  wf_translator t /\
  (forall p, point_w p <> 0 -> point_w (translator_on_point t p) = point_w p /\
     pos (translator_on_point t p) = vadd (pos p) v) /\
  (forall p a, plane_has p a <-> plane_has (translator_on_plane t p) (vadd a v)) /\
  (forall l a, wf_line l -> (line_has l a <-> line_has (translator_on_line t l) (vadd a v))) /\
  (forall p, translator_on_point (translator_inverse t) (translator_on_point t p) = p).
Proof.
  intros delta x y z H t v. assert (W := translator_ctor_wf rcp rsqrt sz delta x y z).
  change (wf_translator t) in W.
  assert (E : vscale (-2) (translator_c t) = v) by exact (translator_ctor_c rcp rsqrt sz delta x y z H).
  repeat match goal with |- _ /\ _ => split end.
  - exact W.
  - intros p K. exact (translator_ctor_point rcp rsqrt sz B delta x y z p H K).
  - intros p a. assert (F := translator_on_plane_R rcp rsqrt sz Hrcp B t p W).
    change (FLc rcp rsqrt sz) with FLq in F. rewrite F. rewrite <- E.
    unfold plane_has, on_plane, vdot, vadd, vscale, plane_n, plane_x, plane_y, plane_z, plane_d, dot3, translator_c,
      translator_e01, translator_e02, translator_e03. cbn [plane_p0 l0 l1 l2 l3 vx vy vz]. lra.
  - intros l a K. unfold line_has, on_line. rewrite (translator_on_line_u B), (translator_on_line_m B) by assumption.
    rewrite <- E. generalize (translator_c t), (line_u l), (line_m l). clear. destruct a as [a1 a2 a3]. intros [c1 c2 c3] [u1 u2 u3] [m1 m2 m3].
    unfold vcross, vadd, vscale. cbn [vx vy vz]. split; intro H; injection H as H1 H2 H3; apply vec_eq; cbn [vx vy vz]; lra.
  - intro p. apply mv_point_inj.
    assert (W' : wf_translator (translator_inverse t)).
    { revert W. unfold wf_translator. generalize t. intros [[? ? ? ?]]. cbn. exact (fun x => x). }
    rewrite !(translator_on_point_sw B) by assumption. rewrite <- sandwich_gp.
    rewrite (translator_inverse_gp_l t W). unfold sandwich. rewrite gp_one_l, rev_one. apply gp_one_r.
Qed.
Example C09_ex : 0 < vdot (V 1 2 2) (V 1 2 2) /\ vscale 6 (vunit (V 1 2 2)) = V 2 4 4.
Proof.
  assert (E : vlen (V 1 2 2) = 3).
  { unfold vlen, vdot. cbn. replace (1 * 1 + 2 * 2 + 2 * 2) with (3 * 3) by ring. apply sqrt_square. lra. }
  split; [unfold vdot; cbn; lra|]. unfold vunit. rewrite E. apply vec_eq; cbn; lra.
Qed.

(** ** C10.  The handedness is the opposite of the counter-clockwise
    convention of [rodrigues]: the angle appears negated. *)
Theorem C10_rotor : forall ang x y z, 0 < vdot (V x y z) (V x y z) ->
  let r := rotor_ctor ang x y z in let u := vunit (V x y z) in
  vdot u u = 1 /\ unit (mv_rotor r) /\
  (forall p, point_w p <> 0 -> point_w (rotor_on_point r p) = point_w p /\
     pos (rotor_on_point r p) = rodrigues u (- ang) (pos p)) /\
  (forall p k, point_w p <> 0 -> pos p = vscale k u -> pos (rotor_on_point r p) = pos p) /\
  (forall d, wf_direction d -> dir_v (rotor_on_direction r d) = rodrigues u (- ang) (dir_v d)) /\
  (forall p, plane_n (rotor_on_plane r p) = rodrigues u (- ang) (plane_n p) /\
             plane_d (rotor_on_plane r p) = plane_d p) /\
  (forall l, wf_line l -> line_u (rotor_on_line r l) = rodrigues u (- ang) (line_u l) /\
             line_m (rotor_on_line r l) = rodrigues u (- ang) (line_m l)).
Proof.
  intros t x y z H r u. assert (UU := vunit_dot _ H). assert (U := rotor_ctor_unit rcp rsqrt sz t x y z H).
  assert (RR := fun v => rotor_ctor_rot rcp rsqrt sz t x y z v H).
  change (forall v, rotor_rot r v = rodrigues u (- t) v) in RR. change (unit (mv_rotor r)) in U.
  assert (PP : forall p, point_w p <> 0 -> point_w (rotor_on_point r p) = point_w p /\
     pos (rotor_on_point r p) = rodrigues u (- t) (pos p))
    by exact (fun p => rotor_ctor_point rcp rsqrt sz B t x y z p H).
  repeat match goal with |- _ /\ _ => split end.
  - exact UU.
  - exact U.
  - exact PP.
  - intros p k W E. rewrite (proj2 (PP p W)), E. apply rodrigues_axis. exact UU.
  - intros d W. rewrite <- RR. apply (rotor_on_direction_v B). exact W.
  - intro p. rewrite <- RR. split; [apply (rotor_on_plane_n B)|].
    rewrite (rotor_on_plane_d B), (proj1 (unit_rotor_geo r) U). ring.
  - intros l W. rewrite <- !RR. split; [apply (rotor_on_line_u B)|apply (rotor_on_line_m B)]; exact W.
Qed.

(** ** C11 *)
Theorem C11_euler_constructor : forall roll pitch yaw,
  rotor_of_euler (mkeuler roll pitch yaw)
  = rotor_mul_rotor (rotor_mul_rotor (rotor_ctor roll 1 0 0) (rotor_ctor pitch 0 1 0)) (rotor_ctor yaw 0 0 1).
Proof. exact (rotor_of_euler_product rcp rsqrt sz Hrsq B). Qed.

(** ** C12.  Full statement: for every unit rotor r,
    rotor(r.as_euler_angles()) is r or -r.  It holds off the gimbal test of
    the code and off the true singularity; it is refuted in both of them. *)
Theorem C12_euler_round_trip_partial : forall r, unit (mv_rotor r) ->
  Rabs (rotor_e23 r * rotor_e31 r + rotor_e12 r * rotor_scalar r) <= 4999 / 10000 ->
  Rabs (2 * (rotor_scalar r * rotor_e31 r - rotor_e23 r * rotor_e12 r)) <> 1 ->
  rotor_of_euler (rotor_as_euler_angles r) = r \/ rotor_of_euler (rotor_as_euler_angles r) = rotor_neg r.
Proof.
  intros r U T C. apply (euler_round_trip rcp rsqrt sz Hrsq B); [apply unit_rotor_geo; exact U|exact T|].
  intro H. apply C. clear - H. unfold i31, q_of in H. cbn [q0 q1 q2 q3] in H.
  set (k := 2 * (rotor_scalar r * rotor_e31 r - rotor_e23 r * rotor_e12 r)) in *. clearbody k.
  unfold Rabs. destruct (Rcase_abs k); nra.
Qed.
Example C12_ex : let r := mkrotor (mk4 (9/11) (6/11) 0 (2/11)) in
  unit (mv_rotor r) /\ Rabs (rotor_e23 r * rotor_e31 r + rotor_e12 r * rotor_scalar r) <= 4999 / 10000 /\
  Rabs (2 * (rotor_scalar r * rotor_e31 r - rotor_e23 r * rotor_e12 r)) <> 1.
Proof.
  cbv zeta. repeat split; [apply unit_rotor_iff; unfold dot4; cbn; lra| |];
  unfold rotor_scalar, rotor_e23, rotor_e31, rotor_e12; cbn; unfold Rabs; destruct (Rcase_abs _); lra.
Qed.
(** a 120-degree turn about (1,1,1), nowhere near pitch = pi/2, is caught by
    the gimbal test (rotor.hpp 208-221) and comes back as another rotation *)
Theorem C12_wrong_gimbal_test_refuted : exists r, unit (mv_rotor r) /\
  rotor_of_euler (rotor_as_euler_angles r) <> r /\ rotor_of_euler (rotor_as_euler_angles r) <> rotor_neg r.
Proof.
  exists (mkrotor (mk4 (1/2) (1/2) (1/2) (1/2))).
  split; [apply unit_rotor_iff; unfold dot4; cbn; lra|].
  assert (E : rotor_as_euler_angles (mkrotor (mk4 (1/2) (1/2) (1/2) (1/2))) = mkeuler (2 * Ratan2 (1/2) (1/2)) (PI / 2) 0).
  { unfold rotor_as_euler_angles. cbn. unfold Rltb.
    destruct (Rlt_dec _ _) as [_|H]; [reflexivity|exfalso; lra]. }
  rewrite E. destruct (euler_readings rcp rsqrt sz Hrsq B (2 * Ratan2 (1/2) (1/2)) (PI / 2) 0) as (_ & H & _).
  rewrite sin_PI2 in H. change (FLu rcp rsqrt sz) with FLq in H.
  split; intro K; apply (f_equal (fun r => i31 (q_of r))) in K.
  - rewrite H in K. revert K. unfold i31. cbn. lra.
  - rewrite H in K. revert K. unfold i31. cbn. lra.
Qed.
(** at the true singularity (pitch = pi/2) roll and yaw are dropped *)
Theorem C12_true_gimbal_lock_refuted : exists r, unit (mv_rotor r) /\
  rotor_of_euler (rotor_as_euler_angles r) <> r /\ rotor_of_euler (rotor_as_euler_angles r) <> rotor_neg r.
Proof.
  exists (mkrotor (mk4 (1/2) (-1/2) (1/2) (1/2))).
  split; [apply unit_rotor_iff; unfold dot4; cbn; lra|].
  assert (E : rotor_as_euler_angles (mkrotor (mk4 (1/2) (-1/2) (1/2) (1/2))) = mkeuler 0 (PI / 2) 0).
  { unfold rotor_as_euler_angles. cbn. unfold Rltb.
    destruct (Rlt_dec (4999 / 10000) _) as [H|_]; [exfalso; lra|].
    destruct (Rlt_dec _ (- (4999 / 10000))) as [H|_]; [exfalso; lra|].
    replace (2 * (1 / 2 * (1 / 2) - -1 / 2 * (1 / 2))) with 1 by field.
    rewrite Rabs_R1. destruct (Rlt_dec 1 1) as [H|_]; [exfalso; lra|].
    assert (Z : forall u v, u = 0 -> v = 0 -> Ratan2 u v = 0).
    { intros u v -> ->. unfold Ratan2. destruct (Rlt_dec 0 0); [exfalso; lra|]. destruct (Rlt_dec 0 0); [exfalso; lra|reflexivity]. }
    rewrite !Z by field. rewrite asin_1. reflexivity. }
  rewrite E. assert (F := rotor_of_euler_product rcp rsqrt sz Hrsq B 0 (PI / 2) 0).
  destruct (rotor_ctor_axis rcp rsqrt sz 0) as (A1 & _ & A3), (rotor_ctor_axis rcp rsqrt sz (PI / 2)) as (_ & A2 & _).
  rewrite A1, A2, A3 in F. clear A1 A2 A3. replace (0 / 2) with 0 in F by field. rewrite sin_0, cos_0 in F.
  change (FLk rcp rsqrt sz) with FLq in F.
  split; intro K; apply (f_equal rotor_e23) in K; rewrite F in K; revert K;
    destruct B as [[|]]; cbv -[Rplus Rmult Rminus Ropp Rdiv Rinv IZR sin cos PI]; lra.
Qed.

(** ** C13 *)
Theorem C13_screw : forall ang d l, wf_line l -> unit (mv_line l) ->
  let m := motor_screw ang d l in
  unit (mv_motor m) /\
  (** any point x: rotate by ang about the line (any point p of it), then
      translate by d along it *)
  (forall x p, point_w x <> 0 -> line_has l p ->
     pos (motor_on_point m x)
     = vadd (vadd p (rodrigues (line_u l) ang (vsub (pos x) p))) (vscale d (line_u l))) /\
  (** points of the line slide along it, so the line is fixed as a set *)
  (forall x, point_w x <> 0 -> line_has l (pos x) ->
     pos (motor_on_point m x) = vadd (pos x) (vscale d (line_u l)) /\
     line_has l (pos (motor_on_point m x))).
Proof.
  intros t d l W U m. assert (UM : unit (mv_motor m)) by exact (motor_screw_unit rcp rsqrt sz Hrcp Hrsq B t d l W U).
  assert (M : forall x p, point_w x <> 0 -> line_has l p ->
     pos (motor_on_point m x) = vadd (vadd p (rodrigues (line_u l) t (vsub (pos x) p))) (vscale d (line_u l))).
  { intros x p K L. rewrite (motor_point_pos B m UM) by assumption.
    exact (motor_screw_motion rcp rsqrt sz Hrcp Hrsq B t d l p (pos x) W U L). }
  split; [exact UM|split; [exact M|]]. intros x K L.
  assert (E : pos (motor_on_point m x) = vadd (pos x) (vscale d (line_u l))).
  { rewrite (M x (pos x) K L). unfold rodrigues. generalize (pos x), (line_u l). intros [a1 a2 a3] [u1 u2 u3]. vring. }
  split; [exact E|]. rewrite E. revert L. unfold line_has, on_line. intros <-.
  generalize (pos x), (line_u l). intros [a1 a2 a3] [u1 u2 u3]. vring.
Qed.
Example C13_ex : let l := line_ctor 4 (-3) 0 (3/5) (4/5) 0 in
  wf_line l /\ unit (mv_line l) /\ line_has l (V 0 0 (-5)).
Proof.
  cbv zeta. assert (W : wf_line (line_ctor 4 (-3) 0 (3/5) (4/5) 0)) by (split; reflexivity).
  split; [exact W|split].
  - apply unit_line_iff; [exact W|]. unfold dot3. cbn. lra.
  - unfold line_has, on_line. apply vec_eq; cbn; lra.
Qed.

(** ** C25 *)
Theorem C25_origin : forall m, unit (mv_motor m) -> motor_on_origin m = motor_on_point m (point_ctor 0 0 0).
Proof.
  intros m U. apply unit_motor_geo in U. destruct U as [N _]. apply mv_point_inj.
  rewrite (motor_on_origin_sw B), (motor_on_point_sw B); [reflexivity|].
  rewrite <- N. unfold motor_norm2, motor_n, qn, vdot, motor_b. cbn [vx vy vz]. ring.
Qed.
(** the bare point is what (0,0,0) is: [origin] converts to the same point *)
Lemma origin_is_origin : @origin R _ = point_ctor 0 0 0. Proof. reflexivity. Qed.

(** ** C32.  Full statement: constructing or assigning a motor from a rotor or
    translator preserves the action.  Assignment from a translator does not. *)
Theorem C32_conversion_partial :
  (forall r, mv_motor (motor_of_rotor r) == mv_rotor r) /\
  (forall t, mv_motor (motor_of_translator t) == mv_translator t) /\
  (forall m r, motor_assign_rotor m r = motor_of_rotor r) /\
  (forall r x, motor_on_point (motor_of_rotor r) x = rotor_on_point r x) /\
  (forall r x, motor_on_plane (motor_of_rotor r) x = rotor_on_plane r x) /\
  (forall r x, wf_line x -> motor_on_line (motor_of_rotor r) x = rotor_on_line r x) /\
  (forall r x, wf_direction x -> motor_on_direction (motor_of_rotor r) x = rotor_on_direction r x) /\
  (forall t x, wf_translator t -> motor_on_point (motor_of_translator t) x = translator_on_point t x) /\
  (forall t x, wf_translator t -> motor_on_plane (motor_of_translator t) x = translator_on_plane t x) /\
  (forall t x, wf_translator t -> wf_line x -> motor_on_line (motor_of_translator t) x = translator_on_line t x).
Proof.
  assert (HR : forall r, mv_motor (motor_of_rotor r) == mv_rotor r).
  { clear. intros [[? ? ? ?]]. mvring. }
  assert (HT : forall t, mv_motor (motor_of_translator t) == mv_translator t).
  { clear. intros [[? ? ? ?]]. mvring. }
  repeat match goal with |- _ /\ _ => split end.
  - exact HR.
  - exact HT.
  - reflexivity.
  - intros. apply mv_point_inj. rewrite (motor_on_point_sw B), (rotor_on_point_sw B), HR. reflexivity.
  - intros. apply mv_plane_inj. rewrite (motor_on_plane_sw B), (rotor_on_plane_sw B), HR. reflexivity.
  - intros. apply mv_line_inj. rewrite (motor_on_line_sw B), (rotor_on_line_sw B), HR by assumption. reflexivity.
  - intros. apply mv_direction_inj. rewrite (motor_on_direction_sw B), (rotor_on_direction_sw B), HR by assumption. reflexivity.
  - intros. apply mv_point_inj. rewrite (motor_on_point_sw B), (translator_on_point_sw B), HT by assumption. reflexivity.
  - intros. apply mv_plane_inj. rewrite (motor_on_plane_sw B), HT. symmetry.
    apply (translator_on_plane_sw rcp rsqrt sz Hrcp B). assumption.
  - intros. apply mv_line_inj. rewrite (motor_on_line_sw B), (translator_on_line_sw B), HT by assumption. reflexivity.
Qed.
(** motor m; m = t;  leaves a motor that sends every point to zero *)
Theorem C32_assign_translator_refuted :
  (exists m t x, wf_translator t /\ point_w x = 1 /\
     motor_on_point (motor_assign_translator m t) x <> translator_on_point t x) /\
  (forall m t x, motor_on_point (motor_assign_translator m t) x = mkpoint (mk4 0 0 0 0)).
Proof.
  assert (Z : forall m t x, motor_on_point (motor_assign_translator m t) x = mkpoint (mk4 0 0 0 0)).
  { clear. intros m [[? ? ? ?]] [[? ? ? ?]]. apply (f_equal mkpoint).
    apply m128_ext; cbv -[Rplus Rmult Rminus Ropp IZR]; ring. }
  split; [|exact Z].
  exists (motor_ctor 1 0 0 0 0 0 0 0), (mktranslator (mk4 0 0 0 0)), (point_ctor 1 2 3).
  repeat split. rewrite Z. intro H. apply (f_equal point_w) in H. rewrite (translator_on_point_w B) in H by reflexivity.
  revert H. unfold point_w. cbn. lra.
Qed.

(** ** C43 *)
Theorem C43_direction :
  (forall x y z, 0 < vdot (V x y z) (V x y z) ->
     wf_direction (direction_ctor x y z) /\ dir_v (direction_ctor x y z) = vunit (V x y z)) /\
  (** only the rotation part of a motor acts, and the weight stays zero *)
  (forall m d, wf_direction d -> wf_direction (motor_on_direction m d)) /\
  (forall m m' d, motor_p1 m = motor_p1 m' -> motor_on_direction m d = motor_on_direction m' d) /\
  (forall m d, wf_direction d ->
     motor_on_direction m d = rotor_on_direction (mkrotor (motor_p1 m)) d) /\
  (forall t r d, wf_direction d ->
     motor_on_direction (translator_mul_rotor t r) d = rotor_on_direction r d /\
     motor_on_direction (rotor_mul_translator r t) d = rotor_on_direction r d) /\
  (** lengths and angles are kept by unit motors *)
  (forall m d e, unit (mv_motor m) -> wf_direction d -> wf_direction e ->
     vdot (dir_v (motor_on_direction m d)) (dir_v (motor_on_direction m e)) = vdot (dir_v d) (dir_v e)).
Proof.
  assert (R : forall m d, wf_direction d -> motor_on_direction m d = rotor_on_direction (mkrotor (motor_p1 m)) d).
  { clear. intros [[? ? ? ?] p2] [[d0 ? ? ?]] W. unfold wf_direction in W. cbn in W. subst d0. apply (f_equal mkdirection).
    apply m128_ext; cbv -[Rplus Rmult Rminus Ropp IZR]; ring. }
  repeat match goal with |- _ /\ _ => split end.
  - intros x y z H. unfold direction_ctor.
    assert (E := direction_normalized_R rcp rsqrt sz Hrsq B (mkdirection (mk4 0 x y z))).
    assert (D : dot3 (direction_p3 (mkdirection (mk4 0 x y z))) (direction_p3 (mkdirection (mk4 0 x y z))) = vdot (V x y z) (V x y z)).
    { unfold dot3, vdot. reflexivity. }
    rewrite D in E. specialize (E H). change (FLc rcp rsqrt sz) with FLq in E.
    change (_mm_set_ps z y x (fz 0)) with (mk4 0 x y z). rewrite E. split.
    + unfold wf_direction. cbn. ring.
    + reflexivity.
  - intros m d W. apply (motor_on_direction_v B). exact W.
  - intros m m' d H. unfold motor_on_direction. rewrite H. reflexivity.
  - exact R.
  - intros t r d W. rewrite !R by exact W. split; destruct r; reflexivity.
  - intros m d e U W W'. rewrite (proj1 (motor_on_direction_v B m d W)), (proj1 (motor_on_direction_v B m e W')).
    apply rot_dot. exact U.
Qed.

(** ** C47.  Full statement: rotor(ang, axis) and motor(ang, 0, line along the
    axis through the origin) are the same rotation.  They are inverse to each
    other. *)
Theorem C47_opposite_handedness : forall ang x y z, 0 < vdot (V x y z) (V x y z) ->
  let u := vunit (V x y z) in let l := line_ctor 0 0 0 (vx u) (vy u) (vz u) in
  forall p, point_w p <> 0 ->
    pos (rotor_on_point (rotor_ctor ang x y z) p) = rodrigues u (- ang) (pos p) /\
    pos (motor_on_point (motor_screw ang 0 l) p) = rodrigues u ang (pos p).
Proof.
  intros t x y z H u l p K. assert (UU : vdot u u = 1) by exact (vunit_dot _ H).
  split; [exact (proj2 (rotor_ctor_point rcp rsqrt sz B t x y z p H K))|].
  assert (W : wf_line l) by (split; reflexivity).
  assert (U : unit (mv_line l)).
  { apply unit_line_geo; [exact W|]. split; [exact UU|]. unfold vdot. cbn. ring. }
  destruct (C13_screw t 0 l W U) as (_ & M & _).
  rewrite (M p vzero K).
  - change (line_u l) with (V (vx u) (vy u) (vz u)). destruct u as [u1 u2 u3]. unfold rodrigues.
    destruct (pos p) as [x1 x2 x3]. cbn [vx vy vz]. apply vec_eq; vcbn; ring.
  - unfold line_has, on_line. apply vec_eq; cbn; ring.
Qed.
Theorem C47_handedness_refuted : exists ang p, point_w p = 1 /\
  pos (rotor_on_point (rotor_ctor ang 0 0 1) p)
  <> pos (motor_on_point (motor_screw ang 0 (line_ctor 0 0 0 0 0 1)) p).
Proof.
  exists (PI / 2), (point_ctor 1 0 0). split; [reflexivity|].
  assert (H : 0 < vdot (V 0 0 1) (V 0 0 1)) by (unfold vdot; cbn; lra).
  assert (K : point_w (point_ctor 1 0 0) <> 0) by (unfold point_w; cbn; lra).
  assert (E : vunit (V 0 0 1) = V 0 0 1).
  { unfold vunit, vlen, vdot. cbn. replace (0 * 0 + 0 * 0 + 1 * 1) with 1 by ring. rewrite sqrt_1. apply vec_eq; cbn; field. }
  destruct (C47_opposite_handedness (PI / 2) 0 0 1 H (point_ctor 1 0 0) K) as [A C].
  rewrite E in A, C. cbn [vx vy vz] in C. rewrite A, C.
  replace (pos (point_ctor 1 0 0)) with (V 1 0 0) by (apply vec_eq; cbn; field).
  rewrite !rodrigues_z. rewrite sin_neg, sin_PI2. intro X. injection X. lra.
Qed.
End P.
Print Assumptions C09_translator.
Print Assumptions C10_rotor.
Print Assumptions C11_euler_constructor.
Print Assumptions C12_euler_round_trip_partial.
Print Assumptions C12_wrong_gimbal_test_refuted.
Print Assumptions C12_true_gimbal_lock_refuted.
Print Assumptions C13_screw.
Print Assumptions C25_origin.
Print Assumptions C32_conversion_partial.
Print Assumptions C32_assign_translator_refuted.
Print Assumptions C43_direction.
Print Assumptions C47_opposite_handedness.
Print Assumptions C47_handedness_refuted.

(** ** C36: m * ~m = |m|^2 (no pseudoscalar part) is all that is needed *)
Theorem C36_motions_commute : forall (B : Build) m, motor_study m = 0 ->
  let n := motor_n m in
  (forall a b, mv_line (plane_ext_plane (motor_on_plane m a) (motor_on_plane m b))
     == mvscale n (mv_line (motor_on_line m (plane_ext_plane a b)))) /\
  (forall a b, wf_line b -> mv_point (plane_ext_line (motor_on_plane m a) (motor_on_line m b))
     == mvscale n (mv_point (motor_on_point m (plane_ext_line a b)))) /\
  (forall a b, wf_line a -> mv_point (line_ext_plane (motor_on_line m a) (motor_on_plane m b))
     == mvscale n (mv_point (motor_on_point m (line_ext_plane a b)))) /\
  (forall a b, mv_dual (plane_ext_point (motor_on_plane m a) (motor_on_point m b))
     == mvscale (n * n) (mv_dual (plane_ext_point a b))) /\
  (forall a b, mv_dual (point_ext_plane (motor_on_point m a) (motor_on_plane m b))
     == mvscale (n * n) (mv_dual (point_ext_plane a b))) /\
  (forall a b, wf_line a -> wf_line b -> mv_dual (line_ext_line (motor_on_line m a) (motor_on_line m b))
     == mvscale (n * n) (mv_dual (line_ext_line a b))) /\
  (forall a b, mv_line (point_join_point (motor_on_point m a) (motor_on_point m b))
     == mvscale n (mv_line (motor_on_line m (point_join_point a b)))) /\
  (forall a b, wf_line b -> mv_plane (point_join_line (motor_on_point m a) (motor_on_line m b))
     == mvscale n (mv_plane (motor_on_plane m (point_join_line a b)))) /\
  (forall a b, wf_line a -> mv_plane (line_join_point (motor_on_line m a) (motor_on_point m b))
     == mvscale n (mv_plane (motor_on_plane m (line_join_point a b)))) /\
  (forall a b, mv_dual (plane_join_point (motor_on_plane m a) (motor_on_point m b))
     == mvscale (n * n) (mv_dual (plane_join_point a b))) /\
  (forall a b, mv_dual (point_join_plane (motor_on_point m a) (motor_on_plane m b))
     == mvscale (n * n) (mv_dual (point_join_plane a b))).
Proof.
  intros B m S n. unfold n. repeat match goal with |- _ /\ _ => split end; intros.
  - apply (motor_plane_ext_plane B); assumption.
  - apply (motor_plane_ext_line B); assumption.
  - apply (motor_line_ext_plane B); assumption.
  - apply (motor_plane_ext_point B); assumption.
  - apply (motor_point_ext_plane B); assumption.
  - apply (motor_line_ext_line B); assumption.
  - apply (motor_point_join_point B); assumption.
  - apply (motor_point_join_line B); assumption.
  - apply (motor_line_join_point B); assumption.
  - apply (motor_plane_join_point B); assumption.
  - apply (motor_point_join_plane B); assumption.
Qed.
(** the same for the inner products *)
Theorem C36_motions_commute_dot : forall (B : Build) m, motor_study m = 0 ->
  let n := motor_n m in
  (forall a b, plane_dot_plane (motor_on_plane m a) (motor_on_plane m b) = n * n * plane_dot_plane a b) /\
  (forall a b, wf_line a -> wf_line b ->
     line_dot_line (motor_on_line m a) (motor_on_line m b) = n * n * line_dot_line a b) /\
  (forall a b, point_dot_point (motor_on_point m a) (motor_on_point m b) = n * n * point_dot_point a b) /\
  (forall a b, wf_line b -> mv_plane (plane_dot_line (motor_on_plane m a) (motor_on_line m b))
     == mvscale n (mv_plane (motor_on_plane m (plane_dot_line a b)))) /\
  (forall a b, mv_line (plane_dot_point (motor_on_plane m a) (motor_on_point m b))
     == mvscale n (mv_line (motor_on_line m (plane_dot_point a b)))) /\
  (forall a b, wf_line b -> mv_plane (point_dot_line (motor_on_point m a) (motor_on_line m b))
     == mvscale n (mv_plane (motor_on_plane m (point_dot_line a b)))).
Proof.
  intros B m S n. unfold n. repeat match goal with |- _ /\ _ => split end; intros.
  - apply (motor_plane_dot_plane B); assumption.
  - apply (motor_line_dot_line B); assumption.
  - apply (motor_point_dot_point B); assumption.
  - apply (motor_plane_dot_line B); assumption.
  - apply (motor_plane_dot_point B); assumption.
  - apply (motor_point_dot_line B); assumption.
Qed.
Example C36_ex : motor_study (motor_ctor 1 2 3 4 5 6 7 56) = 0 /\ motor_n (motor_ctor 1 2 3 4 5 6 7 56) = 30.
Proof. split; gcbv; lra. Qed.
Print Assumptions C36_motions_commute.
Print Assumptions C36_motions_commute_dot.
