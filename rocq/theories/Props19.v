(** Property C70: the entities as fixed points of motions and the motions as
    products of planes, docs/overview.md 17-27, point.hpp 11-14.  Exact real
    arithmetic. *)
From Coq Require Import Reals ZArith Lra Lia Setoid Morphisms.
From Verif Require Import AlgTac SpecGeom FloR Closed Geom AlgGP AlgSW AlgNorm Motion Ctors ExpLog ExpSeries LogExp LogExp2 KernelExpLog Vec ApiLin Wf Props04 Props05 Props06 Props13.
Local Open Scope R_scope.

(** ** Lemmas on vectors *)
Lemma vscale_inj k a b : k <> 0 -> vscale k a = vscale k b -> a = b.
Proof.
  intros K H. apply vec_inj in H. destruct a, b. cbn in H. destruct H as (H1 & H2 & H3).
  f_equal; eapply Rmult_eq_reg_l; eassumption.
Qed.
Lemma mirror_fixed n d x : n <> vzero -> mirror n d x = x -> on_plane n d x.
Proof.
  intros N H. assert (E : vscale (2 * (vdot n x + d)) n = vzero).
  { revert H. unfold mirror. generalize (vscale (2 * (vdot n x + d)) n). destruct x as [a b c]. intros [v1 v2 v3] H.
    apply vec_inj in H. cbn in H. unfold vzero. f_equal; lra. }
  apply vscale_zero in E. destruct E as [E|E]; [unfold on_plane; lra|contradiction].
Qed.
(** a combination of three independent vectors vanishes only trivially *)
Lemma independent a b c x y z : vdet a b c <> 0 ->
  vadd (vadd (vscale x a) (vscale y b)) (vscale z c) = vzero -> x = 0 /\ y = 0 /\ z = 0.
Proof.
  intros D H.
  assert (X : x * vdet a b c = 0).
  { transitivity (vdet (vadd (vadd (vscale x a) (vscale y b)) (vscale z c)) b c); [destruct a, b, c; vcbn; ring|rewrite H; destruct b, c; vcbn; ring]. }
  assert (Y : y * vdet a b c = 0).
  { transitivity (vdet a (vadd (vadd (vscale x a) (vscale y b)) (vscale z c)) c); [destruct a, b, c; vcbn; ring|rewrite H; destruct a, c; vcbn; ring]. }
  assert (Z : z * vdet a b c = 0).
  { transitivity (vdet a b (vadd (vadd (vscale x a) (vscale y b)) (vscale z c))); [destruct a, b, c; vcbn; ring|rewrite H; destruct a, b; vcbn; ring]. }
  repeat split; (eapply Rmult_integral in X; eapply Rmult_integral in Y; eapply Rmult_integral in Z; tauto).
Qed.
(** coordinates in an orthonormal basis *)
Lemma orthonormal n m k v : vdot n n = 1 -> vdot m m = 1 -> vdot k k = 1 ->
  vdot n m = 0 -> vdot m k = 0 -> vdot n k = 0 -> vdet n m k <> 0 ->
  vadd (vadd (vscale (vdot n v) n) (vscale (vdot m v) m)) (vscale (vdot k v) k) = v.
Proof.
  intros U1 U2 U3 O1 O2 O3 D.
  assert (J : forall i, vdot i n = 0 -> vdot i m = 0 -> vdot i k = 0 -> i = vzero).
  { intros i J1 J2 J3. apply vec_eq; [| |];
    apply Rmult_eq_reg_r with (vdet n m k); auto; cbn [vzero vx vy vz]; rewrite Rmult_0_l.
    - transitivity (vdot i n * vx (vcross m k) + vdot i m * vx (vcross k n) + vdot i k * vx (vcross n m)); [destruct n, m, k, i; vcbn; ring|rewrite J1, J2, J3; ring].
    - transitivity (vdot i n * vy (vcross m k) + vdot i m * vy (vcross k n) + vdot i k * vy (vcross n m)); [destruct n, m, k, i; vcbn; ring|rewrite J1, J2, J3; ring].
    - transitivity (vdot i n * vz (vcross m k) + vdot i m * vz (vcross k n) + vdot i k * vz (vcross n m)); [destruct n, m, k, i; vcbn; ring|rewrite J1, J2, J3; ring]. }
  apply vsub_zero. apply J.
  - transitivity (vdot n v * vdot n n + vdot m v * vdot n m + vdot k v * vdot n k - vdot n v); [destruct n, m, k, v; vcbn; ring|rewrite U1, O1, O3; ring].
  - transitivity (vdot n v * vdot n m + vdot m v * vdot m m + vdot k v * vdot m k - vdot m v); [destruct n, m, k, v; vcbn; ring|rewrite U2, O1, O2; ring].
  - transitivity (vdot n v * vdot n k + vdot m v * vdot m k + vdot k v * vdot k k - vdot k v); [destruct n, m, k, v; vcbn; ring|rewrite U3, O2, O3; ring].
Qed.
(** perpendicular lines whose moments are reciprocal have a common point *)
Lemma perp_lines_meet u o v m : vdot u u = 1 -> vdot v v = 1 -> vdot u v = 0 -> vdot u o = 0 -> vdot v m = 0 ->
  vdot u m + vdot v o = 0 -> exists x, on_line u o x /\ on_line v m x.
Proof.
  intros U1 U2 O A1 A2 Rc. set (w := vcross u v).
  assert (W : vdot w w = 1) by (unfold w; rewrite lagrange, U1, U2, O; ring).
  assert (Wu : vdot u w = 0) by (subst w; destruct u, v; vcbn; ring).
  assert (Wv : vdot v w = 0) by (subst w; destruct u, v; vcbn; ring).
  assert (D : vdet u v w <> 0).
  { replace (vdet u v w) with (vdot w w); [lra|]. subst w. destruct u, v. unfold vdet. vcbn. ring. }
  assert (Eo := orthonormal u v w o U1 U2 W O Wv Wu D). assert (Em := orthonormal u v w m U1 U2 W O Wv Wu D).
  assert (wu : vcross w u = v).
  { transitivity (vsub (vscale (vdot u u) v) (vscale (vdot u v) u)); [subst w; destruct u, v; vring|rewrite U1, O; destruct u, v; vring]. }
  assert (wv : vcross w v = vscale (-1) u).
  { transitivity (vsub (vscale (vdot u v) v) (vscale (vdot v v) u)); [subst w; destruct u, v; vring|rewrite U2, O; destruct u, v; vring]. }
  rewrite A1 in Eo. rewrite A2 in Em.
  exists (vadd (vsub (vscale (vdot w m) u) (vscale (vdot w o) v)) (vscale (vdot v o) w)). unfold on_line. split.
  - etransitivity; [|exact Eo].
    transitivity (vadd (vscale (- vdot w o) (vcross v u)) (vscale (vdot v o) (vcross w u))).
    + generalize (vdot w o), (vdot w m), (vdot v o). clear. clearbody w. intros. destruct u, v, w. vring.
    + replace (vcross v u) with (vscale (-1) w) by (subst w; destruct u, v; vring).
      rewrite wu. generalize (vdot w o), (vdot v o). clear. clearbody w. intros. destruct u, v, w. vring.
  - etransitivity; [|exact Em].
    transitivity (vadd (vscale (vdot w m) (vcross u v)) (vscale (vdot v o) (vcross w v))).
    + generalize (vdot w o), (vdot w m), (vdot v o). clear. clearbody w. intros. destruct u, v, w. vring.
    + change (vcross u v) with w. rewrite wv. replace (vdot u m) with (- vdot v o) by lra.
      generalize (vdot w m), (vdot v o). clear. clearbody w. intros. destruct u, v, w. vring.
Qed.
(** the fixed points of the map of a unit quadruple *)
Lemma motion_fixed m x : motor_n m = 1 -> motor_study m = 0 ->
  motion m x = x ->
  motor_e0123 m = 0 /\ (motor_b m <> vzero -> on_line (motor_b m) (motor_c m) x) /\ (motor_b m = vzero -> motor_c m = vzero).
Proof.
  unfold motion, motor_n, motor_study, motor_rot, motor_tr, qn, on_line.
  generalize (motor_scalar m), (motor_e0123 m), (motor_b m), (motor_c m). clear m. intros s q b c N S0 H.
  set (w := vadd (vcross b x) c).
  assert (E : vsub (vcross b w) (vscale s w) = vscale q b).
  { apply vec_inj in H. subst w. destruct b as [b1 b2 b3], c as [c1 c2 c3], x as [x1 x2 x3]. revert N H.
    unfold qrot, mtr. vcbn. intros N (H1 & H2 & H3).
    assert (N' : s * s = 1 - b1 * b1 - b2 * b2 - b3 * b3) by lra. rewrite N' in H1, H2, H3.
    apply vec_eq; cbn; lra. }
  assert (W : vdot w b = s * q) by (subst w; destruct b, c, x; revert S0; vcbn; lra).
  assert (Q : q = 0).
  { assert (D : - s * vdot w b = q * vdot b b).
    { transitivity (vdot (vscale q b) b); [rewrite <- E; clearbody w; destruct w, b; vcbn; ring|destruct b; vcbn; ring]. }
    rewrite W in D. transitivity (q * (s * s + vdot b b)); [rewrite N; ring|lra]. }
  subst q. split; [reflexivity|].
  assert (Z : s <> 0 -> w = vzero).
  { intro K. apply vdot_zero. assert (D : s * vdot w w = 0).
    { transitivity (vdot (vsub (vcross b w) (vscale s w)) (vscale (-1) w)); [clearbody w; destruct w, b; vcbn; ring|].
      rewrite E. destruct w, b; vcbn; ring. }
    apply Rmult_integral in D. tauto. }
  split.
  - intro NB. assert (Z' : w = vzero).
    { destruct (Req_dec s 0) as [->|K]; [|exact (Z K)].
      apply vdot_zero. assert (P := vdot_pos b NB). assert (L := lagrange b w).
      assert (C0 : vcross b w = vzero).
      { apply vec_inj in E. clearbody w. destruct w, b. revert E. vcbn. intros (E1 & E2 & E3). apply vec_eq; cbn; lra. }
      rewrite C0, vdot_zero_l in L. rewrite (vdot_comm b w), W in L.
      assert (L' : vdot b b * vdot w w = 0) by lra. apply Rmult_integral in L'. destruct L'; [lra|assumption]. }
    subst w. apply vec_inj in Z'. destruct b, c, x. revert Z'. vcbn. intros (E1 & E2 & E3). apply vec_eq; cbn; lra.
  - intros ->. assert (K : s <> 0) by (intros ->; revert N; vcbn; lra). specialize (Z K).
    rewrite <- Z. subst w. destruct c, x. vring.
Qed.
Lemma motion_fixes m x : motor_n m = 1 -> motor_e0123 m = 0 -> on_line (motor_b m) (motor_c m) x -> motion m x = x.
Proof.
  unfold motion, motor_n, motor_rot, motor_tr, qn, on_line.
  generalize (motor_scalar m), (motor_e0123 m), (motor_b m), (motor_c m). clear m. intros s q b c N -> <-.
  destruct b as [b1 b2 b3], x as [x1 x2 x3]. revert N. unfold qrot, mtr. vcbn. intro N.
  assert (A : b3 * b3 = 1 - s * s - b1 * b1 - b2 * b2) by lra. apply vec_eq; vcbn; ring [A].
Qed.
Lemma motion_id m x : motor_n m = 1 -> motor_e0123 m = 0 -> motor_b m = vzero -> motor_c m = vzero -> motion m x = x.
Proof.
  intros N Q Hb Hc. apply motion_fixes; auto. rewrite Hb, Hc. destruct x. unfold on_line. vring.
Qed.

(** ** Reflections: the plane is exactly the set of fixed points *)
Theorem C70_plane_fixed_points : forall (B : Build) q x, plane_n q <> vzero -> point_w x <> 0 ->
  (pos (plane_on_point q x) = pos x <-> plane_has q (pos x)).
Proof.
  intros B q x N W. assert (P := vdot_pos _ N).
  assert (E : pos (plane_on_point q x)
    = vsub (pos x) (vscale (2 * (vdot (plane_n q) (pos x) + plane_d q) / vdot (plane_n q) (plane_n q)) (plane_n q))).
  { unfold pos. rewrite (plane_on_point_w B), (plane_on_point_num B). unfold plane_has.
    revert P. destruct (plane_n q) as [a b c], (pnum x) as [u v w]. vcbn. intro P. apply vec_eq; cbn; field; lra. }
  rewrite E. unfold plane_has, on_plane. split.
  - intro H. assert (H' : vscale (2 * (vdot (plane_n q) (pos x) + plane_d q) / vdot (plane_n q) (plane_n q)) (plane_n q) = vzero).
    { revert H. generalize (vscale (2 * (vdot (plane_n q) (pos x) + plane_d q) / vdot (plane_n q) (plane_n q)) (plane_n q)).
      destruct (pos x) as [a b c]. intros [v1 v2 v3] H. apply vec_inj in H. cbn in H. unfold vzero. f_equal; lra. }
    apply vscale_zero in H'. destruct H' as [H'|H']; [|contradiction].
    unfold Rdiv in H'. apply Rmult_integral in H'. destruct H' as [H'|H']; [lra|].
    exfalso. revert H'. apply Rinv_neq_0_compat. lra.
  - intros ->. unfold Rdiv. rewrite Rmult_0_r, Rmult_0_l. destruct (pos x), (plane_n q). vring.
Qed.
Example C70_plane_ex : let q := plane_ctor 1 2 2 (-9) in plane_n q <> vzero /\ plane_has q (pos (point_ctor 1 2 2)) /\
  ~ plane_has q (pos (point_ctor 0 0 0)).
Proof.
  cbv zeta. split; [intro H; apply vec_inj in H; cbn in H; lra|].
  unfold plane_has, on_plane, pos, vdot; cbn; split; lra.
Qed.

(** ** Motors: a normalized motor fixes a point iff it is the identity or a
    rotation about a line, and then exactly the points of that line *)
Theorem C70_motor_fixed_points : forall (B : Build) m x, unit (mv_motor m) -> point_w x <> 0 ->
  (pos (motor_on_point m x) = pos x <->
   motor_e0123 m = 0 /\ on_line (motor_b m) (motor_c m) (pos x)).
Proof.
  intros B m x U W. rewrite (motor_point_pos B m U) by exact W.
  apply unit_motor_geo in U. destruct U as [N S0]. split.
  - intro H. destruct (motion_fixed m (pos x) N S0 H) as (Q & L & Z). split; [exact Q|].
    destruct (Req_dec (vdot (motor_b m) (motor_b m)) 0) as [D|D].
    + apply vdot_zero in D. rewrite D, (Z D). unfold on_line. destruct (pos x). vring.
    + apply L. intro H0. apply D. rewrite H0. apply vdot_zero_l.
  - intros [Q L]. apply motion_fixes; assumption.
Qed.
(** the same for rotors, whose axis passes through the origin *)
Theorem C70_rotor_fixed_points : forall (B : Build) r x, unit (mv_rotor r) -> point_w x <> 0 ->
  (pos (rotor_on_point r x) = pos x <-> on_line (rotor_b r) vzero (pos x)).
Proof.
  intros B r x U W. set (m := motor_of_rotor r).
  assert (E : motion m (pos x) = pos (rotor_on_point r x)).
  { unfold pos. rewrite (rotor_on_point_w B), (rotor_on_point_num B).
    assert (U' := proj1 (unit_rotor_geo r) U). rewrite U', Rmult_1_l.
    subst m. clear U U'. destruct r as [[a b c d]], x as [[w x y z]]. unfold motion. apply vec_eq; gcbv; ring. }
  rewrite <- E. assert (N : motor_n m = 1) by (rewrite <- (proj1 (unit_rotor_geo r) U); subst m; destruct r as [[a b c d]]; gcbv; ring).
  assert (Q : motor_e0123 m = 0) by (subst m; destruct r as [[a b c d]]; reflexivity).
  assert (C : motor_c m = vzero) by (subst m; destruct r as [[a b c d]]; reflexivity).
  assert (Bb : motor_b m = rotor_b r) by (subst m; destruct r as [[a b c d]]; reflexivity).
  assert (S0 : motor_study m = 0) by (unfold motor_study; rewrite Q, C, vdot_comm, vdot_zero_l; ring).
  split.
  - intro H. destruct (motion_fixed m (pos x) N S0 H) as (_ & L & Z).
    destruct (Req_dec (vdot (motor_b m) (motor_b m)) 0) as [D|D].
    + apply vdot_zero in D. rewrite <- Bb, D. unfold on_line. destruct (pos x). vring.
    + rewrite <- Bb, <- C. apply L. intro H0. apply D. rewrite H0. apply vdot_zero_l.
  - intros L. apply motion_fixes; [exact N|exact Q|]. rewrite Bb, C. exact L.
Qed.
(** a translator other than the identity fixes no point *)
Theorem C70_translator_fixed_points : forall (B : Build) t x, wf_translator t -> point_w x <> 0 ->
  (pos (translator_on_point t x) = pos x <-> translator_c t = vzero).
Proof.
  intros B t x W K. assert (E : pos (translator_on_point t x) = vadd (pos x) (vscale (-2) (translator_c t))).
  { unfold pos. rewrite (translator_on_point_w B) by exact W. rewrite (translator_on_point_num B) by exact W.
    destruct (pnum x), (translator_c t). apply vec_eq; vcbn; field; exact K. }
  rewrite E. split.
  - intro H. apply vec_inj in H. destruct (translator_c t) as [a b c], (pos x) as [x1 x2 x3]. revert H. cbn. intros (H1 & H2 & H3).
    unfold vzero. f_equal; lra.
  - intros ->. destruct (pos x). vring.
Qed.
Example C70_fixed_ex : let m := motor_ctor (3/5) (4/5) 0 0 0 2 (-3) 0 in
  unit (mv_motor m) /\ motor_e0123 m = 0.
Proof. cbv zeta. split; [apply unit_motor_iff; unfold study, dot4; cbn; split; lra|cbn; lra]. Qed.

(** ** Points: three reflections in planes with a single common point fix
    exactly that point, which is the meet of the planes; if the planes are
    orthogonal they reflect everything in the point *)
Theorem C70_point_fixed_point : forall (B : Build) p q r x,
  unit (mv_plane p) -> unit (mv_plane q) -> unit (mv_plane r) ->
  vdet (plane_n p) (plane_n q) (plane_n r) <> 0 -> point_w x <> 0 ->
  let a := plane_ext_line p (plane_ext_plane q r) in
  let y := plane_on_point p (plane_on_point q (plane_on_point r x)) in
  point_w a <> 0 /\ (pos y = pos x <-> pos x = pos a) /\
  (vdot (plane_n p) (plane_n q) = 0 -> vdot (plane_n q) (plane_n r) = 0 -> vdot (plane_n p) (plane_n r) = 0 ->
   pos y = vsub (vscale 2 (pos a)) (pos x)).
Proof.
  intros B p q r x Up Uq Ur D W a y.
  assert (Wl : proper_line (plane_ext_plane q r)).
  { apply (C34_meet B). intro H. apply D. unfold vdet. rewrite H. rewrite vdot_comm. apply vdot_zero_l. }
  destruct (C34_meet B) as (MP & _ & ML & _).
  destruct (ML p (plane_ext_plane q r) Wl) as [Wz Pa]. fold a in Wz, Pa.
  assert (Na : point_w a <> 0).
  { intro H. apply D. apply Wz in H. rewrite <- H. unfold vdet. rewrite (meet_pp_u B). reflexivity. }
  destruct (Pa Na) as (A1 & A2 & A3).
  assert (NZ : ~ mv_line (plane_ext_plane q r) == mvzero).
  { intro H. destruct Wl as (_ & NU & _). apply NU. unfold line_u.
    generalize (H (Bl false false true true)), (H (Bl false true false true)), (H (Bl false true true false)).
    destruct (plane_ext_plane q r) as [[? ? ? ?] [? ? ? ?]]. gcbv. intros. apply vec_eq; cbn; lra. }
  destruct (MP q r NZ) as [_ MQ]. apply MQ in A2. destruct A2 as [A2 A2'].
  assert (E1 : pos y = mirror (plane_n p) (plane_d p) (mirror (plane_n q) (plane_d q) (mirror (plane_n r) (plane_d r) (pos x)))).
  { unfold y. rewrite !mirror_point; auto; rewrite ?mirror_point_w; auto. }
  split; [exact Na|]. split; [split|].
  - intro H. rewrite E1 in H.
    assert (H1 : mirror (plane_n q) (plane_d q) (mirror (plane_n r) (plane_d r) (pos x)) = mirror (plane_n p) (plane_d p) (pos x)).
    { rewrite <- H at 2. symmetry. apply mirror_involutive. apply unit_plane_geo. exact Up. }
    assert (I : vdot (plane_n p) (pos x) + plane_d p = 0 /\ vdot (plane_n q) (pos x) + plane_d q = 0 /\ vdot (plane_n r) (pos x) + plane_d r = 0).
    { clear - H1 D. revert H1 D. generalize (plane_n p), (plane_n q), (plane_n r), (pos x), (plane_d p), (plane_d q), (plane_d r).
      intros n m k z d e f H D. set (s := vdot k z + f).
      assert (C : vadd (vadd (vscale (- (vdot n z + d)) n) (vscale (vdot m z + e - 2 * s * vdot m k) m)) (vscale s k) = vzero).
      { apply vec_inj in H. subst s. destruct n, m, k, z. revert H. unfold mirror. vcbn. intros (H1 & H2 & H3). apply vec_eq; cbn; lra. }
      apply (independent n m k) in C; [|exact D]. destruct C as (C1 & C2 & C3). fold s. rewrite C3 in C2. lra. }
    destruct I as (I1 & I2 & I3). apply A3; [exact I1|]. apply MQ. split; assumption.
  - intro H. rewrite E1, H. rewrite (mirror_fixes _ _ _ A2'), (mirror_fixes _ _ _ A2), (mirror_fixes _ _ _ A1). reflexivity.
  - intros O1 O2 O3. rewrite E1. apply unit_plane_geo in Up, Uq, Ur. unfold plane_has, on_plane in *.
    clear - O1 O2 O3 Up Uq Ur A1 A2 A2' D. revert O1 O2 O3 Up Uq Ur A1 A2 A2' D.
    generalize (plane_n p), (plane_n q), (plane_n r), (plane_d p), (plane_d q), (plane_d r), (pos x), (pos a).
    intros n m k d e f z c O1 O2 O3 U1 U2 U3 A1 A2 A3 D.
    (** z - c in the orthonormal basis *)
    set (v := vsub z c).
    assert (F1 : vdot k z + f = vdot k v) by (subst v; destruct k, z, c; revert A3; vcbn; lra).
    assert (F2 : vdot m (mirror k f z) + e = vdot m v).
    { unfold mirror. rewrite F1. transitivity (vdot m z + e - 2 * vdot k v * vdot m k); [clearbody v; destruct m, k, z; vcbn; ring|].
      rewrite O2. subst v. destruct m, z, c. revert A2. vcbn. lra. }
    assert (F3 : vdot n (mirror m e (mirror k f z)) + d = vdot n v).
    { unfold mirror at 1. rewrite F2. unfold mirror. rewrite F1.
      transitivity (vdot n z + d - 2 * vdot k v * vdot n k - 2 * vdot m v * vdot n m); [clearbody v; destruct m, k, n, z; vcbn; ring|].
      rewrite O1, O3. subst v. destruct n, z, c. revert A1. vcbn. lra. }
    assert (P := orthonormal n m k v U1 U2 U3 O1 O2 O3 D).
    unfold mirror at 1. rewrite F3. unfold mirror at 1. rewrite F2. unfold mirror. rewrite F1.
    transitivity (vsub z (vscale 2 (vadd (vadd (vscale (vdot n v) n) (vscale (vdot m v) m)) (vscale (vdot k v) k)))).
    + generalize (vdot n v), (vdot m v), (vdot k v). intros. destruct n, m, k, z. vring.
    + rewrite P. subst v. destruct z, c. vring.
Qed.
Example C70_point_ex : let p := plane_ctor 1 0 0 (-1) in let q := plane_ctor (3/5) (4/5) 0 2 in let r := plane_ctor 0 0 1 5 in
  unit (mv_plane p) /\ unit (mv_plane q) /\ unit (mv_plane r) /\ vdet (plane_n p) (plane_n q) (plane_n r) <> 0.
Proof.
  cbv zeta. repeat split; try (apply unit_plane_iff; unfold dot3; cbn; lra). unfold vdet, vdot, vcross. cbn. lra.
Qed.

(** ** Products of planes *)
Lemma plane_mul_plane_coords (B : Build) a b : let m := plane_mul_plane a b in
  motor_scalar m = vdot (plane_n a) (plane_n b) /\ motor_b m = vcross (plane_n a) (plane_n b) /\
  motor_c m = vsub (vscale (plane_d a) (plane_n b)) (vscale (plane_d b) (plane_n a)) /\ motor_e0123 m = 0.
Proof. destruct a as [[? ? ? ?]], b as [[? ? ? ?]], B as [[|]]; repeat split; try apply vec_eq; gcbv; ring. Qed.

Theorem C70_product_of_planes : forall (B : Build) a b, unit (mv_plane a) -> unit (mv_plane b) ->
  let m := plane_mul_plane a b in
  unit (mv_motor m) /\
  (** it performs one reflection after the other *)
  (forall x, motor_on_point m x = plane_on_point a (plane_on_point b x)) /\
  (forall x, wf_line x -> motor_on_line m x = plane_on_line a (plane_on_line b x)) /\
  (forall x, motor_on_plane m x = plane_on_plane a (plane_on_plane b x)) /\
  (** intersecting planes: a rotation whose axis is their meet *)
  (vcross (plane_n a) (plane_n b) <> vzero -> forall x, point_w x <> 0 ->
     (pos (motor_on_point m x) = pos x <-> line_has (plane_ext_plane a b) (pos x))) /\
  (** planes with the same normal: a translation by twice the gap from b to a *)
  (plane_n a = plane_n b -> forall x, point_w x <> 0 ->
     pos (motor_on_point m x) = vadd (pos x) (vscale (2 * (plane_d b - plane_d a)) (plane_n a))).
Proof.
  intros B a b Ua Ub m.
  assert (G := plane_mul_plane_gp B a b). fold m in G.
  assert (U : unit (mv_motor m)) by (eapply unit_proper; [symmetry; exact G|apply unit_gp; assumption]).
  assert (K : forall x, sandwich (mv_motor m) x == sandwich (mv_plane a) (sandwich (mv_plane b) x)).
  { intro x. rewrite <- sandwich_gp. unfold sandwich. rewrite G. reflexivity. }
  assert (PT : forall x, motor_on_point m x = plane_on_point a (plane_on_point b x)).
  { intro x. apply mv_point_inj. rewrite (motor_on_point_sw B), (plane_on_point_sw B), (plane_on_point_sw B). apply K. }
  split; [exact U|]. split; [exact PT|]. split; [|split; [|split]].
  - intros x W. apply mv_line_inj. rewrite (motor_on_line_sw B), (plane_on_line_sw B), (plane_on_line_sw B);
      [apply K|exact W|apply (plane_on_line_wf B); exact W|exact W].
  - intros x. apply mv_plane_inj. rewrite (motor_on_plane_sw B), (plane_on_plane_sw B), (plane_on_plane_sw B). apply K.
  - intros N x W. rewrite (C70_motor_fixed_points B m x U W).
    destruct (plane_mul_plane_coords B a b) as (_ & Hb & Hc & Q). fold m in Hb, Hc, Q. rewrite Hb, Hc, Q.
    unfold line_has. rewrite (meet_pp_u B), (meet_pp_m B). split; [tauto|auto].
  - intros E x W. rewrite PT. rewrite !mirror_point; auto; rewrite ?mirror_point_w; auto.
    apply unit_plane_geo in Ub. rewrite E. unfold mirror. revert Ub. generalize (plane_n b), (plane_d a), (plane_d b), (pos x).
    intros [n1 n2 n3] d e [x1 x2 x3]. vcbn. intro Ub.
    assert (A : n3 * n3 = 1 - n1 * n1 - n2 * n2) by lra. apply vec_eq; cbn; ring [A].
Qed.
Example C70_product_ex : let a := plane_ctor 1 0 0 (-1) in let b := plane_ctor (3/5) (4/5) 0 2 in let c := plane_ctor 1 0 0 7 in
  unit (mv_plane a) /\ unit (mv_plane b) /\ unit (mv_plane c) /\ vcross (plane_n a) (plane_n b) <> vzero /\ plane_n a = plane_n c.
Proof.
  cbv zeta. repeat split; try (apply unit_plane_iff; unfold dot3; cbn; lra).
  intro H. apply vec_inj in H. cbn in H. lra.
Qed.
(** conversely: each normalized rotor is the product of two planes through its
    axis, each translator of two parallel planes *)
Theorem C70_rotor_from_planes : forall (B : Build) r, unit (mv_rotor r) ->
  exists a b, unit (mv_plane a) /\ unit (mv_plane b) /\ plane_d a = 0 /\ plane_d b = 0 /\
    vdot (plane_n a) (rotor_b r) = 0 /\ vdot (plane_n b) (rotor_b r) = 0 /\
    mv_motor (plane_mul_plane a b) == mv_rotor r.
Proof.
  intros B r U. apply unit_rotor_geo in U.
  destruct (perp_exists (rotor_b r)) as (n & N & P).
  assert (NN := vdot_pos n N). assert (SQ : sqrt (vdot n n) * sqrt (vdot n n) = vdot n n) by (apply sqrt_sqrt; lra).
  assert (SP : 0 < sqrt (vdot n n)) by (apply sqrt_lt_R0; exact NN).
  set (k := vscale (/ sqrt (vdot n n)) n).
  assert (K1 : vdot k k = 1).
  { transitivity (vdot n n * (/ sqrt (vdot n n) * / sqrt (vdot n n))); [subst k; destruct n; vcbn; ring|]. rewrite <- Rinv_mult, SQ. field. lra. }
  assert (K2 : vdot k (rotor_b r) = 0).
  { transitivity (/ sqrt (vdot n n) * vdot n (rotor_b r)); [subst k; destruct n, (rotor_b r); vcbn; ring|rewrite P; ring]. }
  clearbody k. clear n N P NN SQ SP.
  set (h := vsub (vscale (rotor_scalar r) k) (vcross (rotor_b r) k)).
  exists (plane_ctor (vx h) (vy h) (vz h) 0), (plane_ctor (vx k) (vy k) (vz k) 0).
  destruct r as [[s b1 b2 b3]], k as [k1 k2 k3]. revert U K1 K2. unfold rotor_n, qn, rotor_b, rotor_scalar. subst h. vcbn. cbn. intros U K1 K2.
  split; [|split; [|split; [|split; [|split; [|split]]]]].
  - apply unit_plane_iff. unfold dot3. cbn.
    transitivity ((s * s + (b1 * b1 + b2 * b2 + b3 * b3)) * (k1 * k1 + k2 * k2 + k3 * k3) - (k1 * b1 + k2 * b2 + k3 * b3) * (k1 * b1 + k2 * b2 + k3 * b3)); [ring|].
    rewrite U, K1, K2. ring.
  - apply unit_plane_iff. unfold dot3. cbn. lra.
  - reflexivity.
  - reflexivity.
  - cbn. transitivity (s * (k1 * b1 + k2 * b2 + k3 * b3)); [ring|rewrite K2; ring].
  - cbn. lra.
  - assert (M : forall y, y * (k1 * k1 + k2 * k2 + k3 * k3) = y) by (intro y; rewrite K1; ring).
    assert (O : forall y, y * (k1 * b1 + k2 * b2 + k3 * b3) = 0) by (intro y; rewrite K2; ring).
    generalize (M s), (M b1), (M b2), (M b3), (O k1), (O k2), (O k3). clear. intros.
    intros [[|] [|] [|] [|]]; gcbv; lra.
Qed.
Theorem C70_translator_from_planes : forall (B : Build) t, wf_translator t ->
  exists a b, unit (mv_plane a) /\ unit (mv_plane b) /\ plane_n a = plane_n b /\
    mv_motor (plane_mul_plane a b) == mv_translator t.
Proof.
  intros B t W. unfold wf_translator in W. destruct t as [[t0 c1 c2 c3]]. cbn in W. subst t0.
  set (v := V c1 c2 c3). destruct (Req_dec (vdot v v) 0) as [Z|Z].
  - apply vdot_zero in Z. apply vec_inj in Z. cbn in Z. destruct Z as (-> & -> & ->).
    exists (plane_ctor 1 0 0 0), (plane_ctor 1 0 0 0).
    split; [apply unit_plane_iff; unfold dot3; cbn; lra|split; [apply unit_plane_iff; unfold dot3; cbn; lra|split; [reflexivity|]]].
    rewrite (plane_mul_plane_gp B). intros [[|] [|] [|] [|]]; mvcbv; ring.
  - assert (P : 0 < vdot v v) by (assert (X := vdot_nonneg v); lra).
    assert (SP : 0 < sqrt (vdot v v)) by (apply sqrt_lt_R0; exact P).
    assert (SQ : sqrt (vdot v v) * sqrt (vdot v v) = vdot v v) by (apply sqrt_sqrt; lra).
    set (s := sqrt (vdot v v)) in *.
    exists (plane_ctor (c1 / s) (c2 / s) (c3 / s) s), (plane_ctor (c1 / s) (c2 / s) (c3 / s) 0).
    assert (UU : forall d, unit (mv_plane (plane_ctor (c1 / s) (c2 / s) (c3 / s) d))).
    { intro d. apply unit_plane_iff. unfold dot3. cbn. transitivity (vdot v v / (s * s)); [unfold v, vdot; cbn; field; lra|rewrite SQ; field; lra]. }
    split; [apply UU|split; [apply UU|split; [reflexivity|]]].
    rewrite (plane_mul_plane_gp B). revert SP SQ. unfold v, vdot. cbn [vx vy vz]. generalize s. clear. intros s SP SQ.
    intros [[|] [|] [|] [|]]; mvcbv; try (field; lra).
    all: apply Rmult_eq_reg_l with (s * s); [|nra]; field_simplify; try lra; rewrite <- ?SQ; try ring.
    all: try (replace (s ^ 2) with (s * s) by ring; rewrite SQ; ring).
Qed.

(** translator.hpp 71-75: data (0, a, b, c) displaces by d along the direction
    (a, b, c) iff -sqrt(a^2 + b^2 + c^2) is half of d *)
Theorem C70_translator_data : forall (B : Build) a b c d, V a b c <> vzero ->
  ((forall x, point_w x <> 0 ->
     pos (translator_on_point (mktranslator (mk4 0 a b c)) x) = vadd (pos x) (vscale d (vunit (V a b c))))
   <-> - sqrt (a * a + b * b + c * c) = d / 2).
Proof.
  intros B a b c d N. set (v := V a b c) in *. assert (P := vdot_pos v N).
  assert (SP : 0 < vlen v) by (apply sqrt_lt_R0; exact P).
  assert (E : forall x, point_w x <> 0 -> pos (translator_on_point (mktranslator (mk4 0 a b c)) x) = vadd (pos x) (vscale (-2) v)).
  { intros x K. unfold pos. rewrite (translator_on_point_w B) by reflexivity. rewrite (translator_on_point_num B) by reflexivity.
    unfold translator_c. cbn. fold v. destruct (pnum x), v. apply vec_eq; vcbn; field; exact K. }
  change (a * a + b * b + c * c) with (vdot v v). fold (vlen v). split.
  - intro H. specialize (H (point_ctor 0 0 0)). rewrite E in H by (cbn; lra). specialize (H ltac:(cbn; lra)).
    assert (H' : vscale (-2 - d / vlen v) v = vzero).
    { revert H. unfold vunit. clearbody v. destruct v as [a' b' c']. generalize (pos (point_ctor 0 0 0)). intros [x y z] H.
      apply vec_inj in H. revert H. cbn [vadd vscale vx vy vz]. intros (H1 & H2 & H3). apply vec_eq; cbn [vscale vzero vx vy vz]; unfold Rdiv; lra. }
    apply vscale_zero in H'. destruct H' as [H'|H']; [|contradiction].
    apply Rmult_eq_reg_r with (/ vlen v); [|apply Rinv_neq_0_compat; lra].
    transitivity (-1); [field; lra|]. transitivity (d / vlen v / 2); [lra|field; lra].
  - intros H x K. rewrite E by exact K. f_equal. unfold vunit. replace d with (-2 * vlen v) by lra.
    clearbody v. revert SP. generalize (vlen v). intros k SP. destruct v. apply vec_eq; vcbn; field; lra.
Qed.

(** line.hpp 12-15: a bivector is the meet of two planes iff its coordinates
    satisfy the Pluecker relation *)
Theorem C70_factorizable : forall (B : Build) l, wf_line l ->
  ((exists p q, plane_ext_plane p q = l) <-> vdot (line_u l) (line_m l) = 0).
Proof.
  intros B l W. split.
  - intros (p & q & <-). rewrite (meet_pp_u B), (meet_pp_m B). destruct (plane_n p), (plane_n q). vcbn. ring.
  - intro O.
    assert (EXT : forall l', wf_line l' -> line_u l' = line_u l -> line_m l' = line_m l -> l' = l).
    { intros [[? ? ? ?] [? ? ? ?]]. unfold wf_line in *. destruct l as [[? ? ? ?] [? ? ? ?]]. unfold line_u, line_m. cbn in *.
      destruct W as [-> ->]. intros [-> ->] E1 E2. injection E1 as -> -> ->. injection E2 as -> -> ->. reflexivity. }
    destruct (Req_dec (vdot (line_u l) (line_u l)) 0) as [Z|Z].
    + apply vdot_zero in Z. set (m := line_m l) in *.
      exists (plane_ctor 0 0 0 1), (plane_ctor (vx m) (vy m) (vz m) 0).
      apply EXT; [apply (meet_pp_wf B)|rewrite (meet_pp_u B), Z|rewrite (meet_pp_m B)].
      * destruct m. apply vec_eq; cbn; ring.
      * destruct m. apply vec_eq; cbn; ring.
    + assert (NU : line_u l <> vzero) by (intro H; apply Z; rewrite H; apply vdot_zero_l).
      destruct (perp_exists (line_u l)) as (n & N & P). set (u := line_u l) in *. set (m := line_m l) in *.
      assert (NN := vdot_pos n N).
      set (x := line_foot u m). assert (X : on_line u m x) by (apply line_foot_on; assumption).
      set (k := vscale (/ vdot n n) (vcross u n)).
      assert (C : vcross n k = u).
      { transitivity (vscale (/ vdot n n) (vsub (vscale (vdot n n) u) (vscale (vdot n u) n))); [subst k; destruct u, n; apply vec_eq; vcbn; ring|].
        rewrite P. revert NN. generalize (vdot n n). intros r R0. destruct u, n. apply vec_eq; vcbn; field; lra. }
      exists (plane_ctor (vx n) (vy n) (vz n) (- vdot n x)), (plane_ctor (vx k) (vy k) (vz k) (- vdot k x)).
      apply EXT; [apply (meet_pp_wf B)|rewrite (meet_pp_u B)|rewrite (meet_pp_m B)].
      * rewrite <- C. destruct n, k. reflexivity.
      * fold m. rewrite <- X, <- C. clear. destruct n as [n1 n2 n3], k as [k1 k2 k3], x as [x1 x2 x3]. apply vec_eq; cbn; unfold vdot; cbn; ring.
Qed.
Example C70_factorizable_ex : let l := line_ctor 4 (-3) 0 3 4 0 in wf_line l /\ vdot (line_u l) (line_m l) = 0 /\
  vdot (line_u (line_ctor 1 0 0 1 0 0)) (line_m (line_ctor 1 0 0 1 0 0)) <> 0.
Proof. cbv zeta. unfold vdot; repeat split; cbn; lra. Qed.

Section P.
Context (rcp rsqrt : R -> R) (sz : bool) (Hrcp : exact_rcp rcp) (Hrsq : exact_rsqrt rsqrt).
Local Instance FLy : Flo R := Flo_R rcp rsqrt sz.

(** ** overview.md: every normalized motor that is not a translation is a screw
    motion: motor(ang, d, l) for a line l, and l and motor determine each other *)
Lemma motor_screw_of (B : Build) m : unit (mv_motor m) -> motor_b m <> vzero ->
  let b := vlen (motor_b m) in let s := motor_scalar m in let q := motor_e0123 m in
  let u := vscale (- / b) (motor_b m) in
  let o := vscale (- / b) (vadd (motor_c m) (vscale (q / b * s) u)) in
  let l := line_ctor (vx o) (vy o) (vz o) (vx u) (vy u) (vz u) in
  wf_line l /\ unit (mv_line l) /\ motor_screw (2 * acos s) (2 * q / b) l = m.
Proof.
  intros U NB. apply unit_motor_geo in U. destruct U as [N S0]. cbv zeta.
  assert (P := vdot_pos _ NB). assert (SP : 0 < vlen (motor_b m)) by (apply sqrt_lt_R0; exact P).
  assert (SQ : vlen (motor_b m) * vlen (motor_b m) = vdot (motor_b m) (motor_b m)) by apply vlen_sq.
  set (k := vlen (motor_b m)) in *. unfold motor_n, qn in N. unfold motor_study in S0.
  assert (HS : -1 <= motor_scalar m <= 1) by (split; nra).
  assert (CO : cos (acos (motor_scalar m)) = motor_scalar m) by (apply cos_acos; exact HS).
  assert (SI : sin (acos (motor_scalar m)) = k).
  { rewrite sin_acos by exact HS. rewrite <- (sqrt_square k) by lra. f_equal. unfold Rsqr. lra. }
  set (u := vscale (- / k) (motor_b m)).
  set (o := vscale (- / k) (vadd (motor_c m) (vscale (motor_e0123 m / k * motor_scalar m) u))).
  assert (Wl : wf_line (line_ctor (vx o) (vy o) (vz o) (vx u) (vy u) (vz u))) by (split; reflexivity).
  assert (UU : vdot u u = 1).
  { transitivity (vdot (motor_b m) (motor_b m) / (k * k)); [subst u; destruct (motor_b m); vcbn; field; lra|rewrite SQ; field; lra]. }
  assert (UC : vdot u (motor_c m) = - (motor_scalar m * motor_e0123 m) / k).
  { transitivity (- vdot (motor_b m) (motor_c m) / k); [subst u; destruct (motor_b m), (motor_c m); vcbn; field; lra|].
    f_equal. lra. }
  assert (UO : vdot u o = 0).
  { transitivity (- / k * (vdot u (motor_c m) + motor_e0123 m / k * motor_scalar m * vdot u u)).
    - subst o. clearbody u. destruct u, (motor_c m). vcbn. ring.
    - rewrite UU, UC. field. lra. }
  assert (Ul : unit (mv_line (line_ctor (vx o) (vy o) (vz o) (vx u) (vy u) (vz u)))).
  { apply unit_line_geo; [exact Wl|]. split; [transitivity (vdot u u); [|exact UU]|transitivity (vdot u o); [|exact UO]]; clearbody u o; destruct u, o; reflexivity. }
  split; [exact Wl|]. split; [exact Ul|].
  etransitivity; [exact (motor_screw_R rcp rsqrt sz Hrcp Hrsq B _ _ _ Wl Ul)|].
  replace (2 * acos (motor_scalar m) / 2) with (acos (motor_scalar m)) by field. rewrite CO, SI.
  clear - SP. subst u o. clearbody k. destruct m as [[s b1 b2 b3] [q c1 c2 c3]].
  unfold motor_b, motor_c, motor_scalar, motor_e0123, motor_e01, motor_e02, motor_e03, motor_e23, motor_e31, motor_e12.
  cbn. f_equal; f_equal; field; lra.
Qed.
Theorem C70_motor_is_screw : forall (B : Build) m, unit (mv_motor m) ->
  (motor_b m <> vzero -> exists ang d l, wf_line l /\ unit (mv_line l) /\ motor_screw ang d l = m) /\
  (motor_b m = vzero -> exists v, forall x, point_w x <> 0 -> pos (motor_on_point m x) = vadd (pos x) v).
Proof.
  intros B m U. split.
  - intro NB. destruct (motor_screw_of B m U NB) as (W & Ul & E).
    do 3 eexists. split; [exact W|split; [exact Ul|exact E]].
  - intro Z. exists (motor_tr m). intros x K. rewrite (motor_point_pos B m U) by exact K. unfold motion. f_equal.
    apply unit_motor_geo in U. destruct U as [N _]. unfold motor_rot. unfold motor_n, qn in N. rewrite Z in *.
    rewrite vdot_zero_l in N. unfold qrot. destruct (pos x) as [x1 x2 x3]. vcbn.
    assert (N' : motor_scalar m * motor_scalar m = 1) by lra. rewrite N'. apply vec_eq; cbn; ring.
Qed.
Example C70_screw_ex : let m := motor_ctor (3/5) (4/5) 0 0 0 1 2 0 in unit (mv_motor m) /\ motor_b m <> vzero.
Proof.
  cbv zeta. split; [apply unit_motor_iff; unfold study, dot4; cbn; split; lra|].
  intro H. apply vec_inj in H. cbn in H. lra.
Qed.

(** ** exp_log.hpp 45-49: the exponential of a line has the line as its axis *)
Theorem C70_exp_axis : forall (B : Build) l, wf_line l ->
  motor_on_line (line_exp l) l = l /\
  (** for a Euclidean line and an amount that is not a multiple of pi: the fixed points are its points *)
  (vdot (line_u l) (line_m l) = 0 -> sin (vlen (line_u l)) <> 0 -> forall x, point_w x <> 0 ->
     (pos (motor_on_point (line_exp l) x) = pos x <-> line_has l (pos x))).
Proof.
  intros B l W.
  assert (U := line_exp_unit rcp rsqrt sz Hrcp Hrsq B l W). change (FLx rcp rsqrt sz) with FLy in U.
  assert (F : dot3 (line_p1 l) (line_p1 l) = vdot (line_u l) (line_u l)) by (destruct l as [[? ? ? ?] [? ? ? ?]]; reflexivity).
  assert (G0 : dot3 (line_p1 l) (line_p2 l) = vdot (line_u l) (line_m l)) by (destruct l as [[? ? ? ?] [? ? ? ?]]; reflexivity).
  assert (E : (vdot (line_u l) (line_u l) = 0 /\ line_exp l = mkmotor (mk4 1 0 0 0) (line_p2 l)) \/
    (0 < vdot (line_u l) (line_u l) /\ line_exp l = let '(a, b) := group 1 (line_p1 l) (line_p2 l) in mkmotor a b)).
  { destruct l as [a b], W as [W1 W2]. cbn [line_p1 line_p2] in *.
    destruct (Req_dec (dot3 a a) 0) as [Z|Z]; [left|right].
    - split; [lra|]. unfold line_exp. cbn [line_p1 line_p2].
      assert (E := exp_kernel_zero rcp rsqrt sz B a b W1 Z). change (FLe rcp rsqrt sz) with FLy in E. rewrite E. reflexivity.
    - assert (P : 0 < dot3 a a) by (assert (D := dot3_nonneg a); lra). split; [lra|].
      assert (E := exp_kernel_group rcp rsqrt sz Hrcp Hrsq B 1 a b W1 W2 P). rewrite !scale4_1 in E.
      change (FLl rcp rsqrt sz) with FLy in E. unfold line_exp. cbn [line_p1 line_p2]. rewrite E. reflexivity. }
  split.
  - apply mv_line_inj. rewrite (motor_on_line_sw B) by exact W.
    assert (C : gp (mv_motor (line_exp l)) (mv_line l) == gp (mv_line l) (mv_motor (line_exp l))).
    { destruct l as [[a0 a1 a2 a3] [b0 b1 b2 b3]], W as [W1 W2]. cbn in W1, W2. subst.
      destruct E as [[Z ->]|[_ ->]].
      - apply vdot_zero in Z. apply vec_inj in Z. cbn in Z. destruct Z as (-> & -> & ->). clear. mvring.
      - unfold group. cbv zeta. cbn [line_p1 line_p2].
        generalize (cos (1 * sqrt (dot3 (mk4 0 a1 a2 a3) (mk4 0 a1 a2 a3)))) (sin (1 * sqrt (dot3 (mk4 0 a1 a2 a3) (mk4 0 a1 a2 a3))) / sqrt (dot3 (mk4 0 a1 a2 a3) (mk4 0 a1 a2 a3))) (dot3 (mk4 0 a1 a2 a3) (mk4 0 b1 b2 b3)) (dot3 (mk4 0 a1 a2 a3) (mk4 0 a1 a2 a3)).
        intros c k g n. generalize (g / n * (1 * c - k)). intro h. clear. mvring. }
    unfold sandwich. rewrite C, gp_assoc. unfold unit in U. rewrite U. apply gp_one_r.
  - intros O S x K. rewrite (C70_motor_fixed_points B _ x U K).
    destruct E as [[Z _]|[P ->]].
    { exfalso. apply S. unfold vlen. rewrite Z, sqrt_0. apply sin_0. }
    assert (SP : 0 < vlen (line_u l)) by (apply sqrt_lt_R0; exact P).
    unfold group. cbv zeta. rewrite F, G0, O. fold (vlen (line_u l)). rewrite Rmult_1_l.
    set (k := sin (vlen (line_u l)) / vlen (line_u l)).
    assert (KN : k <> 0) by (unfold k, Rdiv; apply Rmult_integral_contrapositive; split; [exact S|apply Rinv_neq_0_compat; lra]).
    assert (HB : motor_b (mkmotor (mk4 (cos (vlen (line_u l))) (k * l1 (line_p1 l)) (k * l2 (line_p1 l)) (k * l3 (line_p1 l)))
       (mk4 (1 * 0 * k) (k * l1 (line_p2 l) + 0 / vdot (line_u l) (line_u l) * (1 * cos (vlen (line_u l)) - k) * l1 (line_p1 l))
         (k * l2 (line_p2 l) + 0 / vdot (line_u l) (line_u l) * (1 * cos (vlen (line_u l)) - k) * l2 (line_p1 l))
         (k * l3 (line_p2 l) + 0 / vdot (line_u l) (line_u l) * (1 * cos (vlen (line_u l)) - k) * l3 (line_p1 l)))) = vscale k (line_u l))
      by (destruct l as [[? ? ? ?] [? ? ? ?]]; apply vec_eq; cbn; ring).
    match type of HB with motor_b ?m = _ => set (mm := m) in * end.
    assert (HC : motor_c mm = vscale k (line_m l)).
    { subst mm. clear HB. clearbody k. unfold Rdiv. rewrite !Rmult_0_l.
      destruct l as [[? ? ? ?] [? ? ? ?]]. apply vec_eq; cbn; ring. }
    assert (HQ : motor_e0123 mm = 0) by (subst mm; cbn; ring).
    rewrite HB, HC, HQ. unfold line_has, on_line. split.
    + intros [_ H]. apply (vscale_inj k); [exact KN|]. rewrite <- H. destruct (pos x), (line_u l). vring.
    + intro H. split; [reflexivity|]. rewrite <- H. destruct (pos x), (line_u l). vring.
Qed.
(** ** geometric_product.hpp 140-144: the exponential of (p + q e0123) * l is the
    screw about l; the angle and the displacement are -2 p and 2 q (up to the
    orientation of l: twice the parts of the dual number, not half) *)
Theorem C70_dual_line_screw : forall (B : Build) p q l, wf_line l -> unit (mv_line l) ->
  line_exp (dual_mul_line (mkdual p q) l) = motor_screw (-2 * p) (2 * q) l.
Proof.
  intros B p q l W U.
  assert (R1 := motor_screw_R rcp rsqrt sz Hrcp Hrsq B (-2 * p) (2 * q) l W U). 
  etransitivity; [|symmetry; exact R1]. clear R1.
  apply unit_line_geo in U; [|exact W]. destruct U as [U1 U2].
  replace (-2 * p / 2) with (- p) by field. rewrite cos_neg, sin_neg. replace (2 * q / 2) with q by field.
  destruct l as [[a0 u1 u2 u3] [b0 m1 m2 m3]], W as [W1 W2]. cbn in W1, W2. subst a0 b0. unfold vdot in U1, U2. cbn in U1, U2.
  set (l := mkline (mk4 0 u1 u2 u3) (mk4 0 m1 m2 m3)).
  assert (E : dual_mul_line (mkdual p q) l = mkline (mk4 0 (p * u1) (p * u2) (p * u3)) (mk4 0 (p * m1 - q * u1) (p * m2 - q * u2) (p * m3 - q * u3))).
  { subst l. destruct B as [[|]]; cbv -[Rplus Rmult Ropp Rminus Rdiv Rinv IZR]; f_equal; f_equal; ring. }
  rewrite E. unfold l. clear l E.
  unfold line_exp. cbn [line_p1 line_p2].
  set (a := mk4 0 (p * u1) (p * u2) (p * u3)). set (b := mk4 0 (p * m1 - q * u1) (p * m2 - q * u2) (p * m3 - q * u3)).
  assert (N : dot3 a a = p * p).
  { transitivity (p * p * (u1 * u1 + u2 * u2 + u3 * u3)); [unfold a, dot3; cbn; ring|rewrite U1; ring]. }
  assert (G : dot3 a b = - p * q).
  { transitivity (p * p * (u1 * m1 + u2 * m2 + u3 * m3) - p * q * (u1 * u1 + u2 * u2 + u3 * u3)); [unfold a, b, dot3; cbn; ring|rewrite U1, U2; ring]. }
  destruct (Req_dec p 0) as [Z|Z].
  - assert (E := exp_kernel_zero rcp rsqrt sz B a b eq_refl). change (FLe rcp rsqrt sz) with FLy in E.
    rewrite E by (rewrite N, Z; ring). unfold b. rewrite Z, cos_0, sin_0.
    unfold line_e23, line_e31, line_e12, line_e01, line_e02, line_e03. cbn. f_equal; f_equal; ring.
  - assert (P : 0 < dot3 a a) by (rewrite N; assert (X := Rsqr_pos_lt p Z); exact X).
    assert (E := exp_kernel_group rcp rsqrt sz Hrcp Hrsq B 1 a b eq_refl eq_refl P). rewrite !scale4_1 in E.
    change (FLl rcp rsqrt sz) with FLy in E. rewrite E. clear E. unfold group. cbv zeta. rewrite G, N, Rmult_1_l.
    assert (CS : cos (sqrt (p * p)) = cos p /\ sin (sqrt (p * p)) / sqrt (p * p) = sin p / p).
    { change (p * p) with (Rsqr p). rewrite sqrt_Rsqr_abs. unfold Rabs. destruct (Rcase_abs p).
      - rewrite cos_neg, sin_neg. split; [reflexivity|field; exact Z].
      - split; reflexivity. }
    destruct CS as [-> ->].
    unfold a, b, line_e23, line_e31, line_e12, line_e01, line_e02, line_e03. cbn. f_equal; f_equal; field; exact Z.
Qed.
Theorem C70_dual_line_half_refuted : forall B : Build, exists p q l, wf_line l /\ unit (mv_line l) /\
  line_exp (dual_mul_line (mkdual p q) l) <> motor_screw (p / 2) (q / 2) l /\
  line_exp (dual_mul_line (mkdual p q) l) <> motor_screw (- p / 2) (q / 2) l.
Proof.
  intro B. exists 0, 1, (line_ctor 0 0 0 0 0 1).
  assert (W : wf_line (line_ctor 0 0 0 0 0 1)) by (split; reflexivity).
  assert (U : unit (mv_line (line_ctor 0 0 0 0 0 1))) by (apply unit_line_iff; [exact W|unfold dot3; cbn; lra]).
  split; [exact W|split; [exact U|]]. rewrite (C70_dual_line_screw B 0 1 _ W U).
  assert (R1 := motor_screw_R rcp rsqrt sz Hrcp Hrsq B (-2 * 0) (2 * 1) _ W U).
  assert (R2 := motor_screw_R rcp rsqrt sz Hrcp Hrsq B (0 / 2) (1 / 2) _ W U).
  assert (R3 := motor_screw_R rcp rsqrt sz Hrcp Hrsq B (- 0 / 2) (1 / 2) _ W U).
  unfold FLy. split; intro H.
  - assert (H' := eq_trans (eq_sym R1) (eq_trans H R2)). clear R1 R2 R3 H.
    apply (f_equal motor_e03) in H'. revert H'. cbn. replace (-2 * 0 / 2) with 0 by field. replace (0 / 2 / 2) with 0 by field. rewrite cos_0, sin_0. lra.
  - assert (H' := eq_trans (eq_sym R1) (eq_trans H R3)). clear R1 R2 R3 H.
    apply (f_equal motor_e03) in H'. revert H'. cbn. replace (-2 * 0 / 2) with 0 by field. replace (- 0 / 2 / 2) with 0 by field. rewrite cos_0, sin_0. lra.
Qed.

(** ** geometric_product.hpp 111-113: the product of two normalized lines that
    are not parallel is a screw about their common normal.  The library's
    product has e12 and e23 exchanged (C01); with that undone, *)
Theorem C70_common_normal_partial : forall (B : Build) a b, wf_line a -> wf_line b -> unit (mv_line a) -> unit (mv_line b) ->
  vcross (line_u a) (line_u b) <> vzero ->
  exists ang d n, wf_line n /\ unit (mv_line n) /\
    (** [n] is orthogonal to both lines and meets both *)
    vdot (line_u n) (line_u a) = 0 /\ vdot (line_u n) (line_u b) = 0 /\
    (exists x, line_has n x /\ line_has a x) /\ (exists x, line_has n x /\ line_has b x) /\
    swap_e12_e23 (line_mul_line a b) = motor_screw ang d n.
Proof.
  intros B a b Wa Wb Ua Ub N.
  assert (G := line_mul_line_swapped B a b Wa Wb).
  set (m := swap_e12_e23 (line_mul_line a b)) in *.
  assert (U : unit (mv_motor m)) by (eapply unit_proper; [symmetry; exact G|apply unit_gp; assumption]).
  assert (C : motor_b m = vscale (-1) (vcross (line_u a) (line_u b)) /\
    motor_c m = vscale (-1) (vadd (vcross (line_u a) (line_m b)) (vcross (line_m a) (line_u b)))).
  { subst m. clear - Wa Wb. destruct a as [[? ? ? ?] [? ? ? ?]], b as [[? ? ? ?] [? ? ? ?]], Wa as [A1 A2], Wb as [B1 B2]. cbn in A1, A2, B1, B2. subst.
    split; apply vec_eq; gcbv; ring. }
  destruct C as [Cb Cc].
  assert (NB : motor_b m <> vzero).
  { rewrite Cb. intro H. apply vscale_zero in H. destruct H as [H|H]; [lra|contradiction]. }
  destruct (motor_screw_of B m U NB) as (W & Ul & E).
  assert (P := vdot_pos _ NB). assert (SP : 0 < vlen (motor_b m)) by (apply sqrt_lt_R0; exact P).
  set (k := vlen (motor_b m)) in *. set (u := vscale (- / k) (motor_b m)) in *.
  set (o := vscale (- / k) (vadd (motor_c m) (vscale (motor_e0123 m / k * motor_scalar m) u))) in *.
  set (n := line_ctor (vx o) (vy o) (vz o) (vx u) (vy u) (vz u)) in *.
  assert (Nu : line_u n = u) by (unfold n; destruct u; reflexivity).
  assert (Nm : line_m n = o) by (unfold n; destruct o; reflexivity).
  apply unit_line_geo in Ua, Ub; auto. assert (Un := proj1 (unit_line_geo n W) Ul). rewrite Nu, Nm in Un.
  destruct Ua as [A1 A2], Ub as [B1 B2], Un as [N1 N2].
  assert (Oa : vdot u (line_u a) = 0) by (subst u; rewrite Cb; destruct (line_u a), (line_u b); vcbn; ring).
  assert (Ob : vdot u (line_u b) = 0) by (subst u; rewrite Cb; destruct (line_u a), (line_u b); vcbn; ring).
  assert (Ra : vdot u (line_m a) + vdot (line_u a) o = 0).
  { transitivity (- / k * (vdot (motor_b m) (line_m a) + vdot (line_u a) (motor_c m) + motor_e0123 m / k * motor_scalar m * vdot u (line_u a))).
    - subst o u. generalize (motor_e0123 m / k * motor_scalar m). intro h. destruct (motor_b m), (motor_c m), (line_u a), (line_m a). vcbn. ring.
    - rewrite Oa, Cb, Cc. destruct (line_u a), (line_m a), (line_u b), (line_m b). vcbn. ring. }
  assert (Rb : vdot u (line_m b) + vdot (line_u b) o = 0).
  { transitivity (- / k * (vdot (motor_b m) (line_m b) + vdot (line_u b) (motor_c m) + motor_e0123 m / k * motor_scalar m * vdot u (line_u b))).
    - subst o u. generalize (motor_e0123 m / k * motor_scalar m). intro h. destruct (motor_b m), (motor_c m), (line_u b), (line_m b). vcbn. ring.
    - rewrite Ob, Cb, Cc. destruct (line_u a), (line_m a), (line_u b), (line_m b). vcbn. ring. }
  exists (2 * acos (motor_scalar m)), (2 * motor_e0123 m / k), n.
  split; [exact W|]. split; [exact Ul|]. rewrite Nu. split; [exact Oa|]. split; [exact Ob|].
  unfold line_has. rewrite Nu, Nm. split; [|split; [|symmetry; exact E]].
  - apply perp_lines_meet; assumption.
  - apply perp_lines_meet; assumption.
Qed.
Theorem C70_common_normal_refuted : forall B : Build, exists a b, wf_line a /\ wf_line b /\ unit (mv_line a) /\ unit (mv_line b) /\
  vcross (line_u a) (line_u b) <> vzero /\ vdot (motor_b (line_mul_line a b)) (line_u a) <> 0.
Proof.
  intro B. exists (line_ctor 0 0 0 1 0 0), (line_ctor 0 0 0 0 1 0).
  assert (W1 : wf_line (line_ctor 0 0 0 1 0 0)) by (split; reflexivity).
  assert (W2 : wf_line (line_ctor 0 0 0 0 1 0)) by (split; reflexivity).
  split; [exact W1|split; [exact W2|]].
  split; [apply unit_line_iff; [exact W1|unfold dot3; cbn; lra]|].
  split; [apply unit_line_iff; [exact W2|unfold dot3; cbn; lra]|].
  split; [intro H; apply vec_inj in H; cbn in H; lra|]. destruct B as [[|]]; gcbv; lra.
Qed.
Example C70_common_normal_ex : let a := line_ctor 0 0 0 0 0 1 in let b := line_ctor 0 (-3) 0 1 0 0 in
  wf_line a /\ wf_line b /\ unit (mv_line a) /\ unit (mv_line b) /\ vcross (line_u a) (line_u b) <> vzero.
Proof.
  cbv zeta.
  assert (W1 : wf_line (line_ctor 0 0 0 0 0 1)) by (split; reflexivity).
  assert (W2 : wf_line (line_ctor 0 (-3) 0 1 0 0)) by (split; reflexivity).
  split; [exact W1|split; [exact W2|]].
  split; [apply unit_line_iff; [exact W1|unfold dot3; cbn; lra]|].
  split; [apply unit_line_iff; [exact W2|unfold dot3; cbn; lra]|].
  intro H; apply vec_inj in H; cbn in H; lra.
Qed.

(** ** exp_log.hpp 14-37: a scaled rotor or motor still does the whole motion;
    scaling the logarithm takes powers *)
Theorem C70_scaling_keeps_motion : forall (B : Build) k, k <> 0 ->
  (forall m x, point_w x <> 0 -> unit (mv_motor m) -> pos (motor_on_point (motor_mul_f m k) x) = pos (motor_on_point m x)) /\
  (forall r x, point_w x <> 0 -> unit (mv_rotor r) -> pos (rotor_on_point (rotor_mul_f r k) x) = pos (rotor_on_point r x)).
Proof.
  intros B k K. split.
  - intros m x W U. apply unit_motor_geo in U. destruct U as [N _].
    assert (E1 : motor_n (motor_mul_f m k) = k * k * motor_n m) by (destruct m as [[? ? ? ?] [? ? ? ?]]; gcbv; ring).
    unfold pos. rewrite !(motor_on_point_w B), E1, N, !(motor_on_point_num B).
    assert (E2 : vadd (motor_rot (motor_mul_f m k) (pnum x)) (vscale (point_w x) (motor_tr (motor_mul_f m k)))
      = vscale (k * k) (vadd (motor_rot m (pnum x)) (vscale (point_w x) (motor_tr m))))
      by (destruct m as [[? ? ? ?] [? ? ? ?]], x as [[? ? ? ?]]; apply vec_eq; gcbv; ring).
    rewrite E2. generalize (vadd (motor_rot m (pnum x)) (vscale (point_w x) (motor_tr m))). intros [v1 v2 v3].
    apply vec_eq; cbn; field; auto.
  - intros m x W U. apply unit_rotor_geo in U.
    assert (E1 : rotor_n (rotor_mul_f m k) = k * k * rotor_n m) by (destruct m as [[? ? ? ?]]; gcbv; ring).
    unfold pos. rewrite !(rotor_on_point_w B), E1, U, !(rotor_on_point_num B).
    assert (E2 : rotor_rot (rotor_mul_f m k) (pnum x) = vscale (k * k) (rotor_rot m (pnum x)))
      by (destruct m as [[? ? ? ?]], x as [[? ? ? ?]]; apply vec_eq; gcbv; ring).
    rewrite E2. generalize (rotor_rot m (pnum x)). intros [v1 v2 v3]. apply vec_eq; cbn; field; auto.
Qed.
(** exp(n * log(A)) is A^n (on the domains where exp(log(A)) = A, C20) *)
Theorem C70_powers_partial : forall (B : Build) n,
  (forall m, unit (mv_motor m) -> 0 < dot3 (motor_p1 m) (motor_p1 m) -> 1 / 1000000 <= Rabs (motor_scalar m) ->
     line_exp (line_mul_f (motor_log m) (INR n)) = motor_pow m n) /\
  (forall r, unit (mv_rotor r) -> -1 < rotor_scalar r < 1 -> (1 <= n)%nat ->
     branch_exp (branch_mul_f (rotor_log r) (INR n)) = rotor_pow r n).
Proof.
  intros B n. split.
  - intros m U P Z.
    assert (E := proj1 (C20_exp_log_partial rcp rsqrt sz Hrcp Hrsq B m U) P Z). change (Props05.FLx rcp rsqrt sz) with FLy in E.
    assert (W : wf_line (motor_log m)).
    { unfold motor_log. assert (E' := log_kernel_R rcp rsqrt sz Hrcp Hrsq B _ (motor_p2 m) P). cbv zeta in E'.
      change (FLl rcp rsqrt sz) with FLy in E'. rewrite E'. split; reflexivity. }
    assert (X := line_exp_pow rcp rsqrt sz Hrcp Hrsq B (motor_log m) 1 n W). change (Props05.FLx rcp rsqrt sz) with FLy in X.
    rewrite Rmult_1_r, line_mul_1, E in X. symmetry. exact X.
  - intros r U Sc N. destruct n as [|n]; [lia|].
    assert (E := C20_exp_log_rotor rcp rsqrt sz Hrcp Hrsq B r U Sc). change (Props05.FLx rcp rsqrt sz) with FLy in E.
    assert (W : wf_branch (rotor_log r)) by exact (wf_rotor_log rcp rsqrt sz B r).
    assert (D := rotor_log_dot rcp rsqrt sz Hrcp B r U Sc). change (FLg rcp rsqrt sz) with FLy in D.
    assert (A := acos_range (rotor_scalar r) Sc).
    assert (P : 0 < dot3 (branch_p1 (rotor_log r)) (branch_p1 (rotor_log r))).
    { rewrite D. apply Rmult_lt_0_compat; lra. }
    assert (X := branch_exp_pow rcp rsqrt sz Hrcp Hrsq B (rotor_log r) 1 n W P ltac:(lra)). change (Props05.FLx rcp rsqrt sz) with FLy in X.
    rewrite Rmult_1_r, branch_mul_1, E in X. symmetry. exact X.
Qed.
End P.

Print Assumptions C70_plane_fixed_points.
Print Assumptions C70_motor_fixed_points.
Print Assumptions C70_rotor_fixed_points.
Print Assumptions C70_translator_fixed_points.
Print Assumptions C70_point_fixed_point.
Print Assumptions C70_product_of_planes.
Print Assumptions C70_rotor_from_planes.
Print Assumptions C70_translator_from_planes.
Print Assumptions C70_translator_data.
Print Assumptions C70_factorizable.
Print Assumptions C70_motor_is_screw.
Print Assumptions C70_exp_axis.
Print Assumptions C70_dual_line_screw.
Print Assumptions C70_dual_line_half_refuted.
Print Assumptions C70_common_normal_partial.
Print Assumptions C70_common_normal_refuted.
Print Assumptions C70_scaling_keeps_motion.
Print Assumptions C70_powers_partial.
