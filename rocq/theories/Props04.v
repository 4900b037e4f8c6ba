(** Properties C33, C34, C35, C37: joins, meets, projections and metric
    readings, in the Euclidean terms of [SpecGeom.v] and [Vec.v].  Exact real
    arithmetic. *)
From Coq Require Import Reals ZArith Lra.
From Verif Require Import AlgTac SpecGeom Vec FloR Closed Geom AlgNorm AlgInv Motion.
Local Open Scope R_scope.

(** ** Closed forms, both builds *)
Lemma join_pp_u (B : Build) a b : line_u (point_join_point a b) = vsub (vscale (point_w a) (pnum b)) (vscale (point_w b) (pnum a)).
Proof. geo. Qed.
Lemma join_pp_m (B : Build) a b : line_m (point_join_point a b) = vcross (pnum a) (pnum b).
Proof. geo. Qed.
Lemma join_pp_wf (B : Build) a b : wf_line (point_join_point a b).
Proof. split; geo. Qed.
Lemma join_pl_n (B : Build) a b : wf_line b -> plane_n (point_join_line a b) =
  vsub (vcross (pnum a) (line_u b)) (vscale (point_w a) (line_m b)).
Proof. geo. Qed.
Lemma join_pl_d (B : Build) a b : wf_line b -> plane_d (point_join_line a b) = vdot (pnum a) (line_m b).
Proof. geo. Qed.
Lemma meet_pp_u (B : Build) a b : line_u (plane_ext_plane a b) = vcross (plane_n a) (plane_n b).
Proof. geo. Qed.
Lemma meet_pp_m (B : Build) a b :
  line_m (plane_ext_plane a b) = vsub (vscale (plane_d a) (plane_n b)) (vscale (plane_d b) (plane_n a)).
Proof. geo. Qed.
Lemma meet_pp_wf (B : Build) a b : wf_line (plane_ext_plane a b).
Proof. split; geo. Qed.
Lemma meet_pl_w (B : Build) a b : wf_line b -> point_w (plane_ext_line a b) = vdot (plane_n a) (line_u b).
Proof. geo. Qed.
Lemma meet_pl_num (B : Build) a b : wf_line b ->
  pnum (plane_ext_line a b) = vsub (vcross (plane_n a) (line_m b)) (vscale (plane_d a) (line_u b)).
Proof. geo. Qed.
Lemma meet_ll (B : Build) a b : wf_line a -> wf_line b ->
  line_ext_line a b = mkdual 0 (vdot (line_u a) (line_m b) + vdot (line_u b) (line_m a)).
Proof. intros. opn; apply (f_equal2 mkdual); gcbv; ring. Qed.
Lemma join_point_plane (B : Build) a b :
  point_join_plane a b = mkdual (vdot (plane_n b) (pnum a) + plane_d b * point_w a) 0 /\
  plane_join_point b a = mkdual (- (vdot (plane_n b) (pnum a) + plane_d b * point_w a)) 0.
Proof. opn; split; apply (f_equal2 mkdual); gcbv; ring. Qed.
Lemma dot_pt_pl (B : Build) a b : wf_line (plane_dot_point b a) /\
  line_u (plane_dot_point b a) = vscale (point_w a) (plane_n b) /\ line_m (plane_dot_point b a) = vcross (pnum a) (plane_n b).
Proof. split; [split; geo|split; geo]. Qed.
Lemma dot_pt_line_n (B : Build) a b : wf_line b -> plane_n (point_dot_line a b) = vscale (- point_w a) (line_u b).
Proof. geo. Qed.
Lemma dot_pt_line_d (B : Build) a b : wf_line b -> plane_d (point_dot_line a b) = vdot (pnum a) (line_u b).
Proof. geo. Qed.
Lemma dot_line_plane_n (B : Build) a b : wf_line b -> plane_n (line_dot_plane b a) = vcross (plane_n a) (line_u b).
Proof. geo. Qed.
Lemma dot_line_plane_d (B : Build) a b : wf_line b -> plane_d (line_dot_plane b a) = vdot (plane_n a) (line_m b).
Proof. geo. Qed.
Lemma dot_plane_line_n (B : Build) a b : wf_line b -> plane_n (plane_dot_line a b) = vcross (line_u b) (plane_n a).
Proof. geo. Qed.
Lemma dot_plane_line_d (B : Build) a b : wf_line b -> plane_d (plane_dot_line a b) = - vdot (plane_n a) (line_m b).
Proof. geo. Qed.
Lemma dot_planes (B : Build) a b : plane_dot_plane a b = vdot (plane_n a) (plane_n b).
Proof. geo. Qed.

Lemma pnum_pos p : point_w p <> 0 -> pnum p = vscale (point_w p) (pos p).
Proof. intro H. unfold pos. destruct (pnum p). vcbn. apply vec_eq; cbn; field; exact H. Qed.
Lemma pos_unit p : point_w p = 1 -> pos p = pnum p.
Proof. unfold pos. intros ->. destruct (pnum p). vcbn. apply vec_eq; cbn; field. Qed.

(** a line of the library that is a line of space: non-zero direction, and
    direction and moment orthogonal *)
Definition proper_line (l : line R) : Prop := wf_line l /\ line_u l <> vzero /\ vdot (line_u l) (line_m l) = 0.

(** ** C33 *)
Theorem C33_join_points : forall (B : Build) a b, point_w a <> 0 -> point_w b <> 0 ->
  let l := point_join_point a b in
  wf_line l /\ line_has l (pos a) /\ line_has l (pos b) /\
  (** vanishes iff the points coincide *)
  (mv_line l == mvzero <-> pos a = pos b) /\
  (** otherwise it is exactly the line through them *)
  (pos a <> pos b -> proper_line l /\
    forall x, line_has l x <-> exists t, x = vadd (pos a) (vscale t (vsub (pos b) (pos a)))).
Proof.
  intros B a b A Bw l.
  assert (U : line_u l = vscale (point_w a * point_w b) (vsub (pos b) (pos a))).
  { unfold l. rewrite (join_pp_u B), (pnum_pos a A), (pnum_pos b Bw). destruct (pos a), (pos b). vring. }
  assert (M : line_m l = vscale (point_w a * point_w b) (vcross (pos a) (pos b))).
  { unfold l. rewrite (join_pp_m B), (pnum_pos a A), (pnum_pos b Bw). destruct (pos a), (pos b). vring. }
  assert (W : wf_line l) by apply (join_pp_wf B).
  assert (HA : line_has l (pos a)) by (unfold line_has, on_line; rewrite U, M; destruct (pos a), (pos b); vring).
  assert (HB : line_has l (pos b)) by (unfold line_has, on_line; rewrite U, M; destruct (pos a), (pos b); vring).
  assert (K : point_w a * point_w b <> 0) by (apply Rmult_integral_contrapositive; auto).
  assert (NZ : pos a <> pos b -> line_u l <> vzero).
  { intros N E. rewrite U in E. apply vscale_zero in E. destruct E as [E|E]; [contradiction|].
    apply N. symmetry. exact (proj1 (vsub_zero _ _) E). }
  clearbody l. split; [exact W|]. split; [exact HA|]. split; [exact HB|]. split.
  - split.
    + intro Z. destruct (Req_dec (dist (pos a) (pos b)) 0) as [E|E]; [apply dist_zero, E|].
      exfalso. apply NZ; [intro H; apply E, dist_zero, H|].
      assert (Z1 := Z (Bl false false true true)). assert (Z2 := Z (Bl false true false true)). assert (Z3 := Z (Bl false true true false)). revert Z1 Z2 Z3.
      unfold line_u, line_e23, line_e31, line_e12. destruct l as [[? ? ? ?] [? ? ? ?]]. gcbv. intros.
      apply vec_eq; gcbv; lra.
    + intro E. rewrite E in U, M.
      assert (U0 : line_u l = vzero) by (rewrite U; destruct (pos b); vring).
      assert (M0 : line_m l = vzero) by (rewrite M; destruct (pos b); vring).
      destruct W as [W1 W2]. revert U0 M0 W1 W2. destruct l as [[? ? ? ?] [? ? ? ?]]. unfold line_u, line_m, vzero.
      cbn. intros U0 M0 -> ->. injection U0 as -> -> ->. injection M0 as -> -> ->. clear. intros [[|] [|] [|] [|]]; gcbv; ring.
  - intro N. split; [split; [exact W|split; [exact (NZ N)|exact (on_line_plucker _ _ _ HA)]]|].
    intro x. unfold line_has. rewrite (on_line_param _ _ (pos a) x (NZ N) HA). rewrite U. split.
    + intros [t ->]. exists (t * (point_w a * point_w b)). destruct (pos a), (pos b). vring.
    + intros [t ->]. exists (t / (point_w a * point_w b)). destruct (pos a), (pos b). apply vec_eq; vcbn; field; auto.
Qed.
Theorem C33_join_three_points : forall (B : Build) a b c, point_w a <> 0 -> point_w b <> 0 -> point_w c <> 0 ->
  let p := line_join_point (point_join_point a b) c in
  plane_has p (pos a) /\ plane_has p (pos b) /\ plane_has p (pos c) /\
  (** vanishes iff collinear *)
  (mv_plane p == mvzero <-> vcross (vsub (pos b) (pos a)) (vsub (pos c) (pos a)) = vzero) /\
  (** otherwise exactly the plane spanned by them *)
  (vcross (vsub (pos b) (pos a)) (vsub (pos c) (pos a)) <> vzero ->
   forall x, plane_has p x <-> vdet (vsub x (pos a)) (vsub (pos b) (pos a)) (vsub (pos c) (pos a)) = 0).
Proof.
  intros B a b c A Bw C p.
  set (k := point_w a * point_w b * point_w c). assert (K : k <> 0) by (repeat (apply Rmult_integral_contrapositive; split); auto).
  set (n := vcross (vsub (pos b) (pos a)) (vsub (pos c) (pos a))).
  assert (N : plane_n p = vscale (- k) n).
  { unfold p, line_join_point. rewrite (join_pl_n B) by apply (join_pp_wf B). rewrite (join_pp_u B), (join_pp_m B).
    rewrite (pnum_pos a A), (pnum_pos b Bw), (pnum_pos c C). unfold k, n. destruct (pos a), (pos b), (pos c). vring. }
  assert (D : plane_d p = k * vdot n (pos a)).
  { unfold p, line_join_point. rewrite (join_pl_d B) by apply (join_pp_wf B). rewrite (join_pp_m B).
    rewrite (pnum_pos a A), (pnum_pos b Bw), (pnum_pos c C). unfold k, n. destruct (pos a), (pos b), (pos c). vcbn. ring. }
  assert (H : forall x, vdot (plane_n p) x + plane_d p = - k * vdet (vsub x (pos a)) (vsub (pos b) (pos a)) (vsub (pos c) (pos a))).
  { intro x. rewrite N, D. unfold n. destruct x, (pos a), (pos b), (pos c). vcbn. ring. }
  clearbody p. unfold plane_has, on_plane. rewrite !H.
  split; [destruct (pos a), (pos b), (pos c); vcbn; ring|].
  split; [destruct (pos a), (pos b), (pos c); vcbn; ring|].
  split; [destruct (pos a), (pos b), (pos c); vcbn; ring|]. split.
  - split.
    + intro Z. assert (E : plane_n p = vzero).
      { assert (Z1 := Z (Bl false true false false)). assert (Z2 := Z (Bl false false true false)). assert (Z3 := Z (Bl false false false true)). revert Z1 Z2 Z3.
        unfold plane_n, plane_x, plane_y, plane_z. destruct p as [[? ? ? ?]]. gcbv. intros. apply vec_eq; gcbv; lra. }
      rewrite N in E. apply vscale_zero in E. destruct E as [E|E]; [exfalso; lra|exact E].
    + fold n. intro E. rewrite E in N, D.
      assert (N0 : plane_n p = vzero) by (rewrite N; vring).
      assert (D0 : plane_d p = 0) by (rewrite D, vdot_zero_l; ring).
      revert N0 D0. destruct p as [[? ? ? ?]]. unfold plane_n, plane_x, plane_y, plane_z, plane_d, vzero. cbn.
      intros N0 ->. injection N0 as -> -> ->. clear. intros [[|] [|] [|] [|]]; gcbv; ring.
  - intros _ x. rewrite H. split; intro E; [|rewrite E; ring].
    apply Rmult_integral in E. destruct E; [exfalso; lra|assumption].
Qed.
Section P.
Context (rcp rsqrt : R -> R) (sz : bool) (Hrcp : exact_rcp rcp) (Hrsq : exact_rsqrt rsqrt) (B : Build).
Local Instance FLv : Flo R := Flo_R rcp rsqrt sz.
Lemma line_norm_R l : line_norm l = vlen (line_u l).
Proof.
  unfold line_norm, line_squared_norm. change (sqrt (l0 (@hi_dp R (@flo_arith R FLv) B (line_p1 l) (line_p1 l))) = vlen (line_u l)).
  unfold vlen. f_equal. rewrite (hi_dp_l0_R B). reflexivity.
Qed.
Lemma plane_norm_R p : 0 < vdot (plane_n p) (plane_n p) -> plane_norm p = vlen (plane_n p).
Proof.
  intro H. unfold plane_norm. unfold FLv. rewrite sqrt_nr1_R.
  transitivity (dot3 (plane_p0 p) (plane_p0 p) * nr_rsqrt rsqrt (dot3 (plane_p0 p) (plane_p0 p))).
  { rewrite <- (hi_dp_l0_R B). reflexivity. }
  change (dot3 (plane_p0 p) (plane_p0 p)) with (vdot (plane_n p) (plane_n p)).
  rewrite nr_rsqrt_exact by assumption. unfold vlen. assert (S := sqrt_lt_R0 _ H).
  rewrite <- (sqrt_sqrt (vdot (plane_n p) (plane_n p))) at 1 by lra. field. lra.
Qed.
Theorem C33_join_norms : forall a b c, point_w a = 1 -> point_w b = 1 -> point_w c = 1 ->
  line_norm (point_join_point a b) = dist (pos a) (pos b) /\
  let n := vcross (vsub (pos b) (pos a)) (vsub (pos c) (pos a)) in
  (n <> vzero -> plane_norm (line_join_point (point_join_point a b) c) = vlen n).
Proof.
  intros a b c A Bw C. split.
  - rewrite line_norm_R, (join_pp_u B), A, Bw, !pos_unit by assumption. rewrite dist_sym. unfold dist.
    f_equal. destruct (pnum a), (pnum b). vring.
  - intros n N. assert (E : plane_n (line_join_point (point_join_point a b) c) = vopp n).
    { unfold line_join_point. rewrite (join_pl_n B) by apply (join_pp_wf B). rewrite (join_pp_u B), (join_pp_m B), A, Bw, C.
      unfold n. rewrite !pos_unit by assumption. destruct (pnum a), (pnum b), (pnum c). vring. }
    assert (P := vdot_pos n N). assert (Q : vdot (vopp n) (vopp n) = vdot n n) by (destruct n; vcbn; ring).
    rewrite plane_norm_R; rewrite E, ?Q; [unfold vlen; rewrite Q; reflexivity|exact P].
Qed.

(** ** C37 *)
Theorem C37_metric :
  (** point & plane is the signed distance: positive on the side of the normal *)
  (forall a p, point_w a = 1 -> unit (mv_plane p) ->
     let k := dual_p (point_join_plane a p) in
     k = vdot (plane_n p) (pos a) + plane_d p /\ dual_q (point_join_plane a p) = 0 /\
     dual_p (plane_join_point p a) = - k /\
     (exists y, plane_has p y /\ dist (pos a) y = Rabs k) /\ (forall y, plane_has p y -> Rabs k <= dist (pos a) y)) /\
  (** plane | plane is the cosine of the angle of the normals *)
  (forall p q, unit (mv_plane p) -> unit (mv_plane q) -> plane_dot_plane p q = cos (angle (plane_n p) (plane_n q))) /\
  (** the norm of point & line is the distance *)
  (forall a l, point_w a = 1 -> wf_line l -> unit (mv_line l) -> ~ line_has l (pos a) ->
     let k := plane_norm (point_join_line a l) in
     (exists y, line_has l y /\ dist (pos a) y = k) /\ (forall y, line_has l y -> k <= dist (pos a) y)) /\
  (** the e0123 part of line ^ line is distance times sine of the angle *)
  (forall l1 l2, wf_line l1 -> wf_line l2 -> unit (mv_line l1) -> unit (mv_line l2) ->
     vcross (line_u l1) (line_u l2) <> vzero ->
     let k := Rabs (dual_q (line_ext_line l1 l2)) in
     let s := sin (angle (line_u l1) (line_u l2)) in
     (exists y1 y2, line_has l1 y1 /\ line_has l2 y2 /\ dist y1 y2 * s = k) /\
     (forall y1 y2, line_has l1 y1 -> line_has l2 y2 -> k <= dist y1 y2 * s)).
Proof.
  assert (NZ : forall n, vdot n n = 1 -> n <> vzero).
  { intros n H E. rewrite E in H. unfold vdot in H. cbn in H. lra. }
  split; [|split; [|split]].
  - intros a p W U k. apply unit_plane_geo in U.
    assert (E : k = vdot (plane_n p) (pos a) + plane_d p).
    { unfold k. rewrite (proj1 (join_point_plane B a p)). cbn. rewrite W, (pos_unit a W). ring. }
    split; [exact E|]. split; [rewrite (proj1 (join_point_plane B a p)); reflexivity|].
    split; [rewrite (proj2 (join_point_plane B a p)), E; cbn; rewrite W, (pos_unit a W); ring|].
    destruct (dist_to_plane (plane_n p) (plane_d p) (pos a) (NZ _ U)) as [D1 D2].
    rewrite (vlen_one _ U), <- E in *. split.
    + destruct D1 as (y & Y1 & Y2). exists y. split; [exact Y1|]. rewrite Rmult_1_r in Y2. exact Y2.
    + intros y Y. specialize (D2 y Y). rewrite Rmult_1_r in D2. exact D2.
  - intros p q U V. apply unit_plane_geo in U. apply unit_plane_geo in V.
    rewrite (dot_planes B), (cos_angle _ _ (NZ _ U) (NZ _ V)), (vlen_one _ U), (vlen_one _ V). ring.
  - intros a l W Wl U Off k. apply unit_line_geo in U; [|exact Wl]. destruct U as [U P].
    assert (E : plane_n (point_join_line a l) = vsub (vcross (pos a) (line_u l)) (line_m l)).
    { rewrite (join_pl_n B a l Wl), W, (pos_unit a W). f_equal. destruct (line_m l). vring. }
    assert (K : k = vlen (vsub (vcross (pos a) (line_u l)) (line_m l))).
    { unfold k. rewrite <- E. apply plane_norm_R. rewrite E. apply vdot_pos. intro Z. apply Off.
      unfold line_has, on_line. apply vsub_zero. exact Z. }
    destruct (dist_to_line (line_u l) (line_m l) (pos a) (NZ _ U) P) as [D1 D2]. cbv zeta in *.
    rewrite (vlen_one _ U), <- K in *. split.
    + destruct D1 as (y & Y1 & Y2). exists y. split; [exact Y1|]. rewrite Rmult_1_r in Y2. exact Y2.
    + intros y Y. specialize (D2 y Y). rewrite Rmult_1_r in D2. exact D2.
  - intros l1 l2 W1 W2 U1 U2 C k s. apply unit_line_geo in U1; [|exact W1]. apply unit_line_geo in U2; [|exact W2].
    destruct U1 as [U1 P1], U2 as [U2 P2].
    destruct (dist_lines (line_u l1) (line_m l1) (line_u l2) (line_m l2) C P1 P2) as [D1 D2]. cbv zeta in *.
    rewrite (sin_angle _ _ (NZ _ U1) (NZ _ U2)), (vlen_one _ U1), (vlen_one _ U2) in D1, D2.
    assert (K : k = Rabs (vdot (line_u l1) (line_m l2) + vdot (line_u l2) (line_m l1))).
    { unfold k. rewrite (meet_ll B) by assumption. reflexivity. }
    rewrite K. unfold s, line_has. split.
    + destruct D1 as (y1 & y2 & Y1 & Y2 & Y3). exists y1, y2. split; [exact Y1|]. split; [exact Y2|]. rewrite <- Y3. ring.
    + intros y1 y2 Y1 Y2. specialize (D2 y1 y2 Y1 Y2). rewrite !Rmult_1_l in D2. exact D2.
Qed.
End P.
Example C33_ex : point_w (point_ctor 1 2 3) = 1 /\
  vcross (vsub (V 1 2 3) (V 0 0 0)) (vsub (V 4 5 6) (V 0 0 0)) <> vzero.
Proof. split; [reflexivity|]. intro H. apply vec_inj in H. cbn in H. lra. Qed.
Example C37_ex : let l1 := line_ctor 0 0 0 1 0 0 in let l2 := line_ctor (-3) 0 0 0 1 0 in
  wf_line l1 /\ wf_line l2 /\ unit (mv_line l1) /\ unit (mv_line l2) /\
  vcross (line_u l1) (line_u l2) <> vzero /\ ~ line_has l1 (V 0 5 0) /\ line_has l2 (V 0 9 3).
Proof.
  cbv zeta. assert (W1 : wf_line (line_ctor 0 0 0 1 0 0)) by (split; reflexivity).
  assert (W2 : wf_line (line_ctor (-3) 0 0 0 1 0)) by (split; reflexivity).
  split; [exact W1|]. split; [exact W2|].
  split; [apply unit_line_iff; [exact W1|]; unfold dot3; cbn; lra|].
  split; [apply unit_line_iff; [exact W2|]; unfold dot3; cbn; lra|].
  repeat split; [intro H; apply vec_inj in H; cbn in H; lra| |].
  - unfold line_has, on_line. intro H. apply vec_inj in H. cbn in H. lra.
  - unfold line_has, on_line. apply vec_eq; cbn; lra.
Qed.

(** ** C34 *)
Theorem C34_meet :
  forall (B : Build),
  (** two planes whose meet is not zero: exactly the common points *)
  (forall p q, ~ mv_line (plane_ext_plane p q) == mvzero ->
     wf_line (plane_ext_plane p q) /\
     forall x, line_has (plane_ext_plane p q) x <-> plane_has p x /\ plane_has q x) /\
  (** planes with independent normals meet in a proper line; the meet vanishes
      only for multiples of one plane *)
  (forall p q, vcross (plane_n p) (plane_n q) <> vzero -> proper_line (plane_ext_plane p q)) /\
  (** plane and line: proper point unless parallel, and then the only common point *)
  (forall p l, proper_line l ->
     let x := plane_ext_line p l in
     (point_w x = 0 <-> vdot (plane_n p) (line_u l) = 0) /\
     (point_w x <> 0 -> plane_has p (pos x) /\ line_has l (pos x) /\
        forall y, plane_has p y -> line_has l y -> y = pos x)) /\
  (** two lines: the meet vanishes iff they are coplanar *)
  (forall l1 l2, proper_line l1 -> proper_line l2 ->
     (mv_dual (line_ext_line l1 l2) == mvzero <-> coplanar (line_u l1) (line_m l1) (line_u l2) (line_m l2))).
Proof.
  intro B. split; [|split; [|split]].
  - intros p q NZ. assert (W := meet_pp_wf B p q). split; [exact W|].
    assert (U := meet_pp_u B p q). assert (M := meet_pp_m B p q).
    set (l := plane_ext_plane p q) in *. clearbody l. intro x. unfold line_has, plane_has, on_line, on_plane. split.
    + intro X. rewrite U, M in X.
      assert (E : vscale (vdot (plane_n q) x + plane_d q) (plane_n p) = vscale (vdot (plane_n p) x + plane_d p) (plane_n q)).
      { clear - X. revert X. destruct (plane_n p) as [a1 a2 a3], (plane_n q) as [b1 b2 b3], x as [x y z].
        intro X. apply vec_inj in X. vcbn. destruct X as (X1 & X2 & X3). apply vec_eq; cbn; lra. }
      destruct (Req_dec (vdot (line_u l) (line_u l)) 0) as [Z|Z].
      * exfalso. apply NZ. apply vdot_zero in Z.
        assert (Z' : line_m l = vzero).
        { rewrite M. rewrite <- U, Z in X. rewrite <- X. destruct x; vring. }
        destruct W as [W1 W2]. revert Z Z' W1 W2. clear. destruct l as [[? ? ? ?] [? ? ? ?]]. unfold line_u, line_m, vzero. cbn.
        intros U0 M0 -> ->. injection U0 as -> -> ->. injection M0 as -> -> ->. intros [[|] [|] [|] [|]]; gcbv; ring.
      * apply par_zero in E; [destruct E; auto|].
        rewrite <- U. intro H. apply Z. rewrite H. apply vdot_zero_l.
    + intros [X Y]. rewrite U, M. transitivity (vsub (vscale (vdot (plane_n q) x) (plane_n p)) (vscale (vdot (plane_n p) x) (plane_n q))).
      * destruct (plane_n p), (plane_n q), x. vring.
      * replace (vdot (plane_n q) x) with (- plane_d q) by lra. replace (vdot (plane_n p) x) with (- plane_d p) by lra.
        destruct (plane_n p), (plane_n q). vring.
  - intros p q N. split; [apply (meet_pp_wf B)|]. rewrite (meet_pp_u B), (meet_pp_m B). split; [exact N|].
    destruct (plane_n p), (plane_n q). vcbn. ring.
  - intros p l (W & N & P) x.
    assert (Wx : point_w x = vdot (plane_n p) (line_u l)) by apply (meet_pl_w B p l W).
    assert (Nx : pnum x = vsub (vcross (plane_n p) (line_m l)) (vscale (plane_d p) (line_u l))) by apply (meet_pl_num B p l W).
    clearbody x. split; [rewrite Wx; reflexivity|]. intro K.
    assert (X1 : plane_has p (pos x)).
    { unfold plane_has, on_plane, pos. rewrite Nx, Wx. rewrite Wx in K. revert K. destruct (plane_n p), (line_u l), (line_m l).
      vcbn. intro K. field. exact K. }
    assert (X2 : line_has l (pos x)).
    { unfold line_has, on_line, pos. rewrite Nx, Wx. rewrite Wx in K. revert K P.
      destruct (plane_n p) as [a b c], (line_u l) as [u v w], (line_m l) as [r s t].
      vcbn. intros K P. apply vec_eq; cbn; apply Rmult_eq_reg_l with (a * u + b * v + c * w); auto; field_simplify; auto.
      - transitivity (r * (a * u + b * v + c * w) - a * (u * r + v * s + w * t)); [ring|rewrite P; ring].
      - transitivity (s * (a * u + b * v + c * w) - b * (u * r + v * s + w * t)); [ring|rewrite P; ring].
      - transitivity (t * (a * u + b * v + c * w) - c * (u * r + v * s + w * t)); [ring|rewrite P; ring]. }
    split; [exact X1|split; [exact X2|]]. intros y Y1 Y2.
    apply (on_line_param _ _ _ y N X2) in Y2. destruct Y2 as [t ->]. unfold plane_has, on_plane in X1, Y1.
    assert (T : t * vdot (plane_n p) (line_u l) = 0).
    { transitivity (vdot (plane_n p) (vadd (pos x) (vscale t (line_u l))) - vdot (plane_n p) (pos x));
        [destruct (plane_n p), (line_u l), (pos x); vcbn; ring|lra]. }
    apply Rmult_integral in T. destruct T as [->|T]; [destruct (pos x), (line_u l); vring|].
    rewrite Wx in K. contradiction.
  - intros l1 l2 (W1 & N1 & P1) (W2 & N2 & P2). rewrite (coplanar_iff _ _ _ _ N1 N2 P1 P2).
    rewrite (meet_ll B l1 l2 W1 W2). split.
    + intro Z. assert (Z1 := Z (Bl true true true true)). revert Z1.
      generalize (vdot (line_u l1) (line_m l2) + vdot (line_u l2) (line_m l1)). intro k. gcbv. lra.
    + intros ->. intros [[|] [|] [|] [|]]; gcbv; ring.
Qed.
Example C34_ex : let p := plane_ctor 1 2 3 4 in let q := plane_ctor 2 0 1 5 in
  vcross (plane_n p) (plane_n q) <> vzero /\ point_w (plane_ext_line (B := SSE3) q (line_ctor 0 0 0 1 0 0)) <> 0.
Proof. cbv zeta. split; [intro H; apply vec_inj in H; cbn in H; lra|]. gcbv. lra. Qed.

(** ** C35 *)
Theorem C35_project_point :
  forall (B : Build) a, point_w a <> 0 ->
  (forall p, plane_n p <> vzero ->
     let x := project_point_plane a p in
     point_w x <> 0 /\ plane_has p (pos x) /\
     (forall y, plane_has p y -> dist (pos a) (pos x) <= dist (pos a) y)) /\
  (forall l, proper_line l ->
     let x := project_point_line a l in
     point_w x <> 0 /\ line_has l (pos x) /\
     (forall y, line_has l y -> dist (pos a) (pos x) <= dist (pos a) y)).
Proof.
  intros B a A. split.
  - intros p N x. assert (NP := vdot_pos _ N).
    destruct (dot_pt_pl B a p) as (Wl & U & M).
    assert (Wx : point_w x = point_w a * vdot (plane_n p) (plane_n p)).
    { unfold x, project_point_plane, line_ext_plane, point_dot_plane. rewrite (meet_pl_w B) by exact Wl. rewrite U.
      destruct (plane_n p). vcbn. ring. }
    assert (Nx : pnum x = vsub (vscale (vdot (plane_n p) (plane_n p)) (pnum a))
       (vscale (vdot (plane_n p) (pnum a) + plane_d p * point_w a) (plane_n p))).
    { unfold x, project_point_plane, line_ext_plane, point_dot_plane. rewrite (meet_pl_num B) by exact Wl. rewrite U, M.
      destruct (plane_n p), (pnum a). vring. }
    assert (E : pos x = plane_foot (plane_n p) (plane_d p) (pos a)).
    { unfold pos, plane_foot. rewrite Nx, Wx. revert NP. destruct (plane_n p), (pnum a). vcbn. intro. apply vec_eq; cbn; field; lra. }
    clearbody x. split; [rewrite Wx; apply Rmult_integral_contrapositive; split; [exact A|lra]|].
    rewrite E. split; [apply plane_foot_on; exact N|]. intros y Y. apply plane_foot_closest; assumption.
  - intros l (Wl & N & P) x. assert (NP := vdot_pos _ N).
    assert (Wx : point_w x = - point_w a * vdot (line_u l) (line_u l)).
    { unfold x, project_point_line. rewrite (meet_pl_w B) by exact Wl. rewrite (dot_pt_line_n B) by exact Wl.
      destruct (line_u l). vcbn. ring. }
    assert (Nx : pnum x = vsub (vscale (- point_w a) (vcross (line_u l) (line_m l))) (vscale (vdot (pnum a) (line_u l)) (line_u l))).
    { unfold x, project_point_line. rewrite (meet_pl_num B), (dot_pt_line_n B), (dot_pt_line_d B) by exact Wl.
      destruct (line_u l), (line_m l), (pnum a). vring. }
    assert (E : pos x = vadd (line_foot (line_u l) (line_m l)) (vscale (vdot (pos a) (line_u l) / vdot (line_u l) (line_u l)) (line_u l))).
    { unfold pos, line_foot. rewrite Nx, Wx. revert NP. destruct (line_u l), (line_m l), (pnum a). vcbn. intro.
      apply vec_eq; cbn; field; lra. }
    assert (O := line_foot_on _ _ N P).
    assert (X : line_has l (pos x)).
    { rewrite E. apply (on_line_param _ _ _ _ N O). eexists. reflexivity. }
    split; [rewrite Wx; apply Rmult_integral_contrapositive; split; lra|].
    split; [exact X|]. intros y Y. apply foot_closest.
    apply (on_line_param _ _ _ y N X) in Y. destruct Y as [t ->].
    transitivity (- t * vdot (vsub (pos a) (pos x)) (line_u l)); [destruct (pos a), (pos x), (line_u l); vcbn; ring|].
    replace (vdot (vsub (pos a) (pos x)) (line_u l)) with 0; [ring|]. rewrite E. unfold line_foot.
    revert NP. destruct (pos a), (line_u l), (line_m l). vcbn. intro. field. lra.
Qed.
(** project(line, plane): the line swept by the feet of the line's points.
    If the line is perpendicular to the plane the result has no direction. *)
Theorem C35_project_line_plane : forall (B : Build) l p, proper_line l -> plane_n p <> vzero ->
  let r := project_line_plane l p in
  wf_line r /\
  (forall x, line_has l x -> line_has r (plane_foot (plane_n p) (plane_d p) x)) /\
  (line_u r = vzero <-> vcross (plane_n p) (line_u l) = vzero) /\
  (line_u r <> vzero -> forall y, line_has r y -> plane_has p y).
Proof.
  intros B l p (W & N & P) Np r. assert (NP := vdot_pos _ Np).
  assert (Wr : wf_line r) by apply (meet_pp_wf B).
  assert (U : line_u r = vcross (vcross (plane_n p) (line_u l)) (plane_n p)).
  { unfold r, project_line_plane. rewrite (meet_pp_u B), (dot_line_plane_n B) by exact W. reflexivity. }
  assert (M : line_m r = vsub (vscale (vdot (plane_n p) (line_m l)) (plane_n p)) (vscale (plane_d p) (vcross (plane_n p) (line_u l)))).
  { unfold r, project_line_plane. rewrite (meet_pp_m B), (dot_line_plane_n B), (dot_line_plane_d B) by exact W. reflexivity. }
  clearbody r. split; [exact Wr|].
  assert (F : forall x, line_has l x -> line_has r (plane_foot (plane_n p) (plane_d p) x)).
  { intros x X. unfold line_has, on_line in *. rewrite U, M. unfold plane_foot. rewrite <- X. revert NP.
    destruct x as [x y z], (line_u l) as [u v w], (plane_n p) as [a b c]. vcbn. intro. apply vec_eq; cbn; field; lra. }
  split; [exact F|]. split.
  - rewrite U. split.
    + intro Z. apply vdot_zero. set (k := vcross (plane_n p) (line_u l)) in *.
      assert (L := lagrange k (plane_n p)). rewrite Z in L.
      assert (O : vdot k (plane_n p) = 0) by (unfold k; destruct (plane_n p), (line_u l); vcbn; ring).
      rewrite O, vdot_zero_l in L. assert (Q : vdot k k * vdot (plane_n p) (plane_n p) = 0) by lra.
      apply Rmult_integral in Q. destruct Q; [assumption|exfalso; lra].
    + intros ->. destruct (plane_n p). vring.
  - intros NU y Y. assert (O := F _ (line_foot_on _ _ N P)).
    apply (on_line_param _ _ _ y NU O) in Y. destruct Y as [t ->].
    assert (Q := plane_foot_on (plane_n p) (plane_d p) (line_foot (line_u l) (line_m l)) Np).
    unfold plane_has, on_plane in *. set (f := plane_foot _ _ _) in *. clearbody f. rewrite <- Q at 1. rewrite U.
    destruct (plane_n p), (line_u l), f. vcbn. ring.
Qed.
(** projections onto points and lines *)
Theorem C35_project_onto :
  forall (B : Build),
  (forall p a, point_w a <> 0 -> let q := project_plane_point p a in
     plane_has q (pos a) /\ exists k, k <> 0 /\ plane_n q = vscale k (plane_n p)) /\
  (forall l a, point_w a <> 0 -> wf_line l -> let r := project_line_point l a in
     wf_line r /\ line_has r (pos a) /\ exists k, k <> 0 /\ line_u r = vscale k (line_u l)) /\
  (forall p l, proper_line l -> let q := project_plane_line p l in
     (forall x, line_has l x -> plane_has q x) /\
     (** parallel to p when p is parallel to l *)
     (vdot (plane_n p) (line_u l) = 0 -> exists k, k <> 0 /\ plane_n q = vscale k (plane_n p)) /\
     (** and as parallel to p as possible: among all planes through l *)
     (forall m d, m <> vzero -> (forall x, line_has l x -> on_plane m d x) ->
        Rabs (vdot (plane_n p) m) * vlen (plane_n q) <= Rabs (vdot (plane_n p) (plane_n q)) * vlen m)).
Proof.
  intro B. split; [|split].
  - intros p a A q. destruct (dot_pt_pl B a p) as (Wl & U & M).
    assert (N : plane_n q = vscale (- (point_w a * point_w a)) (plane_n p)).
    { unfold q, project_plane_point, line_dot_point. rewrite (dot_pt_line_n B), U by exact Wl. destruct (plane_n p). vring. }
    assert (D : plane_d q = point_w a * vdot (pnum a) (plane_n p)).
    { unfold q, project_plane_point, line_dot_point. rewrite (dot_pt_line_d B), U by exact Wl. destruct (plane_n p), (pnum a). vcbn. ring. }
    clearbody q. split; [|exists (- (point_w a * point_w a)); split; [nra|exact N]].
    unfold plane_has, on_plane. rewrite N, D. rewrite (pnum_pos a A). destruct (plane_n p), (pos a). vcbn. ring.
  - intros l a A W r. destruct (dot_pt_pl B a (point_dot_line a l)) as (Wr & U & M).
    change (wf_line r) in Wr. change (line_u r = vscale (point_w a) (plane_n (point_dot_line a l))) in U.
    change (line_m r = vcross (pnum a) (plane_n (point_dot_line a l))) in M. clearbody r.
    rewrite (dot_pt_line_n B) in U, M by exact W. split; [exact Wr|]. split.
    + unfold line_has, on_line. rewrite U, M, (pnum_pos a A). destruct (line_u l), (pos a). vring.
    + exists (- (point_w a * point_w a)). split; [nra|]. rewrite U. destruct (line_u l). vring.
  - intros p l (W & Nu & P) q. assert (NP := vdot_pos _ Nu).
    assert (N : plane_n q = vcross (line_u l) (vcross (line_u l) (plane_n p))).
    { unfold q, project_plane_line. rewrite !(dot_plane_line_n B) by exact W. reflexivity. }
    assert (D : plane_d q = - vdot (vcross (line_u l) (plane_n p)) (line_m l)).
    { unfold q, project_plane_line. rewrite (dot_plane_line_d B), (dot_plane_line_n B) by exact W. reflexivity. }
    clearbody q. split; [|split].
    + intros x X. unfold line_has, on_line, plane_has, on_plane in *. rewrite N, D, <- X.
      destruct (line_u l), (plane_n p), x. vcbn. ring.
    + intro O. exists (- vdot (line_u l) (line_u l)). split; [lra|]. rewrite N. revert O.
      destruct (line_u l) as [a b c], (plane_n p) as [x y z]. vcbn. intro O. apply vec_eq; cbn.
      * transitivity (- (a * a + b * b + c * c) * x + a * (x * a + y * b + z * c)); [ring|rewrite O; ring].
      * transitivity (- (a * a + b * b + c * c) * y + b * (x * a + y * b + z * c)); [ring|rewrite O; ring].
      * transitivity (- (a * a + b * b + c * c) * z + c * (x * a + y * b + z * c)); [ring|rewrite O; ring].
    + intros m d Nm H.
      assert (MU : vdot m (line_u l) = 0).
      { assert (O := line_foot_on _ _ Nu P).
        assert (X := H _ (proj2 (on_line_param _ _ _ (vadd (line_foot (line_u l) (line_m l)) (vscale 1 (line_u l))) Nu O) (ex_intro _ 1 eq_refl))).
        assert (Y := H _ O). unfold on_plane in *. revert X Y. destruct (line_foot (line_u l) (line_m l)), (line_u l), m. vcbn. lra. }
      set (u := line_u l) in *. set (n := plane_n p) in *. set (k := plane_n q) in *.
      assert (E1 : vdot k m = - vdot u u * vdot n m).
      { rewrite N. transitivity (vdot u n * vdot m u - vdot u u * vdot n m); [destruct u, n, m; vcbn; ring|]. rewrite MU. ring. }
      assert (E2 : vdot k k = - vdot u u * vdot n k).
      { rewrite N. destruct u, n. vcbn. ring. }
      assert (C := cauchy k m). rewrite E1, Rabs_mult, Rabs_Ropp, (Rabs_right (vdot u u)) in C by lra.
      assert (F : vdot u u * Rabs (vdot n k) = vlen k * vlen k).
      { rewrite vlen_sq. rewrite <- (Rabs_right (vdot u u)) by lra. rewrite <- Rabs_mult.
        replace (vdot u u * vdot n k) with (- vdot k k) by lra. rewrite Rabs_Ropp. apply Rabs_right. apply Rle_ge, vdot_nonneg. }
      apply Rmult_le_reg_l with (vdot u u); [exact NP|].
      replace (vdot u u * (Rabs (vdot n k) * vlen m)) with (vlen k * vlen k * vlen m) by (rewrite <- F; ring).
      assert (LK := vlen_nonneg k). replace (vdot u u * (Rabs (vdot n m) * vlen k)) with (vlen k * (vdot u u * Rabs (vdot n m))) by ring.
      replace (vlen k * vlen k * vlen m) with (vlen k * (vlen k * vlen m)) by ring.
      apply Rmult_le_compat_l; assumption.
Qed.
Example C35_ex : proper_line (line_ctor 0 0 5 0 1 0) /\ plane_n (plane_ctor 1 2 3 4) <> vzero /\
  vcross (plane_n (plane_ctor 1 2 3 4)) (line_u (line_ctor 0 0 5 0 1 0)) <> vzero.
Proof.
  split; [split; [split; reflexivity|split; [intro H; apply vec_inj in H; cbn in H; lra|unfold vdot; cbn; lra]]|].
  split; intro H; apply vec_inj in H; cbn in H; lra.
Qed.
Print Assumptions C33_join_points.
Print Assumptions C33_join_three_points.
Print Assumptions C33_join_norms.
Print Assumptions C34_meet.
Print Assumptions C35_project_point.
Print Assumptions C35_project_line_plane.
Print Assumptions C35_project_onto.
Print Assumptions C37_metric.
