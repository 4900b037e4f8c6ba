(** Vector geometry used by the incidence and metric theorems. *)
From Coq Require Import Reals Lra Psatz.
From Verif Require Import SpecGeom.
Local Open Scope R_scope.

Lemma vec_inj a b : a = b -> vx a = vx b /\ vy a = vy b /\ vz a = vz b.
Proof. intros ->. auto. Qed.
Lemma vdot_nonneg a : 0 <= vdot a a.
Proof. destruct a as [x y z]. unfold vdot. cbn. nra. Qed.
Lemma vdot_zero a : vdot a a = 0 -> a = vzero.
Proof. destruct a as [x y z]. unfold vdot. cbn. intro. apply vec_eq; cbn; nra. Qed.
Lemma vdot_pos a : a <> vzero -> 0 < vdot a a.
Proof. intro H. destruct (vdot_nonneg a) as [L|E]; [exact L|]. exfalso. apply H, vdot_zero. auto. Qed.
Lemma vdot_comm a b : vdot a b = vdot b a. Proof. destruct a, b. vcbn. ring. Qed.
Lemma vdot_zero_l a : vdot vzero a = 0. Proof. destruct a. vcbn. ring. Qed.
Lemma vlen_nonneg a : 0 <= vlen a. Proof. apply sqrt_pos. Qed.
Lemma vlen_sq a : vlen a * vlen a = vdot a a. Proof. apply sqrt_sqrt, vdot_nonneg. Qed.
Lemma vlen_zero a : vlen a = 0 <-> a = vzero.
Proof.
  split.
  - intro H. apply vdot_zero. rewrite <- vlen_sq, H. ring.
  - intros ->. unfold vlen. replace (vdot vzero vzero) with 0 by (vcbn; ring). apply sqrt_0.
Qed.
Lemma vlen_scale k a : vlen (vscale k a) = Rabs k * vlen a.
Proof.
  unfold vlen. replace (vdot (vscale k a) (vscale k a)) with (Rsqr k * vdot a a) by (destruct a; unfold Rsqr; vcbn; ring).
  rewrite sqrt_mult; [|apply Rle_0_sqr|apply vdot_nonneg]. rewrite sqrt_Rsqr_abs. reflexivity.
Qed.
Lemma vlen_one a : vdot a a = 1 -> vlen a = 1.
Proof. unfold vlen. intros ->. apply sqrt_1. Qed.
(** Lagrange and Cauchy-Schwarz *)
Lemma lagrange a b : vdot (vcross a b) (vcross a b) = vdot a a * vdot b b - vdot a b * vdot a b.
Proof. destruct a, b. vcbn. ring. Qed.
Lemma cauchy a b : Rabs (vdot a b) <= vlen a * vlen b.
Proof.
  assert (A := vlen_nonneg a). assert (B := vlen_nonneg b). assert (L := lagrange a b).
  assert (N := vdot_nonneg (vcross a b)). rewrite L, <- (vlen_sq a), <- (vlen_sq b) in N.
  apply Rsqr_incr_0; [|apply Rabs_pos|nra]. unfold Rsqr.
  rewrite <- Rabs_mult, Rabs_right by nra. nra.
Qed.
Lemma vlen_le a b : vdot a a <= vdot b b -> vlen a <= vlen b.
Proof. apply sqrt_le_1_alt. Qed.
Lemma dist_sym a b : dist a b = dist b a.
Proof. unfold dist, vlen. f_equal. destruct a, b. vcbn. ring. Qed.
Lemma dist_zero a b : dist a b = 0 <-> a = b.
Proof.
  unfold dist. rewrite vlen_zero. split.
  - intro H. apply vec_inj in H. cbn in H. apply vec_eq; lra.
  - intros ->. destruct b. vring.
Qed.
(** Pythagoras: foot + orthogonal remainder is closest *)
Lemma foot_closest x f y : vdot (vsub x f) (vsub f y) = 0 -> dist x f <= dist x y.
Proof.
  intro H. apply vlen_le. assert (N := vdot_nonneg (vsub f y)).
  replace (vdot (vsub x y) (vsub x y)) with
    (vdot (vsub x f) (vsub x f) + 2 * vdot (vsub x f) (vsub f y) + vdot (vsub f y) (vsub f y))
    by (destruct x, f, y; vcbn; ring).
  rewrite H. lra.
Qed.
(** parallel vectors *)
Lemma cross_zero_par u v : u <> vzero -> vcross v u = vzero -> exists t, v = vscale t u.
Proof.
  intros H C. assert (P := vdot_pos u H). exists (vdot v u / vdot u u).
  apply vec_inj in C. destruct u as [a b c], v as [x y z]. vcbn. destruct C as (C1 & C2 & C3).
  apply vec_eq; cbn;
  match goal with |- _ = ?n / ?d * ?k => transitivity ((n * k) / d); [|field; lra] end;
  apply Rmult_eq_reg_r with (a * a + b * b + c * c); try lra; unfold Rdiv;
  rewrite Rmult_assoc, Rinv_l, Rmult_1_r by lra.
  - transitivity ((x * a + y * b + z * c) * a + b * (x * b - y * a) - c * (z * a - x * c)); [ring|rewrite C2, C3; ring].
  - transitivity ((x * a + y * b + z * c) * b + c * (y * c - z * b) - a * (x * b - y * a)); [ring|rewrite C1, C3; ring].
  - transitivity ((x * a + y * b + z * c) * c + a * (z * a - x * c) - b * (y * c - z * b)); [ring|rewrite C2, C1; ring].
Qed.
Lemma vsub_zero a b : vsub a b = vzero <-> a = b.
Proof. split; [intro H; apply vec_inj in H; cbn in H; apply vec_eq; lra|intros ->; destruct b; vring]. Qed.
Lemma vscale_zero k a : vscale k a = vzero -> k = 0 \/ a = vzero.
Proof.
  intro H. apply vec_inj in H. destruct a as [x y z]. cbn in H. destruct (Req_dec k 0); [left; assumption|right].
  apply vec_eq; cbn; nra.
Qed.

(** ** Lines in Pluecker coordinates: direction u, moment m *)
Definition line_foot (u m : vec) : vec := vscale (/ vdot u u) (vcross u m).
Lemma line_foot_on u m : u <> vzero -> vdot u m = 0 -> on_line u m (line_foot u m).
Proof.
  intros H P. assert (N := vdot_pos u H). unfold on_line, line_foot.
  destruct u as [a b c], m as [x y z]. vcbn.
  apply vec_eq; cbn; apply Rmult_eq_reg_r with (a * a + b * b + c * c); try lra; field_simplify; try lra.
  - transitivity (x * (a * a + b * b + c * c) - a * (a * x + b * y + c * z)); [ring|rewrite P; ring].
  - transitivity (y * (a * a + b * b + c * c) - b * (a * x + b * y + c * z)); [ring|rewrite P; ring].
  - transitivity (z * (a * a + b * b + c * c) - c * (a * x + b * y + c * z)); [ring|rewrite P; ring].
Qed.
Lemma on_line_plucker u m x : on_line u m x -> vdot u m = 0.
Proof. unfold on_line. intros <-. destruct u, x. vcbn. ring. Qed.
(** the points of a line *)
Lemma on_line_param u m p x : u <> vzero -> on_line u m p ->
  (on_line u m x <-> exists t, x = vadd p (vscale t u)).
Proof.
  unfold on_line. intros H P. split.
  - intro X. destruct (cross_zero_par u (vsub x p) H) as [t T].
    + transitivity (vsub (vcross x u) (vcross p u)); [destruct x, p, u; vring|]. rewrite X, P. destruct m; vring.
    + exists t. rewrite <- T. destruct x, p. vring.
  - intros [t ->]. rewrite <- P. destruct p, u. vring.
Qed.
(** distance of a point to a line, times |u| *)
Lemma dist_to_line u m x : u <> vzero -> vdot u m = 0 ->
  let k := vlen (vsub (vcross x u) m) in
  (exists y, on_line u m y /\ dist x y * vlen u = k) /\
  (forall y, on_line u m y -> k <= dist x y * vlen u).
Proof.
  intros H P k. assert (Np := vdot_pos u H). split.
  - set (p := line_foot u m). assert (O := line_foot_on u m H P). fold p in O.
    set (t := vdot (vsub x p) u / vdot u u). exists (vadd p (vscale t u)).
    split; [apply (on_line_param u m p _ H O); exists t; reflexivity|].
    unfold dist, k. rewrite Rmult_comm. unfold vlen at 1 2 3. rewrite <- sqrt_mult by apply vdot_nonneg.
    f_equal. assert (T : t * vdot u u = vdot (vsub x p) u) by (unfold t; field; lra). clearbody t.
    unfold on_line in O. rewrite <- O. clear - T. clearbody p. destruct u as [a b c], x as [x y z], p as [p q r].
    vcbn. nra.
  - intros y O. unfold on_line in O. unfold k. rewrite <- O.
    unfold dist, vlen. rewrite <- sqrt_mult by apply vdot_nonneg. apply sqrt_le_1_alt.
    replace (vsub (vcross x u) (vcross y u)) with (vcross (vsub x y) u) by (destruct x, y, u; vring).
    rewrite lagrange. nra.
Qed.

(** ** Two lines: det (x1 - x2) u1 u2 is the Pluecker product *)
Lemma plucker_det u1 m1 u2 m2 x1 x2 : on_line u1 m1 x1 -> on_line u2 m2 x2 ->
  vdot u1 m2 + vdot u2 m1 = vdet (vsub x1 x2) u1 u2.
Proof. unfold on_line. intros <- <-. destruct u1, u2, x1, x2. vcbn. ring. Qed.
(** distance of two lines, times |u1 x u2| *)
Lemma dist_lines u1 m1 u2 m2 : vcross u1 u2 <> vzero -> vdot u1 m1 = 0 -> vdot u2 m2 = 0 ->
  let k := Rabs (vdot u1 m2 + vdot u2 m1) in
  (exists y1 y2, on_line u1 m1 y1 /\ on_line u2 m2 y2 /\ dist y1 y2 * vlen (vcross u1 u2) = k) /\ (forall y1 y2, on_line u1 m1 y1 -> on_line u2 m2 y2 -> k <= dist y1 y2 * vlen (vcross u1 u2)).
Proof.
  intros H P1 P2 k.
  assert (N1 : u1 <> vzero) by (intros ->; apply H; destruct u2; vring).
  assert (N2 : u2 <> vzero) by (intros ->; apply H; destruct u1; vring).
  assert (LB : forall y1 y2, on_line u1 m1 y1 -> on_line u2 m2 y2 -> k = Rabs (vdot (vsub y1 y2) (vcross u1 u2))).
  { intros y1 y2 O1 O2. unfold k. rewrite (plucker_det _ _ _ _ _ _ O1 O2). reflexivity. }
  split.
  - set (p1 := line_foot u1 m1). set (p2 := line_foot u2 m2).
    assert (O1 := line_foot_on u1 m1 N1 P1). assert (O2 := line_foot_on u2 m2 N2 P2). fold p1 in O1. fold p2 in O2.
    clearbody p1 p2. set (c := vcross u1 u2). assert (Nc := vdot_pos _ H). fold c in Nc.
    set (w := vsub p2 p1).
    set (s := vdet w u2 c / vdot c c). set (t := - (vdet u1 w c / vdot c c)).
    exists (vadd p1 (vscale s u1)), (vadd p2 (vscale t u2)).
    assert (Y1 : on_line u1 m1 (vadd p1 (vscale s u1))) by (apply (on_line_param _ _ _ _ N1 O1); exists s; reflexivity).
    assert (Y2 : on_line u2 m2 (vadd p2 (vscale t u2))) by (apply (on_line_param _ _ _ _ N2 O2); exists t; reflexivity).
    split; [exact Y1|split; [exact Y2|]]. rewrite (LB _ _ Y1 Y2). fold c.
    assert (E : vsub (vadd p1 (vscale s u1)) (vadd p2 (vscale t u2)) = vscale (- (vdot w c / vdot c c)) c).
    { unfold s, t, w. revert Nc. unfold c. destruct p1 as [a1 a2 a3], p2 as [b1 b2 b3], u1 as [x1 x2 x3], u2 as [y1 y2 y3].
      vcbn. intro Nc. apply vec_eq; cbn; field; lra. }
    unfold dist. rewrite E, vlen_scale. rewrite Rmult_assoc, vlen_sq.
    replace (vdot (vscale (- (vdot w c / vdot c c)) c) c) with (- (vdot w c / vdot c c) * vdot c c)
      by (destruct c; vcbn; ring).
    rewrite Rabs_mult, (Rabs_right (vdot c c)) by lra. reflexivity.
  - intros y1 y2 O1 O2. rewrite (LB y1 y2 O1 O2). apply cauchy.
Qed.
(** coplanarity *)
Definition coplanar (u1 m1 u2 m2 : vec) : Prop :=
  exists n d, n <> vzero /\ (forall x, on_line u1 m1 x -> on_plane n d x) /\ (forall x, on_line u2 m2 x -> on_plane n d x).
Lemma perp_exists u : exists n, n <> vzero /\ vdot n u = 0.
Proof.
  destruct u as [a b c]. destruct (Req_dec a 0) as [E|E].
  - exists (V 1 0 0). split; [intro H; apply vec_inj in H; cbn in H; lra|]. vcbn. lra.
  - exists (V b (- a) 0). split; [intro H; apply vec_inj in H; cbn in H; lra|]. vcbn. ring.
Qed.
Lemma coplanar_iff u1 m1 u2 m2 : u1 <> vzero -> u2 <> vzero -> vdot u1 m1 = 0 -> vdot u2 m2 = 0 ->
  (coplanar u1 m1 u2 m2 <-> vdot u1 m2 + vdot u2 m1 = 0).
Proof.
  intros N1 N2 P1 P2. assert (O1 := line_foot_on u1 m1 N1 P1). assert (O2 := line_foot_on u2 m2 N2 P2).
  set (p1 := line_foot u1 m1) in *. set (p2 := line_foot u2 m2) in *. clearbody p1 p2.
  rewrite (plucker_det _ _ _ _ _ _ O1 O2).
  assert (PL : forall u m p n d, u <> vzero -> on_line u m p -> vdot n u = 0 -> on_plane n d p ->
    forall x, on_line u m x -> on_plane n d x).
  { intros u m p n d N O U P x X. apply (on_line_param u m p x N O) in X. destruct X as [t ->].
    unfold on_plane in *. rewrite <- P. replace (vdot n (vadd p (vscale t u))) with (vdot n p + t * vdot n u)
      by (destruct n, p, u; vcbn; ring). rewrite U. ring. }
  split.
  - intros (n & d & Nn & A1 & A2).
    assert (U1 : vdot n u1 = 0).
    { assert (X := A1 _ (proj2 (on_line_param u1 m1 p1 (vadd p1 (vscale 1 u1)) N1 O1) (ex_intro _ 1 eq_refl))).
      assert (Y := A1 _ O1). unfold on_plane in *. destruct n, p1, u1. vcbn. lra. }
    assert (U2 : vdot n u2 = 0).
    { assert (X := A2 _ (proj2 (on_line_param u2 m2 p2 (vadd p2 (vscale 1 u2)) N2 O2) (ex_intro _ 1 eq_refl))).
      assert (Y := A2 _ O2). unfold on_plane in *. destruct n, p2, u2. vcbn. lra. }
    assert (D : vdot n (vsub p1 p2) = 0).
    { assert (X := A1 _ O1). assert (Y := A2 _ O2). unfold on_plane in *. destruct n, p1, p2. vcbn. lra. }
    apply Rmult_eq_reg_l with (vdot n n); [|assert (Q := vdot_pos n Nn); lra].
    rewrite Rmult_0_r. set (w := vsub p1 p2) in *. clearbody w. clear - U1 U2 D.
    transitivity (vdot n w * vdot n (vcross u1 u2) + vdot n u1 * vdot n (vcross u2 w) + vdot n u2 * vdot n (vcross w u1)).
    + destruct n, w, u1, u2. vcbn. ring.
    + rewrite U1, U2, D. ring.
  - intro D. destruct (Req_dec (vdot (vcross u1 u2) (vcross u1 u2)) 0) as [Z|Z].
    + apply vdot_zero in Z. destruct (cross_zero_par u2 u1 N2 Z) as [t T].
      destruct (Req_dec (vdot (vcross u2 (vsub p1 p2)) (vcross u2 (vsub p1 p2))) 0) as [Y|Y].
      * apply vdot_zero in Y. destruct (perp_exists u2) as (n & Nn & U).
        destruct (cross_zero_par u2 (vsub p1 p2) N2) as [s S].
        { transitivity (vopp (vcross u2 (vsub p1 p2))); [destruct u2, p1, p2; vring|]. rewrite Y. vring. }
        exists n, (- vdot n p2). split; [exact Nn|]. split.
        -- apply (PL u1 m1 p1 n _ N1 O1).
           ++ rewrite T. transitivity (t * vdot n u2); [destruct n, u2; vcbn; ring|rewrite U; ring].
           ++ unfold on_plane. transitivity (vdot n (vsub p1 p2)); [destruct n, p1, p2; vcbn; ring|].
              rewrite S. transitivity (s * vdot n u2); [destruct n, u2; vcbn; ring|rewrite U; ring].
        -- apply (PL u2 m2 p2 n _ N2 O2 U). unfold on_plane. ring.
      * exists (vcross u2 (vsub p1 p2)), (- vdot (vcross u2 (vsub p1 p2)) p2).
        split; [intro X; apply Y; rewrite X; apply vdot_zero_l|]. split.
        -- apply (PL u1 m1 p1 _ _ N1 O1); [rewrite T|unfold on_plane]; destruct u2, p1, p2; vcbn; ring.
        -- apply (PL u2 m2 p2 _ _ N2 O2); [|unfold on_plane]; destruct u2, p1, p2; vcbn; ring.
    + exists (vcross u1 u2), (- vdot (vcross u1 u2) p2).
      split; [intro X; apply Z; rewrite X; apply vdot_zero_l|]. split.
      * apply (PL u1 m1 p1 _ _ N1 O1); [destruct u1, u2; vcbn; ring|]. unfold on_plane.
        rewrite <- D. destruct u1, u2, p1, p2; vcbn; ring.
      * apply (PL u2 m2 p2 _ _ N2 O2); [destruct u1, u2; vcbn; ring|]. unfold on_plane. ring.
Qed.
(** ** Planes *)
Definition plane_foot (n : vec) (d : R) (x : vec) : vec := vsub x (vscale ((vdot n x + d) / vdot n n) n).
Lemma plane_foot_on n d x : n <> vzero -> on_plane n d (plane_foot n d x).
Proof.
  intro H. assert (P := vdot_pos n H). unfold on_plane, plane_foot.
  destruct n as [a b c], x as [x y z]. vcbn. field. lra.
Qed.
Lemma plane_foot_closest n d x y : n <> vzero -> on_plane n d y -> dist x (plane_foot n d x) <= dist x y.
Proof.
  intros H Y. apply foot_closest. assert (F := plane_foot_on n d x H). unfold plane_foot in *.
  set (k := (vdot n x + d) / vdot n n) in *. clearbody k. unfold on_plane in *.
  transitivity (k * (vdot n (vsub x (vscale k n)) + d - (vdot n y + d))); [destruct n, x, y; vcbn; ring|].
  rewrite F, Y. ring.
Qed.
(** distance of a point to a plane, times |n| *)
Lemma dist_to_plane n d x : n <> vzero ->
  (exists y, on_plane n d y /\ dist x y * vlen n = Rabs (vdot n x + d)) /\
  (forall y, on_plane n d y -> Rabs (vdot n x + d) <= dist x y * vlen n).
Proof.
  intro H. assert (P := vdot_pos n H). split.
  - exists (plane_foot n d x). split; [apply plane_foot_on; exact H|].
    unfold dist, plane_foot. set (k := (vdot n x + d) / vdot n n).
    replace (vsub x (vsub x (vscale k n))) with (vscale k n) by (destruct x, n; vring).
    rewrite vlen_scale, Rmult_assoc, vlen_sq.
    rewrite <- (Rabs_right (vdot n n)) by lra. rewrite <- Rabs_mult. f_equal. unfold k. field. lra.
  - intros y Y. unfold on_plane in Y. replace (vdot n x + d) with (vdot (vsub x y) n).
    + apply cauchy.
    + transitivity (vdot n x + d - (vdot n y + d)); [destruct x, y, n; vcbn; ring|]. rewrite Y. ring.
Qed.
(** two planes with independent normals *)
Lemma par_zero n1 n2 a b : vcross n1 n2 <> vzero -> vscale a n1 = vscale b n2 -> a = 0 /\ b = 0.
Proof.
  intros H E. split.
  - destruct (vscale_zero a (vcross n1 n2)); [|assumption|contradiction].
    transitivity (vcross (vscale a n1) n2); [destruct n1, n2; vring|]. rewrite E. destruct n2; vring.
  - destruct (vscale_zero b (vcross n1 n2)); [|assumption|contradiction].
    transitivity (vcross n1 (vscale b n2)); [destruct n1, n2; vring|]. rewrite <- E. destruct n1; vring.
Qed.
(** angle *)
Definition angle (a b : vec) : R := acos (vdot a b / (vlen a * vlen b)).
Lemma cos_angle a b : a <> vzero -> b <> vzero -> vdot a b = vlen a * vlen b * cos (angle a b).
Proof.
  intros A B. assert (LA : 0 < vlen a) by (destruct (vlen_nonneg a) as [|E]; [assumption|exfalso; apply A, vlen_zero; auto]).
  assert (LB : 0 < vlen b) by (destruct (vlen_nonneg b) as [|E]; [assumption|exfalso; apply B, vlen_zero; auto]).
  unfold angle. assert (C := cauchy a b). assert (K : 0 < vlen a * vlen b) by nra.
  rewrite cos_acos.
  - field. lra.
  - apply Rabs_def2b in C || idtac. assert (X := Rle_abs (vdot a b)). assert (Y := Rle_abs (- vdot a b)). rewrite Rabs_Ropp in Y.
    split.
    + apply Rmult_le_reg_r with (vlen a * vlen b); [exact K|]. unfold Rdiv. rewrite Rmult_assoc, Rinv_l by lra. lra.
    + apply Rmult_le_reg_r with (vlen a * vlen b); [exact K|]. unfold Rdiv. rewrite Rmult_assoc, Rinv_l by lra. lra.
Qed.
Lemma sin_angle a b : a <> vzero -> b <> vzero -> vlen (vcross a b) = vlen a * vlen b * sin (angle a b).
Proof.
  intros A B. assert (C := cos_angle a b A B). assert (LA := vlen_nonneg a). assert (LB := vlen_nonneg b).
  assert (S : 0 <= sin (angle a b)).
  { apply sin_ge_0; [apply acos_bound|apply acos_bound]. }
  apply Rsqr_inj; [apply vlen_nonneg|apply Rmult_le_pos; [nra|exact S]|].
  unfold Rsqr. rewrite vlen_sq, lagrange, C, <- (vlen_sq a), <- (vlen_sq b).
  assert (T := sin2_cos2 (angle a b)). unfold Rsqr in T.
  transitivity (vlen a * vlen a * (vlen b * vlen b) * (1 - cos (angle a b) * cos (angle a b))); [ring|].
  rewrite <- T. ring.
Qed.
