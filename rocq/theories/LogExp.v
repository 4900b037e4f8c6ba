(** Closed forms of exp along a one-parameter group and of log. *)
From Coq Require Import Reals ZArith Lra Lia.
From Verif Require Import AlgTac SpecGeom FloR Closed Geom AlgGP AlgNorm Motion Ctors ExpLog Euler ExpSeries KernelExpLog.
Local Open Scope R_scope.

Lemma atan2_range y x : - PI < Ratan2 y x <= PI.
Proof.
  assert (P := PI_RGT_0). unfold Ratan2.
  destruct (Rlt_dec 0 x) as [X|X]; [|destruct (Rlt_dec x 0) as [Y|Y]].
  - assert (A := atan_bound (y / x)). lra.
  - assert (A := atan_bound (y / x)). destruct (Rle_dec 0 y) as [Z|Z].
    + assert (y / x <= 0).
      { unfold Rdiv. assert (/ x < 0) by (apply Rinv_lt_0_compat; lra). nra. }
      assert (atan (y / x) <= 0).
      { destruct (Req_dec (y / x) 0) as [E|E]; [rewrite E, atan_0; lra|].
        left. rewrite <- atan_0. apply atan_increasing. lra. }
      lra.
    + assert (0 < y / x).
      { unfold Rdiv. assert (/ x < 0) by (apply Rinv_lt_0_compat; lra). nra. }
      assert (0 < atan (y / x)) by (rewrite <- atan_0; apply atan_increasing; lra). lra.
  - destruct (Rlt_dec 0 y); [lra|]. destruct (Rlt_dec y 0); lra.
Qed.
(** the angle in [-pi, pi] with given sine and cosine of positive sine *)
Lemma atan2_unit p s : p * p + s * s = 1 -> 0 < s ->
  let u := Ratan2 s p in 0 < u < PI /\ cos u = p /\ sin u = s.
Proof.
  intros H S u. destruct (atan2_polar s p) as [A C]; [lra|]. rewrite H, sqrt_1 in A, C. fold u in A, C.
  assert (R := atan2_range s p). fold u in R. split; [|split; lra].
  assert (P := PI_RGT_0). split.
  - destruct (Rlt_dec 0 u) as [K|K]; [exact K|exfalso]. assert (sin u <= 0); [|lra].
    assert (Q : 0 <= sin (- u)) by (apply sin_ge_0; lra). rewrite sin_neg in Q. lra.
  - destruct R as [_ [R|R]]; [exact R|]. exfalso. rewrite R, sin_PI in C. lra.
Qed.
Lemma atan2_scale k y x : 0 < k -> Ratan2 (k * y) (k * x) = Ratan2 y x.
Proof.
  intro K. unfold Ratan2.
  assert (A : forall z, 0 < k * z <-> 0 < z) by (intro; split; nra).
  assert (A' : forall z, k * z < 0 <-> z < 0) by (intro; split; nra).
  destruct (Rlt_dec 0 (k * x)) as [X|X], (Rlt_dec 0 x) as [X'|X']; try (exfalso; rewrite A in X; lra).
  - f_equal. field. split; lra.
  - destruct (Rlt_dec (k * x) 0) as [Y|Y], (Rlt_dec x 0) as [Y'|Y']; try (exfalso; rewrite A' in Y; lra).
    + replace (k * y / (k * x)) with (y / x) by (field; split; lra).
      destruct (Rle_dec 0 (k * y)), (Rle_dec 0 y); try reflexivity; exfalso; nra.
    + destruct (Rlt_dec 0 (k * y)) as [Z|Z], (Rlt_dec 0 y) as [Z'|Z']; try reflexivity; try (exfalso; rewrite A in Z; lra).
      destruct (Rlt_dec (k * y) 0) as [W|W], (Rlt_dec y 0) as [W'|W']; try reflexivity; exfalso; rewrite A' in W; lra.
Qed.

Section LE.
Context (rcp rsqrt : R -> R) (sz : bool) (Hrcp : exact_rcp rcp) (Hrsq : exact_rsqrt rsqrt) (B : Build).
Local Instance FLl : Flo R := Flo_R rcp rsqrt sz.

(** exp of t times the bivector (a, b) *)
Definition group (t : R) (a b : m128 R) : m128 R * m128 R :=
  let n := dot3 a a in let S := sqrt n in let g := dot3 a b in
  let c := cos (t * S) in let k := sin (t * S) / S in let h := g / n * (t * c - k) in
  (mk4 c (k * l1 a) (k * l2 a) (k * l3 a),
   mk4 (t * g * k) (k * l1 b + h * l1 a) (k * l2 b + h * l2 a) (k * l3 b + h * l3 a)).
Lemma exp_kernel_group t a b : l0 a = 0 -> l0 b = 0 -> 0 < dot3 a a ->
  exp_kernel (scale4 t a) (scale4 t b) = group t a b.
Proof.
  intros Ha Hb Hn. destruct a as [a0 a1 a2 a3], b as [b0 b1 b2 b3]. cbn [l0] in Ha, Hb. subst a0 b0.
  unfold group. set (a := mk4 0 a1 a2 a3) in *. set (b := mk4 0 b1 b2 b3). set (n := dot3 a a) in *. set (S := sqrt n). set (g := dot3 a b).
  assert (PS : 0 < S) by (apply sqrt_lt_R0; exact Hn).
  assert (Q : S * S = n) by (apply sqrt_sqrt; lra).
  assert (N : dot3 (scale4 t a) (scale4 t a) = (t * S) * (t * S)).
  { transitivity (t * t * n); [unfold n, dot3, a; cbn; ring|rewrite <- Q; ring]. }
  assert (G : dot3 (scale4 t a) (scale4 t b) = t * t * g) by (unfold g, dot3, a, b; cbn; ring).
  assert (L0 : forall v, l0 v = 0 -> l0 (scale4 t v) = 0) by (intros v E; cbn; rewrite E; ring).
  destruct (Req_dec t 0) as [Z|Z].
  - etransitivity; [apply (exp_kernel_zero rcp rsqrt sz); [apply L0; reflexivity|rewrite N, Z; ring]|].
    rewrite Z, !Rmult_0_l, cos_0, sin_0. unfold a, b. apply (f_equal2 pair); apply m128_ext; cbn; field; lra.
  - etransitivity; [apply (exp_kernel_R rcp rsqrt sz Hrcp Hrsq B); [apply L0; reflexivity|apply L0; reflexivity|
      rewrite N; apply Rlt_0_sqr, Rmult_integral_contrapositive; split; lra]|].
    cbv zeta. rewrite N, G. set (r := t * S). assert (R : r <> 0) by (unfold r; nra).
    assert (K : sin (sqrt (r * r)) / sqrt (r * r) = sin r / r).
    { rewrite <- (Rmult_1_r (sin (sqrt _) / _)), sinc_even. ring. }
    rewrite K, cos_even. unfold a, b. apply (f_equal2 pair); apply m128_ext; cbn [l0 l1 l2 l3 scale4 map4].
    all: try rewrite <- Q; unfold r; field; repeat split; try lra; exact Z.
Qed.
Lemma quad_mul a1 a2 a3 b1 b2 b3 e e' o o' f f' p p' :
  let q := quad a1 a2 a3 b1 b2 b3 in
  let al := - (a1 * a1 + a2 * a2 + a3 * a3) in let be := 2 * (a1 * b1 + a2 * b2 + a3 * b3) in
  gp (q e e' o o') (q f f' p p') ==
  q (e * f + al * (o * p)) (e * f' + e' * f + be * (o * p) + al * (o * p' + o' * p))
    (e * p + o * f) (e * p' + e' * p + o * f' + o' * f).
Proof. cbv zeta. unfold quad, bv. mvring. Qed.
Lemma group_quad t a b : l0 a = 0 -> l0 b = 0 -> 0 < dot3 a a ->
  let n := dot3 a a in let S := sqrt n in let g := dot3 a b in
  let c := cos (t * S) in let k := sin (t * S) / S in let h := g / n * (t * c - k) in
  mv_p12 (fst (group t a b)) (snd (group t a b)) ==
  quad (l1 a) (l2 a) (l3 a) (l1 b) (l2 b) (l3 b) c (t * g * k) k (- h).
Proof.
  intros Ha Hb Hn n S g c k h. unfold group. fold n. fold S. fold g. fold c. fold k. fold h.
  clearbody n S g c k h. destruct a as [a0 a1 a2 a3], b as [b0 b1 b2 b3]. cbn [l0] in Ha, Hb. subst a0 b0.
  unfold quad, bv. cbn [fst snd l0 l1 l2 l3]. mvring.
Qed.
(** the group law *)
Lemma quad_ext a1 a2 a3 b1 b2 b3 x1 x2 x3 x4 y1 y2 y3 y4 :
  x1 = y1 -> x2 = y2 -> x3 = y3 -> x4 = y4 ->
  quad a1 a2 a3 b1 b2 b3 x1 x2 x3 x4 == quad a1 a2 a3 b1 b2 b3 y1 y2 y3 y4.
Proof. intros -> -> -> ->. reflexivity. Qed.
Lemma group_mul s t a b : l0 a = 0 -> l0 b = 0 -> 0 < dot3 a a ->
  gp (mv_p12 (fst (group s a b)) (snd (group s a b))) (mv_p12 (fst (group t a b)) (snd (group t a b)))
  == mv_p12 (fst (group (s + t) a b)) (snd (group (s + t) a b)).
Proof.
  intros Ha Hb Hn. rewrite !group_quad by assumption. rewrite quad_mul.
  assert (PS : 0 < sqrt (dot3 a a)) by (apply sqrt_lt_R0; exact Hn).
  assert (Q : dot3 a a = sqrt (dot3 a a) * sqrt (dot3 a a)) by (symmetry; apply sqrt_sqrt; lra).
  assert (QQ : - (l1 a * l1 a + l2 a * l2 a + l3 a * l3 a) = - (sqrt (dot3 a a) * sqrt (dot3 a a))).
  { rewrite <- Q. reflexivity. }
  assert (GG : 2 * (l1 a * l1 b + l2 a * l2 b + l3 a * l3 b) = 2 * dot3 a b) by reflexivity.
  rewrite QQ, GG. clear QQ GG. set (S := sqrt (dot3 a a)) in *. clearbody S. rewrite Q. clear Q.
  rewrite Rmult_plus_distr_r, cos_plus, sin_plus.
  generalize (cos (s * S)), (sin (s * S)), (cos (t * S)), (sin (t * S)), (dot3 a b). intros cs ss ct st g.
  apply quad_ext.
  all: field; lra.
Qed.

(** ** log *)
Definition log_u (p1 p2 : m128 R) : R :=
  let S := sqrt (dot3 p1 p1) in let g := dot3 p1 p2 in
  if Rltb (Rabs (l0 p1)) (1 / 1000000) then Ratan2 (- l0 p2) (- (g / S)) else Ratan2 S (l0 p1).
Definition log_v (p1 p2 : m128 R) : R :=
  let S := sqrt (dot3 p1 p1) in let g := dot3 p1 p2 in
  if Rltb (Rabs (l0 p1)) (1 / 1000000) then - l0 p2 / S else - (g / S) / l0 p1.
Lemma log_kernel_R p1 p2 : 0 < dot3 p1 p1 ->
  let n := dot3 p1 p1 in let S := sqrt n in let g := dot3 p1 p2 in
  let u := log_u p1 p2 in let v := log_v p1 p2 in
  let w x y := u * (y / S - x * g / (S * n)) - v * (x / S) in
  log_kernel p1 p2 =
   (mk4 0 (u / S * l1 p1) (u / S * l2 p1) (u / S * l3 p1),
    mk4 0 (w (l1 p1) (l1 p2)) (w (l2 p1) (l2 p2)) (w (l3 p1) (l3 p2))).
Proof.
  intros Hn n S g u v w. unfold log_kernel.
  set (bm := _mm_set_ps (fz 1) (fz 1) (fz 1) (fz 0)).
  set (a := _mm_mul_ps bm p1). set (b := _mm_mul_ps bm p2).
  assert (Ea : a = mk4 0 (l1 p1) (l2 p1) (l3 p1)).
  { unfold a, bm. apply m128_ext; destruct p1; cbv -[Rplus Rmult IZR]; ring. }
  assert (Eb : b = mk4 0 (l1 p2) (l2 p2) (l3 p2)).
  { unfold b, bm. apply m128_ext; destruct p2; cbv -[Rplus Rmult IZR]; ring. }
  assert (Na : dot3 a a = n) by (rewrite Ea; reflexivity).
  assert (Ga : dot3 a b = g) by (rewrite Ea, Eb; reflexivity).
  destruct (all4 _) eqn:Z; [apply (zero_test rcp rsqrt sz) in Z; [unfold n in *; lra|rewrite Ea; reflexivity]|clear Z].
  unfold FLl in *. rewrite !hi_dp_bc_R, !rsqrt_nr1_R, !rcp_nr1_R, Na, Ga.
  assert (PS : 0 < S) by (apply sqrt_lt_R0; exact Hn).
  assert (Q : n = S * S) by (symmetry; apply sqrt_sqrt; unfold n; lra).
  assert (E : nr_rsqrt rsqrt n = / S) by (apply nr_rsqrt_exact; [exact Hrsq|exact Hn]).
  assert (E' : nr_rcp rcp n = / n) by (apply nr_rcp_exact; [exact Hrcp|unfold n; lra]).
  assert (Eu : u = if Rltb (Rabs (l0 p1)) (1 / 1000000) then Ratan2 (- l0 p2) (- (g / S)) else Ratan2 S (l0 p1)) by reflexivity.
  assert (Ev : v = if Rltb (Rabs (l0 p1)) (1 / 1000000) then - l0 p2 / S else - (g / S) / l0 p1) by reflexivity.
  rewrite Ea, Eb. subst w. clearbody n g S u v. destruct p1 as [p0 a1 a2 a3], p2 as [q0 b1 b2 b3]. clear Ea Eb Na Ga Hn a b bm.
  cbn [l0 l1 l2 l3] in *. cbv beta.
  cbv -[Rplus Rmult Rminus Ropp Rdiv Rinv IZR Ratan2 Rltb nr_rsqrt nr_rcp Rabs]. rewrite E, E'.
  replace (n * / S) with S by (rewrite Q; field; lra).
  replace (g * / S * -1) with (- (g / S)) by (field; lra).
  rewrite <- Eu, <- Ev, Q. clear - PS.
  apply (f_equal2 pair); apply m128_ext; cbn [l0 l1 l2 l3]; field; lra.
Qed.
(** no rotation part *)
Lemma log_kernel_zero p1 p2 : dot3 p1 p1 = 0 -> log_kernel p1 p2 = (mk4 0 0 0 0, p2).
Proof.
  intro H. unfold log_kernel.
  set (a := _mm_mul_ps _ p1).
  assert (Ea : a = mk4 0 0 0 0).
  { destruct p1 as [p0 a1 a2 a3]. destruct (sq3_zero a1 a2 a3 H) as (-> & -> & ->).
    unfold a. apply m128_ext; cbv -[Rplus Rmult IZR]; ring. }
  destruct (all4 _) eqn:Z; [reflexivity|exfalso].
  assert (N : dot3 a a = 0) by (rewrite Ea; unfold dot3; cbn; ring).
  exact (Bool.diff_true_false (eq_trans (eq_sym (proj2 (zero_test rcp rsqrt sz a (f_equal l0 Ea)) N)) Z)).
Qed.

(** log is the group coordinate: log m = (u/S) (a, b') with b' = b + k a *)
Lemma log_u_main p1 p2 : 1 / 1000000 <= Rabs (l0 p1) -> log_u p1 p2 = Ratan2 (sqrt (dot3 p1 p1)) (l0 p1)
  /\ log_v p1 p2 = - (dot3 p1 p2 / sqrt (dot3 p1 p1)) / l0 p1.
Proof.
  intro H. unfold log_u, log_v. unfold Rltb. destruct (Rlt_dec _ _); [lra|]. split; reflexivity.
Qed.
Lemma log_u_zero p1 p2 : Rabs (l0 p1) < 1 / 1000000 -> log_u p1 p2 = Ratan2 (- l0 p2) (- (dot3 p1 p2 / sqrt (dot3 p1 p1)))
  /\ log_v p1 p2 = - l0 p2 / sqrt (dot3 p1 p1).
Proof.
  intro H. unfold log_u, log_v. unfold Rltb. destruct (Rlt_dec _ _); [|lra]. split; reflexivity.
Qed.
(** exp of the log coordinates (u, v): needs only u with the right sine and
    cosine and v with v s = - q, v p = - ab/s *)
Lemma exp_log_coords p1 p2 u v (c : R) : 0 < dot3 p1 p1 ->
  let n := dot3 p1 p1 in let S := sqrt n in let g := dot3 p1 p2 in
  let w x y := u * (y / S - x * g / (S * n)) - v * (x / S) in
  u <> 0 -> c * c = 1 ->
  cos u = c * l0 p1 -> sin u = c * S -> - v * S = l0 p2 -> - v * l0 p1 = g / S ->
  exp_kernel (mk4 0 (u / S * l1 p1) (u / S * l2 p1) (u / S * l3 p1))
    (mk4 0 (w (l1 p1) (l1 p2)) (w (l2 p1) (l2 p2)) (w (l3 p1) (l3 p2)))
  = (scale4 c p1, scale4 c p2).
Proof.
  intros Hn n S g w U C Ec Es Ev Eg.
  assert (PS : 0 < S) by (apply sqrt_lt_R0; exact Hn).
  assert (Q : n = S * S) by (symmetry; apply sqrt_sqrt; unfold n; lra).
  set (a := mk4 0 _ _ _). set (b := mk4 0 (w _ _) _ _).
  assert (Na : dot3 a a = u * u).
  { transitivity (u / S * (u / S) * n); [unfold a, n, dot3; cbn; ring|rewrite Q; field; lra]. }
  assert (Gab : dot3 a b = - u * v).
  { transitivity (u / S * (u * (g / S - n * g / (S * n)) - v * (n / S))).
    { unfold a, b, w, Rdiv. generalize (/ S), (/ (S * n)). intros i j. unfold n, g, dot3. cbn [l1 l2 l3]. ring. }
    rewrite Q. field. lra. }
  etransitivity; [apply (exp_kernel_R rcp rsqrt sz Hrcp Hrsq B); [reflexivity|reflexivity|rewrite Na; nra]|].
  cbv zeta. rewrite Na, Gab, cos_even.
  replace (sin (sqrt (u * u)) / sqrt (u * u)) with (sin u / u) by (rewrite <- (Rmult_1_r (sin (sqrt _) / _)), sinc_even; ring).
  rewrite Ec, Es. subst a b w. cbn [l0 l1 l2 l3]. clearbody n g S.
  destruct p1 as [p0 a1 a2 a3], p2 as [q0 b1 b2 b3]. cbn [l0 l1 l2 l3] in *.
  apply (f_equal2 pair); apply m128_ext; cbn [l0 l1 l2 l3 scale4 map4].
  - reflexivity.
  - field. split; lra.
  - field. split; lra.
  - field. split; lra.
  - rewrite <- Ev. field. lra.
  - assert (Eg' : g = - v * p0 * S) by (rewrite Eg; field; lra). rewrite Eg', Q. field. split; lra.
  - assert (Eg' : g = - v * p0 * S) by (rewrite Eg; field; lra). rewrite Eg', Q. field. split; lra.
  - assert (Eg' : g = - v * p0 * S) by (rewrite Eg; field; lra). rewrite Eg', Q. field. split; lra.
Qed.
End LE.
