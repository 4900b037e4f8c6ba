(** exp and log of the entities, from the kernels' closed forms. *)
From Coq Require Import Reals ZArith Lra Lia Setoid Morphisms.
From Verif Require Import AlgTac SpecGeom FloR Closed Geom AlgGP AlgSW AlgNorm Motion Ctors ExpLog Euler ExpSeries LogExp KernelExpLog.
Local Open Scope R_scope.

Lemma neg_sandwich x y : sandwich (mvscale (-1) x) y == sandwich x y.
Proof.
  unfold sandwich.
  assert (E : rev (mvscale (-1) x) == mvscale (-1) (rev x)) by mvring.
  rewrite E. assert (L : forall u v, gp (mvscale (-1) u) v == mvscale (-1) (gp u v)) by (intros; mvring).
  assert (Rr : forall u v, gp u (mvscale (-1) v) == mvscale (-1) (gp u v)) by (intros; mvring).
  rewrite Rr, !L. rewrite ?Rr, ?L. match goal with |- _ == ?z => generalize z end. intros z k. unfold mvscale. ring.
Qed.

Section LX.
Context (rcp rsqrt : R -> R) (sz : bool) (Hrcp : exact_rcp rcp) (Hrsq : exact_rsqrt rsqrt) (B : Build).
Local Instance FLg : Flo R := Flo_R rcp rsqrt sz.

(** ** series *)
Lemma line_exp_series l : wf_line l -> is_exp (mv_line l) (mv_motor (line_exp l)).
Proof.
  intros [W1 W2]. destruct l as [a b]. cbn [line_p1 line_p2] in *.
  destruct (Req_dec (dot3 a a) 0) as [Z|Z].
  - unfold line_exp. cbn [line_p1 line_p2]. unfold FLg.
    replace (@exp_kernel R (Flo_R rcp rsqrt sz) B a b) with (mk4 1 0 0 0, b) by (symmetry; exact (exp_kernel_zero rcp rsqrt sz B a b W1 Z)).
    destruct a as [a0 a1 a2 a3], b as [b0 b1 b2 b3]. cbn [l0] in *. subst a0 b0.
    destruct (sq3_zero a1 a2 a3 Z) as (-> & -> & ->).
    apply is_exp_eq with (2 := exp_ideal b1 b2 b3). unfold bv. mvring.
  - assert (P : 0 < dot3 a a) by (assert (D := dot3_nonneg a); lra).
    assert (E := exp_kernel_group rcp rsqrt sz Hrcp Hrsq B 1 a b W1 W2 P).
    rewrite !scale4_1 in E.
    assert (G := group_quad 1 a b W1 W2 P). cbv zeta in G.
    unfold line_exp. cbn [line_p1 line_p2].
    change (@exp_kernel R (FLl rcp rsqrt sz) B a b) with (@exp_kernel R FLg B a b) in E. rewrite E.
    assert (PS : 0 < sqrt (dot3 a a)) by (apply sqrt_lt_R0; exact P).
    assert (Q : sqrt (dot3 a a) * sqrt (dot3 a a) = - - dot3 a a) by (rewrite Ropp_involutive; apply sqrt_sqrt; lra).
    assert (X := exp_bivector (l1 a) (l2 a) (l3 a) (l1 b) (l2 b) (l3 b) (sqrt (dot3 a a)) PS Q).
    apply is_exp_arg with (x := bv (l1 a) (l2 a) (l3 a) (l1 b) (l2 b) (l3 b)).
    { unfold bv. destruct a as [a0 a1 a2 a3], b as [b0 b1 b2 b3]. cbn [l0] in W1, W2. subst. reflexivity. }
    apply is_exp_eq with (2 := X).
    transitivity (mv_p12 (fst (group 1 a b)) (snd (group 1 a b))); [|destruct (group 1 a b); reflexivity].
    rewrite G. rewrite !Rmult_1_l.
    change (- (l1 a * l1 a + l2 a * l2 a + l3 a * l3 a)) with (- dot3 a a).
    change (2 * (l1 a * l1 b + l2 a * l2 b + l3 a * l3 b)) with (2 * dot3 a b).
    apply quad_ext; try reflexivity; field; lra.
Qed.
Lemma ideal_exp_series l : wf_ideal l -> is_exp (mv_ideal l) (mv_translator (ideal_line_exp l)).
Proof.
  intro W. destruct l as [[b0 b1 b2 b3]]. unfold wf_ideal in W. cbn in W. subst b0.
  apply is_exp_arg with (x := bv 0 0 0 b1 b2 b3); [unfold bv; mvring|].
  apply is_exp_eq with (2 := exp_ideal b1 b2 b3). unfold bv, ideal_line_exp. mvring.
Qed.
(** branch_exp agrees with line_exp *)
Lemma branch_exp_R b : wf_branch b -> 0 < dot3 (branch_p1 b) (branch_p1 b) ->
  let S := sqrt (dot3 (branch_p1 b) (branch_p1 b)) in
  rotor_p1 (branch_exp b) = mk4 (cos S) (sin S / S * branch_e23 b) (sin S / S * branch_e31 b) (sin S / S * branch_e12 b).
Proof.
  intros W P S. unfold branch_exp.
  match goal with |- context [l0 (sqrt_nr1 ?v)] => assert (E : l0 (sqrt_nr1 v) = S) end.
  { unfold FLg. rewrite sqrt_nr1_R. cbn [map4 l0].
    match goal with |- l0 ?v * _ = _ => replace (l0 v) with (dot3 (branch_p1 b) (branch_p1 b)) by (symmetry; apply hi_dp_l0_R) end.
    rewrite nr_rsqrt_exact by assumption.
    assert (PS : 0 < S) by (apply sqrt_lt_R0; exact P). fold S.
    rewrite <- (sqrt_sqrt (dot3 (branch_p1 b) (branch_p1 b))) by lra. fold S. field. lra. }
  rewrite E. cbv zeta. destruct b as [[b0 b1 b2 b3]]. unfold wf_branch in W. cbn in W. subst b0.
  apply m128_ext; cbn; ring.
Qed.
Lemma branch_exp_line b : wf_branch b -> 0 < dot3 (branch_p1 b) (branch_p1 b) ->
  mv_rotor (branch_exp b) == mv_motor (line_exp (line_of_branch b)).
Proof.
  intros W P. unfold line_exp. cbn [line_of_branch line_p1 line_p2].
  assert (E := exp_kernel_R rcp rsqrt sz Hrcp Hrsq B (branch_p1 b) (mk4 0 0 0 0) W eq_refl P). cbv zeta in E.
  change (@exp_kernel R FLg B (branch_p1 b) _mm_setzero_ps) with (@exp_kernel R (FLe rcp rsqrt sz) B (branch_p1 b) (mk4 0 0 0 0)).
  rewrite E. unfold mv_rotor. rewrite (branch_exp_R b W P).
  assert (G : dot3 (branch_p1 b) (mk4 0 0 0 0) = 0) by (unfold dot3; cbn; ring). rewrite G. clear.
  unfold branch_e23, branch_e31, branch_e12.
  generalize (cos (sqrt (dot3 (branch_p1 b) (branch_p1 b)))), (sin (sqrt (dot3 (branch_p1 b) (branch_p1 b))) / sqrt (dot3 (branch_p1 b) (branch_p1 b))).
  generalize (dot3 (branch_p1 b) (branch_p1 b)). intros n c k. destruct b as [[b0 b1 b2 b3]]. cbn [branch_p1 l1 l2 l3].
  unfold Rdiv. rewrite !Rmult_0_l. mvring.
Qed.
Lemma branch_exp_series b : wf_branch b -> 0 < dot3 (branch_p1 b) (branch_p1 b) ->
  is_exp (mv_branch b) (mv_rotor (branch_exp b)).
Proof.
  intros W P. apply is_exp_eq with (mv_motor (line_exp (line_of_branch b))); [symmetry; apply branch_exp_line; assumption|].
  apply is_exp_arg with (mv_line (line_of_branch b)).
  - destruct b as [[b0 b1 b2 b3]]. unfold line_of_branch. mvring.
  - apply line_exp_series. split; [exact W|reflexivity].
Qed.

(** ** group law *)
Lemma line_scale_p l s : line_p1 (line_mul_f l s) = scale4 s (line_p1 l) /\ line_p2 (line_mul_f l s) = scale4 s (line_p2 l).
Proof. destruct l as [[a0 a1 a2 a3] [b0 b1 b2 b3]]. split; apply m128_ext; cbn; ring. Qed.
Lemma line_exp_add s t l : wf_line l ->
  motor_mul_motor (line_exp (line_mul_f l s)) (line_exp (line_mul_f l t)) = line_exp (line_mul_f l (s + t)).
Proof.
  intros [W1 W2]. apply mv_motor_inj. rewrite (motor_mul_motor_gp B).
  unfold line_exp. rewrite !(proj1 (line_scale_p _ _)), !(proj2 (line_scale_p _ _)).
  destruct l as [a b]. cbn [line_p1 line_p2] in *.
  destruct (Req_dec (dot3 a a) 0) as [Z|Z].
  - assert (E : forall r, @exp_kernel R FLg B (scale4 r a) (scale4 r b) = (mk4 1 0 0 0, scale4 r b)).
    { intro r. apply (exp_kernel_zero rcp rsqrt sz B).
      - cbn. rewrite W1. ring.
      - transitivity (r * r * dot3 a a); [unfold dot3; cbn; ring|rewrite Z; ring]. }
    rewrite !E. destruct b as [b0 b1 b2 b3]. cbn [l0] in W2. subst b0. mvring.
  - assert (P : 0 < dot3 a a) by (assert (D := dot3_nonneg a); lra).
    assert (E : forall r, @exp_kernel R FLg B (scale4 r a) (scale4 r b) = group r a b).
    { intro r. exact (exp_kernel_group rcp rsqrt sz Hrcp Hrsq B r a b W1 W2 P). }
    rewrite !E. assert (G := group_mul s t a b W1 W2 P).
    destruct (group s a b), (group t a b), (group (s + t) a b). exact G.
Qed.
Lemma line_exp_0 l : wf_line l -> line_exp (line_mul_f l 0) = mkmotor (mk4 1 0 0 0) (mk4 0 0 0 0).
Proof.
  intros [W1 W2]. unfold line_exp. rewrite !(proj1 (line_scale_p _ _)), !(proj2 (line_scale_p _ _)), !scale4_0.
  replace (@exp_kernel R FLg B (mk4 0 0 0 0) (mk4 0 0 0 0)) with (mk4 1 0 0 0, mk4 0 0 0 0); [reflexivity|].
  symmetry. apply (exp_kernel_zero rcp rsqrt sz B); [reflexivity|unfold dot3; cbn; ring].
Qed.

(** ** exp after log *)
Lemma unit_coords m : unit (mv_motor m) ->
  l0 (motor_p1 m) * l0 (motor_p1 m) + dot3 (motor_p1 m) (motor_p1 m) = 1 /\
  l0 (motor_p1 m) * l0 (motor_p2 m) = dot3 (motor_p1 m) (motor_p2 m).
Proof.
  intro U. apply unit_motor_geo in U. destruct m as [[p0 a1 a2 a3] [q0 b1 b2 b3]]. revert U. unfold dot3. gcbv.
  intros [U1 U2]. split; lra.
Qed.
Lemma exp_log_main m : unit (mv_motor m) -> 0 < dot3 (motor_p1 m) (motor_p1 m) ->
  1 / 1000000 <= Rabs (motor_scalar m) -> line_exp (motor_log m) = m.
Proof.
  intros U P Z. destruct (unit_coords m U) as [U1 U2]. clear U. destruct m as [p1 p2].
  unfold motor_scalar in Z. cbn [motor_p1 motor_p2] in *.
  assert (E := log_kernel_R rcp rsqrt sz Hrcp Hrsq B p1 p2 P). cbv zeta in E.
  unfold motor_log. cbn [motor_p1 motor_p2].
  change (@log_kernel R FLg B p1 p2) with (@log_kernel R (FLl rcp rsqrt sz) B p1 p2). rewrite E. clear E.
  destruct (log_u_main p1 p2 Z) as [Eu Ev].
  assert (PS : 0 < sqrt (dot3 p1 p1)) by (apply sqrt_lt_R0; exact P).
  assert (Q : sqrt (dot3 p1 p1) * sqrt (dot3 p1 p1) = dot3 p1 p1) by (apply sqrt_sqrt; lra).
  assert (P0 : l0 p1 <> 0) by (intro H; rewrite H, Rabs_R0 in Z; lra).
  destruct (atan2_unit (l0 p1) (sqrt (dot3 p1 p1))) as (Ru & Cu & Su); [lra|exact PS|]. rewrite <- Eu in Ru, Cu, Su.
  assert (X := exp_log_coords rcp rsqrt sz Hrcp Hrsq B p1 p2 (log_u p1 p2) (log_v p1 p2) 1 P). cbv zeta in X.
  unfold line_exp. cbn [line_p1 line_p2].
  match goal with |- (let '(_, _) := ?e in _) = _ => replace e with (scale4 1 p1, scale4 1 p2) end.
  - rewrite !scale4_1. reflexivity.
  - symmetry. apply X; rewrite ?Cu, ?Su, ?Ev; try ring; try lra.
    + rewrite <- U2. field. split; (exact P0 || lra).
    + field. split; (exact P0 || lra).
Qed.
(** near half-turns (|scalar| < 1e-6): up to sign, provided e0123 <> 0 *)
Lemma exp_log_half m : unit (mv_motor m) -> Rabs (motor_scalar m) < 1 / 1000000 ->
  motor_e0123 m <> 0 ->
  line_exp (motor_log m) = if Rlt_dec 0 (motor_e0123 m) then motor_neg m else m.
Proof.
  intros U Z N. destruct (unit_coords m U) as [U1 U2]. clear U. destruct m as [p1 p2].
  unfold motor_scalar, motor_e0123 in *. cbn [motor_p1 motor_p2] in *.
  assert (P : 0 < dot3 p1 p1).
  { assert (A : Rabs (l0 p1) * Rabs (l0 p1) < 1).
    { assert (X := Rabs_pos (l0 p1)). nra. }
    rewrite <- Rabs_mult, Rabs_pos_eq in A by nra. lra. }
  assert (E := log_kernel_R rcp rsqrt sz Hrcp Hrsq B p1 p2 P). cbv zeta in E.
  unfold motor_log. cbn [motor_p1 motor_p2].
  change (@log_kernel R FLg B p1 p2) with (@log_kernel R (FLl rcp rsqrt sz) B p1 p2). rewrite E. clear E.
  destruct (log_u_zero p1 p2 Z) as [Eu Ev].
  assert (PS : 0 < sqrt (dot3 p1 p1)) by (apply sqrt_lt_R0; exact P).
  assert (Q : sqrt (dot3 p1 p1) * sqrt (dot3 p1 p1) = dot3 p1 p1) by (apply sqrt_sqrt; lra).
  assert (Ev1 : - log_v p1 p2 * sqrt (dot3 p1 p1) = l0 p2) by (rewrite Ev; field; lra).
  assert (Ev2 : - log_v p1 p2 * l0 p1 = dot3 p1 p2 / sqrt (dot3 p1 p1)) by (rewrite Ev, <- U2; field; lra).
  unfold line_exp. cbn [line_p1 line_p2].
  destruct (Rlt_dec 0 (l0 p2)) as [K|K].
  - assert (Eu' : log_u p1 p2 = Ratan2 (- sqrt (dot3 p1 p1)) (- l0 p1)).
    { rewrite Eu, <- U2. rewrite <- (atan2_scale (l0 p2 / sqrt (dot3 p1 p1)) (- sqrt _)).
      - f_equal; field; lra.
      - apply Rdiv_lt_0_compat; lra. }
    destruct (atan2_polar (- sqrt (dot3 p1 p1)) (- l0 p1)) as [A C]; [nra|].
    replace (- l0 p1 * - l0 p1 + - sqrt (dot3 p1 p1) * - sqrt (dot3 p1 p1)) with 1 in A, C by nra.
    rewrite sqrt_1 in A, C. rewrite <- Eu' in A, C.
    assert (X := exp_log_coords rcp rsqrt sz Hrcp Hrsq B p1 p2 (log_u p1 p2) (log_v p1 p2) (-1) P). cbv zeta in X.
    match goal with |- (let '(_, _) := ?e in _) = _ => replace e with (scale4 (-1) p1, scale4 (-1) p2) end.
    + destruct p1 as [p0 a1 a2 a3], p2 as [q0 b1 b2 b3]. apply (f_equal2 mkmotor); apply m128_ext; cbn; ring.
    + symmetry. apply X; [|ring|lra|lra|exact Ev1|exact Ev2].
      intro H. rewrite H, sin_0 in C. lra.
  - assert (Eu' : log_u p1 p2 = Ratan2 (sqrt (dot3 p1 p1)) (l0 p1)).
    { rewrite Eu, <- U2. rewrite <- (atan2_scale (- l0 p2 / sqrt (dot3 p1 p1)) (sqrt _)).
      - f_equal; field; lra.
      - apply Rdiv_lt_0_compat; lra. }
    destruct (atan2_unit (l0 p1) (sqrt (dot3 p1 p1))) as (Ru & Cu & Su); [lra|exact PS|]. rewrite <- Eu' in Ru, Cu, Su.
    assert (X := exp_log_coords rcp rsqrt sz Hrcp Hrsq B p1 p2 (log_u p1 p2) (log_v p1 p2) 1 P). cbv zeta in X.
    match goal with |- (let '(_, _) := ?e in _) = _ => replace e with (scale4 1 p1, scale4 1 p2) end.
    + rewrite !scale4_1. reflexivity.
    + symmetry. apply X; [lra|ring|lra|lra|exact Ev1|exact Ev2].
Qed.
(** pure translations *)
Lemma exp_log_translation m : unit (mv_motor m) -> dot3 (motor_p1 m) (motor_p1 m) = 0 ->
  line_exp (motor_log m) = mkmotor (mk4 1 0 0 0) (motor_p2 m).
Proof.
  intros U Z. unfold motor_log.
  change (@log_kernel R FLg B (motor_p1 m) (motor_p2 m)) with (@log_kernel R (FLl rcp rsqrt sz) B (motor_p1 m) (motor_p2 m)).
  rewrite (log_kernel_zero rcp rsqrt sz B (motor_p1 m) (motor_p2 m) Z).
  unfold line_exp. cbn [line_p1 line_p2].
  match goal with |- (let '(_, _) := ?e in _) = _ => replace e with (mk4 1 0 0 0, motor_p2 m); [reflexivity|] end.
  symmetry. apply (exp_kernel_zero rcp rsqrt sz B); [reflexivity|unfold dot3; cbn; ring].
Qed.

(** ** log after exp *)
Lemma group_coords l : wf_line l -> 0 < dot3 (line_p1 l) (line_p1 l) ->
  let s := sqrt (dot3 (line_p1 l) (line_p1 l)) in let g := dot3 (line_p1 l) (line_p2 l) in
  let m := line_exp l in
  motor_scalar m = cos s /\ dot3 (motor_p1 m) (motor_p1 m) = sin s * sin s /\
  dot3 (motor_p1 m) (motor_p2 m) = cos s * (g * sin s / s) /\ motor_e0123 m = g * sin s / s.
Proof.
  intros [W1 W2] P s g m.
  assert (E := exp_kernel_R rcp rsqrt sz Hrcp Hrsq B (line_p1 l) (line_p2 l) W1 W2 P). cbv zeta in E.
  assert (PS : 0 < s) by (apply sqrt_lt_R0; exact P).
  assert (Q : s * s = dot3 (line_p1 l) (line_p1 l)) by (apply sqrt_sqrt; lra).
  subst m. unfold line_exp, motor_scalar, motor_e0123.
  change (@exp_kernel R FLg B (line_p1 l) (line_p2 l)) with (@exp_kernel R (FLe rcp rsqrt sz) B (line_p1 l) (line_p2 l)). rewrite E. clear E.
  cbn [motor_p1 motor_p2 l0]. fold s. fold g. repeat split.
  - unfold dot3 at 1. cbn [l1 l2 l3]. transitivity (sin s / s * (sin s / s) * (s * s)); [rewrite Q; unfold dot3; ring|field; lra].
  - unfold dot3 at 1. cbn [l1 l2 l3].
    transitivity (sin s / s * (sin s / s * g + g / (s * s) * (cos s - sin s / s) * (s * s))).
    + rewrite Q at 2. rewrite <- Q. fold g. set (h := g / (s * s) * (cos s - sin s / s)). rewrite Q. unfold g, dot3. ring.
    + field. lra.
  - field. lra.
Qed.
Lemma log_exp_coords l u v : wf_line l -> 0 < dot3 (line_p1 l) (line_p1 l) ->
  let s := sqrt (dot3 (line_p1 l) (line_p1 l)) in
  0 < sin s -> log_u (motor_p1 (line_exp l)) (motor_p2 (line_exp l)) = s + u ->
  log_v (motor_p1 (line_exp l)) (motor_p2 (line_exp l)) = - (dot3 (line_p1 l) (line_p2 l) / s) + v ->
  u = 0 -> v = 0 ->
  motor_log (line_exp l) = l.
Proof.
  intros W P s Ps Eu Ev -> ->. destruct (group_coords l W P) as (G1 & G2 & G3 & G4). fold s in G1, G2, G3, G4.
  set (m := line_exp l) in *. unfold motor_log.
  assert (Pn : 0 < dot3 (motor_p1 m) (motor_p1 m)) by nra.
  assert (E := log_kernel_R rcp rsqrt sz Hrcp Hrsq B (motor_p1 m) (motor_p2 m) Pn). cbv zeta in E.
  change (@log_kernel R FLg B (motor_p1 m) (motor_p2 m)) with (@log_kernel R (FLl rcp rsqrt sz) B (motor_p1 m) (motor_p2 m)).
  rewrite E. clear E. rewrite G2, sqrt_square, G3, Eu, Ev by lra.
  assert (X := exp_kernel_R rcp rsqrt sz Hrcp Hrsq B (line_p1 l) (line_p2 l) (proj1 W) (proj2 W) P). cbv zeta in X.
  assert (PS : 0 < s) by (apply sqrt_lt_R0; exact P).
  assert (Q : s * s = dot3 (line_p1 l) (line_p1 l)) by (apply sqrt_sqrt; lra).
  fold s in X. rewrite <- Q in X.
  assert (M : m = mkmotor (fst (exp_kernel (line_p1 l) (line_p2 l))) (snd (exp_kernel (line_p1 l) (line_p2 l))))
    by (unfold m, line_exp; destruct (exp_kernel _ _); reflexivity).
  change (@exp_kernel R FLg B (line_p1 l) (line_p2 l)) with (@exp_kernel R (FLe rcp rsqrt sz) B (line_p1 l) (line_p2 l)) in M.
  rewrite X in M. rewrite M. cbn [motor_p1 motor_p2 fst snd l0 l1 l2 l3].
  generalize dependent (dot3 (line_p1 l) (line_p2 l)). intros g _ _ _ _ _. clear - W Ps PS.
  destruct l as [[a0 a1 a2 a3] [b0 b1 b2 b3]]. destruct W as [W1 W2]. cbn [line_p1 line_p2 l0 l1 l2 l3] in *. subst a0 b0.
  clearbody s. generalize dependent (sin s). intros k K. generalize (cos s). intro c.
  apply (f_equal2 mkline); apply m128_ext; cbn [l0 l1 l2 l3]; field; lra.
Qed.
Lemma log_exp_main l : wf_line l ->
  let s := sqrt (dot3 (line_p1 l) (line_p1 l)) in
  0 < s < PI -> 1 / 1000000 <= Rabs (cos s) -> motor_log (line_exp l) = l.
Proof.
  intros W s Rs Z.
  assert (P : 0 < dot3 (line_p1 l) (line_p1 l)).
  { destruct (Req_dec (dot3 (line_p1 l) (line_p1 l)) 0) as [H|H]; [exfalso; unfold s in Rs; rewrite H, sqrt_0 in Rs; lra|].
    assert (D := dot3_nonneg (line_p1 l)). lra. }
  assert (Ps : 0 < sin s) by (apply sin_gt_0; lra).
  destruct (group_coords l W P) as (G1 & G2 & G3 & G4). fold s in G1, G2, G3, G4. unfold motor_scalar, motor_e0123 in *.
  destruct (log_u_main (motor_p1 (line_exp l)) (motor_p2 (line_exp l))) as [Eu Ev]; [rewrite G1; exact Z|].
  rewrite G2, sqrt_square, G1 in Eu, Ev by lra. rewrite G3 in Ev.
  assert (C0 : cos s <> 0) by (intro H; rewrite H, Rabs_R0 in Z; lra).
  apply (log_exp_coords l 0 0); try assumption; try reflexivity; fold s.
  - rewrite Eu, Rplus_0_r.
    destruct (atan2_unit (cos s) (sin s)) as (Ru & Cu & Su); [assert (X := sin2_cos2 s); unfold Rsqr in X; lra|exact Ps|].
    apply cos_inj; lra.
  - rewrite Ev. field. repeat split; lra.
Qed.
Lemma log_exp_half l : wf_line l ->
  let s := sqrt (dot3 (line_p1 l) (line_p1 l)) in
  0 < s < PI -> Rabs (cos s) < 1 / 1000000 -> dot3 (line_p1 l) (line_p2 l) < 0 -> motor_log (line_exp l) = l.
Proof.
  intros W s Rs Z Ng.
  assert (P : 0 < dot3 (line_p1 l) (line_p1 l)).
  { destruct (Req_dec (dot3 (line_p1 l) (line_p1 l)) 0) as [H|H]; [exfalso; unfold s in Rs; rewrite H, sqrt_0 in Rs; lra|].
    assert (D := dot3_nonneg (line_p1 l)). lra. }
  assert (Ps : 0 < sin s) by (apply sin_gt_0; lra).
  destruct (group_coords l W P) as (G1 & G2 & G3 & G4). fold s in G1, G2, G3, G4. unfold motor_scalar, motor_e0123 in *.
  destruct (log_u_zero (motor_p1 (line_exp l)) (motor_p2 (line_exp l))) as [Eu Ev]; [rewrite G1; exact Z|].
  rewrite G2, sqrt_square, G4 in Eu, Ev by lra. rewrite G3 in Eu.
  apply (log_exp_coords l 0 0); try assumption; try reflexivity; fold s.
  - rewrite Eu, Rplus_0_r. set (g := dot3 (line_p1 l) (line_p2 l)) in *.
    transitivity (Ratan2 (sin s) (cos s)).
    + rewrite <- (atan2_scale (- g / s) (sin s)); [f_equal; field; lra|apply Rdiv_lt_0_compat; lra].
    + destruct (atan2_unit (cos s) (sin s)) as (Ru & Cu & Su); [assert (X := sin2_cos2 s); unfold Rsqr in X; lra|exact Ps|].
      apply cos_inj; lra.
  - rewrite Ev. field. repeat split; lra.
Qed.

(** ** rotors and branches *)
Lemma rotor_log_R r : -1 < rotor_scalar r < 1 ->
  let t := acos (rotor_scalar r) in
  branch_p1 (rotor_log r) = mk4 0 (t / sin t * rotor_e23 r) (t / sin t * rotor_e31 r) (t / sin t * rotor_e12 r).
Proof.
  intros H t. assert (Rt : 0 < sin t).
  { unfold t. rewrite sin_acos by lra. apply sqrt_lt_R0. unfold Rsqr. nra. }
  unfold rotor_log. unfold FLg. rewrite rcp_nr1_R.
  assert (E : nr_rcp rcp (sin t) = / sin t) by (apply nr_rcp_exact; [exact Hrcp|lra]).
  destruct r as [[r0 r1 r2 r3]]. unfold t, rotor_scalar in *. cbn [rotor_p1 l0] in *.
  destruct B as [[|]]; apply m128_ext; cbn; rewrite ?E; field; lra.
Qed.
Lemma acos_range p : -1 < p < 1 -> 0 < acos p < PI.
Proof.
  intro H. assert (A := acos_bound p). assert (C := cos_acos p). split.
  - destruct A as [[A|A] _]; [exact A|]. rewrite <- A, cos_0 in C. lra.
  - destruct A as [_ [A|A]]; [exact A|]. rewrite A, cos_PI in C. lra.
Qed.
Lemma rotor_log_dot r : unit (mv_rotor r) -> -1 < rotor_scalar r < 1 ->
  dot3 (branch_p1 (rotor_log r)) (branch_p1 (rotor_log r)) = acos (rotor_scalar r) * acos (rotor_scalar r).
Proof.
  intros U H. rewrite (rotor_log_R r H). apply unit_rotor_geo in U.
  set (t := acos (rotor_scalar r)).
  assert (C : cos t = rotor_scalar r) by (apply cos_acos; lra).
  assert (Rt : 0 < sin t) by (apply sin_gt_0; apply acos_range; exact H).
  assert (S2 := sin2_cos2 t). unfold Rsqr in S2. rewrite C in S2.
  unfold rotor_n, qn, rotor_b, vdot in U. cbn [vx vy vz] in U.
  unfold dot3. cbn [l1 l2 l3].
  transitivity (t / sin t * (t / sin t) * (sin t * sin t)); [|field; lra].
  replace (sin t * sin t) with (rotor_e23 r * rotor_e23 r + rotor_e31 r * rotor_e31 r + rotor_e12 r * rotor_e12 r) by lra. ring.
Qed.
Lemma exp_log_rotor r : unit (mv_rotor r) -> -1 < rotor_scalar r < 1 -> branch_exp (rotor_log r) = r.
Proof.
  intros U H. assert (D := rotor_log_dot r U H). assert (A := acos_range _ H).
  assert (W : wf_branch (rotor_log r)) by (unfold wf_branch; rewrite (rotor_log_R r H); reflexivity).
  assert (P : 0 < dot3 (branch_p1 (rotor_log r)) (branch_p1 (rotor_log r))) by (rewrite D; nra).
  assert (E := branch_exp_R _ W P). cbv zeta in E. rewrite D, sqrt_square in E by lra.
  unfold branch_e23, branch_e31, branch_e12 in E. rewrite (rotor_log_R r H) in E. cbn [l0 l1 l2 l3] in E.
  rewrite cos_acos in E by lra.
  assert (Rt : 0 < sin (acos (rotor_scalar r))) by (apply sin_gt_0; lra).
  destruct (branch_exp (rotor_log r)) as [q]. cbn [rotor_p1] in E. rewrite E.
  destruct r as [[r0 r1 r2 r3]]. f_equal. unfold rotor_e23, rotor_e31, rotor_e12. apply m128_ext; cbn [l0 l1 l2 l3 rotor_p1].
  - reflexivity.
  - field. split; lra.
  - field. split; lra.
  - field. split; lra.
Qed.
Lemma log_exp_branch b : wf_branch b ->
  0 < sqrt (dot3 (branch_p1 b) (branch_p1 b)) < PI -> rotor_log (branch_exp b) = b.
Proof.
  intros W Rs. set (s := sqrt (dot3 (branch_p1 b) (branch_p1 b))) in *.
  assert (P : 0 < dot3 (branch_p1 b) (branch_p1 b)).
  { destruct (Req_dec (dot3 (branch_p1 b) (branch_p1 b)) 0) as [H|H]; [exfalso; unfold s in Rs; rewrite H, sqrt_0 in Rs; lra|].
    assert (D := dot3_nonneg (branch_p1 b)). lra. }
  assert (E := branch_exp_R _ W P). cbv zeta in E. fold s in E.
  assert (Ps : 0 < sin s) by (apply sin_gt_0; lra).
  assert (S2 := sin2_cos2 s). unfold Rsqr in S2.
  assert (H : -1 < rotor_scalar (branch_exp b) < 1) by (unfold rotor_scalar; rewrite E; cbn [l0]; nra).
  assert (X := rotor_log_R _ H). cbv zeta in X. revert X.
  unfold rotor_scalar, rotor_e23, rotor_e31, rotor_e12. rewrite E. cbn [l0 l1 l2 l3].
  replace (acos (cos s)) with s.
  2:{ symmetry. apply acos_cos. lra. }
  intro X. destruct (rotor_log (branch_exp b)) as [q]. cbn [branch_p1] in X. rewrite X.
  destruct b as [[b0 b1 b2 b3]]. unfold wf_branch in W. cbn in W. subst b0. f_equal.
  unfold branch_e23, branch_e31, branch_e12. apply m128_ext; cbn [l0 l1 l2 l3 branch_p1].
  - reflexivity.
  - field. split; lra.
  - field. split; lra.
  - field. split; lra.
Qed.
Lemma mv_rotor_inj a b : mv_rotor a == mv_rotor b -> a = b.
Proof.
  destruct a as [[a0 a1 a2 a3]], b as [[b0 b1 b2 b3]]. intro H.
  assert (H0 := H (Bl false false false false)). assert (H1 := H (Bl false false true true)).
  assert (H2 := H (Bl false true false true)). assert (H3 := H (Bl false true true false)). cbn in *.
  f_equal. f_equal; lra.
Qed.
Lemma line_of_branch_scale b s : line_of_branch (branch_mul_f b s) = line_mul_f (line_of_branch b) s.
Proof. destruct b as [[b0 b1 b2 b3]]. apply (f_equal2 mkline); apply m128_ext; cbn; ring. Qed.
Lemma branch_exp_add s t b : wf_branch b -> 0 < dot3 (branch_p1 b) (branch_p1 b) -> s <> 0 -> t <> 0 -> s + t <> 0 ->
  rotor_mul_rotor (branch_exp (branch_mul_f b s)) (branch_exp (branch_mul_f b t)) = branch_exp (branch_mul_f b (s + t)).
Proof.
  intros W P Hs Ht Hst. apply mv_rotor_inj. rewrite (rotor_mul_rotor_gp B).
  assert (Q : forall r, r <> 0 -> wf_branch (branch_mul_f b r) /\ 0 < dot3 (branch_p1 (branch_mul_f b r)) (branch_p1 (branch_mul_f b r))).
  { intros r Hr. destruct b as [[b0 b1 b2 b3]]. unfold wf_branch in *. cbn in *. subst b0. split; [ring|].
    assert (0 < r * r) by nra. unfold dot3 in *. cbn in *.
    replace (b1 * r * (b1 * r) + b2 * r * (b2 * r) + b3 * r * (b3 * r)) with (r * r * (b1 * b1 + b2 * b2 + b3 * b3)) by ring. nra. }
  destruct (Q s Hs) as [Q1 Q2], (Q t Ht) as [Q3 Q4], (Q (s + t) Hst) as [Q5 Q6].
  rewrite !branch_exp_line by assumption. rewrite !line_of_branch_scale.
  rewrite <- line_exp_add by (split; [exact W|reflexivity]). rewrite (motor_mul_motor_gp B). reflexivity.
Qed.
End LX.
