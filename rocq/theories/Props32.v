(** Property C81: the normalized linear blend of motors ([nlerp] of the documentation) in binary32. *)
From Coq Require Import ZArith Reals List Bool Lra Lia Psatz.
From Flocq Require Import Core BinarySingleNaN.
From Verif Require Import AlgTac SpecMass FloatMass Closed FloR ExpSeries KernelExpLog ExpLog LogExp2 Float32 FloatFacts ExprSyntax FloatErr FloatAbs FloatApx FloatNR FloatNorm FloatIdeal FloatLibm Props11 Props21 Props22 SpecGeom Props23 Props24 Props26 Props27 Props28 Props29 Props30 Props31 DocCode.
Import ListNotations.
Local Open Scope R_scope.

(** ** How the exact normalization moves with its argument *)
Definition proj (q x : m128 R) : m128 R := sub4 x (scale4 (q4 q (rev4 x)) (rev4 q)).
Lemma proj_sub q x y : proj q (sub4 x y) = sub4 (proj q x) (proj q y).
Proof. unfold proj, sub4, scale4, rev4, q4, map4. cbn [l0 l1 l2 l3]. f_equal; ring. Qed.
Lemma proj_le q x : n4 q = 1 -> n4 (proj q x) <= n4 x.
Proof.
  intro Q. pose proof (n4_sq q) as S. rewrite Q in S. apply sqrt_le_1_alt. unfold proj. set (g := q4 q (rev4 x)).
  replace (q4 (sub4 x (scale4 g (rev4 q))) (sub4 x (scale4 g (rev4 q)))) with (q4 x x - 2 * g * g + g * g * q4 q q) by (unfold g, q4, sub4, scale4, rev4, map4; cbn [l0 l1 l2 l3]; ring).
  rewrite <- S. pose proof (Rle_0_sqr g) as G. unfold Rsqr in G. lra.
Qed.
Lemma proj_diff q q' x : n4 q = 1 -> n4 q' = 1 -> n4 (sub4 (proj q x) (proj q' x)) <= 2 * n4 (sub4 q q') * n4 x.
Proof.
  intros Q Q'. replace (sub4 (proj q x) (proj q' x)) with (scale4 (-1) (add4 (scale4 (q4 (sub4 q q') (rev4 x)) (rev4 q)) (scale4 (q4 q' (rev4 x)) (rev4 (sub4 q q'))))) by (unfold proj, sub4, add4, scale4, rev4, q4, map4; cbn [l0 l1 l2 l3]; f_equal; ring).
  rewrite n4_scale_abs, Rabs_left by lra. replace (- (-1)) with 1 by ring. rewrite Rmult_1_l. eapply Rle_trans; [apply n4_add|]. rewrite !n4_scale_abs, !rev4_n4, Q, Rmult_1_r.
  pose proof (q4_cauchy (sub4 q q') (rev4 x)) as C. pose proof (q4_cauchy q' (rev4 x)) as C'. rewrite rev4_n4 in C, C'. rewrite Q', Rmult_1_l in C'. pose proof (n4_pos (sub4 q q')) as P.
  assert (Rabs (q4 q' (rev4 x)) * n4 (sub4 q q') <= n4 x * n4 (sub4 q q')) by (apply Rmult_le_compat_r; assumption). lra.
Qed.
Lemma exact_norm_proj p1 p2 : 0 < n4 p1 -> motor_p2 (exact_norm p1 p2) = scale4 (/ n4 p1) (proj (scale4 (/ n4 p1) p1) p2).
Proof.
  intro P. unfold exact_norm. cbv zeta. cbn [motor_p2]. f_equal. unfold proj. generalize dependent (n4 p1). intros N N0. unfold study, q4, sub4, scale4, rev4, map4. cbn [l0 l1 l2 l3]. f_equal; field; lra.
Qed.
Lemma norm_lip p1 p2 e1 e2 d r : n4 (sub4 p1 e1) <= d -> n4 (sub4 p2 e2) <= d * r -> n4 e2 <= r -> let w := n4 e1 in 0 < w <= 1 -> d <= w / 1000 ->
  n4 (sub4 (motor_p1 (exact_norm p1 p2)) (motor_p1 (exact_norm e1 e2))) <= 2 * (d / w) /\
  n4 (sub4 (motor_p2 (exact_norm p1 p2)) (motor_p2 (exact_norm e1 e2))) <= 61 / 10 * (d / w) * (r / w) /\ w * (999 / 1000) <= n4 p1.
Proof.
  intros D1 D2 R2 w W Dw. pose proof (n4_diff p1 e1) as ND. fold w in ND. set (N := n4 p1) in *. assert (LN : Rabs (N - w) <= d) by lra. assert (LN' : w - d <= N <= w + d) by (apply Rabs_le_inv in LN; lra). assert (N0 : 0 < N) by lra.
  assert (iN : 0 < / N) by (apply Rinv_0_lt_compat; lra). assert (iw : 0 < / w) by (apply Rinv_0_lt_compat; lra). assert (d0 : 0 <= d) by (pose proof (n4_pos (sub4 p1 e1)); lra). assert (r0 : 0 <= r) by (pose proof (n4_pos e2); lra).
  assert (iN' : / N <= 10011 / 10000 * / w). { replace (10011 / 10000 * / w) with (/ (10000 / 10011 * w)) by (field; lra). apply Rinv_le_contravar; lra. }
  set (q := scale4 (/ N) p1). set (q' := scale4 (/ w) e1).
  assert (Q : n4 q = 1) by (unfold q; rewrite n4_scale by lra; fold N; field; lra). assert (Q' : n4 q' = 1) by (unfold q'; rewrite n4_scale by lra; fold w; field; lra).
  assert (G : n4 (sub4 q q') <= 2 * (d / w)).
  { eapply Rle_trans; [apply (n4_via _ (scale4 (/ w) p1))|]. replace (sub4 q (scale4 (/ w) p1)) with (scale4 (/ N - / w) p1) by (unfold q, sub4, scale4, map4; cbn [l0 l1 l2 l3]; f_equal; ring).
    replace (sub4 (scale4 (/ w) p1) q') with (scale4 (/ w) (sub4 p1 e1)) by (unfold q', sub4, scale4, map4; cbn [l0 l1 l2 l3]; f_equal; ring). rewrite !n4_scale_abs. fold N. rewrite (Rabs_pos_eq (/ w)) by lra.
    replace (Rabs (/ N - / w) * N) with (/ w * Rabs (N - w)). 2: { rewrite Rabs_minus_sym. rewrite <- (Rabs_pos_eq N) at 3 by lra. rewrite <- (Rabs_pos_eq (/ w)) at 1 by lra. rewrite <- !Rabs_mult. f_equal. field. lra. }
    assert (/ w * Rabs (N - w) <= / w * d) by (apply Rmult_le_compat_l; lra). assert (/ w * n4 (sub4 p1 e1) <= / w * d) by (apply Rmult_le_compat_l; lra). unfold Rdiv. lra. }
  split; [exact G|]. split; [|lra]. rewrite (exact_norm_proj p1 p2 N0), (exact_norm_proj e1 e2 (proj1 W)). fold N w. fold q q'.
  eapply Rle_trans; [apply (n4_via _ (scale4 (/ N) (proj q e2)))|].
  replace (sub4 (scale4 (/ N) (proj q p2)) (scale4 (/ N) (proj q e2))) with (scale4 (/ N) (proj q (sub4 p2 e2))) by (rewrite proj_sub; unfold sub4, scale4, map4; cbn [l0 l1 l2 l3]; f_equal; ring).
  rewrite n4_scale by lra. pose proof (proj_le q (sub4 p2 e2) Q) as K1.
  assert (K2 : n4 (sub4 (scale4 (/ N) (proj q e2)) (scale4 (/ w) (proj q' e2))) <= / N * (2 * (2 * (d / w)) * r) + / N * (d / w) * r).
  { eapply Rle_trans; [apply (n4_via _ (scale4 (/ N) (proj q' e2)))|]. replace (sub4 (scale4 (/ N) (proj q e2)) (scale4 (/ N) (proj q' e2))) with (scale4 (/ N) (sub4 (proj q e2) (proj q' e2))) by (unfold sub4, scale4, map4; cbn [l0 l1 l2 l3]; f_equal; ring).
    replace (sub4 (scale4 (/ N) (proj q' e2)) (scale4 (/ w) (proj q' e2))) with (scale4 (/ N - / w) (proj q' e2)) by (unfold sub4, scale4, map4; cbn [l0 l1 l2 l3]; f_equal; ring). rewrite n4_scale, n4_scale_abs by lra.
    apply Rplus_le_compat.
    - apply Rmult_le_compat_l; [lra|]. eapply Rle_trans; [apply proj_diff; assumption|]. apply Rmult_le_compat; try apply n4_pos; [|lra|exact R2]. pose proof (n4_pos (sub4 q q')). lra.
    - apply Rmult_le_compat; try apply Rabs_pos; try apply n4_pos; [|eapply Rle_trans; [apply proj_le; exact Q'|exact R2]].
      replace (/ N - / w) with (/ N * (/ w * (w - N))) by (field; lra). rewrite !Rabs_mult, (Rabs_pos_eq (/ N)), (Rabs_pos_eq (/ w)) by lra. apply Rmult_le_compat_l; [lra|]. unfold Rdiv. rewrite Rmult_comm. apply Rmult_le_compat_r; [lra|]. rewrite Rabs_minus_sym. exact LN. }
  assert (x0 : 0 <= d / w * r) by (apply Rmult_le_pos; [apply Rmult_le_pos; lra|exact r0]).
  assert (dr : d * r <= d / w * r). { apply Rmult_le_compat_r; [exact r0|]. rewrite <- (Rmult_1_r d) at 1. apply Rmult_le_compat_l; [exact d0|]. rewrite <- Rinv_1. apply Rinv_le_contravar; lra. }
  assert (K3 : / N * n4 (proj q (sub4 p2 e2)) <= / N * (d / w * r)) by (apply Rmult_le_compat_l; lra).
  assert (K4 : / N * (d / w * r) <= 10011 / 10000 * / w * (d / w * r)) by (apply Rmult_le_compat_r; lra).
  assert (x1 : 0 <= / w * (d / w * r)) by (apply Rmult_le_pos; lra). replace (61 / 10 * (d / w) * (r / w)) with (61 / 10 * (/ w * (d / w * r))) by (unfold Rdiv; ring).
  replace (/ N * (2 * (2 * (d / w)) * r) + / N * (d / w) * r) with (5 * (/ N * (d / w * r))) in K2 by ring. set (Z := / N * (d / w * r)) in *. set (Y := / w * (d / w * r)) in *. rewrite Rmult_assoc in K4. fold Y in K4. clearbody Z Y.
  assert (K5 : / N * n4 (proj q (sub4 p2 e2)) <= Z) by (eapply Rle_trans; [|exact K3]; lra).
  lra.
Qed.

(** ** The linear blend *)
Lemma ap4_add k k' v w e f m : ap4 k v e m -> ap4 k' w f m -> n4 (add4 e f) <= m -> 0 <= k <= 10000 -> 0 <= k' <= 10000 -> mag m ->
  ap4 (k + k' + 11 / 10) (_mm_add_ps v w) (add4 e f) m.
Proof.
  intros (Fv & E & V) (Fw & E' & V') N K K' G. pose proof (mag_pos m G) as m0. destruct (ap4_lanes v Fv) as (v0 & v1 & v2 & v3). destruct (ap4_lanes w Fw) as (w0 & w1 & w2 & w3).
  pose proof (ku_small k K) as Q. pose proof (ku_small k' K') as Q'. pose proof u_small as U. pose proof eta_pos as T0.
  set (o := map4 val v) in *. set (o' := map4 val w) in *. pose proof (n4_pm true o o' e f) as D. cbn [pm4] in D.
  assert (S : n4 (add4 o o') <= (1 + k * u + k' * u) * m) by (pose proof (n4_tri (add4 o o') (add4 e f)); lra).
  assert (S' : (1 + k * u + k' * u) * m <= (1 + / 500) * m) by (apply Rmult_le_compat_r; lra). pose proof (mag_big m G) as Bg.
  destruct (n4_lane (add4 o o')) as (X0 & X1 & X2 & X3).
  assert (LANE : forall p p', fin p -> fin p' -> Rabs (val p + val p') <= n4 (add4 o o') -> fin (fadd p p') /\ Rabs (val (fadd p p') - (val p + val p')) <= u * Rabs (val p + val p') + eta).
  { intros p p' Fp Fp' L. exact (pm_any true p p' Fp Fp' ltac:(lra)). }
  destruct (LANE _ _ v0 w0 X0) as [F0 E0]. destruct (LANE _ _ v1 w1 X1) as [F1 E1]. destruct (LANE _ _ v2 w2 X2) as [F2 E2]. destruct (LANE _ _ v3 w3 X3) as [F3 E3].
  split; [apply lanes_ap4; assumption|]. split; [|exact N]. eapply Rle_trans; [apply (n4_via _ (add4 o o'))|].
  assert (D1 : n4 (sub4 (map4 val (_mm_add_ps v w)) (add4 o o')) <= u * n4 (add4 o o') + 2 * eta) by (apply n4_lanes; [lra|lra|exact E0|exact E1|exact E2|exact E3]).
  assert (u * n4 (add4 o o') <= u * ((1 + / 500) * m)) by (apply Rmult_le_compat_l; lra).
  pose proof (mag_eta _ G) as Et. assert (0 < u * m) by (apply Rmult_lt_0_compat; lra). lra.
Qed.
Definition mix (s : R) (x y : m128 R) : m128 R := add4 (scale4 (1 - s) x) (scale4 s y).
Lemma mix_le s x y m : 0 <= s <= 1 -> n4 x <= m -> n4 y <= m -> n4 (mix s x y) <= m.
Proof.
  intros S X Y. unfold mix. eapply Rle_trans; [apply n4_add|]. rewrite !n4_scale by lra. assert ((1 - s) * n4 x <= (1 - s) * m) by (apply Rmult_le_compat_l; lra). assert (s * n4 y <= s * m) by (apply Rmult_le_compat_l; lra). lra.
Qed.
Lemma mix_sub s x y x' y' : sub4 (mix s x y) (mix s x' y') = mix s (sub4 x x') (sub4 y y').
Proof. unfold mix, sub4, add4, scale4, map4. cbn [l0 l1 l2 l3]. f_equal; ring. Qed.
Lemma mag_1 : mag 1.
Proof. split; apply (Rle_trans _ (bpow radix2 0)); try (apply bpow_le; lia); cbn; lra. Qed.
Lemma complement_ap (o f : f32) : fin o -> val o = 1 -> fin f -> 0 <= val f <= 1 -> ap (11 / 10) (fsub o f) (1 - val f) 1.
Proof.
  intros Fo Vo Ff Lf. pose proof (mag_big 1 mag_1) as Bg. pose proof (mag_eta 1 mag_1) as Et. pose proof u_small as U. assert (A1 : Rabs (1 - val f) <= 1) by (apply Rabs_le; lra).
  destruct (pm_any false o f Fo Ff) as [Fg Eg]; [rewrite Vo; lra|]. rewrite Vo in Eg. split; [exact Fg|]. split; [|exact A1].
  assert (u * Rabs (1 - val f) <= u * 1) by (apply Rmult_le_compat_l; lra). change (Rabs (val (fsub o f) - (1 - val f)) <= u * Rabs (1 - val f) + eta) in Eg. lra.
Qed.
Lemma lerp_reg (v w : m128 f32) (f : f32) m : Forall fin (reg_list v) -> Forall fin (reg_list w) -> fin f -> 0 <= val f <= 1 -> n4 (map4 val v) <= m -> n4 (map4 val w) <= m -> mag m ->
  ap4 (44 / 10) (_mm_add_ps (_mm_mul_ps v (_mm_set1_ps (fsub (fz 1) f))) (_mm_mul_ps w (_mm_set1_ps f))) (mix (val f) (map4 val v) (map4 val w)) m.
Proof.
  intros Fv Fw Ff Lf Nv Nw G. destruct (fz_ok 1 ltac:(lia)) as [F1 V1]. pose proof (complement_ap _ f F1 V1 Ff Lf) as Ag. set (g := fsub (fz 1) f) in *. pose proof u_small as U.
  assert (Af : ap 0 f (val f) 1) by (split; [exact Ff|]; replace (val f - val f) with 0 by ring; rewrite Rabs_R0; split; [lra|apply Rabs_le; lra]).
  assert (G1 : mag (m * 1)) by (rewrite Rmult_1_r; exact G).
  pose proof (ap4_scale _ _ _ _ _ _ _ _ (ap4_exact v m Fv Nv) Ag ltac:(lra) ltac:(lra) ltac:(lra) G1) as H1. pose proof (ap4_scale _ _ _ _ _ _ _ _ (ap4_exact w m Fw Nw) Af ltac:(lra) ltac:(lra) ltac:(lra) G1) as H2. rewrite Rmult_1_r in H1, H2.
  pose proof (ap4_add _ _ _ _ _ _ _ H1 H2 ltac:(apply (mix_le (val f)); assumption) ltac:(lra) ltac:(lra) G) as H3. apply (ap4_weak _ (44 / 10) _ _ _ m) in H3; [|lra|lra]. exact H3.
Qed.
(** the exact motion the stored blend stands for *)
Definition nblend (s : R) (a b : motor R) : motor R := exact_norm (mix s (motor_p1 a) (motor_p1 b)) (mix s (motor_p2 a) (motor_p2 b)).
Lemma mix_len s x y : n4 x = 1 -> n4 y = 1 -> n4 (mix s x y) * n4 (mix s x y) = 1 - 2 * s * (1 - s) * (1 - q4 x y).
Proof.
  intros X Y. rewrite n4_sq. pose proof (n4_sq x) as X2. pose proof (n4_sq y) as Y2. rewrite X in X2. rewrite Y in Y2.
  replace (q4 (mix s x y) (mix s x y)) with ((1 - s) * (1 - s) * q4 x x + s * s * q4 y y + 2 * s * (1 - s) * q4 x y) by (unfold mix, q4, add4, scale4, map4; cbn [l0 l1 l2 l3]; ring).
  rewrite <- X2, <- Y2. ring.
Qed.
(** right multiplication by a motion commutes with the exact normalization *)
Lemma n4_qm x c : n4 c = 1 -> n4 (qm x c) = n4 x.
Proof. intro C. rewrite qm_n4, C. ring. Qed.
Lemma study_mul x1 x2 c1 c2 : study (qm x1 c1) (mm2 x1 x2 c1 c2) = study x1 x2 * q4 c1 c1 + q4 x1 x1 * study c1 c2.
Proof. destruct x1 as [a0 a1 a2 a3], x2 as [b0 b1 b2 b3], c1 as [d0 d1 d2 d3], c2 as [e0 e1 e2 e3]. unfold study, mm2, qm, q4, rev4, add4. cbn [l0 l1 l2 l3]. ring. Qed.
Lemma qm_scale k x c : qm (scale4 k x) c = scale4 k (qm x c).
Proof. destruct x as [a0 a1 a2 a3], c as [d0 d1 d2 d3]. unfold qm, scale4, map4. cbn [l0 l1 l2 l3]. f_equal; ring. Qed.
Lemma mm2_scale k x1 x2 c1 c2 : mm2 (scale4 k x1) (scale4 k x2) c1 c2 = scale4 k (mm2 x1 x2 c1 c2).
Proof. destruct x1 as [a0 a1 a2 a3], x2 as [b0 b1 b2 b3], c1 as [d0 d1 d2 d3], c2 as [e0 e1 e2 e3]. unfold mm2, qm, rev4, add4, scale4, map4. cbn [l0 l1 l2 l3]. f_equal; ring. Qed.
Lemma mm2_dual k x1 x2 c1 c2 : mm2 x1 (sub4 x2 (scale4 k (rev4 x1))) c1 c2 = sub4 (mm2 x1 x2 c1 c2) (scale4 k (rev4 (qm x1 c1))).
Proof. destruct x1 as [a0 a1 a2 a3], x2 as [b0 b1 b2 b3], c1 as [d0 d1 d2 d3], c2 as [e0 e1 e2 e3]. unfold mm2, qm, rev4, add4, sub4, scale4, map4. cbn [l0 l1 l2 l3]. f_equal; ring. Qed.
Lemma exact_norm_mul x1 x2 c : proper c -> exact_norm (qm x1 (motor_p1 c)) (mm2 x1 x2 (motor_p1 c) (motor_p2 c)) = mmul (exact_norm x1 x2) c.
Proof.
  intros [C S]. unfold exact_norm, mmul. cbv zeta. cbn [motor_p1 motor_p2]. rewrite (n4_qm _ _ C), study_mul, S, Rmult_0_r, Rplus_0_r. rewrite <- (n4_sq (motor_p1 c)), C, !Rmult_1_r.
  rewrite qm_scale, mm2_scale, mm2_dual. reflexivity.
Qed.
Lemma mm2_dual_r k x1 x2 c1 c2 : mm2 x1 x2 c1 (sub4 c2 (scale4 k (rev4 c1))) = sub4 (mm2 x1 x2 c1 c2) (scale4 k (rev4 (qm x1 c1))).
Proof. destruct x1 as [a0 a1 a2 a3], x2 as [b0 b1 b2 b3], c1 as [d0 d1 d2 d3], c2 as [e0 e1 e2 e3]. unfold mm2, qm, rev4, add4, sub4, scale4, map4. cbn [l0 l1 l2 l3]. f_equal; ring. Qed.
Lemma qm_scale_r k x c : qm x (scale4 k c) = scale4 k (qm x c).
Proof. destruct x as [a0 a1 a2 a3], c as [d0 d1 d2 d3]. unfold qm, scale4, map4. cbn [l0 l1 l2 l3]. f_equal; ring. Qed.
Lemma mm2_scale_r k x1 x2 c1 c2 : mm2 x1 x2 (scale4 k c1) (scale4 k c2) = scale4 k (mm2 x1 x2 c1 c2).
Proof. destruct x1 as [a0 a1 a2 a3], x2 as [b0 b1 b2 b3], c1 as [d0 d1 d2 d3], c2 as [e0 e1 e2 e3]. unfold mm2, qm, rev4, add4, scale4, map4. cbn [l0 l1 l2 l3]. f_equal; ring. Qed.
(** halfway between the rest position and a motion: the square root of the motion *)
Lemma mid_square g : proper g -> -1 < l0 (motor_p1 g) -> let h := nblend (/ 2) mone g in mmul h h = g.
Proof.
  intros [P S] L h. pose proof (n4_sq (motor_p1 g)) as Q. rewrite P in Q. set (w := n4 (mix (/ 2) (motor_p1 mone) (motor_p1 g))).
  assert (O1 : n4 (motor_p1 mone) = 1) by (unfold mone, n4, q4; cbn [motor_p1 l0 l1 l2 l3]; replace (_ + _) with 1 by ring; apply sqrt_1).
  assert (W : w * w = (1 + l0 (motor_p1 g)) / 2). { unfold w. rewrite (mix_len (/ 2) _ _ O1 P). unfold q4, mone. cbn [motor_p1 l0 l1 l2 l3]. field. }
  assert (w0 : 0 < w). { destruct (Rle_lt_or_eq_dec 0 w (n4_pos _)) as [H|H]; [exact H|]. rewrite <- H in W. lra. }
  unfold h, nblend, exact_norm. cbv zeta. fold w. clearbody w. clear h O1 P. destruct g as [g1 g2]. cbn [motor_p1 motor_p2] in *. set (x := mix (/ 2) (motor_p1 mone) g1). set (y := mix (/ 2) (motor_p2 mone) g2). set (k := study x y / (w * w)).
  assert (Ek : k * (w * w) = l0 g2 / 4). { unfold k, Rdiv. rewrite Rmult_assoc, Rinv_l, Rmult_1_r by (apply Rgt_not_eq, Rmult_lt_0_compat; lra). unfold x, y, mix, mone, study, q4, rev4, add4, scale4, map4 in *. cbn [motor_p1 motor_p2 l0 l1 l2 l3] in *. lra. }
  clearbody k. unfold mmul. cbn [motor_p1 motor_p2]. rewrite qm_scale, qm_scale_r, mm2_scale, mm2_scale_r, mm2_dual, mm2_dual_r. set (z := / w). assert (Ez : z * w = 1) by (apply Rinv_l; lra). clearbody z.
  assert (A : qm x x = scale4 (w * w) g1).
  { rewrite W. destruct g1 as [a0 a1 a2 a3]. unfold x, mix, mone, qm, add4, scale4, map4, q4 in *. cbn [motor_p1 l0 l1 l2 l3] in *. f_equal; lra. }
  assert (Bb : mm2 x y x y = add4 (scale4 (w * w) g2) (scale4 (l0 g2 / 2) (rev4 g1))).
  { rewrite W. clear A Ek. destruct g1 as [a0 a1 a2 a3], g2 as [b0 b1 b2 b3]. unfold x, y, mix, mone, mm2, qm, add4, scale4, map4, study, q4, rev4 in *. cbn [motor_p1 motor_p2 l0 l1 l2 l3] in *. f_equal; lra. }
  assert (Z2 : z * (z * (w * w)) = 1) by (replace (z * (z * (w * w))) with ((z * w) * (z * w)) by ring; rewrite Ez; ring).
  f_equal.
  - rewrite A. destruct g1 as [a0 a1 a2 a3]. unfold scale4, map4. cbn [l0 l1 l2 l3]. f_equal; rewrite <- !Rmult_assoc in *; rewrite Z2; ring.
  - rewrite A, Bb. clear A Bb. destruct g1 as [a0 a1 a2 a3], g2 as [b0 b1 b2 b3]. unfold scale4, map4, sub4, add4, rev4. cbn [l0 l1 l2 l3] in *. clear x y W S Q L.
    assert (E2 : b0 / 2 = 2 * (k * (w * w))) by lra. rewrite E2. f_equal.
    all: match goal with |- _ = ?b => transitivity (z * (z * (w * w)) * b); [ring|rewrite Z2; ring] end.
Qed.

(** ** The theorems *)
(** the exact motions the blend runs through *)
Theorem C81_path : forall (a b : motor R), proper a -> proper b -> let c := q4 (motor_p1 a) (motor_p1 b) in
  (forall s, 0 <= s <= 1 -> n4 (mix s (motor_p1 a) (motor_p1 b)) = sqrt (1 - 2 * s * (1 - s) * (1 - c))) /\
  (-1 < c -> forall s, 0 <= s <= 1 -> proper (nblend s a b)) /\ nblend 0 a b = a /\ nblend 1 a b = b /\
  (** halfway, the motion left to do is the motion already done *)
  (-1 < c -> let h := mmul (nblend (/ 2) a b) (mrev a) in mmul h h = mmul b (mrev a)).
Proof.
  intros a b Pa Pb c. pose proof (proj1 Pa) as Na. pose proof (proj1 Pb) as Nb.
  assert (ML : forall s, n4 (mix s (motor_p1 a) (motor_p1 b)) = sqrt (1 - 2 * s * (1 - s) * (1 - c))).
  { intros s. unfold c. rewrite <- (mix_len s _ _ Na Nb). symmetry. apply sqrt_square, n4_pos. }
  assert (E : forall e, proper e -> exact_norm (motor_p1 e) (motor_p2 e) = e).
  { intros e [P S]. unfold exact_norm. cbv zeta. rewrite P, S. destruct e as [[a0 a1 a2 a3] [b0 b1 b2 b3]]. cbn [motor_p1 motor_p2]. unfold scale4, sub4, rev4, map4, Rdiv. cbn [l0 l1 l2 l3]. f_equal; f_equal; field. }
  split; [intros s _; apply ML|]. split; [|split; [|split]].
  - intros C s Ls. apply exact_norm_spec. rewrite ML. apply sqrt_lt_R0. assert (Q : 2 * s * (1 - s) <= / 2) by (pose proof (Rle_0_sqr (2 * s - 1)) as K; unfold Rsqr in K; lra).
    assert (C1 : c <= 1) by (pose proof (q4_cauchy (motor_p1 a) (motor_p1 b)) as K; rewrite Na, Nb in K; apply Rabs_le_inv in K; fold c in K; lra).
    assert (2 * s * (1 - s) * (1 - c) <= / 2 * (1 - c)) by (apply Rmult_le_compat_r; lra). lra.
  - rewrite <- (E a Pa) at 2. unfold nblend. f_equal; unfold mix, scale4, add4, map4; [destruct (motor_p1 a) as [x0 x1 x2 x3]|destruct (motor_p2 a) as [x0 x1 x2 x3]]; cbn [l0 l1 l2 l3]; f_equal; ring.
  - rewrite <- (E b Pb) at 2. unfold nblend. f_equal; unfold mix, scale4, add4, map4; [destruct (motor_p1 b) as [x0 x1 x2 x3]|destruct (motor_p2 b) as [x0 x1 x2 x3]]; cbn [l0 l1 l2 l3]; f_equal; ring.
  - intros C h. set (g := mmul b (mrev a)). assert (Pr : proper (mrev a)) by (apply mrev_proper; exact Pa).
    assert (Pg : proper g). { destruct Pr as [R1 R2]. destruct Pb as [_ Sb]. split; unfold g, mmul; cbn [motor_p1 motor_p2]; [rewrite qm_n4, R1, Nb; ring|]. rewrite study_mul, R2, Sb. ring. }
    assert (G0 : l0 (motor_p1 g) = c) by (unfold g, c, mmul, mrev, qm, rev4, q4; cbn [motor_p1 l0 l1 l2 l3]; ring).
    rewrite <- (mid_square g Pg) by (rewrite G0; exact C). cbv zeta. enough (X : nblend (/ 2) mone g = h) by (rewrite X; reflexivity).
    unfold h, nblend at 2. rewrite <- exact_norm_mul by exact Pr. unfold nblend.
    assert (I : mmul a (mrev a) = mone). { pose proof (mrev_inv (mrev a) Pr) as I. replace (mrev (mrev a)) with a in I by (unfold mrev; cbn [motor_p1 motor_p2]; rewrite !rev4_rev; destruct a; reflexivity). exact I. }
    rewrite <- I. unfold g. f_equal.
    + unfold mmul, mix. cbn [motor_p1]. rewrite qm_add_l, !qm_scale. reflexivity.
    + unfold mmul. cbn [motor_p2 motor_p1]. generalize (mrev a). clear. intro e. destruct a as [[a0 a1 a2 a3] [b0 b1 b2 b3]], b as [[c0 c1 c2 c3] [d0 d1 d2 d3]], e as [[e0 e1 e2 e3] [f0 f1 f2 f3]]. unfold mix, mm2, qm, rev4, add4, scale4, map4. cbn [motor_p1 motor_p2 l0 l1 l2 l3]. f_equal; ring.
Qed.
(** the stored blend *)
Theorem C81_nlerp : forall (B : Build) (M : machine), rcp_estimate M -> rsqrt_estimate M -> let FL := Flo_f32 M in
  forall (t r : R) (a b : motor f32) (ea eb : motor R), near_motor t r a ea -> near_motor t r b eb -> / 2 ^ 40 <= r <= 2 ^ 39 ->
  forall f : f32, fin f -> 0 <= val f <= 1 -> let w := n4 (mix (val f) (motor_p1 ea) (motor_p1 eb)) in / 2 ^ 19 <= w -> t + 5 * / 2 ^ 24 <= w / 1000 ->
  near_motor (61 / 10 * ((t + 5 * / 2 ^ 24) / w) + 39 * / 2 ^ 24) (r / w) (nlerp a b f) (nblend (val f) ea eb).
Proof.
  intros B M HR HM FL t r a b ea eb Na Nb Lr f Ff Lf w Lw Lt. rewrite u_pow in *. destruct (near_motor_len _ _ _ _ Na) as (A1 & A2 & t0 & r0). destruct (near_motor_len _ _ _ _ Nb) as (B1 & B2 & _ & _).
  destruct Na as (Fa & (Pa & _) & Ra & Ea1 & Ea2). destruct Nb as (Fb & (Pb & _) & Rb & Eb1 & Eb2). change (coefs (k := KMotor) a) with (reg_list (motor_p1 a) ++ reg_list (motor_p2 a)) in Fa. change (coefs (k := KMotor) b) with (reg_list (motor_p1 b) ++ reg_list (motor_p2 b)) in Fb.
  apply Forall_app in Fa. apply Forall_app in Fb. destruct Fa as [Fa1 Fa2]. destruct Fb as [Fb1 Fb2]. pose proof u_small as U.
  assert (W1 : w <= 1) by (unfold w; apply mix_le; lra). assert (t1 : t <= / 1000) by lra. assert (I40 : 0 < / 2 ^ 40) by (apply Rinv_0_lt_compat, pow_lt; lra).
  assert (G1 : mag (1 + t)). { destruct mag_1 as [g1 g2]. split; [lra|]. apply (Rle_trans _ (bpow radix2 1)); [cbn; lra|apply bpow_le; lia]. }
  assert (P40 : bpow radix2 (-40) = / 2 ^ 40) by (cbn; f_equal; ring). assert (P40' : bpow radix2 40 = 2 ^ 39 * 2) by (cbn; ring).
  assert (G2 : mag ((1 + t) * r)). { assert ((1 + t) * r <= 2 * r) by (apply Rmult_le_compat_r; lra). assert (1 * r <= (1 + t) * r) by (apply Rmult_le_compat_r; lra). split; [apply (Rle_trans _ (bpow radix2 (-40))); [apply bpow_le; lia|]; rewrite P40; lra|].
    apply (Rle_trans _ (bpow radix2 40)); [|apply bpow_le; lia]. rewrite P40'. lra. }
  pose proof (lerp_reg _ _ f _ Fa1 Fb1 Ff Lf A1 B1 G1) as (FL1 & D1 & _). pose proof (lerp_reg _ _ f _ Fa2 Fb2 Ff Lf A2 B2 G2) as (FL2 & D2 & _).
  unfold nlerp. set (m := lerp a b f).
  change (Forall fin (reg_list (motor_p1 m))) in FL1. change (Forall fin (reg_list (motor_p2 m))) in FL2. change (n4 (sub4 (mv1 m) (mix (val f) (mv1 a) (mv1 b))) <= 44 / 10 * u * (1 + t)) in D1. change (n4 (sub4 (mv2 m) (mix (val f) (mv2 a) (mv2 b))) <= 44 / 10 * u * ((1 + t) * r)) in D2.
  set (d := t + 5 * u) in *. assert (tu : u * t <= u * / 1000) by (apply Rmult_le_compat_l; lra).
  assert (X1 : n4 (sub4 (mv1 m) (mix (val f) (motor_p1 ea) (motor_p1 eb))) <= d).
  { eapply Rle_trans; [apply (n4_via _ (mix (val f) (mv1 a) (mv1 b)))|]. rewrite mix_sub. pose proof (mix_le (val f) _ _ t Lf Ea1 Eb1) as K. unfold d. lra. }
  assert (X2 : n4 (sub4 (mv2 m) (mix (val f) (motor_p2 ea) (motor_p2 eb))) <= d * r).
  { eapply Rle_trans; [apply (n4_via _ (mix (val f) (mv2 a) (mv2 b)))|]. rewrite mix_sub. pose proof (mix_le (val f) _ _ (t * r) Lf Ea2 Eb2) as K. assert (44 / 10 * u * (1 + t) * r <= 5 * u * r) by (apply Rmult_le_compat_r; lra). unfold d. lra. }
  pose proof (mix_le (val f) _ _ r Lf Ra Rb) as X3. set (e1 := mix (val f) (motor_p1 ea) (motor_p1 eb)) in *. set (e2 := mix (val f) (motor_p2 ea) (motor_p2 eb)) in *.
  assert (I19 : 0 < / 2 ^ 19) by (apply Rinv_0_lt_compat, pow_lt; lra). assert (w0 : 0 < w) by lra.
  destruct (norm_lip (mv1 m) (mv2 m) e1 e2 d r X1 X2 X3 (conj w0 W1) Lt) as (L1 & L2 & L3). fold w in L1, L2, L3.
  assert (N1 : n4 (mv1 m) <= w + d) by (pose proof (n4_tri (mv1 m) e1) as K; fold w in K; lra). assert (N2 : n4 (mv2 m) <= r + d * r) by (pose proof (n4_tri (mv2 m) e2); lra).
  assert (dr : d * r <= / 1000 * r) by (apply Rmult_le_compat_r; lra).
  assert (X19 : / 2 ^ 19 = 2 * / 2 ^ 20) by (replace (2 ^ 20) with (2 ^ 19 * 2) by ring; rewrite Rinv_mult; field; apply pow_nonzero; lra). assert (I20 : 0 < / 2 ^ 20) by (apply Rinv_0_lt_compat, pow_lt; lra).
  assert (X20 : 2 <= 2 ^ 20) by (replace (2 ^ 20) with 1048576 by ring; lra). assert (X40 : 2 ^ 40 = 2 ^ 39 * 2) by ring.
  assert (FM : Forall fin (coefs (k := KMotor) m)) by (apply Forall_app; split; assumption).
  destruct (C79_normalize B M HR HM m FM ltac:(lra) ltac:(lra)) as (NM & _). cbv zeta in NM. fold FL in NM. rewrite u_pow in NM. destruct NM as (F' & _ & _ & D1' & D2'). set (m' := motor_normalized m) in *. clearbody m'.
  set (N := n4 (mv1 m)) in *. assert (N0 : 0 < N) by lra. assert (iw : 0 < / w) by (apply Rinv_0_lt_compat; lra). assert (iN : 0 < / N) by (apply Rinv_0_lt_compat; lra).
  assert (iN' : / N <= 10011 / 10000 * / w). { replace (10011 / 10000 * / w) with (/ (10000 / 10011 * w)) by (field; lra). apply Rinv_le_contravar; lra. }
  assert (I50 : / 2 ^ 50 = / 2 ^ 40 * / 1024) by (rewrite <- Rinv_mult; f_equal; ring).
  assert (rw : 0 <= r / w) by (apply Rmult_le_pos; lra).
  assert (Wr : (n4 (mv2 m) + / 2 ^ 50) / N <= 1004 / 1000 * (r / w)).
  { unfold Rdiv at 1. apply (Rle_trans _ (1002 / 1000 * r * (10011 / 10000 * / w))); [apply Rmult_le_compat; try lra; pose proof (n4_pos (mv2 m)); lra|]. unfold Rdiv in *. lra. }
  assert (UW : 38 * u * ((n4 (mv2 m) + / 2 ^ 50) / N) <= 38 * u * (1004 / 1000 * (r / w))) by (apply Rmult_le_compat_l; lra). assert (urw : 0 <= u * (r / w)) by (apply Rmult_le_pos; lra).
  assert (dw : 0 <= d / w) by (apply Rmult_le_pos; unfold d in *; lra).
  assert (w0' : 0 < n4 e1) by (fold w; exact w0). destruct (exact_norm_spec e1 e2 w0') as (PE & _ & LE). fold w in LE. fold (nblend (val f) ea eb) in *. change (exact_norm e1 e2) with (nblend (val f) ea eb) in *.
  split; [exact F'|]. split; [exact PE|]. split.
  { eapply Rle_trans; [exact LE|]. apply Rmult_le_compat_r; lra. }
  split.
  - eapply Rle_trans; [apply (n4_via _ (motor_p1 (exact_norm (mv1 m) (mv2 m))))|]. lra.
  - eapply Rle_trans; [apply (n4_via _ (motor_p2 (exact_norm (mv1 m) (mv2 m))))|]. lra.
Qed.
(** ends that do not turn against one another *)
Theorem C81_short : forall (B : Build) (M : machine), rcp_estimate M -> rsqrt_estimate M -> let FL := Flo_f32 M in
  forall (t r : R) (a b : motor f32) (ea eb : motor R), near_motor t r a ea -> near_motor t r b eb -> t <= / 2000 -> / 2 ^ 40 <= r <= 2 ^ 39 ->
  0 <= q4 (motor_p1 ea) (motor_p1 eb) -> forall f : f32, fin f -> 0 <= val f <= 1 ->
  near_motor (9 * t + 83 * / 2 ^ 24) (10 / 7 * r) (nlerp a b f) (nblend (val f) ea eb) /\
  (val f = 0 -> near_motor (9 * t + 83 * / 2 ^ 24) (10 / 7 * r) (nlerp a b f) ea) /\ (val f = 1 -> near_motor (9 * t + 83 * / 2 ^ 24) (10 / 7 * r) (nlerp a b f) eb).
Proof.
  intros B M HR HM FL t r a b ea eb Na Nb Lt Lr Q f Ff Lf. destruct (near_motor_len _ _ _ _ Na) as (_ & _ & t0 & r0). pose proof (proj1 (proj2 Na)) as Pa. pose proof (proj1 (proj2 Nb)) as Pb. pose proof u_small as U.
  destruct (C81_path ea eb Pa Pb) as (W & _ & E0 & E1 & _). specialize (W (val f) Lf). set (w := n4 (mix (val f) (motor_p1 ea) (motor_p1 eb))) in *.
  assert (Lw : 7 / 10 <= w).
  { rewrite W. replace (7 / 10) with (sqrt (7 / 10 * (7 / 10))) by (apply sqrt_square; lra). apply sqrt_le_1_alt. assert (K : 2 * val f * (1 - val f) <= / 2) by (pose proof (Rle_0_sqr (2 * val f - 1)) as K; unfold Rsqr in K; lra).
    assert (C1 : q4 (motor_p1 ea) (motor_p1 eb) <= 1) by (pose proof (q4_cauchy (motor_p1 ea) (motor_p1 eb)) as K'; rewrite (proj1 Pa), (proj1 Pb) in K'; apply Rabs_le_inv in K'; lra).
    assert (2 * val f * (1 - val f) * (1 - q4 (motor_p1 ea) (motor_p1 eb)) <= / 2 * (1 - q4 (motor_p1 ea) (motor_p1 eb))) by (apply Rmult_le_compat_r; lra). lra. }
  assert (I19 : / 2 ^ 19 <= 7 / 10) by (apply (Rle_trans _ (/ 2)); [apply Rinv_le_contravar; [lra|replace (2 ^ 19) with 524288 by ring; lra]|lra]).
  pose proof (C81_nlerp B M HR HM t r a b ea eb Na Nb Lr f Ff Lf ltac:(fold w; lra) ltac:(fold w; rewrite u_pow; lra)) as H. cbv zeta in H. fold FL w in H. rewrite u_pow in *.
  assert (iw : 0 < / w <= 10 / 7) by (split; [apply Rinv_0_lt_compat; lra|replace (10 / 7) with (/ (7 / 10)) by field; apply Rinv_le_contravar; lra]).
  assert (H' : near_motor (9 * t + 83 * u) (10 / 7 * r) (nlerp a b f) (nblend (val f) ea eb)).
  { assert (rw : 0 <= r / w <= 10 / 7 * r). { unfold Rdiv at 1 2. rewrite (Rmult_comm (10 / 7)). split; [apply Rmult_le_pos; lra|apply Rmult_le_compat_l; lra]. }
    assert (K : (t + 5 * u) / w <= (t + 5 * u) * (10 / 7)) by (apply Rmult_le_compat_l; lra). destruct H as (F & P & R2 & D1 & D2). split; [exact F|]. split; [exact P|]. split; [lra|]. split; [lra|]. eapply Rle_trans; [exact D2|]. apply Rmult_le_compat; try lra. assert (0 <= (t + 5 * u) / w) by (apply Rmult_le_pos; lra). lra. }
  split; [exact H'|]. split; intro V; rewrite V in H'; [rewrite E0 in H'|rewrite E1 in H']; exact H'.
Qed.
(** where it places a point *)
Theorem C81_place : forall (B : Build) (M : machine), rcp_estimate M -> rsqrt_estimate M -> let FL := Flo_f32 M in
  forall (t r : R) (a b : motor f32) (ea eb : motor R), near_motor t r a ea -> near_motor t r b eb -> t <= / 10000 -> / 2 ^ 40 <= r <= 2 ^ 18 ->
  0 <= q4 (motor_p1 ea) (motor_p1 eb) -> forall (f : f32) (p : point f32), fin f -> 0 <= val f <= 1 -> Forall (bounded 20) (coefs (k := KPoint) p) -> wt p = 1 ->
  let q := motor_on_point (nlerp a b f) p in
  vlen (vsub (pos q) (moved (nblend (val f) ea eb) (pos p))) <= (181 / 10 * t + 189 * / 2 ^ 24) * vlen (pos p) + (515 / 10 * t + 511 * / 2 ^ 24) * r /\
  Rabs (wt q - 1) <= 181 / 10 * t + 175 * / 2 ^ 24.
Proof.
  intros B M HR HM FL t r a b ea eb Na Nb Lt Lr Q f p Ff Lf Hp Hw q. assert (X39 : 2 ^ 18 <= 2 ^ 39) by (apply Rle_pow; [lra|lia]). assert (X19 : 2 ^ 19 = 2 ^ 18 * 2) by ring. assert (X18 : 1 <= 2 ^ 18) by (apply pow_R1_Rle; lra).
  assert (I60 : / 2 ^ 60 <= / 2 ^ 40) by (apply Rinv_le_contravar; [apply pow_lt; lra|apply Rle_pow; [lra|lia]]). assert (I40 : 0 < / 2 ^ 40) by (apply Rinv_0_lt_compat, pow_lt; lra). destruct (near_motor_len _ _ _ _ Na) as (_ & _ & t0 & _).
  destruct (C81_short B M HR HM t r a b ea eb Na Nb ltac:(lra) ltac:(lra) Q f Ff Lf) as [H _]. fold FL in H. rewrite u_pow in *. pose proof u_small as U.
  destruct (near_place B _ _ _ _ p H ltac:(unfold u in *; lra) ltac:(lra) Hp Hw) as [K1 K2]. fold q in K1, K2.
  assert (V0 : 0 <= vlen (pos p)) by apply sqrt_pos.
  assert (K3 : (2001 / 1000 * (9 * t + 83 * u) + 222 / 10 * u) * vlen (pos p) <= (181 / 10 * t + 189 * u) * vlen (pos p)) by (apply Rmult_le_compat_r; lra).
  assert (K4 : (4002 / 1000 * (9 * t + 83 * u) + 252 / 10 * u) * (10 / 7) * r <= (515 / 10 * t + 511 * u) * r) by (apply Rmult_le_compat_r; lra).
  split; lra.
Qed.

(** ** Examples *)
Example C81_hypotheses : near_motor 0 4 third third_e /\ near_motor 0 4 other other_e /\ / 2 ^ 40 <= 4 <= 2 ^ 18 /\ 0 <= q4 (motor_p1 third_e) (motor_p1 other_e) /\
  fin fhalf /\ 0 <= val fhalf <= 1 /\ nblend (/ 2) third_e other_e <> third_e.
Proof.
  split; [exact near_third|]. split; [exact near_other|]. split.
  { split; [apply (Rle_trans _ 1); [|lra]; rewrite <- Rinv_1; apply Rinv_le_contravar; [lra|apply pow_R1_Rle; lra]|replace (2 ^ 18) with 262144 by ring; lra]. }
  split; [unfold q4, third_e, other_e; cbn [motor_p1 l0 l1 l2 l3]; lra|]. split; [reflexivity|]. replace (val fhalf) with (/ 2) by (vm_compute; lra). split; [lra|]. intro H.
  assert (H' : l1 (motor_p1 (nblend (/ 2) third_e other_e)) = / 2) by (rewrite H; reflexivity). unfold nblend, exact_norm in H'. cbv zeta in H'. set (n := n4 _) in H'. unfold mix, third_e, other_e, scale4, add4, map4 in H'. cbn [motor_p1 l0 l1 l2 l3] in H'. lra.
Qed.
(** halfway between them, in every build *)
Example C81_half (B : Build) (M : machine) : rcp_estimate M -> rsqrt_estimate M -> let FL := Flo_f32 M in near_motor (83 * / 2 ^ 24) (40 / 7) (nlerp third other fhalf) (nblend (/ 2) third_e other_e).
Proof.
  intros HR HM FL. destruct C81_hypotheses as (H1 & H2 & H3 & H4 & H5 & H6 & _). assert (V : val fhalf = / 2) by (vm_compute; lra). assert (X : 2 ^ 18 <= 2 ^ 39) by (apply Rle_pow; [lra|lia]).
  destruct (C81_short B M HR HM 0 4 third other third_e other_e H1 H2 ltac:(lra) ltac:(lra) H4 fhalf H5 H6) as [H _]. rewrite V in H. replace (9 * 0 + 83 * / 2 ^ 24) with (83 * / 2 ^ 24) in H by ring. replace (10 / 7 * 4) with (40 / 7) in H by field. exact H.
Qed.

Print Assumptions C81_path.
Print Assumptions C81_nlerp.
Print Assumptions C81_short.
Print Assumptions C81_place.
