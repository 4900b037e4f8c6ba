(** Property C76: the logarithm of a rotor in binary32, and the way back through exp. *)
From Coq Require Import ZArith Reals List Bool Lra Lia Psatz.
From Flocq Require Import Core BinarySingleNaN.
From Verif Require Import AlgTac Float32 FloatFacts ExprSyntax FloatErr FloatAbs FloatApx FloatNR FloatNorm FloatIdeal FloatLibm Props11 Props23 Props24.
Import ListNotations.
Local Open Scope R_scope.

(** ** Half an angle over its sine, as a function of the cosine *)
Lemma half_pi : 157 / 100 < PI / 2 < 158 / 100. Proof. pose proof PI_bounds. lra. Qed.
Lemma sin_xcos x : 0 <= x <= 8 / 5 -> 0 <= sin x - x * cos x.
Proof.
  intros [L H]. destruct (Req_dec x 0) as [->|N]; [rewrite sin_0; lra|].
  destruct (MVT_cor2 (fun x => sin x - x * cos x) (fun x => x * sin x) 0 x) as (c & E & C); [lra| |].
  - intros c _. replace (c * sin c) with (cos c - (1 * cos c + c * - sin c)) by ring.
    apply (derivable_pt_lim_minus sin (fun x => x * cos x)); [apply derivable_pt_lim_sin|].
    apply (derivable_pt_lim_mult id cos); [apply derivable_pt_lim_id|apply derivable_pt_lim_cos].
  - rewrite sin_0 in E. pose proof half_pi. assert (0 <= sin c) by (apply sin_ge_0; lra). assert (0 <= c * sin c * (x - 0)) by (repeat apply Rmult_le_pos; lra). lra.
Qed.
Lemma sin_le_x x : 0 <= x -> sin x <= x.
Proof. intro H. pose proof (sin_lip x 0) as S. rewrite sin_0, !Rminus_0_r, (Rabs_pos_eq x H) in S. apply Rabs_le_inv in S. lra. Qed.
Lemma cos_wide x : PI / 2 <= x <= 8 / 5 -> - (3 / 100) <= cos x <= 0 /\ 999 / 1000 <= sin x.
Proof.
  intros [L H]. pose proof half_pi. assert (E : cos x = - sin (x - PI / 2)) by (rewrite sin_minus, cos_PI2, sin_PI2; ring).
  assert (S : sin x = cos (x - PI / 2)) by (rewrite cos_minus, cos_PI2, sin_PI2; ring).
  set (d := x - PI / 2) in *. assert (D : 0 <= d <= 3 / 100) by (unfold d; lra).
  pose proof (sin_le_x d (proj1 D)). assert (0 <= sin d) by (apply sin_ge_0; lra). split; [lra|].
  rewrite S. pose proof (sin2_cos2 d) as Q. unfold Rsqr in Q. assert (0 <= cos d) by (apply cos_ge_0; lra). nra.
Qed.
Lemma sin_pos x : 0 < x <= 8 / 5 -> 0 < sin x.
Proof. intro H. pose proof half_pi. apply sin_gt_0; lra. Qed.
Lemma xsin_slope x : 0 < x <= 8 / 5 -> sin x - x * cos x <= 11 / 10 * (sin x * sin x * sin x).
Proof.
  intros H. pose proof (sin_pos x H) as S. pose proof (sin2_cos2 x) as Q. unfold Rsqr in Q. pose proof half_pi.
  destruct (Rle_or_lt x (PI / 2)) as [L|L].
  - assert (C : 0 <= cos x) by (apply cos_ge_0; lra). pose proof (COS_bound x). pose proof (sin_le_x x ltac:(lra)) as X.
    assert (sin x * cos x <= x * cos x) by (apply Rmult_le_compat_r; lra).
    assert (sin x * (1 - cos x) <= sin x * (sin x * sin x)) by (apply Rmult_le_compat_l; [lra|]; nra).
    assert (0 < sin x * (sin x * sin x)) by (repeat apply Rmult_lt_0_compat; lra). lra.
  - destruct (cos_wide x ltac:(lra)) as [C C']. pose proof (SIN_bound x).
    assert (x * - cos x <= 8 / 5 * (3 / 100)) by (apply Rmult_le_compat; lra).
    assert (999 / 1000 * (999 / 1000) <= sin x * sin x) by (apply Rmult_le_compat; lra).
    assert (999 / 1000 * (999 / 1000) * (999 / 1000) <= sin x * sin x * sin x) by (apply Rmult_le_compat; lra). lra.
Qed.
Lemma xsin_deriv c : 0 < c <= 8 / 5 -> derivable_pt_lim (fun x => x / sin x) c ((sin c - c * cos c) / (sin c * sin c)).
Proof.
  intro H. pose proof (sin_pos c H) as S. replace ((sin c - c * cos c) / (sin c * sin c)) with ((1 * sin c - cos c * id c) / Rsqr (sin c)) by (unfold Rsqr, id; field; lra).
  apply (derivable_pt_lim_div id sin); [apply derivable_pt_lim_id|apply derivable_pt_lim_sin|lra].
Qed.
Lemma xsin_step a b : 0 < a < b -> b <= 8 / 5 -> 0 <= b / sin b - a / sin a <= 11 / 10 * (cos a - cos b).
Proof.
  intros H Hb.
  destruct (MVT_cor2 (fun x => x / sin x) (fun c => (sin c - c * cos c) / (sin c * sin c)) a b) as (c & E & C); [lra|intros c C; apply xsin_deriv; lra|].
  destruct (MVT_cor2 (fun x => x / sin x + 11 / 10 * cos x) (fun c => (sin c - c * cos c) / (sin c * sin c) + 11 / 10 * - sin c) a b) as (d & E' & D); [lra| |].
  - intros d D. apply (derivable_pt_lim_plus (fun x => x / sin x) (fun x => 11 / 10 * cos x)); [apply xsin_deriv; lra|].
    apply derivable_pt_lim_scal. apply derivable_pt_lim_cos.
  - cbv beta in E, E'. pose proof (sin_pos c ltac:(lra)) as Sc. pose proof (sin_pos d ltac:(lra)) as Sd. split.
    + rewrite E. apply Rmult_le_pos; [|lra]. apply Rmult_le_pos; [apply sin_xcos; lra|]. left. apply Rinv_0_lt_compat. nra.
    + assert (X : (sin d - d * cos d) / (sin d * sin d) <= 11 / 10 * sin d).
      { apply (Rmult_le_reg_r (sin d * sin d)); [nra|]. unfold Rdiv. rewrite Rmult_assoc, Rinv_l, Rmult_1_r by nra. pose proof (xsin_slope d ltac:(lra)). lra. }
      assert (((sin d - d * cos d) / (sin d * sin d) + 11 / 10 * - sin d) * (b - a) <= 0) by (rewrite <- (Rmult_0_l (b - a)); apply Rmult_le_compat_r; lra). lra.
Qed.
Lemma xsin_lip a b : 0 < a <= 8 / 5 -> 0 < b <= 8 / 5 -> Rabs (a / sin a - b / sin b) <= 11 / 10 * Rabs (cos a - cos b).
Proof.
  intros A B. destruct (Rtotal_order a b) as [L|[-> |L]].
  - pose proof (xsin_step a b ltac:(lra) ltac:(lra)). rewrite Rabs_minus_sym, !Rabs_pos_eq by lra. lra.
  - unfold Rminus. rewrite !Rplus_opp_r, Rabs_R0. lra.
  - pose proof (xsin_step b a ltac:(lra) ltac:(lra)). rewrite (Rabs_minus_sym (cos a)), !Rabs_pos_eq by lra. lra.
Qed.
Lemma xsin_range x : 0 < x <= 8 / 5 -> 1 <= x / sin x <= 1602 / 1000.
Proof.
  intro H. pose proof (sin_pos x H) as S. split.
  - apply (Rmult_le_reg_r (sin x)); [exact S|]. unfold Rdiv. rewrite Rmult_assoc, Rinv_l by lra. pose proof (sin_le_x x ltac:(lra)). lra.
  - pose proof half_pi. destruct (cos_wide (8 / 5) ltac:(lra)) as [_ W].
    assert (X : 8 / 5 / sin (8 / 5) <= 1602 / 1000).
    { apply (Rmult_le_reg_r (sin (8 / 5))); [lra|]. unfold Rdiv at 1. rewrite Rmult_assoc, Rinv_l by lra. lra. }
    destruct (Req_dec x (8 / 5)) as [-> |N]; [exact X|]. pose proof (xsin_step x (8 / 5) ltac:(lra) ltac:(lra)). lra.
Qed.

(** ** The exponential of a branch moves rotors no further apart than branches *)
Lemma one_minus_cos d : 2 - 2 * cos d <= d * d.
Proof.
  assert (C : cos d = 1 - 2 * (sin (d / 2) * sin (d / 2))) by (replace d with (2 * (d / 2)) at 1 by field; rewrite cos_2a_sin; ring).
  rewrite C. pose proof (sin_lip (d / 2) 0) as S. rewrite sin_0, !Rminus_0_r in S.
  assert (S2 : sin (d / 2) * sin (d / 2) <= d / 2 * (d / 2)) by (apply Rsqr_le_abs_1 in S; exact S). lra.
Qed.
Lemma exact_rotor_lip a b : l0 a = 0 -> l0 b = 0 -> 0 < n4 a -> 0 < n4 b ->
  n4 (sub4 (exact_rotor (2 * n4 a) a) (exact_rotor (2 * n4 b) b)) <= n4 (sub4 a b).
Proof.
  intros A0 B0 Pa Pb. apply sqrt_le_1_alt. pose proof (n4_sq a) as Sa. pose proof (n4_sq b) as Sb. pose proof (q4_cauchy a b) as Cy.
  set (s := n4 a) in *. set (t := n4 b) in *.
  assert (Ea : exact_rotor (2 * s) a = mk4 (cos s) (sin s * l1 a / s) (sin s * l2 a / s) (sin s * l3 a / s)) by (unfold exact_rotor; fold s; replace (2 * s / 2) with s by field; reflexivity).
  assert (Eb : exact_rotor (2 * t) b = mk4 (cos t) (sin t * l1 b / t) (sin t * l2 b / t) (sin t * l3 b / t)) by (unfold exact_rotor; fold t; replace (2 * t / 2) with t by field; reflexivity).
  rewrite Ea, Eb. clearbody s t. clear Ea Eb.
  destruct a as [a0 a1 a2 a3], b as [b0 b1 b2 b3]. unfold q4, sub4 in *. cbn [l0 l1 l2 l3] in *. subst a0 b0.
  set (k := (a1 * b1 + a2 * b2 + a3 * b3) / (s * t)).
  assert (St : 0 < s * t) by (apply Rmult_lt_0_compat; lra).
  assert (K : a1 * b1 + a2 * b2 + a3 * b3 = k * (s * t)) by (unfold k; field; lra).
  assert (Kb : -1 <= k <= 1).
  { rewrite Rmult_0_l, Rplus_0_l, K, Rabs_mult, (Rabs_pos_eq (s * t)) in Cy by lra. apply Rabs_le_inv. apply (Rmult_le_reg_r (s * t)); lra. }
  pose proof (sin2_cos2 s) as Qs. pose proof (sin2_cos2 t) as Qt. unfold Rsqr in Qs, Qt.
  assert (LHS : (cos s - cos t) * (cos s - cos t) + (sin s * a1 / s - sin t * b1 / t) * (sin s * a1 / s - sin t * b1 / t)
    + (sin s * a2 / s - sin t * b2 / t) * (sin s * a2 / s - sin t * b2 / t) + (sin s * a3 / s - sin t * b3 / t) * (sin s * a3 / s - sin t * b3 / t)
    = 2 - 2 * (cos s * cos t + sin s * sin t * k)).
  { transitivity (cos s * cos s + cos t * cos t - 2 * (cos s * cos t) + sin s * sin s * (a1 * a1 + a2 * a2 + a3 * a3) / (s * s) + sin t * sin t * (b1 * b1 + b2 * b2 + b3 * b3) / (t * t)
      - 2 * (sin s * sin t * (a1 * b1 + a2 * b2 + a3 * b3) / (s * t))); [field; lra|].
    rewrite K. replace (a1 * a1 + a2 * a2 + a3 * a3) with (s * s) by lra. replace (b1 * b1 + b2 * b2 + b3 * b3) with (t * t) by lra.
    replace (sin s * sin s * (s * s) / (s * s)) with (sin s * sin s) by (field; lra). replace (sin t * sin t * (t * t) / (t * t)) with (sin t * sin t) by (field; lra).
    replace (sin s * sin t * (k * (s * t)) / (s * t)) with (sin s * sin t * k) by (field; lra). lra. }
  rewrite LHS. replace ((0 - 0) * (0 - 0) + (a1 - b1) * (a1 - b1) + (a2 - b2) * (a2 - b2) + (a3 - b3) * (a3 - b3))
    with ((0 * 0 + a1 * a1 + a2 * a2 + a3 * a3) + (0 * 0 + b1 * b1 + b2 * b2 + b3 * b3) - 2 * (a1 * b1 + a2 * b2 + a3 * b3)) by ring.
  rewrite <- Sa, <- Sb, K.
  pose proof (one_minus_cos (s - t)) as M. pose proof (one_minus_cos (s + t)) as P. rewrite cos_minus in M. rewrite cos_plus in P.
  set (x := cos s * cos t) in *. set (y := sin s * sin t) in *. set (z := s * t) in *.
  assert (E : 0 <= (1 + k) * ((s - t) * (s - t) - (2 - 2 * (x + y))) + (1 - k) * ((s + t) * (s + t) - (2 - 2 * (x - y)))).
  { apply Rplus_le_le_0_compat; apply Rmult_le_pos; lra. }
  assert ((s - t) * (s - t) = s * s + t * t - 2 * z) by (unfold z; ring). assert ((s + t) * (s + t) = s * s + t * t + 2 * z) by (unfold z; ring).
  rewrite H, H0 in E. clearbody x y z. nra.
Qed.

(** ** The assumption on the library, and that it can be met *)
(** Relative error of one unit in the last place for the sine, down to the least
    subnormal; absolute error of one unit in the last place of the values on [0, 1] for
    [std::acos]. *)
Definition libm_fine (M : machine) : Prop := libm M /\
  (forall x : f32, fin x -> Rabs (val x) <= 2 ^ 20 -> Rabs (val (m_sin M x) - sin (val x)) <= 2 * / 2 ^ 24 * Rabs (sin (val x)) + eta) /\
  (forall x : f32, fin x -> 0 <= val x <= 1 -> fin (m_acos M x) /\ Rabs (val (m_acos M x) - acos (val x)) <= 2 * / 2 ^ 24).
Definition of_R (y : R) : f32 := f32_of (Ztrunc (scaled_mantissa radix2 fexp32 (rnd y))) (cexp radix2 fexp32 (rnd y)).
Lemma of_R_ok y : Rabs y <= big -> fin (of_R y) /\ val (of_R y) = rnd y.
Proof.
  intro H. set (m := Ztrunc (scaled_mantissa radix2 fexp32 (rnd y))). set (e := cexp radix2 fexp32 (rnd y)).
  generalize (binary_normalize_correct 24 128 _ _ mode_NE m e false). cbv zeta. rewrite fexp_eq. change (round_mode mode_NE) with ZnearestE.
  assert (V : Valid_exp fexp32) by (apply FLT_exp_valid; reflexivity).
  assert (G : generic_format radix2 fexp32 (rnd y)) by (apply generic_format_round; typeclasses eauto).
  assert (X : F2R (Float radix2 m e) = rnd y) by (symmetry; exact G).
  rewrite X, (round_generic radix2 fexp32 ZnearestE (rnd y)), (no_overflow y H) by exact G. intros (E & K & _). split; [exact K|exact E].
Qed.
Lemma libm_fine_exists : exists M, libm_fine M /\ rcp_estimate M /\ rsqrt_estimate M.
Proof.
  pose proof u_pow as UP. pose proof u_small as U. pose proof eta_tiny as T. pose proof eta_pos as T0.
  assert (G : forall y, Rabs y <= 4 -> fin (of_R y) /\ Rabs (val (of_R y) - y) <= u * Rabs y + eta).
  { intros y L. destruct (of_R_ok y) as [F V]; [eapply Rle_trans; [exact L|]; change 4 with (bpow radix2 2); apply bpow_le; lia|]. split; [exact F|]. rewrite V. apply rnd_any. }
  exists (mkmachine (m_rcp ideal_machine) (m_rsqrt ideal_machine) (fun x => of_R (sin (val x))) (fun x => of_R (cos (val x))) (fun x => x) (fun x => of_R (acos (val x))) (fun x _ => x)).
  split; [|split; [exact ideal_rcp|exact ideal_rsqrt]].
  assert (S : forall x, Rabs (sin x) <= 1) by (intro x; apply Rabs_le; apply SIN_bound). assert (C : forall x, Rabs (cos x) <= 1) by (intro x; apply Rabs_le; apply COS_bound).
  repeat split; cbn [m_sin m_cos m_acos]; rewrite ?UP.
  - apply G. specialize (S (val x)). lra.
  - destruct (G (sin (val x))) as [_ E]; [specialize (S (val x)); lra|]. specialize (S (val x)). assert (u * Rabs (sin (val x)) <= u * 1) by (apply Rmult_le_compat_l; lra). lra.
  - apply G. specialize (C (val x)). lra.
  - destruct (G (cos (val x))) as [_ E]; [specialize (C (val x)); lra|]. specialize (C (val x)). assert (u * Rabs (cos (val x)) <= u * 1) by (apply Rmult_le_compat_l; lra). lra.
  - intros x F L. destruct (G (sin (val x))) as [_ E]; [specialize (S (val x)); lra|]. assert (0 <= u * Rabs (sin (val x))) by (apply Rmult_le_pos; [lra|apply Rabs_pos]). lra.
  - apply G. pose proof (acos_bound (val x)). pose proof half_pi. rewrite Rabs_pos_eq by lra. lra.
  - pose proof (acos_bound (val x)) as A. pose proof half_pi. assert (L : acos (val x) <= PI / 2).
    { destruct (Rle_or_lt (acos (val x)) (PI / 2)) as [L|L]; [exact L|exfalso]. assert (X : cos (acos (val x)) < 0) by (apply cos_lt_0; lra). rewrite cos_acos in X by lra. lra. }
    destruct (G (acos (val x))) as [_ E]; [rewrite Rabs_pos_eq by lra; lra|]. rewrite (Rabs_pos_eq (acos (val x))) in E by lra.
    assert (u * acos (val x) <= u * (158 / 100)) by (apply Rmult_le_compat_l; lra). lra.
Qed.

(** ** The logarithm *)
(** Half the angle of rotation along the axis, for a rotor of any length. *)
Definition biv4 (p : m128 R) : m128 R := mk4 0 (l1 p) (l2 p) (l3 p).
Definition exact_log (p : m128 R) : m128 R := scale4 (acos (l0 p / n4 p) / n4 (biv4 p)) (biv4 p).
Lemma biv_facts p : 0 < n4 (biv4 p) -> let N := n4 p in let s := n4 (biv4 p) in let t := acos (l0 p / N) in
  0 < N /\ -1 < l0 p / N < 1 /\ 0 < t < PI /\ cos t = l0 p / N /\ sin t = s / N.
Proof.
  intros S N s t. fold s in S. assert (Q : N * N = l0 p * l0 p + s * s).
  { unfold N, s. rewrite !n4_sq. unfold q4, biv4. cbn [l0 l1 l2 l3]. ring. }
  assert (Nn : 0 <= N) by apply n4_pos. assert (Np : 0 < N) by nra.
  assert (X : l0 p / N * (l0 p / N) + s / N * (s / N) = 1) by (replace (l0 p / N * (l0 p / N) + s / N * (s / N)) with ((l0 p * l0 p + s * s) / (N * N)) by (field; lra); rewrite <- Q; field; lra).
  assert (Sn : 0 < s / N) by (apply Rdiv_lt_0_compat; lra).
  assert (C : -1 < l0 p / N < 1) by nra. split; [exact Np|]. split; [exact C|].
  assert (T : 0 <= t <= PI) by apply acos_bound. assert (Ct : cos t = l0 p / N) by (apply cos_acos; lra).
  assert (T0 : t <> 0) by (intro E; rewrite E, cos_0 in Ct; lra). assert (T1 : t <> PI) by (intro E; rewrite E, cos_PI in Ct; lra).
  split; [lra|]. split; [exact Ct|]. pose proof (sin2_cos2 t) as P. unfold Rsqr in P. rewrite Ct in P. assert (0 < sin t) by (apply sin_gt_0; lra). nra.
Qed.
Lemma exact_log_len p : 0 < n4 (biv4 p) -> n4 (exact_log p) = acos (l0 p / n4 p).
Proof.
  intro S. destruct (biv_facts p S) as (_ & _ & T & _). unfold exact_log. rewrite n4_scale by (left; apply Rdiv_lt_0_compat; lra). field. lra.
Qed.
(** the exponential of the logarithm is the rotor, scaled to length one *)
Lemma exact_log_exp p : 0 < n4 (biv4 p) -> exact_rotor (2 * n4 (exact_log p)) (exact_log p) = scale4 (/ n4 p) p.
Proof.
  intro S. destruct (biv_facts p S) as (Np & _ & T & Ct & St). unfold exact_rotor. rewrite (exact_log_len p S). set (t := acos _) in *.
  replace (2 * t / 2) with t by field. rewrite Ct, St. unfold exact_log. fold t. unfold scale4, biv4, map4. cbn [l0 l1 l2 l3]. fold (biv4 p). set (s := n4 (biv4 p)) in *.
  f_equal; field; lra.
Qed.

Lemma below_one x : val x < 1 -> val x <= 1 - u.
Proof.
  intro H. assert (V : Valid_exp fexp32) by (apply FLT_exp_valid; reflexivity).
  assert (G : generic_format radix2 fexp32 1) by (change 1 with (bpow radix2 0); apply generic_format_bpow; unfold FLT_exp; lia).
  pose proof (pred_ge_gt radix2 fexp32 (val x) 1 (val_format x) G H) as P. change 1 with (bpow radix2 0) in P at 1. rewrite pred_bpow in P.
  change (FLT_exp (-149) 24 0) with (-24)%Z in P. cbn [bpow] in P. unfold u. cbn in P. lra.
Qed.
Lemma acos_low c : 0 <= c <= 1 - u -> bpow radix2 (-12) <= acos c <= PI / 2.
Proof.
  intros [L H]. pose proof u_small as U. pose proof (acos_bound c) as A. pose proof half_pi. split.
  - pose proof (one_minus_cos (acos c)) as M. rewrite cos_acos in M by lra. assert (S : 2 * u <= acos c * acos c) by lra.
    destruct (Rle_or_lt (bpow radix2 (-12)) (acos c)) as [X|X]; [exact X|exfalso].
    assert (acos c * acos c <= bpow radix2 (-12) * bpow radix2 (-12)) by (apply Rmult_le_compat; lra). rewrite <- bpow_plus in H1.
    change (bpow radix2 (-12 + -12)) with u in H1. lra.
  - destruct (Rle_or_lt (acos c) (PI / 2)) as [X|X]; [exact X|exfalso]. assert (Y : cos (acos c) < 0) by (apply cos_lt_0; lra). rewrite cos_acos in Y by lra. lra.
Qed.

Lemma n4_lanes w v X Y : 0 <= X -> 0 <= Y -> Rabs (l0 w) <= X * Rabs (l0 v) + Y -> Rabs (l1 w) <= X * Rabs (l1 v) + Y -> Rabs (l2 w) <= X * Rabs (l2 v) + Y -> Rabs (l3 w) <= X * Rabs (l3 v) + Y ->
  n4 w <= X * n4 v + 2 * Y.
Proof.
  intros HX HY A B C D. set (w' := add4 (scale4 X (map4 Rabs v)) (mk4 Y Y Y Y)).
  apply (Rle_trans _ (n4 w')); [apply n4_mono; assumption|]. eapply Rle_trans; [apply n4_add|]. rewrite n4_scale by exact HX. apply Rplus_le_compat.
  - apply Rmult_le_compat_l; [exact HX|]. right. unfold n4. f_equal. unfold q4, map4. cbn [l0 l1 l2 l3]. rewrite <- !Rabs_mult, !Rabs_pos_eq by apply Rle_0_sqr. reflexivity.
  - apply n4_all; cbn [l0 l1 l2 l3]; rewrite ?Rabs_pos_eq by lra; lra.
Qed.

Theorem C76_log : forall (B : Build) (M : machine), libm_fine M -> rcp_estimate M -> let FL := Flo_f32 M in forall r : rotor f32,
  near_unit r -> 0 <= l0 (rv r) < 1 -> / 2 ^ 20 <= n4 (biv4 (rv r)) -> let b := branch_p1 (rotor_log r) in
  Forall fin (reg_list b) /\ val (l0 b) = 0 /\
  n4 (sub4 (map4 val b) (exact_log (rv r))) <= 54 * / 2 ^ 24 * n4 (biv4 (rv r)).
Proof.
  intros B M (LM & SM & AM) HM FL r NU Lc Ls b. rewrite u_pow in *. pose proof u_small as U. pose proof eta_tiny as T. pose proof eta_pos as T0.
  assert (uu : u * u <= / 1000000 * u) by (apply Rmult_le_compat_r; lra).
  pose proof (near_n4 r NU) as NN. destruct NU as [Fr _].
  assert (I20 : bpow radix2 (-20) = / 2 ^ 20) by (cbn; f_equal; ring). rewrite <- I20 in Ls. pose proof (bpow_gt_0 radix2 (-20)) as B20.
  assert (S0 : 0 < n4 (biv4 (rv r))) by lra.
  destruct (biv_facts (rv r) S0) as (Np & Cn & Tn & Ct & St). set (N := n4 (rv r)) in *. set (s := n4 (biv4 (rv r))) in *. set (th := acos (l0 (rv r) / N)) in *.
  destruct (n4_lane (rv r)) as (_ & R1 & R2 & R3). fold N in R1, R2, R3.
  assert (Elog : exact_log (rv r) = scale4 (th / s) (biv4 (rv r))) by reflexivity.
  destruct r as [[c x y z]].
  inversion_clear Fr as [|? ? Fc F']. inversion_clear F' as [|? ? Fx F'']. inversion_clear F'' as [|? ? Fy F3]. inversion_clear F3 as [|? ? Fz _].
  set (p := rv (mkrotor (mk4 c x y z))) in *. assert (P0 : l0 p = val c) by reflexivity. assert (P1 : l1 p = val x) by reflexivity. assert (P2 : l2 p = val y) by reflexivity. assert (P3 : l3 p = val z) by reflexivity.
  rewrite P0 in Lc, Cn, Ct. rewrite P1 in R1. rewrite P2 in R2. rewrite P3 in R3.
  pose proof half_pi as HP. pose proof (below_one c (proj2 Lc)) as Hc. destruct (acos_low (val c) ltac:(lra)) as [Al Ah].
  destruct (AM c Fc ltac:(lra)) as [Fa Ea]. set (a := m_acos M c) in *. set (A := val a) in *. set (al := acos (val c)) in *. pose proof (Rabs_le_inv _ _ Ea) as Ea'.
  assert (B12 : bpow radix2 (-12) = / 4096) by (cbn; lra). rewrite B12 in Al.
  assert (Ab : / 5000 <= A <= 8 / 5) by lra.
  assert (Ap : 0 < A <= 8 / 5) by lra.
  destruct (xsin_range A Ap) as [G1 G2]. pose proof (sin_pos A Ap) as SA. set (g := A / sin A) in *.
  assert (Ag : A = g * sin A) by (unfold g; field; lra).
  assert (SA' : / 10000 <= sin A <= 1).
  { split; [|apply SIN_bound]. assert (g * sin A <= 1602 / 1000 * sin A) by (apply Rmult_le_compat_r; lra). lra. }
  (* the sine and its reciprocal *)
  assert (Lim : Rabs A <= 2 ^ 20) by (rewrite Rabs_pos_eq by lra; apply (Rle_trans _ 2); [lra|]; rewrite <- (pow_1 2) at 1; apply Rle_pow; [lra|lia]).
  destruct (LM a Fa Lim) as (Fs & _ & _ & _). pose proof (SM a Fa Lim) as Es. fold A in Es. set (si := m_sin M a) in *. rewrite (Rabs_pos_eq (sin A)) in Es by lra.
  assert (Et : eta <= / 1000 * u * sin A).
  { apply (Rle_trans _ (/ 1000 * u * / 10000)); [|apply Rmult_le_compat_l; lra]. apply (Rle_trans _ (bpow radix2 (-60))); [unfold eta; apply bpow_le; lia|]. unfold u. cbn. lra. }
  apply Rabs_le_inv in Es. set (w := sin A) in *. assert (uw : 0 < u * w) by (apply Rmult_lt_0_compat; lra). assert (uw2 : u * w <= / 1000000 * w) by (apply Rmult_le_compat_r; lra).
  assert (Sr : w / 2 <= val si <= 2 * w) by lra.
  assert (Rs : nr_range si).
  { split; [exact Fs|]. rewrite Rabs_pos_eq by lra. split.
    - apply (Rle_trans _ (bpow radix2 (-20))); [apply bpow_le; lia|]. cbn. lra.
    - apply (Rle_trans _ 2); [lra|]. change 2 with (bpow radix2 1). apply bpow_le. lia. }
  destruct (rcp_step_error M si HM Rs) as [Fq Eq]. set (q := rcp_step (H := Flo_f32 M) si) in *. apply Rabs_le_inv in Eq.
  assert (Q0 : 0 < val q).
  { destruct (Rlt_or_le 0 (val q)) as [X|X]; [exact X|exfalso]. assert (val si * val q <= val si * 0) by (apply Rmult_le_compat_l; lra). lra. }
  set (h := w * val q).
  assert (Hh : 1 - 76 / 10 * u <= h <= 1 + 76 / 10 * u).
  { assert (H1 : val si * val q <= (w * (1 + 2001 / 1000 * u)) * val q) by (apply Rmult_le_compat_r; lra).
    assert (H2 : (w * (1 - 2001 / 1000 * u)) * val q <= val si * val q) by (apply Rmult_le_compat_r; lra).
    replace (w * (1 + 2001 / 1000 * u) * val q) with (h * (1 + 2001 / 1000 * u)) in H1 by (unfold h; ring).
    replace (w * (1 - 2001 / 1000 * u) * val q) with (h * (1 - 2001 / 1000 * u)) in H2 by (unfold h; ring). clearbody h. split.
    - destruct (Rle_or_lt (1 - 76 / 10 * u) h) as [X|X]; [exact X|exfalso]. assert (h * (1 + 2001 / 1000 * u) <= (1 - 76 / 10 * u) * (1 + 2001 / 1000 * u)) by (apply Rmult_le_compat_r; lra). nra.
    - destruct (Rle_or_lt h (1 + 76 / 10 * u)) as [X|X]; [exact X|exfalso]. assert ((1 + 76 / 10 * u) * (1 - 2001 / 1000 * u) <= h * (1 - 2001 / 1000 * u)) by (apply Rmult_le_compat_r; lra). nra. }
  set (k := val q * A). assert (Ek : k = g * h) by (unfold k, h; rewrite Ag; ring).
  assert (Kg : Rabs (k - g) <= 122 / 10 * u).
  { rewrite Ek. replace (g * h - g) with (g * (h - 1)) by ring. rewrite Rabs_mult, (Rabs_pos_eq g) by lra. apply (Rle_trans _ (1602 / 1000 * (76 / 10 * u))); [|lra].
    apply Rmult_le_compat; [lra|apply Rabs_pos|lra|apply Rabs_le; lra]. }
  assert (Th : 0 < th <= PI / 2).
  { split; [lra|]. destruct (Rle_or_lt th (PI / 2)) as [X|X]; [exact X|exfalso]. assert (Y : cos th < 0) by (apply cos_lt_0; lra). rewrite Ct in Y. assert (0 <= val c / N) by (apply Rmult_le_pos; [lra|left; apply Rinv_0_lt_compat; lra]). lra. }
  assert (Kc : Rabs (cos A - cos th) <= 1502 / 100 * u).
  { replace (cos A - cos th) with ((cos A - cos al) + (val c - val c / N)) by (rewrite Ct; unfold al; rewrite cos_acos by lra; ring).
    eapply Rle_trans; [apply Rabs_triang|]. pose proof (cos_lip A al). assert (Rabs (val c - val c / N) <= 1302 / 100 * u); [|lra].
    replace (val c - val c / N) with (val c * / N * (N - 1)) by (field; lra).
    assert (iN : / N <= 1 + 14 * u) by (apply (Rmult_le_reg_r N); [lra|]; rewrite Rinv_l by lra; assert ((1 + 14 * u) * (1 - 13 * u) <= (1 + 14 * u) * N) by (apply Rmult_le_compat_l; lra); lra). assert (iN0 : 0 < / N) by (apply Rinv_0_lt_compat; lra).
    rewrite Rabs_mult, (Rabs_pos_eq (val c * / N)) by (apply Rmult_le_pos; lra).
    apply (Rle_trans _ (1 * (1 + 14 * u) * (13 * u))); [|lra]. apply Rmult_le_compat; [apply Rmult_le_pos; lra|apply Rabs_pos|apply Rmult_le_compat; lra|apply Rabs_le; lra]. }
  set (K := th / s). assert (KN : th / sin th = K * N) by (rewrite St; unfold K; field; lra).
  pose proof (xsin_lip A th Ap ltac:(lra)) as XL. rewrite KN in XL. fold w g in XL.
  destruct (xsin_range th ltac:(lra)) as [K1 K2]. rewrite KN in K1, K2. assert (K0 : 0 < K) by (unfold K; apply Rdiv_lt_0_compat; lra).
  assert (Kb : K <= 1603 / 1000).
  { destruct (Rle_or_lt K (1603 / 1000)) as [X|X]; [exact X|exfalso]. assert (1603 / 1000 * (1 - 13 * u) <= K * N) by (apply Rmult_le_compat; lra). lra. }
  assert (KK : Rabs (k - K) <= 497 / 10 * u).
  { replace (k - K) with ((k - g) + (g - K * N) + K * (N - 1)) by ring. eapply Rle_trans; [apply Rabs_triang|].
    assert (Rabs (K * (N - 1)) <= 1603 / 1000 * (13 * u)) by (rewrite Rabs_mult, (Rabs_pos_eq K) by lra; apply Rmult_le_compat; [lra|apply Rabs_pos|lra|apply Rabs_le; lra]).
    pose proof (Rabs_triang (k - g) (g - K * N)). lra. }
  assert (kb : 0 < k <= 161 / 100) by (rewrite Ek; split; [apply Rmult_lt_0_compat; lra|]; apply (Rle_trans _ (1602 / 1000 * (1 + 76 / 10 * u))); [apply Rmult_le_compat; lra|lra]).
  assert (qb : val q <= 20000) by (assert (/ 10000 * val q <= w * val q) by (apply Rmult_le_compat_r; lra); unfold h in Hh; lra).
  assert (P20 : 50000 <= bpow radix2 20) by (cbn; lra).
  (* one lane *)
  assert (LANE : forall v, fin v -> Rabs (val v) <= N -> fin (fmul (fmul v q) a) /\ Rabs (val (fmul (fmul v q) a) - K * val v) <= 53 * u * Rabs (val v) + 4 * eta).
  { intros v Fv Lv. pose proof (Rabs_pos (val v)) as v0. assert (Lv2 : Rabs (val v) <= 2) by lra.
    assert (VQ : Rabs (val v * val q) <= 2 * 20000) by (rewrite Rabs_mult, (Rabs_pos_eq (val q)) by lra; apply Rmult_le_compat; lra).
    destruct (mul_any v q Fv Fq) as [F1 E1]; [apply (Rle_trans _ (bpow radix2 20)); [lra|apply bpow_le; lia]|]. set (m := fmul v q) in *.
    set (e1 := val m - val v * val q) in *. assert (M1 : val m = val v * val q + e1) by (unfold e1; ring).
    assert (MA : val m * A = val v * k + e1 * A) by (rewrite M1; unfold k; ring).
    assert (e1A : Rabs (e1 * A) <= u * (Rabs (val v) * k) + 2 * eta).
    { rewrite Rabs_mult, (Rabs_pos_eq A) by lra. apply (Rle_trans _ ((u * Rabs (val v * val q) + eta) * A)); [apply Rmult_le_compat_r; lra|].
      rewrite Rabs_mult, (Rabs_pos_eq (val q)) by lra. unfold k. assert (eta * A <= eta * 2) by (apply Rmult_le_compat_l; lra). lra. }
    assert (vk : 0 <= Rabs (val v) * k <= Rabs (val v) * (161 / 100)) by (split; [apply Rmult_le_pos; lra|apply Rmult_le_compat_l; lra]).
    assert (uvk : 0 <= u * (Rabs (val v) * k) <= u * (Rabs (val v) * (161 / 100))) by (split; [apply Rmult_le_pos; lra|apply Rmult_le_compat_l; lra]).
    assert (MAb : Rabs (val m * A) <= Rabs (val v) * k + u * (Rabs (val v) * k) + 2 * eta).
    { rewrite MA. eapply Rle_trans; [apply Rabs_triang|]. rewrite Rabs_mult, (Rabs_pos_eq k) by lra. lra. }
    assert (uv : 0 <= u * Rabs (val v) <= / 1000000 * Rabs (val v)) by (split; [apply Rmult_le_pos; lra|apply Rmult_le_compat_r; lra]).
    destruct (mul_any m a F1 Fa) as [F2 E2]; [fold A; apply (Rle_trans _ (bpow radix2 20)); [lra|apply bpow_le; lia]|].
    split; [exact F2|]. fold A in E2. set (m2 := fmul m a) in *.
    replace (val m2 - K * val v) with ((val m2 - val m * A) + (val v * (k - K) + e1 * A)) by (rewrite MA; ring).
    eapply Rle_trans; [apply Rabs_triang|]. pose proof (Rabs_triang (val v * (k - K)) (e1 * A)) as TR. rewrite (Rabs_mult (val v)) in TR.
    assert (Rabs (val v) * Rabs (k - K) <= Rabs (val v) * (497 / 10 * u)) by (apply Rmult_le_compat_l; lra).
    assert (u * Rabs (val m * A) <= u * (Rabs (val v) * (161 / 100) + u * (Rabs (val v) * (161 / 100)) + 2 * eta)) by (apply Rmult_le_compat_l; lra).
    assert (u * (u * Rabs (val v)) <= / 1000000 * (u * Rabs (val v))) by (apply Rmult_le_compat_r; lra).
    assert (u * eta <= / 1000000 * eta) by (apply Rmult_le_compat_r; lra).
    lra. }
  destruct (LANE x Fx R1) as [F1 E1]. destruct (LANE y Fy R2) as [F2 E2]. destruct (LANE z Fz R3) as [F3 E3].
  assert (Eb : b = mk4 (fz 0) (fmul (fmul x q) a) (fmul (fmul y q) a) (fmul (fmul z q) a)) by (destruct B as [[|]]; reflexivity).
  destruct (fz_ok 0 ltac:(lia)) as [Fz0 Vz0].
  rewrite Eb, Elog. split; [repeat (apply Forall_cons; [assumption|]); apply Forall_nil|]. split; [exact Vz0|].
  assert (Fin : n4 (sub4 (map4 val (mk4 (fz 0) (fmul (fmul x q) a) (fmul (fmul y q) a) (fmul (fmul z q) a))) (scale4 K (biv4 p))) <= 53 * u * s + 2 * (4 * eta)).
  { apply n4_lanes; unfold sub4, scale4, biv4, map4; cbn [l0 l1 l2 l3]; rewrite ?P1, ?P2, ?P3; try lra; try exact E1; try exact E2; try exact E3.
    rewrite Vz0, Rmult_0_r, Rminus_0_r, Rabs_R0. lra. }
  eapply Rle_trans; [exact Fin|]. assert (8 * eta <= u * s); [|lra].
  apply (Rle_trans _ (u * bpow radix2 (-20))); [|apply Rmult_le_compat_l; lra]. apply (Rle_trans _ (8 * bpow radix2 (-100))); [apply Rmult_le_compat_l; [lra|]; unfold eta; apply bpow_le; lia|]. unfold u. cbn. lra.
Qed.

(** Exponentiating the logarithm gives the rotor back. *)
Theorem C76_roundtrip : forall (B : Build) (M : machine), libm_fine M -> rcp_estimate M -> rsqrt_estimate M -> let FL := Flo_f32 M in forall r : rotor f32,
  near_unit r -> 0 <= l0 (rv r) < 1 -> 2 * / 2 ^ 20 <= n4 (biv4 (rv r)) -> let r' := branch_exp (rotor_log r) in
  Forall fin (coefs (k := KRotor) r') /\ n4 (sub4 (rv r') (rv r)) <= 100 * / 2 ^ 24.
Proof.
  intros B M LM HM HS FL r NU Lc Ls r'. assert (I20 : 0 < / 2 ^ 20) by (apply Rinv_0_lt_compat; apply pow_lt; lra).
  assert (S0 : 0 < n4 (biv4 (rv r))) by lra.
  destruct (C76_log B M LM HM r NU Lc ltac:(lra)) as (Fb & Zb & Eb). fold FL in Fb, Zb, Eb. set (b := rotor_log r) in *. set (a := map4 val (branch_p1 b)) in *. set (L := exact_log (rv r)) in *.
  pose proof u_small as U. pose proof (near_n4 r NU) as NN. destruct (biv_facts (rv r) S0) as (Np & Cn & Tn & Ct & St). pose proof (exact_log_len _ S0) as LL. fold L in LL. set (th := acos _) in *.
  pose proof half_pi as HP. assert (Th : th <= PI / 2).
  { destruct (Rle_or_lt th (PI / 2)) as [X|X]; [exact X|exfalso]. assert (Y : cos th < 0) by (apply cos_lt_0; lra). rewrite Ct in Y. assert (0 <= l0 (rv r) / n4 (rv r)) by (apply Rmult_le_pos; [lra|left; apply Rinv_0_lt_compat; lra]). lra. }
  assert (sN : n4 (biv4 (rv r)) <= n4 (rv r)).
  { apply sqrt_le_1_alt. unfold q4, biv4. cbn [l0 l1 l2 l3]. pose proof (Rle_0_sqr (l0 (rv r))) as Q. unfold Rsqr in Q. lra. }
  set (s := n4 (biv4 (rv r))) in *. set (N := n4 (rv r)) in *.
  assert (sth : s <= N * th) by (replace s with (N * sin th) by (rewrite St; field; lra); apply Rmult_le_compat_l; [lra|apply sin_le_x; lra]).
  rewrite u_pow in Eb. assert (us : 0 < u * s <= / 1000000 * s) by (split; [apply Rmult_lt_0_compat; lra|apply Rmult_le_compat_r; lra]).
  pose proof (n4_diff a L) as D. rewrite LL in D. apply Rabs_le_inv in D. assert (us2 : u * s <= u * (1 + 13 * u)) by (apply Rmult_le_compat_l; lra).
  assert (uu : u * u <= / 1000000 * u) by (apply Rmult_le_compat_r; lra).
  assert (th0 : 99 / 100 * s <= th) by (assert (N * th <= (1 + 13 * u) * th) by (apply Rmult_le_compat_r; lra); assert (u * th <= / 1000000 * th) by (apply Rmult_le_compat_r; lra); lra).
  assert (La : / 2 ^ 20 <= n4 a <= 2 ^ 19).
  { split; [lra|]. apply (Rle_trans _ 2); [lra|]. rewrite <- (pow_1 2) at 1. apply Rle_pow; [lra|lia]. }
  destruct (C73_exp B M (proj1 LM) HS b Fb Zb La) as (F & E & _). fold FL in F, E. fold r' in F, E. fold a in E. split; [exact F|].
  rewrite u_pow in *. eapply Rle_trans; [apply (n4_via _ (exact_rotor (2 * n4 a) a))|].
  assert (E1 : n4 (sub4 (exact_rotor (2 * n4 a) a) (exact_rotor (2 * n4 L) L)) <= 54 * u * s).
  { eapply Rle_trans; [apply exact_rotor_lip; [exact Zb|unfold L, exact_log, scale4, biv4, map4; cbn [l0]; ring|lra|lra]|exact Eb]. }
  assert (E2 : n4 (sub4 (exact_rotor (2 * n4 L) L) (rv r)) <= 13 * u).
  { unfold L. rewrite (exact_log_exp _ S0). replace (sub4 (scale4 (/ n4 (rv r)) (rv r)) (rv r)) with (scale4 (/ N - 1) (rv r)) by (unfold scale4, sub4, map4, N; cbn [l0 l1 l2 l3]; f_equal; ring).
    rewrite n4_scale_abs. fold N. rewrite <- (Rabs_pos_eq N) at 2 by lra. rewrite <- Rabs_mult. replace ((/ N - 1) * N) with (1 - N) by (field; lra). apply Rabs_le. lra. }
  pose proof (n4_via (exact_rotor (2 * n4 a) a) (exact_rotor (2 * n4 L) L) (rv r)).
  assert (u * n4 a <= u * (159 / 100)) by (apply Rmult_le_compat_l; lra). lra.
Qed.

(** A fraction (or multiple) of the rotation: exp of the scaled logarithm (exp_log.hpp 26-30). *)
Lemma exact_log_scaled p f : 0 < n4 (biv4 p) -> 0 < f -> let L := scale4 f (exact_log p) in
  n4 L = f * acos (l0 p / n4 p) /\ exact_rotor (2 * n4 L) L = exact_rotor (2 * (f * acos (l0 p / n4 p))) (biv4 p).
Proof.
  intros S F L. destruct (biv_facts p S) as (Np & _ & T & _ & _). assert (NL : n4 L = f * acos (l0 p / n4 p)) by (unfold L; rewrite n4_scale, exact_log_len by lra; reflexivity).
  split; [exact NL|]. unfold exact_rotor. rewrite NL. set (t := acos _) in *. unfold L, exact_log. fold t. unfold scale4, map4. cbn [l0 l1 l2 l3]. fold (biv4 p). set (s := n4 (biv4 p)) in *.
  f_equal; field; repeat split; lra.
Qed.
Theorem C76_fraction : forall (B : Build) (M : machine), libm_fine M -> rcp_estimate M -> rsqrt_estimate M -> let FL := Flo_f32 M in forall (r : rotor f32) (f : f32),
  near_unit r -> 0 <= l0 (rv r) < 1 -> / 2 ^ 20 <= n4 (biv4 (rv r)) -> fin f -> 0 < val f <= 2 ^ 10 -> 2 * / 2 ^ 20 <= val f * n4 (biv4 (rv r)) ->
  let half := acos (l0 (rv r) / n4 (rv r)) in let r' := branch_exp (branch_mul_f (rotor_log r) f) in
  Forall fin (coefs (k := KRotor) r') /\
  n4 (sub4 (rv r') (exact_rotor (2 * (val f * half)) (biv4 (rv r)))) <= (17 + 75 * val f) * / 2 ^ 24.
Proof.
  intros B M LM HM HS FL r f NU Lc Ls Ff [F0 F10] Lfs half r'. assert (I20 : 0 < / 2 ^ 20) by (apply Rinv_0_lt_compat; apply pow_lt; lra).
  assert (S0 : 0 < n4 (biv4 (rv r))) by lra.
  destruct (C76_log B M LM HM r NU Lc Ls) as (Fb & Zb & Eb). fold FL in Fb, Zb, Eb. set (b := rotor_log r) in *. set (a := map4 val (branch_p1 b)) in *. set (L := exact_log (rv r)) in *.
  pose proof u_small as U. pose proof eta_pos as T0. pose proof (near_n4 r NU) as NN. destruct (biv_facts (rv r) S0) as (Np & Cn & Tn & Ct & St). pose proof (exact_log_len _ S0) as LL. fold L in LL.
  destruct (exact_log_scaled (rv r) (val f) S0 F0) as [LF EF]. fold L in LF, EF. fold half in LL, LF, EF, Tn, Ct, St. set (G := scale4 (val f) L) in *.
  pose proof half_pi as HP. assert (Th : half <= PI / 2).
  { destruct (Rle_or_lt half (PI / 2)) as [X|X]; [exact X|exfalso]. assert (Y : cos half < 0) by (apply cos_lt_0; lra). rewrite Ct in Y. assert (0 <= l0 (rv r) / n4 (rv r)) by (apply Rmult_le_pos; [lra|left; apply Rinv_0_lt_compat; lra]). lra. }
  assert (sN : n4 (biv4 (rv r)) <= n4 (rv r)).
  { apply sqrt_le_1_alt. unfold q4, biv4. cbn [l0 l1 l2 l3]. pose proof (Rle_0_sqr (l0 (rv r))) as Q. unfold Rsqr in Q. lra. }
  set (s := n4 (biv4 (rv r))) in *. set (N := n4 (rv r)) in *. rewrite <- EF.
  assert (sth : s <= N * half) by (replace s with (N * sin half) by (rewrite St; field; lra); apply Rmult_le_compat_l; [lra|apply sin_le_x; lra]).
  rewrite u_pow in *. assert (uu : u * u <= / 1000000 * u) by (apply Rmult_le_compat_r; lra).
  assert (us : 0 < u * s <= / 1000000 * s) by (split; [apply Rmult_lt_0_compat; lra|apply Rmult_le_compat_r; lra]).
  assert (us2 : u * s <= u * (1 + 13 * u)) by (apply Rmult_le_compat_l; lra).
  pose proof (n4_diff a L) as D. rewrite LL in D. apply Rabs_le_inv in D.
  assert (th0 : 99 / 100 * s <= half) by (assert (N * half <= (1 + 13 * u) * half) by (apply Rmult_le_compat_r; lra); assert (u * half <= / 1000000 * half) by (apply Rmult_le_compat_r; lra); lra).
  assert (na : n4 a <= 159 / 100) by lra.
  assert (P10 : val f <= 1024) by (apply (Rle_trans _ (2 ^ 10)); [exact F10|right; ring]).
  (* scaling *)
  destruct (n4_lane a) as (_ & A1 & A2 & A3).
  assert (P20 : 50000 <= bpow radix2 20) by (cbn; lra).
  destruct b as [[w x y z]]. cbn [branch_p1] in *. inversion_clear Fb as [|? ? Fw F']. inversion_clear F' as [|? ? Fx F'']. inversion_clear F'' as [|? ? Fy F3]. inversion_clear F3 as [|? ? Fz _].
  cbn [l0] in Zb. change (l1 a) with (val x) in A1. change (l2 a) with (val y) in A2. change (l3 a) with (val z) in A3.
  assert (LANE : forall v, fin v -> Rabs (val v) <= n4 a -> fin (fmul v f) /\ Rabs (val (fmul v f) - val f * val v) <= u * val f * Rabs (val v) + eta).
  { intros v Fv Lv. assert (P : Rabs (val v * val f) <= 2 * 1024) by (rewrite Rabs_mult, (Rabs_pos_eq (val f)) by lra; pose proof (Rabs_pos (val v)); apply Rmult_le_compat; lra).
    destruct (mul_any v f Fv Ff) as [F1 E1]; [apply (Rle_trans _ (bpow radix2 20)); [lra|apply bpow_le; lia]|].
    split; [exact F1|]. rewrite Rabs_mult, (Rabs_pos_eq (val f)) in E1 by lra. rewrite (Rmult_comm (val f) (val v)). lra. }
  destruct (LANE x Fx A1) as [F1 E1]. destruct (LANE y Fy A2) as [F2 E2]. destruct (LANE z Fz A3) as [F3 E3].
  destruct (LANE w Fw ltac:(rewrite Zb, Rabs_R0; apply n4_pos)) as [Fw' _].
  assert (Zw : val (fmul w f) = 0).
  { destruct (mul_ok w f Fw Ff) as [_ V]; [rewrite Zb, Rmult_0_l, Rabs_R0; apply bpow_ge_0|]. rewrite V, Zb, Rmult_0_l. apply round_0. typeclasses eauto. }
  set (b' := mkbranch (mk4 (fmul w f) (fmul x f) (fmul y f) (fmul z f))). assert (Rb : r' = branch_exp b') by reflexivity.
  set (a' := map4 val (branch_p1 b')).
  assert (uf : 0 < u * val f) by (apply Rmult_lt_0_compat; lra).
  assert (Ea : n4 (sub4 a' (scale4 (val f) a)) <= u * val f * n4 a + 2 * eta).
  { apply n4_lanes; [lra|lra| | | |]; unfold sub4, scale4, a', b', a, map4; cbn [branch_p1 l0 l1 l2 l3]; [|exact E1|exact E2|exact E3].
    rewrite Zw, Zb, Rmult_0_r, Rminus_0_r, Rabs_R0. lra. }
  assert (Eg : n4 (sub4 (scale4 (val f) a) G) <= val f * (54 * u * s)).
  { replace (sub4 (scale4 (val f) a) G) with (scale4 (val f) (sub4 a L)) by (unfold G, scale4, sub4, map4; cbn [l0 l1 l2 l3]; f_equal; ring).
    rewrite n4_scale by lra. apply Rmult_le_compat_l; [lra|exact Eb]. }
  pose proof (n4_via a' (scale4 (val f) a) G) as V.
  assert (ufa : u * val f * n4 a <= u * val f * (159 / 100)) by (apply Rmult_le_compat_l; lra).
  assert (ufs : val f * (u * s) <= val f * (u * (1 + 13 * u))) by (apply Rmult_le_compat_l; lra).
  assert (uuf : val f * (u * u) <= val f * (/ 1000000 * u)) by (apply Rmult_le_compat_l; lra).
  assert (Et : eta <= / 100 * u * val f * s).
  { replace (/ 100 * u * val f * s) with (/ 100 * u * (val f * s)) by ring. apply (Rle_trans _ (/ 100 * u * (2 * / 2 ^ 20))); [|apply Rmult_le_compat_l; lra].
    apply (Rle_trans _ (bpow radix2 (-60))); [unfold eta; apply bpow_le; lia|]. replace (/ 2 ^ 20) with (/ 1048576) by (f_equal; ring). unfold u. cbn. lra. }
  assert (DG : n4 (sub4 a' G) <= 56 * (u * val f)) by lra.
  assert (DG' : n4 (sub4 a' G) <= 61 * (u * (val f * s))).
  { assert (N * half <= (1 + 13 * u) * (159 / 100)) by (apply Rmult_le_compat; lra).
    assert (us' : u * val f * n4 a <= u * val f * (3 * s)); [|lra]. apply Rmult_le_compat_l; [lra|].
    destruct (xsin_range half ltac:(lra)) as [_ X]. assert (half <= 1602 / 1000 * sin half).
    { assert (Z : 0 < sin half) by (apply sin_pos; lra). replace half with (half / sin half * sin half) at 1 by (field; lra). apply Rmult_le_compat_r; lra. }
    assert (sin half * (1 - 13 * u) <= s). { rewrite St. apply (Rle_trans _ (s / N * N)); [apply Rmult_le_compat_l; [rewrite <- St; left; apply sin_pos; lra|lra]|]. right. field. lra. }
    assert (u * sin half <= / 1000000 * sin half) by (apply Rmult_le_compat_r; [left; apply sin_pos; lra|lra]). lra. }
  pose proof (n4_diff a' G) as D2. rewrite LF in D2. apply Rabs_le_inv in D2.
  assert (fth : 99 / 100 * (val f * s) <= val f * half) by (assert (val f * (99 / 100 * s) <= val f * half) by (apply Rmult_le_compat_l; lra); lra).
  assert (fth2 : val f * half <= val f * (158 / 100)) by (apply Rmult_le_compat_l; lra).
  assert (ufs0 : 0 <= u * (val f * s) <= / 1000000 * (val f * s)) by (split; [apply Rmult_le_pos; lra|apply Rmult_le_compat_r; lra]).
  assert (uf2 : u * val f <= / 1000000 * val f) by (apply Rmult_le_compat_r; lra).
  assert (La : / 2 ^ 20 <= n4 a' <= 2 ^ 19).
  { split; [lra|]. apply (Rle_trans _ 2048); [lra|]. replace 2048 with (2 ^ 11) by ring. apply Rle_pow; [lra|lia]. }
  destruct (C73_exp B M (proj1 LM) HS b' ltac:(repeat (apply Forall_cons; [assumption|]); apply Forall_nil) Zw La) as (F & E & _). fold FL in F, E. rewrite <- Rb in F, E. fold a' in E. split; [exact F|].
  rewrite u_pow in *. eapply Rle_trans; [apply (n4_via _ (exact_rotor (2 * n4 a') a'))|].
  assert (E4 : n4 (sub4 (exact_rotor (2 * n4 a') a') (exact_rotor (2 * n4 G) G)) <= 56 * (u * val f)).
  { eapply Rle_trans; [apply exact_rotor_lip; [exact Zw|unfold G, L, exact_log, scale4, biv4, map4; cbn [l0]; ring|lra|lra]|exact DG]. }
  assert (u * n4 a' <= u * (val f * (159 / 100))) by (apply Rmult_le_compat_l; lra). lra.
Qed.

(** ** Instances *)
(** r34 of Props23.v is (3/5, 4/5) rounded. *)
Example C76_r34 : near_unit r34 /\ 0 <= l0 (rv r34) < 1 /\ 2 * / 2 ^ 20 <= n4 (biv4 (rv r34)) /\ 2 * / 2 ^ 20 <= val (f32_of 1 (-2)) * n4 (biv4 (rv r34)).
Proof.
  split; [exact C72_near_unit|].
  assert (V1 : val (f32_of 10066330 (-24)) = 10066330 / 16777216) by (vm_compute; lra). assert (V2 : val (f32_of 13421773 (-24)) = 13421773 / 16777216) by (vm_compute; lra).
  assert (V3 : val (f32_of 1 (-2)) = / 4) by (vm_compute; lra).
  split; [change (l0 (rv r34)) with (val (f32_of 10066330 (-24))); lra|].
  destruct (n4_lane (biv4 (rv r34))) as (_ & Q & _). change (l1 (biv4 (rv r34))) with (val (f32_of 13421773 (-24))) in Q. rewrite V2, Rabs_pos_eq in Q by lra.
  assert (P : / 2 ^ 20 = / 1048576) by (f_equal; ring). rewrite P, V3. split; lra.
Qed.
Example C76_library : exists M, libm_fine M /\ rcp_estimate M /\ rsqrt_estimate M. Proof. exact libm_fine_exists. Qed.

Print Assumptions C76_log.
Print Assumptions C76_roundtrip.
Print Assumptions C76_fraction.
