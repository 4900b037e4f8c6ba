(** Property C77: the exponential of a line and the screw constructor in binary32. *)
From Coq Require Import ZArith Reals List Bool Lra Lia Psatz.
From Flocq Require Import Core BinarySingleNaN.
From Verif Require Import AlgTac SpecMass FloatMass Closed FloR ExpSeries KernelExpLog ExpLog LogExp2 Float32 FloatFacts ExprSyntax FloatErr FloatAbs FloatApx FloatNR FloatNorm FloatIdeal FloatLibm Props11 Props21 Props22 SpecGeom Props23 Props24 Props26 Props27.
Import ListNotations.
Local Open Scope R_scope.

(** ** Errors in units of 2^-24 of a magnitude *)
Definition mag (m : R) : Prop := bpow radix2 (-112) <= m <= bpow radix2 122.
Definition ap (k : R) (s : f32) (v m : R) : Prop := fin s /\ Rabs (val s - v) <= k * u * m /\ Rabs v <= m.
Definition vap (k : R) (x y z : f32) (e : m128 R) (m : R) : Prop :=
  fin x /\ fin y /\ fin z /\ l0 e = 0 /\ n4 (sub4 (axis x y z) e) <= k * u * m /\ n4 e <= m.
Lemma mag_pos m : mag m -> 0 < m. Proof. intros [L _]. pose proof (bpow_gt_0 radix2 (-112)). lra. Qed.
Lemma mag_eta m : mag m -> eta <= / 10000 * u * m.
Proof.
  intros [L _]. apply (Rle_trans _ (/ 10000 * u * bpow radix2 (-112))); [|apply Rmult_le_compat_l; [pose proof u_small; lra|exact L]].
  apply (Rle_trans _ (bpow radix2 (-38) * bpow radix2 (-112))); [unfold eta; rewrite <- bpow_plus; apply bpow_le; lia|].
  apply Rmult_le_compat_r; [apply bpow_ge_0|]. unfold u. cbn. lra.
Qed.
Lemma mag_big m : mag m -> 4 * m <= big.
Proof. intros [_ H]. apply (Rle_trans _ (bpow radix2 2 * bpow radix2 122)); [change (bpow radix2 2) with 4; lra|]. rewrite <- bpow_plus. apply bpow_le. lia. Qed.
Lemma ap_le k s v m : ap k s v m -> Rabs (val s) <= (1 + k * u) * m.
Proof. intros (_ & E & V). replace (val s) with (v + (val s - v)) by ring. eapply Rle_trans; [apply Rabs_triang|]. lra. Qed.
Lemma ap_weak k k' s v m m' : ap k s v m -> 0 <= k <= k' -> m <= m' -> ap k' s v m'.
Proof.
  intros (F & E & V) K Mm. assert (0 <= m) by (pose proof (Rabs_pos v); lra). pose proof u_small. split; [exact F|]. split; [|lra].
  eapply Rle_trans; [exact E|]. apply Rmult_le_compat; try lra; [apply Rmult_le_pos; lra|]. apply Rmult_le_compat_r; lra.
Qed.
Lemma ku_small k : 0 <= k <= 10000 -> 0 <= k * u <= / 1000.
Proof. intro K. pose proof u_small. split; [apply Rmult_le_pos; lra|]. apply (Rle_trans _ (10000 * u)); [apply Rmult_le_compat_r; lra|]. unfold u. lra. Qed.
(** second-order terms of a product *)
Lemma second k k' : 0 <= k <= 10000 -> 0 <= k' <= 10000 -> k * k' <= 1000000 ->
  (k * u + k' * u + k * u * (k' * u)) + u * ((1 + k * u) * (1 + k' * u)) <= (k + k' + 109 / 100) * u.
Proof.
  intros K K' P. pose proof (ku_small k K) as Q. pose proof (ku_small k' K') as Q'. pose proof u_small as U.
  assert (A : k * u * (k' * u) <= 6 / 100 * u).
  { replace (k * u * (k' * u)) with (k * k' * u * u) by ring. apply Rmult_le_compat_r; [lra|]. apply (Rle_trans _ (1000000 * u)); [apply Rmult_le_compat_r; lra|]. unfold u. lra. }
  assert (Bb : (1 + k * u) * (1 + k' * u) <= (1 + / 1000) * (1 + / 1000)) by (apply Rmult_le_compat; lra).
  assert (u * ((1 + k * u) * (1 + k' * u)) <= u * ((1 + / 1000) * (1 + / 1000))) by (apply Rmult_le_compat_l; lra). lra.
Qed.
Lemma ap_mul k k' s s' v v' m m' : ap k s v m -> ap k' s' v' m' -> 0 <= k <= 10000 -> 0 <= k' <= 10000 -> k * k' <= 1000000 -> mag (m * m') ->
  ap (k + k' + 11 / 10) (fmul s s') (v * v') (m * m').
Proof.
  intros H H' K K' P G. pose proof (ap_le _ _ _ _ H) as L. pose proof (ap_le _ _ _ _ H') as L'. destruct H as (F & E & V). destruct H' as (F' & E' & V').
  assert (m0 : 0 <= m) by (pose proof (Rabs_pos v); lra). assert (m0' : 0 <= m') by (pose proof (Rabs_pos v'); lra). assert (mm : 0 < m * m') by (apply mag_pos; exact G).
  pose proof (ku_small k K) as Q. pose proof (ku_small k' K') as Q'. pose proof u_small as U.
  assert (Pb : Rabs (val s * val s') <= (1 + k * u) * (1 + k' * u) * (m * m')).
  { rewrite Rabs_mult. apply (Rle_trans _ ((1 + k * u) * m * ((1 + k' * u) * m'))); [apply Rmult_le_compat; try apply Rabs_pos; assumption|]. lra. }
  assert (Bb : (1 + k * u) * (1 + k' * u) <= 4) by (apply (Rle_trans _ ((1 + / 1000) * (1 + / 1000))); [apply Rmult_le_compat; lra|lra]).
  destruct (mul_any s s' F F') as [Fm Em].
  { eapply Rle_trans; [exact Pb|]. apply (Rle_trans _ (4 * (m * m'))); [apply Rmult_le_compat_r; lra|apply mag_big; exact G]. }
  split; [exact Fm|]. split; [|rewrite Rabs_mult; apply Rmult_le_compat; try apply Rabs_pos; assumption].
  set (d := val s - v) in *. set (d' := val s' - v') in *.
  replace (val (fmul s s') - v * v') with ((val (fmul s s') - val s * val s') + (v * d' + d * v' + d * d')) by (unfold d, d'; ring).
  eapply Rle_trans; [apply Rabs_triang|]. pose proof (Rabs_triang (v * d' + d * v') (d * d')) as T1. pose proof (Rabs_triang (v * d') (d * v')) as T2. rewrite !Rabs_mult in T2. rewrite (Rabs_mult d d') in T1.
  assert (A1 : Rabs v * Rabs d' <= m * (k' * u * m')) by (apply Rmult_le_compat; try apply Rabs_pos; assumption).
  assert (A2 : Rabs d * Rabs v' <= k * u * m * m') by (apply Rmult_le_compat; try apply Rabs_pos; assumption).
  assert (A3 : Rabs d * Rabs d' <= k * u * m * (k' * u * m')) by (apply Rmult_le_compat; try apply Rabs_pos; assumption).
  assert (A4 : u * Rabs (val s * val s') <= u * ((1 + k * u) * (1 + k' * u) * (m * m'))) by (apply Rmult_le_compat_l; lra).
  pose proof (mag_eta _ G) as Et. pose proof (second k k' K K' P) as S. apply (Rmult_le_compat_r (m * m')) in S; [|lra].
  assert (0 < u * (m * m')) by (apply Rmult_lt_0_compat; lra). lra.
Qed.
Lemma vap_weak k k' x y z e m m' : vap k x y z e m -> 0 <= k <= k' -> m <= m' -> vap k' x y z e m'.
Proof.
  intros (F & F' & F'' & Z & E & V) K Mm. assert (0 <= m) by (pose proof (n4_pos e); lra). pose proof u_small. repeat (split; [assumption|]). split; [|lra].
  eapply Rle_trans; [exact E|]. apply Rmult_le_compat; try lra; [apply Rmult_le_pos; lra|]. apply Rmult_le_compat_r; lra.
Qed.
Lemma vap_le k x y z e m : vap k x y z e m -> n4 (axis x y z) <= (1 + k * u) * m.
Proof. intros (_ & _ & _ & _ & E & V). pose proof (n4_tri (axis x y z) e). lra. Qed.
Lemma vap_scale k k' x y z s e v m m' : vap k x y z e m -> ap k' s v m' -> 0 <= k <= 10000 -> 0 <= k' <= 10000 -> k * k' <= 1000000 -> mag (m * m') ->
  vap (k + k' + 11 / 10) (fmul x s) (fmul y s) (fmul z s) (scale4 v e) (m * m').
Proof.
  intros H H' K K' P G. pose proof (vap_le _ _ _ _ _ _ H) as L. pose proof (ap_le _ _ _ _ H') as L'. destruct H as (Fx & Fy & Fz & Z & E & V). destruct H' as (F' & E' & V').
  assert (m0 : 0 <= m) by (pose proof (n4_pos e); lra). assert (m0' : 0 <= m') by (pose proof (Rabs_pos v); lra). assert (mm : 0 < m * m') by (apply mag_pos; exact G).
  pose proof (ku_small k K) as Q. pose proof (ku_small k' K') as Q'. pose proof u_small as U. pose proof eta_pos as T0.
  assert (Bb : (1 + k * u) * (1 + k' * u) <= 4) by (apply (Rle_trans _ ((1 + / 1000) * (1 + / 1000))); [apply Rmult_le_compat; lra|lra]).
  assert (OS : n4 (axis x y z) * Rabs (val s) <= (1 + k * u) * (1 + k' * u) * (m * m')).
  { apply (Rle_trans _ ((1 + k * u) * m * ((1 + k' * u) * m'))); [apply Rmult_le_compat; try apply Rabs_pos; try apply n4_pos; assumption|]. lra. }
  destruct (n4_lane (axis x y z)) as (_ & X1 & X2 & X3). cbn [axis l1 l2 l3] in X1, X2, X3. fold (axis x y z) in X1, X2, X3.
  assert (LANE : forall p, fin p -> Rabs (val p) <= n4 (axis x y z) -> fin (fmul p s) /\ Rabs (val (fmul p s) - val p * val s) <= u * Rabs (val s) * Rabs (val p) + eta).
  { intros p Fp Lp. destruct (mul_any p s Fp F') as [Fm Em].
    - rewrite Rabs_mult. apply (Rle_trans _ (n4 (axis x y z) * Rabs (val s))); [apply Rmult_le_compat_r; [apply Rabs_pos|exact Lp]|].
      eapply Rle_trans; [exact OS|]. apply (Rle_trans _ (4 * (m * m'))); [apply Rmult_le_compat_r; lra|apply mag_big; exact G].
    - split; [exact Fm|]. rewrite Rabs_mult in Em. lra. }
  destruct (LANE x Fx X1) as [F1 E1]. destruct (LANE y Fy X2) as [F2 E2]. destruct (LANE z Fz X3) as [F3 E3].
  repeat (split; [assumption|]). split; [unfold scale4, map4; cbn [l0]; rewrite Z; ring|]. split.
  2: { rewrite n4_scale_abs, Rmult_comm. apply Rmult_le_compat; try apply Rabs_pos; try apply n4_pos; assumption. }
  eapply Rle_trans; [apply (n4_via _ (scale4 (val s) (axis x y z)))|]. eapply Rle_trans; [apply Rplus_le_compat_l; apply (n4_via _ (scale4 v (axis x y z)))|].
  assert (D1 : n4 (sub4 (axis (fmul x s) (fmul y s) (fmul z s)) (scale4 (val s) (axis x y z))) <= u * Rabs (val s) * n4 (axis x y z) + 2 * eta).
  { apply n4_lanes; [apply Rmult_le_pos; [lra|apply Rabs_pos]|lra| | | |]; unfold sub4, scale4, axis, map4; cbn [l0 l1 l2 l3]; rewrite ?(Rmult_comm (val s)); try assumption.
    rewrite Rmult_0_l, Rminus_0_r, Rabs_R0. lra. }
  assert (D2 : n4 (sub4 (scale4 (val s) (axis x y z)) (scale4 v (axis x y z))) <= k' * u * m' * ((1 + k * u) * m)).
  { replace (sub4 _ _) with (scale4 (val s - v) (axis x y z)) by (unfold sub4, scale4, axis, map4; cbn [l0 l1 l2 l3]; f_equal; ring).
    rewrite n4_scale_abs. apply Rmult_le_compat; try apply Rabs_pos; try apply n4_pos; assumption. }
  assert (D3 : n4 (sub4 (scale4 v (axis x y z)) (scale4 v e)) <= m' * (k * u * m)).
  { replace (sub4 _ _) with (scale4 v (sub4 (axis x y z) e)) by (unfold sub4, scale4, axis, map4; cbn [l0 l1 l2 l3]; f_equal; ring).
    rewrite n4_scale_abs. apply Rmult_le_compat; try apply Rabs_pos; try apply n4_pos; assumption. }
  assert (A4 : u * (n4 (axis x y z) * Rabs (val s)) <= u * ((1 + k * u) * (1 + k' * u) * (m * m'))) by (apply Rmult_le_compat_l; lra).
  pose proof (mag_eta _ G) as Et. pose proof (second k k' K K' P) as S. apply (Rmult_le_compat_r (m * m')) in S; [|lra].
  assert (0 < u * (m * m')) by (apply Rmult_lt_0_compat; lra). lra.
Qed.
Lemma vap_scale_l k k' x y z s e v m m' : vap k x y z e m -> ap k' s v m' -> 0 <= k <= 10000 -> 0 <= k' <= 10000 -> k * k' <= 1000000 -> mag (m * m') ->
  vap (k + k' + 11 / 10) (fmul s x) (fmul s y) (fmul s z) (scale4 v e) (m * m').
Proof. intros. rewrite (mul_comm_f32 s x), (mul_comm_f32 s y), (mul_comm_f32 s z). apply vap_scale; assumption. Qed.
(** sums and differences *)
Definition plus_minus (b : bool) (x y : f32) : f32 := if b then fadd x y else fsub x y.
Definition pm4 (b : bool) (v w : m128 R) : m128 R := if b then add4 v w else sub4 v w.
Lemma pm_any (b : bool) (x y : f32) : fin x -> fin y -> Rabs (if b then val x + val y else val x - val y) <= big ->
  fin (plus_minus b x y) /\ Rabs (val (plus_minus b x y) - (if b then val x + val y else val x - val y)) <= u * Rabs (if b then val x + val y else val x - val y) + eta.
Proof.
  intros Fx Fy H. destruct b; cbn [plus_minus].
  - destruct (add_ok x y Fx Fy H) as [F V]. split; [exact F|]. rewrite V. apply rnd_any.
  - destruct (sub_ok x y Fx Fy H) as [F V]. split; [exact F|]. rewrite V. apply rnd_any.
Qed.
Lemma n4_pm (b : bool) v w v' w' : n4 (sub4 (pm4 b v w) (pm4 b v' w')) <= n4 (sub4 v v') + n4 (sub4 w w').
Proof.
  destruct b; cbn [pm4].
  - replace (sub4 (add4 v w) (add4 v' w')) with (add4 (sub4 v v') (sub4 w w')) by (unfold add4, sub4; cbn [l0 l1 l2 l3]; f_equal; ring). apply n4_add.
  - replace (sub4 (sub4 v w) (sub4 v' w')) with (add4 (sub4 v v') (sub4 w' w)) by (unfold add4, sub4; cbn [l0 l1 l2 l3]; f_equal; ring). rewrite (n4_sym w w'). apply n4_add.
Qed.
Lemma vap_pm (b : bool) k k' x y z x' y' z' e e' m : vap k x y z e m -> vap k' x' y' z' e' m -> n4 (pm4 b e e') <= m -> 0 <= k <= 10000 -> 0 <= k' <= 10000 -> mag m ->
  vap (k + k' + 11 / 10) (plus_minus b x x') (plus_minus b y y') (plus_minus b z z') (pm4 b e e') m.
Proof.
  intros (Fx & Fy & Fz & Z & E & V) (Fx' & Fy' & Fz' & Z' & E' & V') N K K' G. pose proof (mag_pos m G) as m0.
  pose proof (ku_small k K) as Q. pose proof (ku_small k' K') as Q'. pose proof u_small as U. pose proof eta_pos as T0.
  set (o := axis x y z) in *. set (o' := axis x' y' z') in *. pose proof (n4_pm b o o' e e') as D.
  assert (S : n4 (pm4 b o o') <= (1 + k * u + k' * u) * m) by (pose proof (n4_tri (pm4 b o o') (pm4 b e e')); lra).
  assert (S' : (1 + k * u + k' * u) * m <= (1 + / 500) * m) by (apply Rmult_le_compat_r; lra).
  pose proof (mag_big m G) as Bg.
  destruct (n4_lane (pm4 b o o')) as (_ & X1 & X2 & X3).
  assert (LANE : forall p p', fin p -> fin p' -> Rabs (if b then val p + val p' else val p - val p') <= n4 (pm4 b o o') ->
    fin (plus_minus b p p') /\ Rabs (val (plus_minus b p p') - (if b then val p + val p' else val p - val p')) <= u * Rabs (if b then val p + val p' else val p - val p') + eta).
  { intros p p' Fp Fp' L. apply pm_any; [exact Fp|exact Fp'|]. lra. }
  destruct (LANE x x' Fx Fx') as [F1 E1]; [destruct b; exact X1|]. destruct (LANE y y' Fy Fy') as [F2 E2]; [destruct b; exact X2|]. destruct (LANE z z' Fz Fz') as [F3 E3]; [destruct b; exact X3|].
  repeat (split; [assumption|]). split; [destruct b; cbn [pm4 add4 sub4 l0]; rewrite Z, Z'; ring|]. split; [|exact N].
  eapply Rle_trans; [apply (n4_via _ (pm4 b o o'))|].
  assert (D1 : n4 (sub4 (axis (plus_minus b x x') (plus_minus b y y') (plus_minus b z z')) (pm4 b o o')) <= u * n4 (pm4 b o o') + 2 * eta).
  { apply n4_lanes; [lra|lra| | | |]; destruct b; unfold o, o', pm4, add4, sub4, axis; cbn [l0 l1 l2 l3]; try assumption; rewrite ?Rplus_0_r, ?Rminus_0_r, Rabs_R0; lra. }
  assert (u * n4 (pm4 b o o') <= u * ((1 + / 500) * m)) by (apply Rmult_le_compat_l; lra).
  pose proof (mag_eta _ G) as Et. assert (0 < u * m) by (apply Rmult_lt_0_compat; lra). lra.
Qed.
Lemma vap_exact x y z m : fin x -> fin y -> fin z -> n4 (axis x y z) <= m -> vap 0 x y z (axis x y z) m.
Proof.
  intros. repeat (split; [assumption|]). split; [reflexivity|]. split; [|assumption]. rewrite Rmult_0_l, Rmult_0_l. right.
  replace (sub4 (axis x y z) (axis x y z)) with (mk4 0 0 0 0) by (unfold sub4, axis; cbn [l0 l1 l2 l3]; f_equal; ring). unfold n4, q4. cbn [l0 l1 l2 l3].
  replace (0 * 0 + 0 * 0 + 0 * 0 + 0 * 0) with 0 by ring. apply sqrt_0.
Qed.

(** ** Products of lines and their reciprocals *)
Definition dotv (x y z x' y' z' : f32) : R := val x * val x' + val y * val y' + val z * val z'.
Lemma dot_le a b c a' b' c' : Rabs (a * a') + Rabs (b * b') + Rabs (c * c') <= n4 (mk4 0 a b c) * n4 (mk4 0 a' b' c').
Proof.
  pose proof (q4_cauchy (mk4 0 (Rabs a) (Rabs b) (Rabs c)) (mk4 0 (Rabs a') (Rabs b') (Rabs c'))) as C.
  assert (N : forall x y z, n4 (mk4 0 (Rabs x) (Rabs y) (Rabs z)) = n4 (mk4 0 x y z)).
  { intros. unfold n4, q4. cbn [l0 l1 l2 l3]. f_equal. rewrite <- !Rabs_mult, !(Rabs_pos_eq (_ * _)) by apply Rle_0_sqr. reflexivity. }
  rewrite !N in C. unfold q4 in C. cbn [l0 l1 l2 l3] in C. rewrite !Rabs_mult. eapply Rle_trans; [|exact C]. eapply Rle_trans; [|apply Rle_abs]. lra.
Qed.
Lemma add_comm_f32 (v w : f32) : fadd v w = fadd w v.
Proof.
  cbn. destruct v as [s|s| |s m e H], w as [t|t| |t n f K]; cbn; try reflexivity; try (destruct s, t; reflexivity).
  rewrite (Z.min_comm f e). f_equal. unfold Fplus_naive. apply Z.add_comm.
Qed.
Lemma add_any x y : fin x -> fin y -> Rabs (val x + val y) <= big -> fin (fadd x y) /\ Rabs (val (fadd x y) - (val x + val y)) <= u * Rabs (val x + val y) + eta.
Proof. exact (pm_any true x y). Qed.
Lemma sum3 p q r a b c m : fin p -> fin q -> fin r -> mag m -> Rabs a + Rabs b + Rabs c <= m ->
  Rabs (val p - a) <= u * Rabs a + eta -> Rabs (val q - b) <= u * Rabs b + eta -> Rabs (val r - c) <= u * Rabs c + eta ->
  fin (fadd p (fadd q r)) /\ Rabs (val (fadd p (fadd q r)) - (a + b + c)) <= 31 / 10 * u * m.
Proof.
  intros Fp Fq Fr G S Ep Eq Er. pose proof u_small as U. pose proof (mag_pos m G) as m0. pose proof (mag_eta m G) as Et. pose proof (mag_big m G) as Bg. pose proof eta_pos as T0.
  pose proof (Rabs_pos a) as a0. pose proof (Rabs_pos b) as b0. pose proof (Rabs_pos c) as c0.
  assert (X : forall f g, Rabs (val f - g) <= u * Rabs g + eta -> Rabs (val f) <= Rabs g + u * Rabs g + eta).
  { intros f g H. replace (val f) with (g + (val f - g)) by ring. eapply Rle_trans; [apply Rabs_triang|]. lra. }
  pose proof (X _ _ Ep) as Xp. pose proof (X _ _ Eq) as Xq. pose proof (X _ _ Er) as Xr. clear X.
  assert (Us : u * (Rabs a + Rabs b + Rabs c) <= u * m) by (apply Rmult_le_compat_l; lra).
  assert (ua : 0 <= u * Rabs a) by (apply Rmult_le_pos; lra). assert (ub : 0 <= u * Rabs b) by (apply Rmult_le_pos; lra). assert (uc : 0 <= u * Rabs c) by (apply Rmult_le_pos; lra).
  assert (um : 0 < u * m <= / 1000000 * m) by (split; [apply Rmult_lt_0_compat; lra|apply Rmult_le_compat_r; lra]).
  pose proof (Rabs_triang (val q) (val r)) as Tq. destruct (add_any q r Fq Fr) as [F1 E1]; [lra|]. set (s := fadd q r) in *.
  assert (Hs : u * Rabs (val q + val r) <= u * (Rabs b + Rabs c + u * m + 2 * eta)) by (apply Rmult_le_compat_l; lra).
  assert (ue : u * eta <= eta) by (rewrite <- (Rmult_1_l eta) at 2; apply Rmult_le_compat_r; lra).
  assert (uum : u * (u * m) <= / 1000000 * (u * m)) by (apply Rmult_le_compat_r; lra).
  assert (Es : Rabs (val s - (b + c)) <= u * (Rabs b + Rabs c) + u * (Rabs b + Rabs c) + / 1000000 * (u * m) + 5 * eta).
  { replace (val s - (b + c)) with ((val s - (val q + val r)) + ((val q - b) + (val r - c))) by ring. eapply Rle_trans; [apply Rabs_triang|]. pose proof (Rabs_triang (val q - b) (val r - c)). lra. }
  assert (Ls : Rabs (val s) <= Rabs b + Rabs c + 3 * (u * m)).
  { replace (val s) with ((val s - (b + c)) + (b + c)) by ring. eapply Rle_trans; [apply Rabs_triang|]. pose proof (Rabs_triang b c). lra. }
  pose proof (Rabs_triang (val p) (val s)) as Tp. destruct (add_any p s Fp F1) as [F2 E2]; [lra|]. split; [exact F2|].
  assert (Hp : u * Rabs (val p + val s) <= u * (m + 4 * (u * m) + eta)) by (apply Rmult_le_compat_l; lra).
  replace (val (fadd p s) - (a + b + c)) with ((val (fadd p s) - (val p + val s)) + ((val p - a) + (val s - (b + c)))) by ring.
  eapply Rle_trans; [apply Rabs_triang|]. pose proof (Rabs_triang (val p - a) (val s - (b + c))). lra.
Qed.
Lemma hi_dp_ap (B : Build) (v w : m128 f32) m : fin (l1 v) -> fin (l2 v) -> fin (l3 v) -> fin (l1 w) -> fin (l2 w) -> fin (l3 w) -> mag m ->
  n4 (axis (l1 v) (l2 v) (l3 v)) * n4 (axis (l1 w) (l2 w) (l3 w)) <= m ->
  exists h, hi_dp_bc v w = mk4 h h h h /\ ap (31 / 10) h (dotv (l1 v) (l2 v) (l3 v) (l1 w) (l2 w) (l3 w)) m.
Proof.
  destruct v as [v0 x y z], w as [w0 x' y' z']. cbn [l1 l2 l3]. intros Fx Fy Fz Fx' Fy' Fz' G L. pose proof (mag_big m G) as Bg. pose proof (mag_pos m G) as m0.
  pose proof (dot_le (val x) (val y) (val z) (val x') (val y') (val z')) as D. fold (axis x y z) (axis x' y' z') in D.
  pose proof (Rabs_pos (val x * val x')) as a0. pose proof (Rabs_pos (val y * val y')) as b0. pose proof (Rabs_pos (val z * val z')) as c0.
  destruct (mul_any x x' Fx Fx') as [F1 E1]; [lra|]. destruct (mul_any y y' Fy Fy') as [F2 E2]; [lra|]. destruct (mul_any z z' Fz Fz') as [F3 E3]; [lra|].
  assert (AB : Rabs (dotv x y z x' y' z') <= m).
  { unfold dotv. eapply Rle_trans; [apply Rabs_triang|]. pose proof (Rabs_triang (val x * val x') (val y * val y')). lra. }
  destruct B as [[|]].
  - (* SSE4.1 *) destruct (fz_ok 0 ltac:(lia)) as [Fz0 Vz0].
    assert (A0 : fin (fadd (fz 0) (fmul x x')) /\ val (fadd (fz 0) (fmul x x')) = val (fmul x x')).
    { assert (Bx : Rabs (val (fmul x x')) <= big).
      { pose proof (mag_eta m G). pose proof u_small. assert (u * Rabs (val x * val x') <= / 1000000 * Rabs (val x * val x')) by (apply Rmult_le_compat_r; lra).
        assert (/ 10000 * u * m <= 1 * m) by (apply Rmult_le_compat_r; lra).
        replace (val (fmul x x')) with (val x * val x' + (val (fmul x x') - val x * val x')) by ring. eapply Rle_trans; [apply Rabs_triang|]. lra. }
      destruct (add_ok (fz 0) (fmul x x') Fz0 F1) as [Fa Va]; [rewrite Vz0, Rplus_0_l; exact Bx|]. split; [exact Fa|]. rewrite Va, Vz0, Rplus_0_l. apply round_generic; [typeclasses eauto|apply val_format]. }
    destruct A0 as [Fa Va]. rewrite <- Va in E1.
    eexists. split; [reflexivity|]. destruct (sum3 _ _ _ (val x * val x') (val y * val y') (val z * val z') m Fa F2 F3 G ltac:(lra) E1 E2 E3) as [F E]. split; [exact F|]. split; [exact E|exact AB].
  - exists (fadd (fadd (fmul z z') (fmul y y')) (fmul x x')). split; [reflexivity|].
    rewrite (add_comm_f32 (fadd (fmul z z') (fmul y y'))), (add_comm_f32 (fmul z z')). destruct (sum3 _ _ _ (val x * val x') (val y * val y') (val z * val z') m F1 F2 F3 G ltac:(lra) E1 E2 E3) as [F E]. split; [exact F|]. split; [exact E|exact AB].
Qed.
Lemma ap_of_err k s v : fin s -> 0 < v -> v * (1 - k * u) <= val s <= v * (1 + k * u) -> ap k s v v.
Proof. intros F V [L H]. split; [exact F|]. rewrite (Rabs_pos_eq v) by lra. split; [|lra]. apply Rabs_le. lra. Qed.
Lemma length_ap (B : Build) M (v : m128 f32) : rsqrt_estimate M -> rcp_estimate M -> let a := axis (l1 v) (l2 v) (l3 v) in let t := n4 a in
  fin (l1 v) -> fin (l2 v) -> fin (l3 v) -> bpow radix2 (-40) <= t <= bpow radix2 20 ->
  exists n, hi_dp_bc v v = mk4 n n n n /\ ap (81 / 10) (rsqrt_step (H := Flo_f32 M) n) (/ t) (/ t) /\ ap (91 / 10) (fmul n (rsqrt_step (H := Flo_f32 M) n)) t t /\
    ap (87 / 10) (rcp_step (H := Flo_f32 M) n) (/ t * / t) (/ t * / t).
Proof.
  intros HM HR a t Fx Fy Fz L. set (n := l0 (hi_dp v v)). exists n. split; [destruct v, B as [[|]]; reflexivity|].
  destruct (hi_length B M v HM Fx Fy Fz L) as (Fg & e' & Vg & Eg). fold a t in Vg.
  destruct (hi_squares B v Fx Fy Fz L) as (Fn & e & Vn & En). fold a in Vn. fold n in Fn, Vn. apply Rabs_le_inv in En.
  change (l0 (sqrt_nr1 (FL := Flo_f32 M) (hi_dp v v))) with (fmul n (rsqrt_step (H := Flo_f32 M) n)) in Fg, Vg. clearbody n.
  pose proof u_small as U. assert (uu : u * u <= / 1000000 * u) by (apply Rmult_le_compat_r; lra). assert (uu0 : 0 < u * u) by (apply Rmult_lt_0_compat; lra).
  destruct L as [Ll Lh]. pose proof (bpow_gt_0 radix2 (-40)) as G. assert (T0 : 0 < t) by lra. rewrite <- n4_sq in Vn. fold t in Vn.
  assert (Tt : 0 < t * t) by (apply Rmult_lt_0_compat; lra). assert (Pn : 0 < val n) by (rewrite Vn; apply Rmult_lt_0_compat; lra).
  assert (T1 : bpow radix2 (-80) <= t * t) by (change (-80)%Z with (-40 + -40)%Z; rewrite bpow_plus; apply Rmult_le_compat; lra).
  assert (T2 : t * t <= bpow radix2 40) by (change 40%Z with (20 + 20)%Z; rewrite bpow_plus; apply Rmult_le_compat; lra).
  assert (B1 : t * t * / 2 <= val n <= t * t * 2) by (rewrite Vn; split; apply Rmult_le_compat_l; lra).
  assert (Rn : nr_range n).
  { split; [exact Fn|]. rewrite Rabs_pos_eq by lra. split.
    - apply (Rle_trans _ (bpow radix2 (-80) * bpow radix2 (-1))); [rewrite <- bpow_plus; apply bpow_le; lia|]. change (bpow radix2 (-1)) with (/ 2). lra.
    - apply (Rle_trans _ (bpow radix2 40 * bpow radix2 1)); [|rewrite <- bpow_plus; apply bpow_le; lia]. change (bpow radix2 1) with 2. lra. }
  assert (it : 0 < / t) by (apply Rinv_0_lt_compat; exact T0). assert (itt : 0 < / t * / t) by (apply Rmult_lt_0_compat; lra).
  split; [|split].
  - destruct (rsqrt_step_error M n HM Rn Pn) as (Fs & Ps & Es). set (s := rsqrt_step n) in *. apply Rabs_le_inv in Es.
    set (w := sqrt (val n)) in *. assert (W0 : 0 < w) by (apply sqrt_lt_R0; exact Pn). assert (W : w * w = val n) by (apply sqrt_sqrt; lra).
    assert (Wt : t * (1 - 156 / 100 * u) <= w <= t * (1 + 156 / 100 * u)).
    { split.
      - destruct (Rle_or_lt (t * (1 - 156 / 100 * u)) w) as [X|X]; [exact X|exfalso].
        assert (w * w <= t * (1 - 156 / 100 * u) * (t * (1 - 156 / 100 * u))) by (apply Rmult_le_compat; lra).
        assert (t * t * ((1 - 156 / 100 * u) * (1 - 156 / 100 * u)) < t * t * (1 + e)) by (apply Rmult_lt_compat_l; lra). lra.
      - destruct (Rle_or_lt w (t * (1 + 156 / 100 * u))) as [X|X]; [exact X|exfalso].
        assert (t * (1 + 156 / 100 * u) * (t * (1 + 156 / 100 * u)) <= w * w) by (apply Rmult_le_compat; try (apply Rmult_le_pos; lra); lra).
        assert (t * t * (1 + e) < t * t * ((1 + 156 / 100 * u) * (1 + 156 / 100 * u))) by (apply Rmult_lt_compat_l; lra). lra. }
    assert (H1 : w * val s <= t * (1 + 156 / 100 * u) * val s) by (apply Rmult_le_compat_r; lra).
    assert (H2 : t * (1 - 156 / 100 * u) * val s <= w * val s) by (apply Rmult_le_compat_r; lra).
    set (g := t * val s). assert (Vs : val s = / t * g) by (unfold g; field; lra).
    replace (t * (1 + 156 / 100 * u) * val s) with (g * (1 + 156 / 100 * u)) in H1 by (unfold g; ring). replace (t * (1 - 156 / 100 * u) * val s) with (g * (1 - 156 / 100 * u)) in H2 by (unfold g; ring).
    apply ap_of_err; [exact Fs|exact it|]. rewrite Vs. clearbody g. clear Vs. split; apply Rmult_le_compat_l; try lra.
    + destruct (Rle_or_lt (1 - 81 / 10 * u) g) as [X|X]; [exact X|exfalso]. assert (g * (1 + 156 / 100 * u) <= (1 - 81 / 10 * u) * (1 + 156 / 100 * u)) by (apply Rmult_le_compat_r; lra). lra.
    + destruct (Rle_or_lt g (1 + 81 / 10 * u)) as [X|X]; [exact X|exfalso]. assert ((1 + 81 / 10 * u) * (1 - 156 / 100 * u) <= g * (1 - 156 / 100 * u)) by (apply Rmult_le_compat_r; lra). lra.
  - apply ap_of_err; [exact Fg|exact T0|]. rewrite Vg. apply Rabs_le_inv in Eg. split; apply Rmult_le_compat_l; lra.
  - destruct (rcp_step_error M n HR Rn) as [Fq Eq]. set (q := rcp_step n) in *. apply Rabs_le_inv in Eq.
    set (g := t * t * val q). assert (Vq : val q = / t * / t * g) by (unfold g; field; lra).
    assert (P : val n * val q = g * (1 + e)) by (rewrite Vn; unfold g; ring).
    apply ap_of_err; [exact Fq|exact itt|]. rewrite Vq. clearbody g. rewrite P in Eq. clear Vq P. split; apply Rmult_le_compat_l; try lra.
    + destruct (Rle_or_lt (1 - 87 / 10 * u) g) as [X|X]; [exact X|exfalso]. assert (g * (1 + e) <= (1 - 87 / 10 * u) * (1 + e)) by (apply Rmult_le_compat_r; lra).
      assert ((1 - 87 / 10 * u) * (1 + e) <= (1 - 87 / 10 * u) * (1 + 31 / 10 * u)) by (apply Rmult_le_compat_l; lra). lra.
    + destruct (Rle_or_lt g (1 + 87 / 10 * u)) as [X|X]; [exact X|exfalso]. assert ((1 + 87 / 10 * u) * (1 + e) <= g * (1 + e)) by (apply Rmult_le_compat_r; lra).
      assert ((1 + 87 / 10 * u) * (1 - 31 / 10 * u) <= (1 + 87 / 10 * u) * (1 + e)) by (apply Rmult_le_compat_l; lra). lra.
Qed.

(** ** The exact exponential *)
Definition exact_exp (a b : m128 R) : motor R :=
  let t := n4 a in let g := q4 a b in let k := sin t / t in let h := g / (t * t) * (cos t - k) in
  mkmotor (mk4 (cos t) (k * l1 a) (k * l2 a) (k * l3 a)) (mk4 (k * g) (k * l1 b + h * l1 a) (k * l2 b + h * l2 a) (k * l3 b + h * l3 a)).
(** It is the sum of the exponential series in the algebra. *)
Lemma exact_exp_series a b : l0 a = 0 -> l0 b = 0 -> 0 < n4 a -> ExpSeries.is_exp (mv_line (mkline a b)) (mv_motor (exact_exp a b)).
Proof.
  intros A0 B0 P. set (rcp := fun x : R => / x). set (rsq := fun x : R => / sqrt x).
  assert (Hr : exact_rcp rcp) by (intros x X; reflexivity). assert (Hs : exact_rsqrt rsq) by (intros x X; reflexivity).
  pose proof (LogExp2.line_exp_series rcp rsq false Hr Hs (mkBuild true) (mkline a b) (conj A0 B0)) as S.
  assert (Q : dot3 a a = q4 a a) by (unfold dot3, q4; rewrite A0; ring). assert (Q' : dot3 a b = q4 a b) by (unfold dot3, q4; rewrite A0; ring).
  assert (D : 0 < dot3 a a) by (rewrite Q, <- n4_sq; apply Rmult_lt_0_compat; exact P).
  pose proof (ExpLog.exp_kernel_R rcp rsq false Hr Hs (mkBuild true) a b A0 B0 D) as E. cbv zeta in E.
  unfold line_exp in S. cbn [line_p1 line_p2] in S.
  change (@KernelExpLog.exp_kernel R (LogExp2.FLg rcp rsq false) (mkBuild true) a b) with (@KernelExpLog.exp_kernel R (ExpLog.FLe rcp rsq false) (mkBuild true) a b) in S.
  rewrite E in S. replace (sqrt (dot3 a a)) with (n4 a) in S by (unfold n4; rewrite Q; reflexivity). rewrite Q, Q', <- n4_sq in S. exact S.
Qed.

(** ** The computed exponential *)
Lemma trig_ap M U t : libm_fine M -> ap (91 / 10) U t t -> bpow radix2 (-40) <= t <= bpow radix2 10 ->
  ap (113 / 10) (m_sin M U) (sin t) t /\ ap (21 / 10 + 92 / 10 * t) (m_sin M U) (sin t) 1 /\ ap (21 / 10 + 92 / 10 * t) (m_cos M U) (cos t) 1.
Proof.
  intros (LM & SM & _) (FU & EU & _) [Ll Lh]. pose proof u_small as U0. pose proof (bpow_gt_0 radix2 (-40)) as G. assert (T0 : 0 < t) by lra.
  assert (MT : mag t) by (split; [eapply Rle_trans; [|exact Ll]|eapply Rle_trans; [exact Lh|]]; apply bpow_le; lia). pose proof (mag_eta t MT) as Et. pose proof eta_tiny as T1. pose proof eta_pos as T2.
  assert (ut : 0 < u * t <= / 1000000 * t) by (split; [apply Rmult_lt_0_compat; lra|apply Rmult_le_compat_r; lra]).
  assert (P10 : bpow radix2 10 = 1024) by (cbn; lra). rewrite P10 in Lh.
  pose proof (Rabs_le_inv _ _ EU) as EU'.
  assert (LU : Rabs (val U) <= 2 ^ 20) by (rewrite Rabs_pos_eq by lra; apply (Rle_trans _ 2048); [lra|]; replace 2048 with (2 ^ 11) by ring; apply Rle_pow; [lra|lia]).
  destruct (LM U FU LU) as (Fs & Es & Fc & Ec). pose proof (SM U FU LU) as Es'. rewrite u_pow in *.
  pose proof (sin_lip (val U) t) as SL. pose proof (cos_lip (val U) t) as CL. pose proof (sin_lip (val U) 0) as S0. rewrite sin_0, !Rminus_0_r, (Rabs_pos_eq (val U)) in S0 by lra.
  assert (S1 : Rabs (sin (val U)) <= 1) by (apply Rabs_le; apply SIN_bound).
  assert (us : u * Rabs (sin (val U)) <= u * (t + 91 / 10 * u * t)) by (apply Rmult_le_compat_l; lra).
  assert (uut : u * (u * t) <= / 1000000 * (u * t)) by (apply Rmult_le_compat_r; lra).
  assert (ds : Rabs (val (m_sin M U) - sin t) <= Rabs (val (m_sin M U) - sin (val U)) + Rabs (sin (val U) - sin t)).
  { replace (val (m_sin M U) - sin t) with ((val (m_sin M U) - sin (val U)) + (sin (val U) - sin t)) by ring. apply Rabs_triang. }
  assert (dc : Rabs (val (m_cos M U) - cos t) <= Rabs (val (m_cos M U) - cos (val U)) + Rabs (cos (val U) - cos t)).
  { replace (val (m_cos M U) - cos t) with ((val (m_cos M U) - cos (val U)) + (cos (val U) - cos t)) by ring. apply Rabs_triang. }
  pose proof (sin_lip t 0) as St. rewrite sin_0, !Rminus_0_r, (Rabs_pos_eq t) in St by lra.
  split; [|split]; (split; [assumption|split]).
  - lra.
  - exact St.
  - lra.
  - apply Rabs_le; apply SIN_bound.
  - lra.
  - apply Rabs_le; apply COS_bound.
Qed.
Lemma exact_exp_p2_all a b : l0 a = 0 -> l0 b = 0 -> 0 < n4 a -> n4 (motor_p2 (exact_exp a b)) <= n4 b.
Proof.
  intros A0 B0 P. apply n4_le; [apply n4_pos|]. rewrite n4_sq. pose proof (q4_cauchy a b) as C. pose proof (n4_sq a) as Sa. pose proof (n4_sq b) as Sb. pose proof (n4_pos b) as Nb.
  set (t := n4 a) in *. set (nb := n4 b) in *. set (g := q4 a b) in *. unfold exact_exp. fold t. fold g. cbn [motor_p2].
  set (k := sin t / t). set (c := cos t).
  assert (G2 : g * g / (t * t) <= q4 b b).
  { rewrite <- Sb. apply (Rmult_le_reg_r (t * t)); [apply Rmult_lt_0_compat; lra|]. unfold Rdiv. rewrite Rmult_assoc, Rinv_l by (apply Rmult_integral_contrapositive; lra). rewrite Rmult_1_r.
    replace (nb * nb * (t * t)) with ((t * nb) * (t * nb)) by ring. rewrite <- (Rabs_pos_eq (g * g)), Rabs_mult by apply Rle_0_sqr. apply Rmult_le_compat; try apply Rabs_pos; assumption. }
  assert (G0 : 0 <= g * g / (t * t)) by (apply Rmult_le_pos; [apply Rle_0_sqr|left; apply Rinv_0_lt_compat; apply Rmult_lt_0_compat; lra]).
  assert (K : k * k <= 1).
  { pose proof (sin_lip t 0) as St. rewrite sin_0, !Rminus_0_r, (Rabs_pos_eq t) in St by lra. assert (Ka : Rabs k <= 1).
    { unfold k, Rdiv. rewrite Rabs_mult, (Rabs_pos_eq (/ t)) by (left; apply Rinv_0_lt_compat; lra). apply (Rmult_le_reg_r t); [lra|]. rewrite Rmult_assoc, Rinv_l by lra. lra. }
    rewrite <- (Rabs_pos_eq (k * k)), Rabs_mult by apply Rle_0_sqr. replace 1 with (1 * 1) by ring. apply Rmult_le_compat; try apply Rabs_pos; assumption. }
  set (h := g / (t * t) * (c - k)).
  assert (E : q4 (mk4 (k * g) (k * l1 b + h * l1 a) (k * l2 b + h * l2 a) (k * l3 b + h * l3 a)) (mk4 (k * g) (k * l1 b + h * l1 a) (k * l2 b + h * l2 a) (k * l3 b + h * l3 a))
    = k * k * (q4 b b - g * g / (t * t)) + (c * c + sin t * sin t) * (g * g / (t * t))).
  { transitivity (k * g * (k * g) + (k * k * q4 b b + 2 * k * h * g + h * h * q4 a a)).
    - unfold g, q4. cbn [l0 l1 l2 l3]. rewrite A0, B0. ring.
    - rewrite <- Sa. unfold h, k. field. lra. }
  rewrite E. assert (k * k * (q4 b b - g * g / (t * t)) <= 1 * (q4 b b - g * g / (t * t))) by (apply Rmult_le_compat_r; lra).
  assert (Cs : c * c + sin t * sin t = 1) by (pose proof (sin2_cos2 t) as Q; unfold Rsqr in Q; fold c in Q; lra). rewrite Cs. lra.
Qed.
Lemma exact_exp_p2 a b : l0 a = 0 -> l0 b = 0 -> 0 < n4 a -> n4 (biv4 (motor_p2 (exact_exp a b))) <= n4 b.
Proof.
  intros A0 B0 P. apply (Rle_trans _ (n4 (motor_p2 (exact_exp a b)))); [|apply exact_exp_p2_all; assumption]. apply sqrt_le_1_alt. unfold q4, biv4. cbn [l0 l1 l2 l3]. pose proof (Rle_0_sqr (l0 (motor_p2 (exact_exp a b)))) as Q. unfold Rsqr in Q. lra.
Qed.
Lemma away a b : l0 a = 0 -> l0 b = 0 -> 0 < n4 a -> let t := n4 a in let r := sub4 (scale4 (/ t) b) (scale4 (q4 a b * (/ t * (/ t * / t))) a) in l0 r = 0 /\ n4 r <= n4 b * / t.
Proof.
  intros A0 B0 P t r. assert (it : 0 < / t) by (apply Rinv_0_lt_compat; exact P). split; [unfold r, sub4, scale4, map4; cbn [l0]; rewrite A0, B0; ring|].
  apply n4_le; [apply Rmult_le_pos; [apply n4_pos|lra]|]. replace (n4 b * / t * (n4 b * / t)) with (/ t * / t * (n4 b * n4 b)) by ring. rewrite n4_sq.
  set (g := q4 a b). pose proof (n4_sq a) as Sa. fold t in Sa.
  assert (E : q4 r r = / t * / t * (q4 b b - g * g * (/ t * / t))).
  { transitivity (/ t * / t * q4 b b - 2 * (/ t * (g * (/ t * (/ t * / t)))) * g + g * (/ t * (/ t * / t)) * (g * (/ t * (/ t * / t))) * q4 a a).
    - unfold r, sub4, scale4, map4, g, q4. cbn [l0 l1 l2 l3]. ring.
    - rewrite <- Sa. field. unfold t. lra. }
  rewrite E. assert (0 <= / t * / t) by (apply Rmult_le_pos; lra). apply Rmult_le_compat_l; [assumption|]. assert (0 <= g * g * (/ t * / t)) by (apply Rmult_le_pos; [apply Rle_0_sqr|assumption]). lra.
Qed.
Lemma zero_lane s w : fin s -> fin w -> val w = 0 -> fin (fmul s w) /\ val (fmul s w) = 0 /\ fin (fmul w s) /\ val (fmul w s) = 0.
Proof.
  intros Fs Fw Z. assert (X : fin (fmul s w) /\ val (fmul s w) = 0).
  { destruct (mul_ok s w Fs Fw) as [F V]; [rewrite Z, Rmult_0_r, Rabs_R0; apply bpow_ge_0|]. split; [exact F|]. rewrite V, Z, Rmult_0_r. apply round_0. typeclasses eauto. }
  rewrite (mul_comm_f32 w s). tauto.
Qed.
Lemma add_zero z p : fin z -> val z = 0 -> fin p -> Rabs (val p) <= big -> fin (fadd z p) /\ val (fadd z p) = val p /\ fin (fadd p z) /\ val (fadd p z) = val p.
Proof.
  intros Fz Z Fp L. assert (X : fin (fadd z p) /\ val (fadd z p) = val p).
  { destruct (add_ok z p Fz Fp) as [F V]; [rewrite Z, Rplus_0_l; exact L|]. split; [exact F|]. rewrite V, Z, Rplus_0_l. apply round_generic; [typeclasses eauto|apply val_format]. }
  rewrite (add_comm_f32 p z). tauto.
Qed.
Lemma sub_zero z p : fin z -> val z = 0 -> fin p -> val p = 0 -> fin (fsub z p) /\ val (fsub z p) = 0.
Proof.
  intros Fz Z Fp P. destruct (sub_ok z p Fz Fp) as [F V]; [rewrite Z, P, Rminus_0_r, Rabs_R0; apply bpow_ge_0|]. split; [exact F|]. rewrite V, Z, P, Rminus_0_r. apply round_0. typeclasses eauto.
Qed.

Definition lv1 (l : line f32) : m128 R := map4 val (line_p1 l).
Definition lv2 (l : line f32) : m128 R := map4 val (line_p2 l).
Definition line_ok (l : line f32) : Prop := Forall fin (reg_list (line_p1 l)) /\ Forall fin (reg_list (line_p2 l)) /\ l0 (lv1 l) = 0 /\ l0 (lv2 l) = 0.
Lemma n4_split w x y z : n4 (mk4 w x y z) <= Rabs w + n4 (mk4 0 x y z).
Proof.
  replace (mk4 w x y z) with (add4 (mk4 w 0 0 0) (mk4 0 x y z)) by (unfold add4; cbn [l0 l1 l2 l3]; f_equal; ring). eapply Rle_trans; [apply n4_add|]. apply Rplus_le_compat_r.
  right. unfold n4, q4. cbn [l0 l1 l2 l3]. replace (w * w + 0 * 0 + 0 * 0 + 0 * 0) with (Rsqr w) by (unfold Rsqr; ring). apply sqrt_Rsqr_abs.
Qed.
(** A line (bivector) with real part a of length t and ideal part b. *)
Theorem C77_exp : forall (B : Build) (M : machine), libm_fine M -> rcp_estimate M -> rsqrt_estimate M -> let FL := Flo_f32 M in forall l : line f32,
  line_ok l -> let a := lv1 l in let b := lv2 l in / 2 ^ 40 <= n4 a <= 2 ^ 10 -> n4 b <= 2 ^ 40 ->
  let m := line_exp l in let t := n4 a in
  ExpSeries.is_exp (mv_line (mkline a b)) (mv_motor (exact_exp a b)) /\
  Forall fin (reg_list (motor_p1 m) ++ reg_list (motor_p2 m)) /\
  n4 (sub4 (map4 val (motor_p1 m)) (motor_p1 (exact_exp a b))) <= (15 + 19 * t) * / 2 ^ 24 /\
  n4 (sub4 (map4 val (motor_p2 m)) (motor_p2 (exact_exp a b))) <= (90 + 19 * t) * / 2 ^ 24 * (n4 b + / 2 ^ 60).
Proof.
  intros B M LM HR HM FL l (Fa & Fb & A0 & B0) a b L Lb m t.
  assert (P4n : bpow radix2 (-40) = / 2 ^ 40) by (cbn; f_equal; ring). assert (P60 : bpow radix2 (-60) = / 2 ^ 60) by (cbn; f_equal; ring). assert (P10 : bpow radix2 10 = 2 ^ 10) by (cbn; ring). assert (P40 : bpow radix2 40 = 2 ^ 40) by (cbn; ring).
  rewrite <- P4n, <- P10 in L. rewrite <- P40 in Lb. rewrite <- P60, u_pow. clear P4n P60 P10 P40. fold t in L.
  pose proof (bpow_gt_0 radix2 (-40)) as G20. assert (T0 : 0 < t) by lra. fold a in A0. fold b in B0.
  split; [apply exact_exp_series; assumption|].
  pose proof u_small as U0. pose proof eta_pos as E0.
  destruct l as [[w x y z] [w' x' y' z']]. unfold lv1, lv2 in a, b. cbn [line_p1 line_p2] in *.
  inversion_clear Fa as [|? ? Fw F1]. inversion_clear F1 as [|? ? Fx F2]. inversion_clear F2 as [|? ? Fy F3]. inversion_clear F3 as [|? ? Fz _].
  inversion_clear Fb as [|? ? Fw' F1]. inversion_clear F1 as [|? ? Fx' F2]. inversion_clear F2 as [|? ? Fy' F3]. inversion_clear F3 as [|? ? Fz' _].
  assert (Zw : val w = 0) by exact A0. assert (Zw' : val w' = 0) by exact B0.
  assert (Ea : a = axis x y z) by (unfold a, axis, map4; cbn [l0 l1 l2 l3]; rewrite Zw; reflexivity).
  assert (Eb : b = axis x' y' z') by (unfold b, axis, map4; cbn [l0 l1 l2 l3]; rewrite Zw'; reflexivity).
  set (be := n4 b + bpow radix2 (-60)). pose proof (n4_pos b) as Nb. pose proof (bpow_gt_0 radix2 (-60)) as G60.
  (* magnitudes *)
  assert (it : 0 < / t) by (apply Rinv_0_lt_compat; exact T0).
  assert (itl : bpow radix2 (-10) <= / t <= bpow radix2 40).
  { split; [change (-10)%Z with (- (10))%Z|change 40%Z with (- (-40))%Z]; rewrite bpow_opp; apply Rinv_le_contravar; lra. }
  assert (bel : bpow radix2 (-60) <= be <= bpow radix2 41).
  { unfold be. split; [lra|]. replace (bpow radix2 41) with (2 * bpow radix2 40) by (cbn; lra). assert (bpow radix2 (-60) <= bpow radix2 40) by (apply bpow_le; lia). lra. }
  assert (be0 : 0 < be) by lra.
  assert (RNG : forall p q e1 e2 f1 f2, bpow radix2 e1 <= p <= bpow radix2 e2 -> bpow radix2 f1 <= q <= bpow radix2 f2 -> bpow radix2 (e1 + f1) <= p * q <= bpow radix2 (e2 + f2)).
  { intros p q e1 e2 f1 f2 [X X'] [Y Y']. pose proof (bpow_gt_0 radix2 e1). pose proof (bpow_gt_0 radix2 f1). rewrite !bpow_plus. split; apply Rmult_le_compat; lra. }
  assert (MAG : forall p e f, bpow radix2 e <= p <= bpow radix2 f -> (-112 <= e)%Z -> (f <= 122)%Z -> mag p).
  { intros p e f [X Y] H1 H2. split; [eapply Rle_trans; [|exact X]|eapply Rle_trans; [exact Y|]]; apply bpow_le; assumption. }
  assert (B1 : bpow radix2 0 <= 1 <= bpow radix2 0) by (cbn; lra).
  pose proof (RNG _ _ _ _ _ _ itl itl) as R2. pose proof (RNG _ _ _ _ _ _ itl R2) as R3. pose proof (RNG _ _ _ _ _ _ L bel) as RTB. pose proof (RNG _ _ _ _ _ _ bel R2) as RTB3.
  replace (be * (/ t * / t)) with (t * be * (/ t * (/ t * / t))) in RTB3 by (field; lra).
  pose proof (RNG _ _ _ _ _ _ bel itl) as RBI.
  (* the test for a zero bivector *)
  assert (NZ : all4 (_mm_cmpeq_ps (FL := FL) (mk4 w x y z) (_mm_setzero_ps (A := @flo_arith f32 FL))) = false).
  { destruct (all4 _) eqn:Z; [exfalso|reflexivity]. unfold all4, _mm_cmpeq_ps in Z. cbn [l0 l1 l2 l3 map4_2 _mm_setzero_ps] in Z. rewrite !andb_true_iff in Z. destruct Z as [[[_ Z1] Z2] Z3].
    destruct (fz_ok 0 ltac:(lia)) as [Fz0 Vz0].
    assert (EQ : forall p, fin p -> feqb p (fz 0) = true -> val p = 0).
    { intros p Fp H. change (Beqb (prec:=24) (emax:=128) p (@fz f32 _ 0) = true) in H. rewrite (Beqb_correct 24 128 p _ Fp Fz0) in H. apply Req_bool_true_inv in H || (revert H; case Req_bool_spec; intros; [|discriminate]). rewrite <- Vz0. assumption. }
    apply EQ in Z1; [|assumption]. apply EQ in Z2; [|assumption]. apply EQ in Z3; [|assumption].
    assert (t = 0); [|lra]. unfold t. rewrite Ea. unfold n4, q4, axis. cbn [l0 l1 l2 l3]. rewrite Z1, Z2, Z3. replace (0 * 0 + 0 * 0 + 0 * 0 + 0 * 0) with 0 by ring. apply sqrt_0. }
  destruct (length_ap B M (mk4 w x y z) HM HR Fx Fy Fz) as (n & En & Ars & AU & Arc).
  { cbn [l1 l2 l3]. rewrite <- Ea. fold t. split; [lra|]. apply (Rle_trans _ (bpow radix2 10)); [lra|apply bpow_le; lia]. }
  cbn [l1 l2 l3] in Ars, AU, Arc. rewrite <- Ea in Ars, AU, Arc. fold t in Ars, AU, Arc. fold FL in Ars, AU, Arc.
  set (rs := rsqrt_step n) in *. set (rc := rcp_step n) in *. set (U := fmul n rs) in *.
  destruct (hi_dp_ap B (mk4 w x y z) (mk4 w' x' y' z') (t * be) Fx Fy Fz Fx' Fy' Fz') as (g & Eg & Ag).
  { eapply MAG; [exact RTB|lia|lia]. }
  { cbn [l1 l2 l3]. rewrite <- Ea, <- Eb. fold t. apply Rmult_le_compat_l; [lra|]. unfold be. lra. }
  cbn [l1 l2 l3] in Ag. assert (Gd : dotv x y z x' y' z' = q4 a b) by (rewrite Ea, Eb; unfold dotv, q4, axis; cbn [l0 l1 l2 l3]; ring). rewrite Gd in Ag. clear Gd.
  destruct (trig_ap M U t LM AU L) as (As & As1 & Ac). set (s := m_sin M U) in *. set (c := m_cos M U) in *.
  (* the steps *)
  assert (VA : vap 0 x y z a t) by (rewrite Ea; apply vap_exact; try assumption; rewrite <- Ea; fold t; lra).
  assert (VB : vap 0 x' y' z' b be) by (rewrite Eb; apply vap_exact; try assumption; rewrite <- Eb; unfold be; lra).
  assert (t1 : t * / t = 1) by (field; lra).
  assert (Vn : vap (92 / 10) (fmul x rs) (fmul y rs) (fmul z rs) (scale4 (/ t) a) 1).
  { pose proof (vap_scale _ _ _ _ _ _ _ _ _ _ VA Ars) as V. rewrite t1 in V. replace (0 + 81 / 10 + 11 / 10) with (92 / 10) in V by lra. apply V; try lra. eapply MAG; [exact B1|lia|lia]. }
  assert (Vb : vap (92 / 10) (fmul x' rs) (fmul y' rs) (fmul z' rs) (scale4 (/ t) b) (be * / t)).
  { pose proof (vap_scale _ _ _ _ _ _ _ _ _ _ VB Ars) as V. replace (0 + 81 / 10 + 11 / 10) with (92 / 10) in V by lra. apply V; try lra. eapply MAG; [exact RBI|lia|lia]. }
  assert (Arr : ap (179 / 10) (fmul rs rc) (/ t * (/ t * / t)) (/ t * (/ t * / t))).
  { pose proof (ap_mul _ _ _ _ _ _ _ _ Ars Arc) as V. replace (81 / 10 + 87 / 10 + 11 / 10) with (179 / 10) in V by lra. apply V; try lra. eapply MAG; [exact R3|lia|lia]. }
  assert (Acc : ap (221 / 10) (fmul g (fmul rs rc)) (q4 a b * (/ t * (/ t * / t))) (t * be * (/ t * (/ t * / t)))).
  { pose proof (ap_mul _ _ _ _ _ _ _ _ Ag Arr) as V. replace (31 / 10 + 179 / 10 + 11 / 10) with (221 / 10) in V by lra. apply V; try lra. eapply MAG; [exact RTB3|lia|lia]. }
  set (cc := fmul g (fmul rs rc)) in *.
  assert (Vc : vap (232 / 10) (fmul x cc) (fmul y cc) (fmul z cc) (scale4 (q4 a b * (/ t * (/ t * / t))) a) (be * / t)).
  { pose proof (vap_scale _ _ _ _ _ _ _ _ _ _ VA Acc) as V. replace (t * (t * be * (/ t * (/ t * / t)))) with (be * / t) in V by (field; lra).
    replace (0 + 221 / 10 + 11 / 10) with (232 / 10) in V by lra. apply V; try lra. eapply MAG; [exact RBI|lia|lia]. }
  destruct (away a b A0 B0 T0) as [_ AW].
  assert (Vi : vap (335 / 10) (fsub (fmul x' rs) (fmul x cc)) (fsub (fmul y' rs) (fmul y cc)) (fsub (fmul z' rs) (fmul z cc)) (sub4 (scale4 (/ t) b) (scale4 (q4 a b * (/ t * (/ t * / t))) a)) (be * / t)).
  { pose proof (vap_pm false _ _ _ _ _ _ _ _ _ _ _ Vb Vc) as V. cbn [plus_minus pm4] in V. replace (92 / 10 + 232 / 10 + 11 / 10) with (335 / 10) in V by lra.
    apply V; try lra; [|eapply MAG; [exact RBI|lia|lia]]. eapply Rle_trans; [exact AW|]. apply Rmult_le_compat_r; [lra|]. unfold be. lra. }
  assert (tb : be * / t * t = be) by (field; lra).
  assert (Vs : vap (459 / 10) (fmul s (fsub (fmul x' rs) (fmul x cc))) (fmul s (fsub (fmul y' rs) (fmul y cc))) (fmul s (fsub (fmul z' rs) (fmul z cc)))
    (scale4 (sin t) (sub4 (scale4 (/ t) b) (scale4 (q4 a b * (/ t * (/ t * / t))) a))) be).
  { pose proof (vap_scale_l _ _ _ _ _ _ _ _ _ _ Vi As) as V. rewrite tb in V. replace (335 / 10 + 113 / 10 + 11 / 10) with (459 / 10) in V by lra. apply V; try lra. eapply MAG; [exact bel|lia|lia]. }
  assert (Amv : ap (123 / 10) (fmul g rs) (q4 a b * / t) be).
  { pose proof (ap_mul _ _ _ _ _ _ _ _ Ag Ars) as V. replace (t * be * / t) with be in V by (field; lra). replace (31 / 10 + 81 / 10 + 11 / 10) with (123 / 10) in V by lra. apply V; try lra. eapply MAG; [exact bel|lia|lia]. }
  set (mv := fmul g rs) in *. assert (T10 : t <= 1024) by (destruct L as [_ L']; replace (bpow radix2 10) with 1024 in L' by (cbn; lra); exact L').
  assert (Amc : ap (155 / 10 + 92 / 10 * t) (fmul mv c) (q4 a b * / t * cos t) be).
  { pose proof (ap_mul _ _ _ _ _ _ _ _ Amv Ac) as V. rewrite Rmult_1_r in V. replace (123 / 10 + (21 / 10 + 92 / 10 * t) + 11 / 10) with (155 / 10 + 92 / 10 * t) in V by lra. apply V; try lra. eapply MAG; [exact bel|lia|lia]. }
  assert (Ams : ap (155 / 10 + 92 / 10 * t) (fmul mv s) (q4 a b * / t * sin t) be).
  { pose proof (ap_mul _ _ _ _ _ _ _ _ Amv As1) as V. rewrite Rmult_1_r in V. replace (123 / 10 + (21 / 10 + 92 / 10 * t) + 11 / 10) with (155 / 10 + 92 / 10 * t) in V by lra. apply V; try lra. eapply MAG; [exact bel|lia|lia]. }
  assert (Vmn : vap (258 / 10 + 92 / 10 * t) (fmul (fmul mv c) (fmul x rs)) (fmul (fmul mv c) (fmul y rs)) (fmul (fmul mv c) (fmul z rs)) (scale4 (q4 a b * / t * cos t) (scale4 (/ t) a)) be).
  { pose proof (vap_scale_l _ _ _ _ _ _ _ _ _ _ Vn Amc) as V. rewrite Rmult_1_l in V. replace (92 / 10 + (155 / 10 + 92 / 10 * t) + 11 / 10) with (258 / 10 + 92 / 10 * t) in V by lra. apply V; try lra. eapply MAG; [exact bel|lia|lia]. }
  assert (Ep2 : add4 (scale4 (sin t) (sub4 (scale4 (/ t) b) (scale4 (q4 a b * (/ t * (/ t * / t))) a))) (scale4 (q4 a b * / t * cos t) (scale4 (/ t) a)) = biv4 (motor_p2 (exact_exp a b))).
  { unfold biv4, exact_exp, add4, sub4, scale4, map4. cbn [motor_p2 l0 l1 l2 l3]. fold t. f_equal; try (field; lra). rewrite A0, B0. ring. }
  assert (Vp : vap (728 / 10 + 92 / 10 * t)
    (fadd (fmul s (fsub (fmul x' rs) (fmul x cc))) (fmul (fmul mv c) (fmul x rs))) (fadd (fmul s (fsub (fmul y' rs) (fmul y cc))) (fmul (fmul mv c) (fmul y rs)))
    (fadd (fmul s (fsub (fmul z' rs) (fmul z cc))) (fmul (fmul mv c) (fmul z rs))) (biv4 (motor_p2 (exact_exp a b))) be).
  { pose proof (vap_pm true _ _ _ _ _ _ _ _ _ _ _ Vs Vmn) as V. cbn [plus_minus pm4] in V. rewrite Ep2 in V. replace (459 / 10 + (258 / 10 + 92 / 10 * t) + 11 / 10) with (728 / 10 + 92 / 10 * t) in V by lra.
    apply V; try lra; [|eapply MAG; [exact bel|lia|lia]]. eapply Rle_trans; [apply exact_exp_p2; assumption|]. unfold be. lra. }
  assert (Vq : vap (124 / 10 + 92 / 10 * t) (fmul s (fmul x rs)) (fmul s (fmul y rs)) (fmul s (fmul z rs)) (scale4 (sin t) (scale4 (/ t) a)) 1).
  { pose proof (vap_scale_l _ _ _ _ _ _ _ _ _ _ Vn As1) as V. rewrite Rmult_1_l in V. replace (92 / 10 + (21 / 10 + 92 / 10 * t) + 11 / 10) with (124 / 10 + 92 / 10 * t) in V by lra. apply V; try lra. eapply MAG; [exact B1|lia|lia]. }
  (* the lanes *)
  destruct (fz_ok 0 ltac:(lia)) as [Fz0 Vz0].
  assert (Em : m = mkmotor
    (mk4 (fadd c (fmul s (fmul w rs))) (fadd (fz 0) (fmul s (fmul x rs))) (fadd (fz 0) (fmul s (fmul y rs))) (fadd (fz 0) (fmul s (fmul z rs))))
    (mk4 (fadd (fmul mv s) (fadd (fmul s (fsub (fmul w' rs) (fmul w cc))) (fmul (fmul mv (fz 0)) (fmul w rs))))
      (fadd (fz 0) (fadd (fmul s (fsub (fmul x' rs) (fmul x cc))) (fmul (fmul mv c) (fmul x rs)))) (fadd (fz 0) (fadd (fmul s (fsub (fmul y' rs) (fmul y cc))) (fmul (fmul mv c) (fmul y rs))))
      (fadd (fz 0) (fadd (fmul s (fsub (fmul z' rs) (fmul z cc))) (fmul (fmul mv c) (fmul z rs)))))).
  { unfold m, line_exp, exp_kernel. cbn [line_p1 line_p2]. rewrite NZ. change (@flo_arith f32 FL) with Arith_f32. change f32 with (binary_float 24 128) in *. rewrite En, Eg. reflexivity. }
  pose proof Ars as (Frs & _). pose proof Acc as (Fcc & _). pose proof Amv as (Fmv & _). pose proof As as (Fs & _). pose proof Ac as (Fc & _).
  pose proof (vap_le _ _ _ _ _ _ Vp) as Lp. pose proof (vap_le _ _ _ _ _ _ Vq) as Lq. pose proof (ap_le _ _ _ _ Ams) as Lms. pose proof (ap_le _ _ _ _ Ac) as Lc.
  destruct Vp as (Fp1 & Fp2 & Fp3 & _ & Ep & _). destruct Vq as (Fq1 & Fq2 & Fq3 & _ & Eq & _). destruct Ams as (Fms & Ems & _). destruct Ac as (_ & Ec & _).
  assert (K1 : 0 <= (728 / 10 + 92 / 10 * t) * u <= / 1000) by (apply ku_small; lra). assert (K2 : 0 <= (124 / 10 + 92 / 10 * t) * u <= / 1000) by (apply ku_small; lra). assert (K3 : 0 <= (155 / 10 + 92 / 10 * t) * u <= / 1000) by (apply ku_small; lra). assert (K4 : 0 <= (21 / 10 + 92 / 10 * t) * u <= / 1000) by (apply ku_small; lra).
  assert (Bbe : 4 * be <= big) by (apply mag_big; eapply MAG; [exact bel|lia|lia]). assert (Bone : 4 * 1 <= big) by (apply mag_big; eapply MAG; [exact B1|lia|lia]).
  assert (Lp' : n4 (axis (fadd (fmul s (fsub (fmul x' rs) (fmul x cc))) (fmul (fmul mv c) (fmul x rs))) (fadd (fmul s (fsub (fmul y' rs) (fmul y cc))) (fmul (fmul mv c) (fmul y rs)))
    (fadd (fmul s (fsub (fmul z' rs) (fmul z cc))) (fmul (fmul mv c) (fmul z rs)))) <= big).
  { eapply Rle_trans; [exact Lp|]. apply (Rle_trans _ (4 * be)); [apply Rmult_le_compat_r; lra|exact Bbe]. }
  assert (Lq' : n4 (axis (fmul s (fmul x rs)) (fmul s (fmul y rs)) (fmul s (fmul z rs))) <= big) by lra.
  assert (Lms' : Rabs (val (fmul mv s)) <= big).
  { eapply Rle_trans; [exact Lms|]. apply (Rle_trans _ (4 * be)); [apply Rmult_le_compat_r; lra|exact Bbe]. }
  set (p1 := fadd (fmul s (fsub (fmul x' rs) (fmul x cc))) (fmul (fmul mv c) (fmul x rs))) in *. set (p2 := fadd (fmul s (fsub (fmul y' rs) (fmul y cc))) (fmul (fmul mv c) (fmul y rs))) in *.
  set (p3 := fadd (fmul s (fsub (fmul z' rs) (fmul z cc))) (fmul (fmul mv c) (fmul z rs))) in *. set (q1 := fmul s (fmul x rs)) in *. set (q2 := fmul s (fmul y rs)) in *. set (q3 := fmul s (fmul z rs)) in *.
  destruct (n4_lane (axis p1 p2 p3)) as (_ & N1 & N2 & N3). cbn [axis l1 l2 l3] in N1, N2, N3. fold (axis p1 p2 p3) in N1, N2, N3.
  destruct (n4_lane (axis q1 q2 q3)) as (_ & O1 & O2 & O3). cbn [axis l1 l2 l3] in O1, O2, O3. fold (axis q1 q2 q3) in O1, O2, O3.
  destruct (add_zero _ p1 Fz0 Vz0 Fp1 ltac:(lra)) as (G1 & W1 & _). destruct (add_zero _ p2 Fz0 Vz0 Fp2 ltac:(lra)) as (G2 & W2 & _). destruct (add_zero _ p3 Fz0 Vz0 Fp3 ltac:(lra)) as (G3 & W3 & _).
  destruct (add_zero _ q1 Fz0 Vz0 Fq1 ltac:(lra)) as (H1 & X1 & _). destruct (add_zero _ q2 Fz0 Vz0 Fq2 ltac:(lra)) as (H2 & X2 & _). destruct (add_zero _ q3 Fz0 Vz0 Fq3 ltac:(lra)) as (H3 & X3 & _).
  destruct (zero_lane rs w Frs Fw Zw) as (_ & _ & Fwr & Zwr). destruct (zero_lane s (fmul w rs) Fs Fwr Zwr) as (Fsw & Zsw & _).
  destruct (add_zero _ c Fsw Zsw Fc ltac:(lra)) as (_ & _ & H0 & X0).
  destruct (zero_lane rs w' Frs Fw' Zw') as (_ & _ & Fwr' & Zwr'). destruct (zero_lane cc w Fcc Fw Zw) as (_ & _ & Fwc & Zwc). destruct (sub_zero _ _ Fwr' Zwr' Fwc Zwc) as [Fd Zd].
  destruct (zero_lane s _ Fs Fd Zd) as (Fsd & Zsd & _). destruct (zero_lane mv _ Fmv Fz0 Vz0) as (Fm0 & Zm0 & _). destruct (zero_lane _ _ Fm0 Fwr Zwr) as (Fm1 & Zm1 & _).
  destruct (add_zero _ _ Fsd Zsd Fm1 ltac:(rewrite Zm1, Rabs_R0; apply bpow_ge_0)) as (Fa1 & Za1 & _). rewrite Zm1 in Za1.
  destruct (add_zero _ _ Fa1 Za1 Fms Lms') as (_ & _ & G0 & W0).
  rewrite Em. cbn [motor_p1 motor_p2]. split; [repeat (apply Forall_cons; [assumption|]); apply Forall_nil|].
  unfold map4, sub4. cbn [l0 l1 l2 l3]. rewrite W0, W1, W2, W3, X0, X1, X2, X3. split.
  - eapply Rle_trans; [apply n4_split|].
    assert (E1 : mk4 0 (val q1 - l1 (motor_p1 (exact_exp a b))) (val q2 - l2 (motor_p1 (exact_exp a b))) (val q3 - l3 (motor_p1 (exact_exp a b))) = sub4 (axis q1 q2 q3) (scale4 (sin t) (scale4 (/ t) a))).
    { unfold sub4, axis, scale4, map4, exact_exp. cbn [motor_p1 l0 l1 l2 l3]. fold t. rewrite A0. f_equal; field; lra. }
    rewrite E1. change (l0 (motor_p1 (exact_exp a b))) with (cos t). assert (0 < u * t) by (apply Rmult_lt_0_compat; lra). lra.
  - eapply Rle_trans; [apply n4_split|].
    assert (E1 : mk4 0 (val p1 - l1 (motor_p2 (exact_exp a b))) (val p2 - l2 (motor_p2 (exact_exp a b))) (val p3 - l3 (motor_p2 (exact_exp a b))) = sub4 (axis p1 p2 p3) (biv4 (motor_p2 (exact_exp a b)))).
    { unfold sub4, axis, biv4. cbn [l0 l1 l2 l3]. f_equal. ring. }
    rewrite E1. replace (l0 (motor_p2 (exact_exp a b))) with (q4 a b * / t * sin t) by (unfold exact_exp; cbn [motor_p2 l0]; fold t; field; lra).
    fold be. assert (0 < u * be) by (apply Rmult_lt_0_compat; lra). assert (0 < u * t * be) by (apply Rmult_lt_0_compat; [apply Rmult_lt_0_compat; lra|lra]). lra.
Qed.

(** ** How the exact exponential depends on its argument *)
Lemma rmul_le p q m n : Rabs p <= m -> Rabs q <= n -> Rabs (p * q) <= m * n.
Proof. intros. rewrite Rabs_mult. apply Rmult_le_compat; try apply Rabs_pos; assumption. Qed.
Lemma prod_diff p q p' q' dp dq mq mp : Rabs (p' - p) <= dp -> Rabs (q' - q) <= dq -> Rabs q' <= mq -> Rabs p <= mp -> Rabs (p' * q' - p * q) <= dp * mq + mp * dq.
Proof.
  intros A B C D. replace (p' * q' - p * q) with ((p' - p) * q' + p * (q' - q)) by ring. eapply Rle_trans; [apply Rabs_triang|].
  apply Rplus_le_compat; apply rmul_le; assumption.
Qed.
Lemma exact_exp_p1_lip a a' b b' : l0 a = 0 -> l0 a' = 0 -> 0 < n4 a -> 0 < n4 a' -> n4 (sub4 (motor_p1 (exact_exp a' b')) (motor_p1 (exact_exp a b))) <= n4 (sub4 a' a).
Proof.
  intros A0 A0' P P'. assert (E : forall v w, 0 < n4 v -> motor_p1 (exact_exp v w) = exact_rotor (2 * n4 v) v).
  { intros v w V. unfold exact_exp, exact_rotor. cbn [motor_p1]. replace (2 * n4 v / 2) with (n4 v) by field. f_equal; field; lra. }
  rewrite !E by assumption. apply exact_rotor_lip; assumption.
Qed.
Lemma exact_exp_p2_shape a b : 0 < n4 a -> l0 a = 0 -> l0 b = 0 -> let t := n4 a in let na := scale4 (/ t) a in let c := q4 na b in let k := sin t / t in
  motor_p2 (exact_exp a b) = add4 (mk4 (sin t * c) 0 0 0) (add4 (scale4 k b) (scale4 ((cos t - k) * c) na)).
Proof.
  intros P A0 B0 t na c k. assert (t0 : t <> 0) by (unfold t; lra).
  assert (C : c = q4 a b * / t) by (unfold c, na, q4, scale4, map4; cbn [l0 l1 l2 l3]; ring). rewrite C. unfold na, k, exact_exp, add4, scale4, map4. cbn [motor_p2 l0 l1 l2 l3]. fold t.
  f_equal; [rewrite A0, B0|..]; field; exact t0.
Qed.
Lemma unit_of a : 0 < n4 a -> n4 (scale4 (/ n4 a) a) = 1.
Proof. intro P. rewrite n4_scale by (left; apply Rinv_0_lt_compat; exact P). apply Rinv_l. lra. Qed.
Lemma exact_exp_p2_lip a a' b d : l0 a = 0 -> l0 a' = 0 -> l0 b = 0 -> 0 < n4 a -> 0 < n4 a' -> n4 (sub4 a' a) <= d * n4 a ->
  n4 (sub4 (motor_p2 (exact_exp a' b)) (motor_p2 (exact_exp a b))) <= (14 + 2 * n4 a) * d * n4 b.
Proof.
  intros A0 A0' B0 P P' D. rewrite !exact_exp_p2_shape by assumption. cbv zeta.
  pose proof (unit_of a P) as Un. pose proof (unit_of a' P') as Un'. pose proof (n4_diff a' a) as Dt. pose proof (n4_pos b) as Nb.
  set (t := n4 a) in *. set (t' := n4 a') in *. set (na := scale4 (/ t) a) in *. set (na' := scale4 (/ t') a') in *. set (nb := n4 b) in *.
  assert (it : 0 < / t) by (apply Rinv_0_lt_compat; exact P). assert (it' : 0 < / t') by (apply Rinv_0_lt_compat; exact P').
  assert (Dt' : Rabs (t' - t) <= d * t) by lra. assert (Dr : Rabs (t' - t) * / t <= d).
  { apply (Rle_trans _ (d * t * / t)); [apply Rmult_le_compat_r; lra|]. right. field. lra. }
  assert (d0 : 0 <= d). { eapply Rle_trans; [|exact Dr]. apply Rmult_le_pos; [apply Rabs_pos|lra]. }
  assert (DN : n4 (sub4 na' na) <= 2 * d).
  { apply (Rle_trans _ (n4 (add4 (scale4 (/ t) (sub4 a' a)) (scale4 ((t - t') * / t) na')))).
    - right. f_equal. unfold na, na', add4, sub4, scale4, map4. cbn [l0 l1 l2 l3]. f_equal; field; lra.
    - eapply Rle_trans; [apply n4_add|]. rewrite !n4_scale_abs, Un', Rabs_mult, (Rabs_pos_eq (/ t)), (Rabs_minus_sym t t') by lra.
      assert (/ t * n4 (sub4 a' a) <= / t * (d * t)) by (apply Rmult_le_compat_l; lra). replace (/ t * (d * t)) with d in H by (field; lra). lra. }
  assert (Cb : forall v, n4 v = 1 -> Rabs (q4 v b) <= nb). { intros v V. eapply Rle_trans; [apply q4_cauchy|]. rewrite V. fold nb. lra. }
  assert (Dc : Rabs (q4 na' b - q4 na b) <= 2 * d * nb).
  { replace (q4 na' b - q4 na b) with (q4 (sub4 na' na) b) by (unfold q4, sub4; cbn [l0 l1 l2 l3]; ring). eapply Rle_trans; [apply q4_cauchy|]. apply Rmult_le_compat_r; assumption. }
  pose proof (Cb na Un) as Cn. pose proof (Cb na' Un') as Cn'. set (c := q4 na b) in *. set (c' := q4 na' b) in *.
  assert (Ds : Rabs (sin t' - sin t) <= d * t) by (eapply Rle_trans; [apply sin_lip|exact Dt']). assert (Dco : Rabs (cos t' - cos t) <= d * t) by (eapply Rle_trans; [apply cos_lip|exact Dt']).
  assert (S1 : Rabs (sin t) <= 1) by (apply Rabs_le, SIN_bound). assert (C1 : Rabs (cos t) <= 1) by (apply Rabs_le, COS_bound).
  assert (KB : forall r, 0 < r -> Rabs (sin r / r) <= 1).
  { intros r Pr. pose proof (sin_lip r 0) as St. rewrite sin_0, !Rminus_0_r, (Rabs_pos_eq r) in St by lra. unfold Rdiv. rewrite Rabs_mult, (Rabs_pos_eq (/ r)) by (left; apply Rinv_0_lt_compat; lra).
    apply (Rmult_le_reg_r r); [lra|]. rewrite Rmult_assoc, Rinv_l by lra. lra. }
  pose proof (KB t P) as Kt. pose proof (KB t' P') as Kt'.
  assert (Dk : Rabs (sin t' / t' - sin t / t) <= 2 * d).
  { replace (sin t' / t' - sin t / t) with ((sin t' - sin t) * / t + sin t' / t' * ((t - t') * / t)) by (field; lra). eapply Rle_trans; [apply Rabs_triang|].
    rewrite !Rabs_mult, (Rabs_pos_eq (/ t)), (Rabs_minus_sym t t') by lra.
    assert (Rabs (sin t' - sin t) * / t <= Rabs (t' - t) * / t) by (apply Rmult_le_compat_r; [lra|apply sin_lip]).
    assert (Rabs (sin t' / t') * (Rabs (t' - t) * / t) <= 1 * d) by (apply Rmult_le_compat; try assumption; [apply Rabs_pos|apply Rmult_le_pos; [apply Rabs_pos|lra]]). lra. }
  set (k := sin t / t) in *. set (k' := sin t' / t') in *.
  assert (Dh : Rabs ((cos t' - k') - (cos t - k)) <= d * t + 2 * d). { replace ((cos t' - k') - (cos t - k)) with ((cos t' - cos t) + - (k' - k)) by ring. eapply Rle_trans; [apply Rabs_triang|]. rewrite Rabs_Ropp. lra. }
  assert (Hh : Rabs (cos t - k) <= 2). { unfold Rminus. eapply Rle_trans; [apply Rabs_triang|]. rewrite Rabs_Ropp. lra. }
  set (h := cos t - k) in *. set (h' := cos t' - k') in *.
  assert (E1 : Rabs (sin t' * c' - sin t * c) <= d * t * nb + 1 * (2 * d * nb)) by (apply prod_diff; assumption).
  assert (E2 : Rabs (h' * c' - h * c) <= (d * t + 2 * d) * nb + 2 * (2 * d * nb)) by (apply prod_diff; assumption).
  assert (E3 : Rabs (h * c) <= 2 * nb) by (apply rmul_le; assumption).
  apply (Rle_trans _ (n4 (mk4 (sin t' * c' - sin t * c) 0 0 0) + n4 (add4 (scale4 (k' - k) b) (add4 (scale4 (h' * c' - h * c) na') (scale4 (h * c) (sub4 na' na)))))).
  { eapply Rle_trans; [|apply n4_add]. right. f_equal. unfold add4, sub4, scale4, map4. cbn [l0 l1 l2 l3]. f_equal; ring. }
  pose proof (n4_add (scale4 (k' - k) b) (add4 (scale4 (h' * c' - h * c) na') (scale4 (h * c) (sub4 na' na)))) as T1.
  pose proof (n4_add (scale4 (h' * c' - h * c) na') (scale4 (h * c) (sub4 na' na))) as T2. rewrite !n4_scale_abs in T2. rewrite n4_scale_abs in T1. rewrite Un' in T2. fold nb in T1.
  assert (Q1 : n4 (mk4 (sin t' * c' - sin t * c) 0 0 0) <= Rabs (sin t' * c' - sin t * c)).
  { eapply Rle_trans; [apply n4_split|]. replace (n4 (mk4 0 0 0 0)) with 0; [lra|]. unfold n4, q4. cbn [l0 l1 l2 l3]. replace (0 * 0 + 0 * 0 + 0 * 0 + 0 * 0) with 0 by ring. symmetry. apply sqrt_0. }
  assert (Q2 : Rabs (k' - k) * nb <= 2 * d * nb) by (apply Rmult_le_compat_r; assumption).
  assert (Q3 : Rabs (h * c) * n4 (sub4 na' na) <= 2 * nb * (2 * d)) by (apply Rmult_le_compat; try assumption; [apply Rabs_pos|apply n4_pos]). lra.
Qed.
Lemma exact_exp_p2_linear a b b' : l0 a = 0 -> l0 b = 0 -> l0 b' = 0 -> 0 < n4 a -> n4 (sub4 (motor_p2 (exact_exp a b')) (motor_p2 (exact_exp a b))) <= n4 (sub4 b' b).
Proof.
  intros A0 B0 B0' P. assert (Z : l0 (sub4 b' b) = 0) by (unfold sub4; cbn [l0]; rewrite B0, B0'; ring).
  assert (E : sub4 (motor_p2 (exact_exp a b')) (motor_p2 (exact_exp a b)) = motor_p2 (exact_exp a (sub4 b' b))).
  { unfold exact_exp, sub4, q4. cbn [motor_p2 l0 l1 l2 l3]. f_equal; field; lra. }
  rewrite E. apply exact_exp_p2_all; assumption.
Qed.

(** ** The screw constructor *)
Definition exact_screw (ang d : R) (a b : m128 R) : motor R := exact_exp (scale4 (- ang / 2) a) (sub4 (scale4 (- ang / 2) b) (scale4 (d / 2) a)).
Theorem C77_screw : forall (B : Build) (M : machine), libm_fine M -> rcp_estimate M -> rsqrt_estimate M -> let FL := Flo_f32 M in forall (ang d : f32) (l : line f32),
  line_ok l -> fin ang -> fin d -> let a := lv1 l in let b := lv2 l in
  / 2 ^ 10 <= n4 a <= 2 ^ 10 -> n4 b <= 2 ^ 18 -> Rabs (val d) <= 2 ^ 20 -> let t := Rabs (val ang) / 2 * n4 a in / 2 ^ 32 <= t <= 2 ^ 9 ->
  let m := motor_screw ang d l in let e := exact_screw (val ang) (val d) a b in
  let r := Rabs (val ang) / 2 * n4 b + Rabs (val d) / 2 * n4 a + / 2 ^ 50 in
  (** e is the exponential of (-ang/2 + d/2 e0123) l *)
  ExpSeries.is_exp (mv_line (mkline (scale4 (- val ang / 2) a) (sub4 (scale4 (- val ang / 2) b) (scale4 (val d / 2) a)))) (mv_motor e) /\
  Forall fin (reg_list (motor_p1 m) ++ reg_list (motor_p2 m)) /\
  n4 (sub4 (map4 val (motor_p1 m)) (motor_p1 e)) <= (16 + 21 * t) * / 2 ^ 24 /\
  n4 (sub4 (map4 val (motor_p2 m)) (motor_p2 e)) <= (111 + 22 * t) * / 2 ^ 24 * r.
Proof.
  intros B M LM HR HM FL ang d l (Fa & Fb & A0 & B0) Fang Fd a b La Lb Ld t Lt m e r.
  assert (P10 : bpow radix2 10 = 2 ^ 10) by (cbn; ring). assert (Pm10 : bpow radix2 (-10) = / 2 ^ 10) by (cbn; f_equal; ring). assert (P18 : bpow radix2 18 = 2 ^ 18) by (cbn; ring). assert (P20 : bpow radix2 20 = 2 ^ 20) by (cbn; ring).
  assert (Pm19 : bpow radix2 (-32) = / 2 ^ 32) by (cbn; f_equal; ring). assert (P9 : bpow radix2 9 = 2 ^ 9) by (cbn; ring). assert (Pm50 : bpow radix2 (-50) = / 2 ^ 50) by (cbn; f_equal; ring).
  rewrite <- Pm10, <- P10 in La. rewrite <- P18 in Lb. rewrite <- Pm19, <- P9 in Lt. unfold r. rewrite <- Pm50, u_pow. fold a in A0. fold b in B0.
  pose proof (bpow_gt_0 radix2 (-10)) as G10. pose proof (bpow_gt_0 radix2 (-32)) as G19. pose proof (bpow_gt_0 radix2 (-50)) as G50. pose proof (bpow_gt_0 radix2 (-70)) as G70. pose proof u_small as U0.
  assert (a0 : 0 < n4 a) by lra. pose proof (n4_pos b) as Nb.
  (* the angle and its half *)
  set (h := Rabs (val ang) / 2) in *. assert (Hh : bpow radix2 (-42) <= h <= bpow radix2 19).
  { assert (E : h = t * / n4 a) by (unfold t; field; lra). rewrite E.
    assert (I : bpow radix2 (-10) <= / n4 a <= bpow radix2 10).
    { split; [change (-10)%Z with (- (10))%Z|change 10%Z with (- (-10))%Z]; rewrite bpow_opp; apply Rinv_le_contravar; lra. }
    split; [change (-42)%Z with (-32 + -10)%Z|change 19%Z with (9 + 10)%Z]; rewrite bpow_plus; apply Rmult_le_compat; lra. }
  assert (MAG : forall p x y, bpow radix2 x <= p <= bpow radix2 y -> (-112 <= x)%Z -> (y <= 122)%Z -> mag p).
  { intros p x y [X Y] H1 H2. split; [eapply Rle_trans; [|exact X]|eapply Rle_trans; [exact Y|]]; apply bpow_le; assumption. }
  pose proof (bpow_gt_0 radix2 (-42)) as G29. assert (h0 : 0 < h) by lra.
  assert (Lang : Rabs (val ang) <= 2 ^ 20). { rewrite <- P20. change 20%Z with (1 + 19)%Z. rewrite bpow_plus. change (bpow radix2 1) with 2. unfold h in Hh. lra. }
  destruct (opp_ok ang Fang) as [Fo Vo].
  destruct (half_ok (fopp ang) Fo ltac:(rewrite Vo, Rabs_Ropp; exact Lang)) as (Fh & Eh & _). rewrite Vo in Eh. change (f32_of 1 (-1)) with (@fhalf f32 FL) in Fh, Eh. rewrite mul_comm_f32 in Fh, Eh.
  destruct (half_ok d Fd Ld) as (Fg & Eg & _). change (f32_of 1 (-1)) with (@fhalf f32 FL) in Fg, Eg. rewrite mul_comm_f32 in Fg, Eg.
  set (al := fmul (fopp ang) fhalf) in *. set (de := fmul d fhalf) in *.
  assert (mh : mag h) by (eapply MAG; [exact Hh|lia|lia]).
  assert (Aal : ap (/ 10000) al (- val ang / 2) h).
  { split; [exact Fh|]. split; [eapply Rle_trans; [exact Eh|apply mag_eta; exact mh]|]. right. unfold h, Rdiv. rewrite Rabs_mult, Rabs_Ropp, (Rabs_pos_eq (/ 2)) by lra. reflexivity. }
  set (g := Rabs (val d) / 2 + bpow radix2 (-70)) in *. pose proof (Rabs_pos (val d)) as Nd.
  assert (Hg : bpow radix2 (-70) <= g <= bpow radix2 20).
  { unfold g. split; [lra|]. assert (bpow radix2 (-70) <= bpow radix2 0) by (apply bpow_le; lia). change (bpow radix2 0) with 1 in H. rewrite P20. assert (2 ^ 20 = 1048576) by ring. lra. }
  assert (mg : mag g) by (eapply MAG; [exact Hg|lia|lia]).
  assert (Ade : ap (/ 10000) de (val d / 2) g).
  { split; [exact Fg|]. split; [eapply Rle_trans; [exact Eg|apply mag_eta; exact mg]|]. unfold g, Rdiv. rewrite Rabs_mult, (Rabs_pos_eq (/ 2)) by lra. lra. }
  (* the logarithm *)
  destruct l as [[w x y z] [w' x' y' z']]. unfold lv1, lv2 in a, b. cbn [line_p1 line_p2] in *.
  inversion_clear Fa as [|? ? Fw F1]. inversion_clear F1 as [|? ? Fx F2]. inversion_clear F2 as [|? ? Fy F3]. inversion_clear F3 as [|? ? Fz _].
  inversion_clear Fb as [|? ? Fw' F1]. inversion_clear F1 as [|? ? Fx' F2]. inversion_clear F2 as [|? ? Fy' F3]. inversion_clear F3 as [|? ? Fz' _].
  assert (Zw : val w = 0) by exact A0. assert (Zw' : val w' = 0) by exact B0.
  assert (Ea : a = axis x y z) by (unfold a, axis, map4; cbn [l0 l1 l2 l3]; rewrite Zw; reflexivity).
  assert (Eb : b = axis x' y' z') by (unfold b, axis, map4; cbn [l0 l1 l2 l3]; rewrite Zw'; reflexivity).
  set (sb := n4 b + bpow radix2 (-70)).
  assert (VA : vap 0 x y z a (n4 a)) by (rewrite Ea; apply vap_exact; try assumption; lra).
  assert (VB : vap 0 x' y' z' b sb) by (unfold sb; rewrite Eb; apply vap_exact; try assumption; lra).
  assert (Hsb : bpow radix2 (-70) <= sb <= bpow radix2 19).
  { unfold sb. split; [lra|]. assert (bpow radix2 (-70) <= bpow radix2 18) by (apply bpow_le; lia). change 19%Z with (1 + 18)%Z. rewrite bpow_plus. change (bpow radix2 1) with 2. lra. }
  set (A := scale4 (- val ang / 2) a) in *. set (Bq := sub4 (scale4 (- val ang / 2) b) (scale4 (val d / 2) a)) in *.
  assert (V1 : vap (12 / 10) (fmul al x) (fmul al y) (fmul al z) A t).
  { apply (vap_weak (0 + / 10000 + 11 / 10) _ _ _ _ _ (n4 a * h)); [|lra|right; unfold t; ring]. apply vap_scale_l; try assumption; try lra.
    replace (n4 a * h) with t by (unfold t; ring). eapply MAG; [exact Lt|lia|lia]. }
  assert (hg0 : 0 <= Rabs (val d) / 2) by lra.
  assert (S1 : sb * h <= h * n4 b + bpow radix2 (-51)).
  { unfold sb. rewrite Rmult_plus_distr_r. assert (bpow radix2 (-70) * h <= bpow radix2 (-70) * bpow radix2 19) by (apply Rmult_le_compat_l; lra). rewrite <- bpow_plus in H. change (-70 + 19)%Z with (-51)%Z in H. lra. }
  assert (S2 : n4 a * g <= Rabs (val d) / 2 * n4 a + bpow radix2 (-60)).
  { unfold g. rewrite Rmult_plus_distr_l. assert (n4 a * bpow radix2 (-70) <= bpow radix2 10 * bpow radix2 (-70)) by (apply Rmult_le_compat_r; lra). rewrite <- bpow_plus in H. change (10 + -70)%Z with (-60)%Z in H. lra. }
  set (r0 := h * n4 b + Rabs (val d) / 2 * n4 a + bpow radix2 (-50)) in *.
  assert (S0 : bpow radix2 (-51) + bpow radix2 (-60) <= bpow radix2 (-50)).
  { change (-50)%Z with (1 + -51)%Z. rewrite bpow_plus. change (bpow radix2 1) with 2. assert (bpow radix2 (-60) <= bpow radix2 (-51)) by (apply bpow_le; lia). lra. }
  assert (p1 : 0 <= h * n4 b) by (apply Rmult_le_pos; lra). assert (p2 : 0 <= Rabs (val d) / 2 * n4 a) by (apply Rmult_le_pos; lra).
  assert (Hr : bpow radix2 (-50) <= r0 <= bpow radix2 39).
  { unfold r0. split; [lra|]. assert (h * n4 b <= bpow radix2 19 * bpow radix2 18) by (apply Rmult_le_compat; lra). rewrite <- bpow_plus in H.
    assert (Rabs (val d) / 2 * n4 a <= bpow radix2 20 * bpow radix2 10) by (apply Rmult_le_compat; lra). rewrite <- bpow_plus in H0.
    assert (bpow radix2 (-50) <= bpow radix2 37) by (apply bpow_le; lia). assert (bpow radix2 (20 + 10) <= bpow radix2 37) by (apply bpow_le; lia). change 39%Z with (2 + 37)%Z. rewrite bpow_plus. change (bpow radix2 2) with 4. change (19 + 18)%Z with 37%Z in H. lra. }
  assert (r00 : 0 < r0) by lra. assert (q51 : 0 < bpow radix2 (-51)) by apply bpow_gt_0. assert (q60 : 0 < bpow radix2 (-60)) by apply bpow_gt_0.
  assert (mS1 : mag (sb * h)).
  { apply (MAG _ (-70 + -42)%Z (19 + 19)%Z); [|lia|lia]. rewrite !bpow_plus. split; apply Rmult_le_compat; lra. }
  assert (mS2 : mag (n4 a * g)).
  { apply (MAG _ (-10 + -70)%Z (10 + 20)%Z); [|lia|lia]. rewrite !bpow_plus. split; apply Rmult_le_compat; lra. }
  assert (V2 : vap (12 / 10) (fmul x' al) (fmul y' al) (fmul z' al) (scale4 (- val ang / 2) b) r0).
  { apply (vap_weak (0 + / 10000 + 11 / 10) _ _ _ _ _ (sb * h)); [|lra|unfold r0; lra]. apply vap_scale; try assumption; lra. }
  assert (V3 : vap (12 / 10) (fmul x de) (fmul y de) (fmul z de) (scale4 (val d / 2) a) r0).
  { apply (vap_weak (0 + / 10000 + 11 / 10) _ _ _ _ _ (n4 a * g)); [|lra|unfold r0; lra]. apply vap_scale; try assumption; lra. }
  assert (NB : n4 Bq <= r0).
  { unfold Bq. eapply Rle_trans; [apply n4_tri|]. instantiate (1 := scale4 (- val ang / 2) b). rewrite n4_sym.
    replace (sub4 (scale4 (- val ang / 2) b) (sub4 (scale4 (- val ang / 2) b) (scale4 (val d / 2) a))) with (scale4 (val d / 2) a) by (unfold sub4, scale4, map4; cbn [l0 l1 l2 l3]; f_equal; ring).
    rewrite !n4_scale_abs. unfold Rdiv at 1 2. rewrite !Rabs_mult, Rabs_Ropp, (Rabs_pos_eq (/ 2)) by lra. unfold r0, h, Rdiv. lra. }
  assert (V4 : vap (35 / 10) (fsub (fmul x' al) (fmul x de)) (fsub (fmul y' al) (fmul y de)) (fsub (fmul z' al) (fmul z de)) Bq r0).
  { pose proof (vap_pm false _ _ _ _ _ _ _ _ _ _ _ V2 V3) as V. cbn [plus_minus pm4] in V. replace (12 / 10 + 12 / 10 + 11 / 10) with (35 / 10) in V by lra. apply V; try lra; [exact NB|eapply MAG; [exact Hr|lia|lia]]. }
  destruct (zero_lane al w Fh Fw Zw) as (Faw & Zaw & _). destruct (zero_lane al w' Fh Fw' Zw') as (_ & _ & Fwa & Zwa). destruct (zero_lane de w Fg Fw Zw) as (_ & _ & Fwd & Zwd). destruct (sub_zero _ _ Fwa Zwa Fwd Zwd) as [Fq Zq].
  set (l' := mkline (mk4 (fmul al w) (fmul al x) (fmul al y) (fmul al z)) (mk4 (fsub (fmul w' al) (fmul w de)) (fsub (fmul x' al) (fmul x de)) (fsub (fmul y' al) (fmul y de)) (fsub (fmul z' al) (fmul z de)))).
  assert (Em : m = line_exp l') by reflexivity.
  assert (E1 : lv1 l' = axis (fmul al x) (fmul al y) (fmul al z)) by (unfold l', lv1, axis, map4; cbn [line_p1 l0 l1 l2 l3]; rewrite Zaw; reflexivity).
  assert (E2 : lv2 l' = axis (fsub (fmul x' al) (fmul x de)) (fsub (fmul y' al) (fmul y de)) (fsub (fmul z' al) (fmul z de))) by (unfold l', lv2, axis, map4; cbn [line_p2 l0 l1 l2 l3]; rewrite Zq; reflexivity).
  pose proof (vap_le _ _ _ _ _ _ V4) as L4.
  destruct V1 as (F1 & F2 & F3 & ZA & D1 & N1). destruct V4 as (F4 & F5 & F6 & ZB & D2 & N2). rewrite <- E1 in D1. rewrite <- E2 in D2, L4.
  assert (OK : line_ok l').
  { split; [|split; [|split]]; [| |rewrite E1; reflexivity|rewrite E2; reflexivity]; repeat (apply Forall_cons; [assumption|]); apply Forall_nil. }
  assert (NA : n4 A = t) by (unfold A; rewrite n4_scale_abs; unfold t, h, Rdiv; rewrite Rabs_mult, Rabs_Ropp, (Rabs_pos_eq (/ 2)) by lra; reflexivity).
  assert (t0 : 0 < t) by lra. assert (PA : 0 < n4 A) by lra.
  pose proof (n4_diff (lv1 l') A) as Dt. rewrite NA in Dt. assert (Dt' : Rabs (n4 (lv1 l') - t) <= 12 / 10 * u * t) by lra. apply Rabs_le_inv in Dt'.
  assert (ut : 0 < u * t <= / 1000000 * t) by (split; [apply Rmult_lt_0_compat; lra|apply Rmult_le_compat_r; lra]).
  assert (ur : 0 < u * r0 <= / 1000000 * r0) by (split; [apply Rmult_lt_0_compat; lra|apply Rmult_le_compat_r; lra]).
  set (t' := n4 (lv1 l')) in *. assert (Lt' : bpow radix2 (-40) <= t' <= bpow radix2 10).
  { assert (bpow radix2 (-40) <= / 2 * bpow radix2 (-32)) by (change (/ 2) with (bpow radix2 (-1)); rewrite <- bpow_plus; apply bpow_le; lia). change 10%Z with (1 + 9)%Z. rewrite bpow_plus. change (bpow radix2 1) with 2. lra. }
  assert (Lb' : n4 (lv2 l') <= bpow radix2 40). { change 40%Z with (1 + 39)%Z. rewrite bpow_plus. change (bpow radix2 1) with 2. lra. }
  assert (Pm20 : bpow radix2 (-40) = / 2 ^ 40) by (cbn; f_equal; ring). assert (P40 : bpow radix2 40 = 2 ^ 40) by (cbn; ring). rewrite Pm20, P10 in Lt'. rewrite P40 in Lb'.
  destruct (C77_exp B M LM HR HM l' OK Lt' Lb') as (_ & FF & X1 & X2). fold FL in FF, X1, X2. rewrite <- Em in FF, X1, X2. fold t' in X1, X2. rewrite u_pow in X1, X2.
  assert (Pm60 : bpow radix2 (-60) = / 2 ^ 60) by (cbn; f_equal; ring). rewrite <- Pm60 in X2.
  assert (ZA' : l0 (lv1 l') = 0) by (rewrite E1; reflexivity). assert (ZB' : l0 (lv2 l') = 0) by (rewrite E2; reflexivity).
  assert (PA' : 0 < n4 (lv1 l')) by (fold t'; lra).
  split; [unfold e, exact_screw; fold A; fold Bq; apply exact_exp_series; assumption|]. split; [exact FF|].
  assert (T9 : t <= 512) by (destruct Lt as [_ L']; replace (bpow radix2 9) with 512 in L' by (cbn; lra); exact L').
  unfold e, exact_screw. fold A. fold Bq. split.
  - eapply Rle_trans; [apply (n4_via _ (motor_p1 (exact_exp (lv1 l') (lv2 l'))))|]. pose proof (exact_exp_p1_lip A (lv1 l') Bq (lv2 l') ZA ZA' PA PA') as Y.
    assert (u * t' <= u * (101 / 100 * t)) by (apply Rmult_le_compat_l; lra). lra.
  - assert (Q60 : bpow radix2 (-60) <= / 1000 * r0).
    { apply (Rle_trans _ (bpow radix2 (-10) * bpow radix2 (-50))); [rewrite <- bpow_plus; apply bpow_le; lia|]. apply Rmult_le_compat; lra. }
    set (be := n4 (lv2 l') + bpow radix2 (-60)) in *. assert (Hbe : 0 <= be <= 1002 / 1000 * r0) by (unfold be; pose proof (n4_pos (lv2 l')); lra).
    assert (Y0 : (90 + 19 * t') * u * be <= (90 + 19 * (1001 / 1000 * t)) * u * (1002 / 1000 * r0)).
    { apply Rmult_le_compat; try lra; [apply Rmult_le_pos; lra|]. apply Rmult_le_compat_r; lra. }
    pose proof (exact_exp_p2_lip A (lv1 l') (lv2 l') (12 / 10 * u) ZA ZA' ZB' PA PA' ltac:(rewrite NA; exact D1)) as Y1. rewrite NA in Y1.
    assert (Y1' : (14 + 2 * t) * (12 / 10 * u) * n4 (lv2 l') <= (14 + 2 * t) * (12 / 10 * u) * (1002 / 1000 * r0)).
    { apply Rmult_le_compat_l; [apply Rmult_le_pos; lra|lra]. }
    pose proof (exact_exp_p2_linear A Bq (lv2 l') ZA ZB ZB' PA) as Y2.
    eapply Rle_trans; [apply (n4_via _ (motor_p2 (exact_exp (lv1 l') (lv2 l'))))|]. pose proof (n4_via (motor_p2 (exact_exp (lv1 l') (lv2 l'))) (motor_p2 (exact_exp A (lv2 l'))) (motor_p2 (exact_exp A Bq))) as Y3.
    assert (0 < u * t * r0) by (apply Rmult_lt_0_compat; lra). lra.
Qed.

(** ** Where the constructed screw places a point *)
(** The exact motion for a stored line, which need not be of unit length or satisfy the Pluecker condition:
    a turn by ang |a| about the axis of the line, and a slide by d |a| + ang (a . b)/|a| along it. *)
Definition screw_place (ang d : R) (a b : m128 R) (x : vec) : vec :=
  let s := n4 a in let ax := vscale (/ s) (vpart a) in let c := vscale (/ (s * s)) (vcross (vpart a) (vpart b)) in
  vadd (vadd c (rodrigues ax (ang * s) (vsub x c))) (vscale (d * s + ang * vdot ax (vpart b)) ax).
Lemma exact_screw_shape ang d a b : l0 a = 0 -> l0 b = 0 -> 0 < n4 a -> ang <> 0 ->
  let s := n4 a in let f := - ang / 2 * s in let w := vscale (/ s) (vpart a) in let m := vcross (vscale (/ (s * s)) (vcross (vpart a) (vpart b))) w in let D := d * s + ang * vdot w (vpart b) in
  exact_screw ang d a b = mkmotor (mk4 (cos f) (sin f * vx w) (sin f * vy w) (sin f * vz w))
    (mk4 (- (D / 2) * sin f) (sin f * vx m - D / 2 * cos f * vx w) (sin f * vy m - D / 2 * cos f * vy w) (sin f * vz m - D / 2 * cos f * vz w)).
Proof.
  intros A0 B0 P NA s f w m D. assert (Q : s * s = l1 a * l1 a + l2 a * l2 a + l3 a * l3 a) by (unfold s; rewrite n4_sq; unfold q4; rewrite A0; ring).
  assert (s0 : s <> 0) by (unfold s; lra). unfold exact_screw, exact_exp.
  assert (f0 : f <> 0) by (unfold f; apply Rmult_integral_contrapositive; split; lra).
  rewrite n4_scale_abs. fold s. assert (T : Rabs (- ang / 2) * s = Rabs f) by (unfold f; rewrite Rabs_mult, (Rabs_pos_eq s) by (unfold s; lra); reflexivity). rewrite T.
  assert (Cf : cos (Rabs f) = cos f) by (unfold Rabs; destruct (Rcase_abs f); [apply cos_neg|reflexivity]).
  assert (Sf : sin (Rabs f) / Rabs f = sin f / f) by (unfold Rabs; destruct (Rcase_abs f); [rewrite sin_neg; field; exact f0|reflexivity]).
  assert (Ff : Rabs f * Rabs f = f * f) by (rewrite <- Rabs_mult; apply Rabs_pos_eq, Rle_0_sqr). rewrite Cf, Sf, Ff. unfold f in *. clear T Cf Sf Ff.
  set (S := sin (- ang / 2 * s)). set (C := cos (- ang / 2 * s)). clearbody S C. unfold D, m, w, vpart, vcross, vscale, vdot, scale4, sub4, map4, q4. cbn [l0 l1 l2 l3 vx vy vz]. rewrite A0, B0.
  clearbody s. clear P D m w. destruct a as [a0 a1 a2 a3], b as [b0 b1 b2 b3]. cbn [l0 l1 l2 l3] in *. clear A0 B0.
  assert (R3 : a3 * a3 = s * s - a1 * a1 - a2 * a2) by lra.
  f_equal; f_equal; field_simplify_eq; try (split; [assumption|lra]); try lra; ring [R3].
Qed.
Lemma exact_screw_motion ang d a b x : l0 a = 0 -> l0 b = 0 -> 0 < n4 a -> ang <> 0 ->
  motor_image (motor_p1 (exact_screw ang d a b)) (motor_p2 (exact_screw ang d a b)) 1 x = screw_place ang d a b x.
Proof.
  intros A0 B0 P NA. rewrite exact_screw_shape by assumption. cbn [motor_p1 motor_p2]. rewrite image_turn. unfold screw_place.
  assert (Q : n4 a * n4 a = l1 a * l1 a + l2 a * l2 a + l3 a * l3 a) by (rewrite n4_sq; unfold q4; rewrite A0; ring).
  set (s := n4 a) in *. set (c := vscale (/ (s * s)) (vcross (vpart a) (vpart b))). set (D := d * s + ang * vdot (vscale (/ s) (vpart a)) (vpart b)). clearbody c D.
  assert (W : exists x y z, vscale (/ s) (vpart a) = V x y z /\ z * z = 1 - x * x - y * y).
  { eexists _, _, _. split; [reflexivity|]. unfold vpart. cbn [vx vy vz]. apply (Rmult_eq_reg_r (s * s)); [|apply Rmult_integral_contrapositive; lra]. field_simplify; [|lra|lra]. unfold Rsqr in *. lra. }
  destruct W as (w1 & w2 & w3 & -> & R3). unfold rodrigues.
  replace (ang * s) with (2 * - (- ang / 2 * s)) by field. set (f := - ang / 2 * s). rewrite cos_2a_sin, sin_2a, cos_neg, sin_neg.
  pose proof (sin2_cos2 f) as C2. unfold Rsqr in C2. assert (C3 : cos f * cos f = 1 - sin f * sin f) by lra. clear C2. set (S := sin f) in *. set (C := cos f) in *. clearbody S C. clear f Q.
  destruct c as [c1 c2 c3], x as [x1 x2 x3]. unfold turn, vpart, qm, lift, rev4, vsub, vadd, vscale, vcross, vdot. cbn [l0 l1 l2 l3 vx vy vz].
  f_equal; field_simplify; ring [R3 C3].
Qed.
(** a motor close to an exact unit one *)
Lemma image_near p1 p2 e1 e2 x : vlen (vsub (motor_image p1 p2 1 x) (motor_image e1 e2 1 x)) <=
  n4 (sub4 p1 e1) * (n4 p1 + n4 e1) * vlen x + 2 * (n4 (sub4 p1 e1) * n4 p2 + n4 e1 * n4 (sub4 p2 e2)).
Proof.
  rewrite !image_turn. eapply Rle_trans; [apply (vlen_via _ (vsub (turn e1 x) (vscale 2 (vpart (qm p1 p2)))))|]. apply Rplus_le_compat.
  - replace (vsub (vsub (turn p1 x) (vscale 2 (vpart (qm p1 p2)))) (vsub (turn e1 x) (vscale 2 (vpart (qm p1 p2))))) with (vsub (turn p1 x) (turn e1 x)); [apply turn_diff|].
    unfold vsub, vscale. cbn [vx vy vz]. f_equal; ring.
  - replace (vsub (vsub (turn e1 x) (vscale 2 (vpart (qm p1 p2)))) (vsub (turn e1 x) (vscale 2 (vpart (qm e1 e2))))) with (vscale (-2) (vpart (sub4 (qm p1 p2) (qm e1 e2)))).
    + rewrite vlen_scale, Rabs_left by lra. replace (- -2) with 2 by ring. apply Rmult_le_compat_l; [lra|]. eapply Rle_trans; [apply vpart_le|].
      eapply Rle_trans; [apply (n4_via _ (qm e1 p2))|]. rewrite qm_sub_l, qm_sub_r, !qm_n4. lra.
    + rewrite vpart_sub. unfold vsub, vscale. cbn [vx vy vz]. f_equal; ring.
Qed.
Lemma motor_near (B : Build) (m : motor f32) (p : point f32) (e1 e2 : m128 R) E1 E2 r :
  Forall (bounded 20) (coefs (k := KMotor) m) -> Forall (bounded 20) (coefs (k := KPoint) p) -> wt p = 1 -> n4 e1 = 1 -> n4 e2 <= r ->
  n4 (sub4 (map4 val (motor_p1 m)) e1) <= E1 -> E1 <= / 1000 -> n4 (sub4 (map4 val (motor_p2 m)) e2) <= E2 -> E2 <= r / 1000 -> let q := motor_on_point m p in
  vlen (vsub (pos q) (motor_image e1 e2 1 (pos p))) <= (2001 / 1000 * E1 + 221 / 10 * u) * vlen (pos p) + (2002 / 1000 * E1 + 251 / 10 * u) * r + 2 * E2 + bpow radix2 (-121) /\
  Rabs (wt q - 1) <= 2001 / 1000 * E1 + 8 * u.
Proof.
  intros Hm Hp Hw N1 N2 D1 S1 D2 S2 q. pose proof u_small as U. pose proof (motor_moves B m p Hm Hp Hw) as E. cbv zeta in E.
  assert (WT : Rabs (wt q - q4 (map4 val (motor_p1 m)) (map4 val (motor_p1 m))) <= 7 * (1 + / 100000) * u * q4 (map4 val (motor_p1 m)) (map4 val (motor_p1 m)) + bpow radix2 (-122)).
  { destruct (C41_any_sandwich_20 B) as (_ & _ & _ & _ & _ & _ & _ & _ & _ & A & _). destruct (A m p Hm Hp I I) as [_ E']. clear A E.
    specialize (E' (Bl false true true true)). unfold q. set (Y := motor_on_point m p) in *. clearbody Y. destruct Y as [[y0 y1 y2 y3]]. rewrite u_pow in *.
    set (p1 := map4 val (motor_p1 m)) in *. set (p2 := map4 val (motor_p2 m)) in *. set (P := mv_point (mkpoint (mk4 (wt p) (vx (pos p)) (vy (pos p)) (vz (pos p))))).
    assert (E : Rabs (wt (mkpoint (mk4 y0 y1 y2 y3)) - sandwich (mv_motor (mkmotor p1 p2)) P (Bl false true true true)) <=
      7 * (1 + / 100000) * u * sandwich_mass (mv_motor (mkmotor p1 p2)) P (Bl false true true true) + bpow radix2 (-122)) by exact E'.
    unfold P in E. rewrite weight_exact, weight_mass, Hw, Rabs_R1, !Rmult_1_r in E. exact E. }
  set (p1 := map4 val (motor_p1 m)) in *. set (p2 := map4 val (motor_p2 m)) in *.
  pose proof (n4_diff p1 e1) as Q1. rewrite N1 in Q1. assert (Q1' : Rabs (n4 p1 - 1) <= E1) by lra. pose proof (Rabs_pos (n4 p1 - 1)) as E10. apply Rabs_le_inv in Q1.
  pose proof (n4_tri p2 e2) as Q2. pose proof (n4_pos p2) as P2. pose proof (n4_pos e2) as P2'. pose proof (n4_pos (sub4 p2 e2)) as P3. pose proof (n4_pos (sub4 p1 e1)) as P4. pose proof (vlen_pos (pos p)) as X0.
  assert (Q4 : q4 p1 p1 = n4 p1 * n4 p1) by (symmetry; apply n4_sq). split.
  - eapply Rle_trans; [apply (vlen_via _ (motor_image p1 p2 1 (pos p)))|]. pose proof (image_near p1 p2 e1 e2 (pos p)) as I2. rewrite N1 in I2. fold q in E.
    assert (K1 : n4 (sub4 p1 e1) * (n4 p1 + 1) <= E1 * (2001 / 1000)) by (apply Rmult_le_compat; lra). apply (Rmult_le_compat_r _ _ _ X0) in K1.
    assert (K2 : n4 (sub4 p1 e1) * n4 p2 <= E1 * (1001 / 1000 * r)) by (apply Rmult_le_compat; lra).
    assert (K3 : q4 p1 p1 <= 1001 / 1000 * (1001 / 1000)) by (rewrite Q4; apply Rmult_le_compat; try lra; apply n4_pos).
    assert (K4 : u * (q4 p1 p1 * vlen (pos p)) <= u * (10021 / 10000 * vlen (pos p))) by (apply Rmult_le_compat_l; [lra|]; apply Rmult_le_compat_r; lra).
    assert (K5 : n4 p1 * n4 p2 <= 1001 / 1000 * (1001 / 1000 * r)) by (apply Rmult_le_compat; try lra; apply n4_pos).
    assert (K6 : u * (n4 p1 * n4 p2) <= u * (1001 / 1000 * (1001 / 1000 * r))) by (apply Rmult_le_compat_l; lra).
    assert (0 <= u * r) by (apply Rmult_le_pos; lra). assert (0 <= u * vlen (pos p)) by (apply Rmult_le_pos; lra). lra.
  - replace (wt q - 1) with ((wt q - q4 p1 p1) + (n4 p1 - 1) * (n4 p1 + 1)) by (rewrite Q4; ring). eapply Rle_trans; [apply Rabs_triang|]. rewrite Rabs_mult.
    assert (Rabs (n4 p1 - 1) * Rabs (n4 p1 + 1) <= E1 * (2001 / 1000)). { apply Rmult_le_compat; try apply Rabs_pos; [exact Q1'|]. rewrite Rabs_pos_eq; lra. }
    assert (K3 : q4 p1 p1 <= 1001 / 1000 * (1001 / 1000)) by (rewrite Q4; apply Rmult_le_compat; try lra; apply n4_pos).
    assert (u * q4 p1 p1 <= u * (1001 / 1000 * (1001 / 1000))) by (apply Rmult_le_compat_l; lra).
    assert (bpow radix2 (-122) <= / 100 * u). { apply (Rle_trans _ (bpow radix2 (-40))); [apply bpow_le; lia|]. unfold u. cbn. lra. } lra.
Qed.
Theorem C77_place : forall (B : Build) (M : machine), libm_fine M -> rcp_estimate M -> rsqrt_estimate M -> let FL := Flo_f32 M in forall (ang d : f32) (l : line f32) (p : point f32),
  line_ok l -> fin ang -> fin d -> let a := lv1 l in let b := lv2 l in
  / 2 ^ 10 <= n4 a <= 2 ^ 10 -> n4 b <= 2 ^ 18 -> Rabs (val d) <= 2 ^ 20 -> let t := Rabs (val ang) / 2 * n4 a in / 2 ^ 32 <= t <= 2 ^ 9 ->
  let r := Rabs (val ang) / 2 * n4 b + Rabs (val d) / 2 * n4 a + / 2 ^ 50 in r <= 2 ^ 19 ->
  Forall (bounded 20) (coefs (k := KPoint) p) -> wt p = 1 ->
  let q := motor_on_point (motor_screw ang d l) p in
  vlen (vsub (pos q) (screw_place (val ang) (val d) a b (pos p))) <= / 2 ^ 24 * ((55 + 43 * t) * vlen (pos p) + (280 + 87 * t) * r) /\
  Rabs (wt q - 1) <= / 2 ^ 24 * (41 + 43 * t).
Proof.
  intros B M LM HR HM FL ang d l p OK Fang Fd a b La Lb Ld t Lt r Lr Hp Hw q.
  destruct (C77_screw B M LM HR HM ang d l OK Fang Fd La Lb Ld Lt) as (_ & FF & X1 & X2). cbv zeta in FF, X1, X2. fold FL in FF, X1, X2. fold a b t in X1, X2. fold r in X2.
  assert (A0 : l0 a = 0) by apply OK. assert (B0 : l0 b = 0) by apply OK. rewrite u_pow in *. pose proof u_small as U.
  assert (I10 : 0 < / 2 ^ 10) by (apply Rinv_0_lt_compat, pow_lt; lra). assert (I19 : 0 < / 2 ^ 32) by (apply Rinv_0_lt_compat, pow_lt; lra). assert (a0 : 0 < n4 a) by lra. assert (t0 : 0 < t) by lra.
  assert (NA : val ang <> 0). { intro Z. unfold t in t0. rewrite Z, Rabs_R0 in t0. lra. }
  set (e := exact_screw (val ang) (val d) a b) in *. set (m := motor_screw ang d l) in *. assert (T9 : t <= 512) by (replace 512 with (2 ^ 9) by ring; lra).
  set (A := scale4 (- val ang / 2) a). set (Bq := sub4 (scale4 (- val ang / 2) b) (scale4 (val d / 2) a)).
  assert (PA : 0 < n4 A). { unfold A. rewrite n4_scale_abs. apply Rmult_lt_0_compat; [|exact a0]. apply Rabs_pos_lt. lra. }
  assert (ZA : l0 A = 0) by (unfold A, scale4, map4; cbn [l0]; rewrite A0; ring). assert (ZB : l0 Bq = 0) by (unfold Bq, sub4, scale4, map4; cbn [l0]; rewrite A0, B0; ring).
  assert (N1 : n4 (motor_p1 e) = 1).
  { unfold n4. rewrite <- sqrt_1. f_equal. unfold e, exact_screw. fold A. fold Bq. unfold exact_exp. cbn [motor_p1]. pose proof (n4_sq A) as Q. unfold q4 in Q |- *. cbn [l0 l1 l2 l3]. rewrite ZA in Q.
    pose proof (sin2_cos2 (n4 A)) as SC. unfold Rsqr in SC. set (s := n4 A) in *. rewrite <- SC. apply (Rmult_eq_reg_r (s * s)); [|apply Rmult_integral_contrapositive; lra].
    transitivity (cos s * cos s * (s * s) + sin s * sin s * (0 * 0 + l1 A * l1 A + l2 A * l2 A + l3 A * l3 A)); [field; lra|rewrite <- Q; ring]. }
  assert (Nd := Rabs_pos (val d)). assert (Na := Rabs_pos (val ang)). pose proof (n4_pos b) as Nb. assert (I50 : 0 < / 2 ^ 50) by (apply Rinv_0_lt_compat, pow_lt; lra).
  assert (pb : 0 <= Rabs (val ang) / 2 * n4 b) by (apply Rmult_le_pos; lra). assert (pd : 0 <= Rabs (val d) / 2 * n4 a) by (apply Rmult_le_pos; lra). assert (r0 : / 2 ^ 50 <= r) by (unfold r; lra).
  assert (N2 : n4 (motor_p2 e) <= r).
  { eapply Rle_trans; [apply exact_exp_p2_all; assumption|]. eapply Rle_trans; [apply (n4_tri _ (scale4 (- val ang / 2) b))|]. rewrite n4_sym.
    replace (sub4 (scale4 (- val ang / 2) b) (sub4 (scale4 (- val ang / 2) b) (scale4 (val d / 2) a))) with (scale4 (val d / 2) a) by (unfold sub4, scale4, map4; cbn [l0 l1 l2 l3]; f_equal; ring).
    rewrite !n4_scale_abs. unfold Rdiv at 1 2. rewrite !Rabs_mult, Rabs_Ropp, (Rabs_pos_eq (/ 2)) by lra. unfold r, Rdiv. lra. }
  assert (S1 : (16 + 21 * t) * u <= / 1000). { apply (Rle_trans _ ((16 + 21 * 512) * u)); [apply Rmult_le_compat_r; lra|unfold u; lra]. }
  assert (S2 : (111 + 22 * t) * u <= / 1000). { apply (Rle_trans _ ((111 + 22 * 512) * u)); [apply Rmult_le_compat_r; lra|unfold u; lra]. }
  assert (S2' : (111 + 22 * t) * u * r <= r / 1000). { apply (Rle_trans _ (/ 1000 * r)); [apply Rmult_le_compat_r; lra|lra]. }
  assert (P20 : bpow radix2 20 = 2 ^ 20) by (cbn; ring).
  assert (Hm : Forall (bounded 20) (coefs (k := KMotor) m)).
  { apply Forall_app in FF. destruct FF as [F1 F2]. change (coefs (k := KMotor) m) with (reg_list (motor_p1 m) ++ reg_list (motor_p2 m)). apply Forall_app. split.
    - apply (rv_bounded (mkrotor (motor_p1 m)) 20); [lia|exact F1|]. change (rv (mkrotor (motor_p1 m))) with (map4 val (motor_p1 m)). pose proof (n4_tri (map4 val (motor_p1 m)) (motor_p1 e)). rewrite P20. replace (2 ^ 20) with 1048576 by ring. lra.
    - apply (rv_bounded (mkrotor (motor_p2 m)) 20); [lia|exact F2|]. change (rv (mkrotor (motor_p2 m))) with (map4 val (motor_p2 m)). pose proof (n4_tri (map4 val (motor_p2 m)) (motor_p2 e)). rewrite P20. replace (2 ^ 19) with 524288 in Lr by ring. replace (2 ^ 20) with 1048576 by ring. lra. }
  destruct (motor_near B m p (motor_p1 e) (motor_p2 e) _ _ r Hm Hp Hw N1 N2 X1 S1 X2 S2') as [Y1 Y2]. unfold e in Y1. rewrite exact_screw_motion in Y1 by assumption. fold q in Y1, Y2.
  assert (Q : bpow radix2 (-121) <= / 100 * u * r).
  { apply (Rle_trans _ (bpow radix2 (-40) * bpow radix2 (-50))); [rewrite <- bpow_plus; apply bpow_le; lia|]. apply Rmult_le_compat; try apply bpow_ge_0; [unfold u; cbn; lra|]. replace (bpow radix2 (-50)) with (/ 2 ^ 50) by (cbn; f_equal; ring). exact r0. }
  pose proof (vlen_pos (pos p)) as X0. assert (0 <= u * vlen (pos p)) by (apply Rmult_le_pos; lra). assert (0 <= u * r) by (apply Rmult_le_pos; lra). assert (0 <= t * (u * r)) by (apply Rmult_le_pos; lra). assert (0 <= t * (u * vlen (pos p))) by (apply Rmult_le_pos; lra). assert (0 < u * t) by (apply Rmult_lt_0_compat; lra).
  split; lra.
Qed.

(** ** No real part: a translation, without any error *)
Theorem C77_ideal : forall (B : Build) (M : machine), let FL := Flo_f32 M in forall l : line f32, line_ok l -> n4 (lv1 l) = 0 ->
  let m := line_exp l in
  ExpSeries.is_exp (mv_line (mkline (lv1 l) (lv2 l))) (mv_motor (mkmotor (map4 val (motor_p1 m)) (map4 val (motor_p2 m)))) /\ motor_p2 m = line_p2 l.
Proof.
  intros B M FL l (Fa & Fb & A0 & B0) N m.
  assert (Z : lv1 l = mk4 0 0 0 0).
  { destruct (n4_lane (lv1 l)) as (_ & Z1 & Z2 & Z3). rewrite N in Z1, Z2, Z3. assert (K : forall v, Rabs v <= 0 -> v = 0) by (intros v V; destruct (Req_dec v 0) as [|V']; [assumption|apply Rabs_pos_lt in V'; lra]).
    apply K in Z1. apply K in Z2. apply K in Z3. destruct (lv1 l) as [w x y z]. cbn [l0 l1 l2 l3] in *. congruence. }
  assert (Em : m = mkmotor (_mm_set_ss (fz 1)) (line_p2 l)).
  { unfold m, line_exp, exp_kernel. destruct l as [[w x y z] p2]. unfold lv1 in Z. cbn [line_p1] in Z. unfold map4 in Z. cbn [l0 l1 l2 l3] in Z. injection Z as Zw Zx Zy Zz. cbn [line_p1 line_p2].
    inversion_clear Fa as [|? ? Fw F1]. inversion_clear F1 as [|? ? Fx F2]. inversion_clear F2 as [|? ? Fy F3]. inversion_clear F3 as [|? ? Fz _]. destruct (fz_ok 0 ltac:(lia)) as [Fz0 Vz0].
    assert (EQ : forall p, fin p -> val p = 0 -> feqb p (fz 0) = true).
    { intros p Fp H. change (Beqb (prec:=24) (emax:=128) p (@fz f32 _ 0) = true). rewrite (Beqb_correct 24 128 p _ Fp Fz0). apply Req_bool_true. change (val p = val (@fz f32 _ 0)). rewrite H, Vz0. reflexivity. }
    assert (T : all4 (_mm_cmpeq_ps (FL := FL) (mk4 w x y z) (_mm_setzero_ps (A := @flo_arith f32 FL))) = true).
    { unfold all4, _mm_cmpeq_ps. cbn [l0 l1 l2 l3 map4_2 _mm_setzero_ps]. rewrite !andb_true_iff. repeat split; apply EQ; assumption. }
    rewrite T. reflexivity. }
  rewrite Em. cbn [motor_p1 motor_p2]. split; [|reflexivity]. rewrite Z. fold (lv2 l).
  set (rcp := fun x : R => / x). set (rsq := fun x : R => / sqrt x).
  assert (Hr : exact_rcp rcp) by (intros x X; reflexivity). assert (Hs : exact_rsqrt rsq) by (intros x X; reflexivity).
  pose proof (LogExp2.line_exp_series rcp rsq false Hr Hs (mkBuild true) (mkline (mk4 0 0 0 0) (lv2 l)) (conj eq_refl B0)) as S.
  replace (mkmotor (map4 val (_mm_set_ss (fz 1))) (lv2 l)) with (mkmotor (mk4 1 0 0 0) (lv2 l)).
  - unfold line_exp in S. cbn [line_p1 line_p2] in S. unfold exp_kernel in S.
    destruct (all4 _) eqn:Q in S; [exact S|exfalso]. revert Q. unfold all4, _mm_cmpeq_ps, _mm_setzero_ps, map4_2. cbn [l0 l1 l2 l3]. cbn. unfold Reqb. destruct (Req_EM_T 0 0) as [_|N0]; [discriminate|congruence].
  - destruct (fz_ok 0 ltac:(lia)) as [_ V0]. destruct (fz_ok 1 ltac:(lia)) as [_ V1]. unfold map4, _mm_set_ss. cbn [l0 l1 l2 l3]. f_equal. f_equal; symmetry; assumption.
Qed.

(** ** Instances *)
(** a line at unit distance from the origin, a quarter turn, a slide of one *)
Definition z_line : line f32 := mkline (mk4 f0 f0 f0 f1) (mk4 f0 f1 f0 f0).
Lemma z_line_reg : lv1 z_line = mk4 0 0 0 1 /\ lv2 z_line = mk4 0 1 0 0.
Proof. unfold lv1, lv2, z_line, map4. cbn [line_p1 line_p2 l0 l1 l2 l3]. rewrite val_f0, val_f1. split; reflexivity. Qed.
Lemma z_line_place h : screw_place h 1 (lv1 z_line) (lv2 z_line) (V 1 1 2) = V (cos h) (1 + sin h) 3.
Proof.
  destruct z_line_reg as [-> ->]. unfold screw_place. cbv zeta. assert (L : n4 (mk4 0 0 0 1) = 1) by (transitivity (sqrt 1); [unfold n4, q4; cbn [l0 l1 l2 l3]; f_equal; ring|apply sqrt_1]).
  rewrite L.
  assert (E1 : vscale (/ 1) (vpart (mk4 0 0 0 1)) = V 0 0 1) by (unfold vscale, vpart; cbn [l0 l1 l2 l3 vx vy vz]; f_equal; field).
  assert (E2 : vscale (/ (1 * 1)) (vcross (vpart (mk4 0 0 0 1)) (vpart (mk4 0 1 0 0))) = V 0 1 0) by (unfold vscale, vcross, vpart; cbn [l0 l1 l2 l3 vx vy vz]; f_equal; field).
  assert (E3 : vsub (V 1 1 2) (V 0 1 0) = V 1 0 2) by (unfold vsub; cbn [vx vy vz]; f_equal; ring).
  assert (E4 : rodrigues (V 0 0 1) (h * 1) (V 1 0 2) = V (cos h) (sin h) 2).
  { rewrite Rmult_1_r. unfold rodrigues, vadd, vscale, vcross, vdot. cbn [vx vy vz]. set (c := cos h). set (s := sin h). clearbody c s. f_equal; ring. }
  assert (E5 : 1 * 1 + h * vdot (V 0 0 1) (vpart (mk4 0 1 0 0)) = 1) by (unfold vdot, vpart; cbn [l0 l1 l2 l3 vx vy vz]; ring).
  rewrite E1, E2, E3, E4, E5. unfold vadd, vscale. cbn [vx vy vz]. f_equal; ring.
Qed.
Lemma z_line_ok : line_ok z_line.
Proof. split; [|split; [|split; reflexivity]]; repeat (apply Forall_cons; [reflexivity|]); apply Forall_nil. Qed.
Lemma z_line_len : n4 (lv1 z_line) = 1 /\ n4 (lv2 z_line) = 1.
Proof. unfold n4, q4, lv1, lv2, z_line, map4. cbn [line_p1 line_p2 l0 l1 l2 l3]. rewrite val_f0, val_f1. split; (transitivity (sqrt 1); [f_equal; ring|apply sqrt_1]). Qed.
Example C77_hypotheses : line_ok z_line /\ fin Props26.half_pi /\ fin f1 /\ / 2 ^ 40 <= n4 (lv1 z_line) <= 2 ^ 10 /\ n4 (lv2 z_line) <= 2 ^ 40 /\
  / 2 ^ 10 <= n4 (lv1 z_line) <= 2 ^ 10 /\ n4 (lv2 z_line) <= 2 ^ 18 /\ Rabs (val f1) <= 2 ^ 20 /\ / 2 ^ 32 <= Rabs (val Props26.half_pi) / 2 * n4 (lv1 z_line) <= 2 ^ 9 /\
  Rabs (val Props26.half_pi) / 2 * n4 (lv2 z_line) + Rabs (val f1) / 2 * n4 (lv1 z_line) + / 2 ^ 50 <= 2 ^ 19.
Proof.
  destruct z_line_len as [-> ->]. destruct half_pi_val as [F ->]. rewrite val_f1. split; [exact z_line_ok|]. split; [exact F|]. split; [reflexivity|]. rewrite !Rabs_pos_eq by lra.
  assert (I : forall n, (1 <= n)%nat -> / 2 ^ n <= / 2). { intros n Hn. apply Rinv_le_contravar; [lra|]. rewrite <- (pow_1 2) at 1. apply Rle_pow; [lra|exact Hn]. }
  assert (J : forall n, 1 <= 2 ^ n) by (intro n; apply pow_R1_Rle; lra). pose proof (I 40%nat ltac:(lia)). pose proof (I 10%nat ltac:(lia)). pose proof (I 32%nat ltac:(lia)). pose proof (I 50%nat ltac:(lia)).
  pose proof (J 10%nat). pose proof (J 40%nat). pose proof (J 18%nat). pose proof (J 20%nat). pose proof (J 9%nat). assert (2 ^ 19 = 524288) by ring. repeat split; lra.
Qed.
(** A rotation of 2^-30 with a slide of one: far below the rounding of its cosine. *)
Definition tiny_line : line f32 := mkline (mk4 f0 f0 f0 (f32_of 1 (-30))) (mk4 f0 f1 f0 f0).
Example C77_tiny : line_ok tiny_line /\ / 2 ^ 40 <= n4 (lv1 tiny_line) <= 2 ^ 10 /\ n4 (lv2 tiny_line) <= 2 ^ 40.
Proof.
  split; [split; [|split; [|split; reflexivity]]; repeat (apply Forall_cons; [reflexivity|]); apply Forall_nil|].
  assert (V : val (f32_of 1 (-30)) = / 2 ^ 30) by (vm_compute; lra). assert (P : 0 < / 2 ^ 30) by (apply Rinv_0_lt_compat, pow_lt; lra).
  assert (N : n4 (lv1 tiny_line) = / 2 ^ 30) by (unfold n4, q4, lv1, tiny_line, map4; cbn [line_p1 l0 l1 l2 l3]; rewrite val_f0, V; replace (_ + _) with (/ 2 ^ 30 * / 2 ^ 30) by ring; apply sqrt_square; lra).
  assert (N' : n4 (lv2 tiny_line) = 1) by exact (proj2 z_line_len). rewrite N, N'. split; [split|apply pow_R1_Rle; lra].
  - apply Rinv_le_contravar; [apply pow_lt; lra|apply Rle_pow; [lra|lia]].
  - apply (Rle_trans _ 1); [rewrite <- Rinv_1; apply Rinv_le_contravar; [lra|]|]; apply pow_R1_Rle; lra.
Qed.
(** The point (1, 1, 2) turned a quarter about that line (through (0, 1, 0), along z) and raised by one. *)
Theorem C77_quarter : forall (B : Build) (M : machine), libm_fine M -> rcp_estimate M -> rsqrt_estimate M -> let FL := Flo_f32 M in
  let q := motor_on_point (motor_screw Props26.half_pi f1 z_line) (mkpoint (mk4 f1 f1 f1 (f32_of 2 0))) in
  vlen (vsub (pos q) (V 0 2 3)) <= / 10000 /\ Rabs (wt q - 1) <= / 100000.
Proof.
  intros B M LM HR HM FL q. destruct C77_hypotheses as (OK & F & F1 & _ & _ & H1 & H2 & H3 & H4 & H5).
  assert (V2 : val (f32_of 2 0) = 2) by (vm_compute; lra).
  set (p := mkpoint (mk4 f1 f1 f1 (f32_of 2 0))) in *.
  assert (Hp : Forall (bounded 20) (coefs (k := KPoint) p)).
  { assert (bounded 20 f1) by (split; [reflexivity|]; rewrite val_f1, Rabs_R1; cbn; lra). assert (bounded 20 (f32_of 2 0)) by (split; [reflexivity|]; rewrite V2, Rabs_pos_eq by lra; cbn; lra). repeat (apply Forall_cons; [assumption|]); apply Forall_nil. }
  assert (Pp : pos p = V 1 1 2) by (unfold pos, p; cbn [point_p3 l1 l2 l3]; rewrite val_f1, V2; reflexivity).
  destruct (C77_place B M LM HR HM Props26.half_pi f1 z_line p OK F F1 H1 H2 H3 H4 H5 Hp val_f1) as [E1 E2]. fold FL in E1, E2. fold q in E1, E2. cbv zeta in E1, E2.
  destruct z_line_len as [L1 L2]. destruct half_pi_val as [_ Vh]. rewrite L1, L2, Vh, val_f1, Pp, u_pow in *. rewrite (Rabs_pos_eq (13176795 / 8388608)) in E1, E2 by lra. rewrite (Rabs_pos_eq 1) in E1 by lra.
  assert (XL : vlen (V 1 1 2) <= 3). { unfold vlen, vdot. cbn [vx vy vz]. apply Rsqr_incr_0_var; [|lra]. rewrite Rsqr_sqrt by lra. unfold Rsqr. lra. }
  assert (I50 : / 2 ^ 50 <= / 2). { apply Rinv_le_contravar; [lra|]. rewrite <- (pow_1 2) at 1. apply Rle_pow; [lra|lia]. }
  split; [|unfold u in E2; lra].
  eapply Rle_trans; [apply (vlen_via _ (screw_place (13176795 / 8388608) 1 (lv1 z_line) (lv2 z_line) (V 1 1 2)))|].
  rewrite z_line_place in E1 |- *. set (h := 13176795 / 8388608) in *. assert (Hh : Rabs (h - PI / 2) <= / 1000000) by (unfold h; pose proof PI_bounds; apply Rabs_le; lra).
  assert (SL : vlen (vsub (V (cos h) (1 + sin h) 3) (V 0 2 3)) <= / 100000).
  { clearbody h. replace (vsub (V (cos h) (1 + sin h) 3) (V 0 2 3)) with (V (cos h - cos (PI / 2)) (sin h - sin (PI / 2)) 0) by (unfold vsub; cbn [vx vy vz]; rewrite cos_PI2, sin_PI2; f_equal; ring).
    pose proof (cos_lip h (PI / 2)) as C1. pose proof (sin_lip h (PI / 2)) as S1.
    unfold vlen, vdot. cbn [vx vy vz]. set (c := cos _ - cos _) in *. set (s := sin _ - sin _) in *. apply Rsqr_incr_0_var; [|lra]. rewrite Rsqr_sqrt.
    - assert (c * c <= / 1000000 * / 1000000). { rewrite <- (Rabs_pos_eq (c * c)), Rabs_mult by apply Rle_0_sqr. apply Rmult_le_compat; try apply Rabs_pos; lra. }
      assert (s * s <= / 1000000 * / 1000000). { rewrite <- (Rabs_pos_eq (s * s)), Rabs_mult by apply Rle_0_sqr. apply Rmult_le_compat; try apply Rabs_pos; lra. }
      unfold Rsqr. lra.
    - pose proof (Rle_0_sqr c) as Q1. pose proof (Rle_0_sqr s) as Q2. unfold Rsqr in Q1, Q2. lra. }
  clear E2 Hh. subst h. set (X := vlen (V 1 1 2)) in *. set (s50 := / 2 ^ 50) in *. clearbody X s50. unfold u in E1. lra.
Qed.

Print Assumptions C77_exp.
Print Assumptions C77_ideal.
Print Assumptions C77_screw.
Print Assumptions C77_place.
Print Assumptions C77_quarter.
