(** Property C78: the logarithm of a motor in binary32, and its exponential. *)
From Coq Require Import ZArith Reals List Bool Lra Lia Psatz.
From Flocq Require Import Core BinarySingleNaN.
From Verif Require Import AlgTac SpecMass FloatMass Closed FloR Euler LogExp ExpSeries KernelExpLog ExpLog LogExp2 Float32 FloatFacts ExprSyntax FloatErr FloatAbs FloatApx FloatNR FloatNorm FloatIdeal FloatLibm Props11 Props21 Props22 SpecGeom Props23 Props24 Props26 Props27 Props28.
Import ListNotations.
Local Open Scope R_scope.

(** ** The arc tangent *)
Lemma atan_low x : 0 < x -> x / (1 + x ^ 2) <= atan x.
Proof.
  intro X. destruct (MVT_cor2 atan (fun c => / (1 + c ^ 2)) 0 x X) as (c & E & [C1 C2]); [intros c _; apply derivable_pt_lim_atan|].
  rewrite atan_0, !Rminus_0_r in E. rewrite E. unfold Rdiv. rewrite Rmult_comm. apply Rmult_le_compat_r; [lra|].
  assert (c ^ 2 <= x ^ 2) by (apply pow_incr; lra). assert (0 <= c ^ 2) by (apply pow_le; lra). apply Rinv_le_contravar; lra.
Qed.
Lemma atan_gap y z d : 0 < y <= z -> 0 <= d -> z - y <= d * y -> 0 <= atan z - atan y <= d * atan y.
Proof.
  intros [Y YZ] D H. assert (A0 : 0 < atan y) by (rewrite <- atan_0; apply atan_increasing; lra).
  destruct YZ as [YZ|<-]; [|split; [lra|]; rewrite Rminus_diag_eq by reflexivity; apply Rmult_le_pos; lra].
  split; [left; pose proof (atan_increasing y z YZ); lra|].
  destruct (MVT_cor2 atan (fun c => / (1 + c ^ 2)) y z YZ) as (c & E & [C1 C2]); [intros c _; apply derivable_pt_lim_atan|]. rewrite E.
  assert (0 <= y ^ 2) by (apply pow_le; lra). assert (y ^ 2 <= c ^ 2) by (apply pow_incr; lra).
  assert (I : 0 < / (1 + c ^ 2) <= / (1 + y ^ 2)) by (split; [apply Rinv_0_lt_compat; lra|apply Rinv_le_contravar; lra]).
  apply (Rle_trans _ (/ (1 + y ^ 2) * (d * y))); [apply Rmult_le_compat; lra|].
  replace (/ (1 + y ^ 2) * (d * y)) with (d * (y / (1 + y ^ 2))) by (unfold Rdiv; ring). apply Rmult_le_compat_l; [exact D|apply atan_low; exact Y].
Qed.
Lemma atan_rel x x' d : 0 < x -> 0 <= d <= / 1000 -> Rabs (x' - x) <= d * x -> Rabs (atan x' - atan x) <= 1002 / 1000 * d * atan x.
Proof.
  intros X D H. apply Rabs_le_inv in H. assert (A0 : 0 < atan x) by (rewrite <- atan_0; apply atan_increasing; lra).
  assert (dx : d * x <= / 1000 * x) by (apply Rmult_le_compat_r; lra).
  assert (dA : 0 <= d * atan x) by (apply Rmult_le_pos; lra).
  destruct (Rle_or_lt x x') as [L|L].
  - destruct (atan_gap x x' d) as [G1 G2]; [lra|lra|lra|]. rewrite Rabs_pos_eq by exact G1. lra.
  - destruct (atan_gap x' x (1002 / 1000 * d)) as [G1 G2]; [lra|lra| |].
    + assert (d * x' >= d * ((1 - / 1000) * x)) by (apply Rle_ge, Rmult_le_compat_l; lra). lra.
    + rewrite Rabs_minus_sym, Rabs_pos_eq by exact G1. eapply Rle_trans; [exact G2|]. apply Rmult_le_compat_l; [lra|]. left. apply atan_increasing. exact L.
Qed.
Lemma atan2_rel s s' p d : 0 < s -> p <> 0 -> 0 <= d <= / 1000 -> Rabs (s' - s) <= d * s -> 0 < s' /\ Rabs (Ratan2 s' p - Ratan2 s p) <= 1002 / 1000 * d * Ratan2 s p.
Proof.
  intros S P D H. assert (ds : d * s <= / 1000 * s) by (apply Rmult_le_compat_r; lra). assert (S' : 0 < s') by (apply Rabs_le_inv in H; lra). split; [exact S'|].
  assert (R : forall q, 0 < q -> Rabs (atan (s' / q) - atan (s / q)) <= 1002 / 1000 * d * atan (s / q)).
  { intros q Q. apply atan_rel; [apply Rdiv_lt_0_compat; lra|exact D|]. assert (iq : 0 < / q) by (apply Rinv_0_lt_compat; exact Q).
    replace (s' / q - s / q) with ((s' - s) * / q) by (unfold Rdiv; ring). rewrite Rabs_mult, (Rabs_pos_eq (/ q)) by lra. unfold Rdiv. rewrite <- Rmult_assoc. apply Rmult_le_compat_r; lra. }
  unfold Ratan2. destruct (Rlt_dec 0 p) as [Pp|Pn]; [apply R; exact Pp|]. destruct (Rlt_dec p 0) as [Pm|Pz]; [|exfalso; lra].
  destruct (Rle_dec 0 s') as [_|Z]; [|exfalso; lra]. destruct (Rle_dec 0 s) as [_|Z]; [|exfalso; lra].
  specialize (R (- p) ltac:(lra)).
  assert (E : forall t, atan (t / p) = - atan (t / - p)) by (intro t; rewrite <- atan_opp; f_equal; field; lra). rewrite !E.
  replace (- atan (s' / - p) + PI - (- atan (s / - p) + PI)) with (- (atan (s' / - p) - atan (s / - p))) by ring. rewrite Rabs_Ropp.
  eapply Rle_trans; [exact R|]. apply Rmult_le_compat_l; [lra|]. pose proof (atan_bound (s / - p)). lra.
Qed.
(** the angle of a pair is that of its cosine *)
Lemma atan2_acos s p N : 0 < s -> 0 < N -> N * N = p * p + s * s -> Ratan2 s p = acos (p / N).
Proof.
  intros S Np Q. assert (iN : 0 < / N) by (apply Rinv_0_lt_compat; exact Np). rewrite <- (atan2_scale (/ N) s p iN).
  assert (H : / N * p * (/ N * p) + / N * s * (/ N * s) = 1) by (replace (/ N * p * (/ N * p) + / N * s * (/ N * s)) with ((p * p + s * s) / (N * N)) by (field; lra); rewrite <- Q; field; lra).
  destruct (atan2_unit _ _ H) as (U & C & _); [apply Rmult_lt_0_compat; lra|].
  rewrite <- (acos_cos (Ratan2 (/ N * s) (/ N * p))) by lra. rewrite C. f_equal. unfold Rdiv. ring.
Qed.

(** ** The library functions *)
(** [std::atan2], beside what [libm_fine] says of the others: relative error of one unit in
    the last place for positive first arguments. *)
Definition libm_log (M : machine) : Prop := libm_fine M /\
  forall y x : f32, fin y -> fin x -> 0 < val y -> val x <> 0 ->
    fin (m_atan2 M y x) /\ Rabs (val (m_atan2 M y x) - Ratan2 (val y) (val x)) <= 2 * / 2 ^ 24 * Rabs (Ratan2 (val y) (val x)) + eta.
Lemma libm_log_exists : exists M, libm_log M /\ rcp_estimate M /\ rsqrt_estimate M.
Proof.
  destruct libm_fine_exists as (M & ((LM & SM & AM) & HR & HS)).
  exists (mkmachine (m_rcp M) (m_rsqrt M) (m_sin M) (m_cos M) (m_asin M) (m_acos M) (fun y x => of_R (Ratan2 (val y) (val x)))).
  split; [|split; [exact HR|exact HS]]. split; [exact (conj LM (conj SM AM))|]. intros y x Fy Fx Y X. cbn [m_atan2]. pose proof u_small as U. rewrite u_pow.
  pose proof (atan2_range (val y) (val x)) as R. pose proof PI_bounds as P. set (a := Ratan2 (val y) (val x)) in *.
  assert (L : Rabs a <= 4) by (apply Rabs_le; lra).
  destruct (of_R_ok a) as [F V]; [eapply Rle_trans; [exact L|]; change 4 with (bpow radix2 2); apply bpow_le; lia|]. split; [exact F|]. rewrite V. pose proof (rnd_any a).
  assert (0 <= u * Rabs a) by (apply Rmult_le_pos; [lra|apply Rabs_pos]). lra.
Qed.

(** ** The exact logarithm *)
(** Along the axis by half the angle ([exact_log], C76), with the moment that goes with it. *)
Definition exact_mlog (p1 p2 : m128 R) : line R :=
  let a := biv4 p1 in let b := biv4 p2 in let s := n4 a in let k := acos (l0 p1 / n4 p1) / s in
  mkline (exact_log p1) (add4 (scale4 k b) (scale4 (q4 a b / (s * s) * (/ l0 p1 - k)) a)).
(** The motor of unit length with the same rotation and the same ideal part; its scalar is the
    one that the others allow. *)
Definition repaired (p1 p2 : m128 R) : motor R :=
  mkmotor (scale4 (/ n4 p1) p1) (scale4 (/ n4 p1) (mk4 (q4 (biv4 p1) (biv4 p2) / l0 p1) (l1 p2) (l2 p2) (l3 p2))).
Lemma exact_mlog_exp p1 p2 : l0 p1 <> 0 -> 0 < n4 (biv4 p1) -> let l := exact_mlog p1 p2 in exact_exp (line_p1 l) (line_p2 l) = repaired p1 p2.
Proof.
  intros P S l. destruct (biv_facts p1 S) as (Np & Cn & Tn & Ct & St). pose proof (exact_log_len _ S) as LL.
  unfold l, exact_mlog, exact_exp. cbn [line_p1 line_p2]. rewrite LL. set (U := acos (l0 p1 / n4 p1)) in *. rewrite Ct, St. unfold exact_log. fold U.
  set (s := n4 (biv4 p1)) in *. set (N := n4 p1) in *. set (g := q4 (biv4 p1) (biv4 p2)).
  assert (Ss : q4 (biv4 p1) (biv4 p1) = s * s) by (unfold s; rewrite n4_sq; reflexivity).
  assert (Gq : q4 (scale4 (U / s) (biv4 p1)) (add4 (scale4 (U / s) (biv4 p2)) (scale4 (g / (s * s) * (/ l0 p1 - U / s)) (biv4 p1))) = U * g / (s * l0 p1)).
  { transitivity (U / s * (U / s * g + g / (s * s) * (/ l0 p1 - U / s) * q4 (biv4 p1) (biv4 p1))).
    - unfold g, q4, scale4, add4, map4. cbn [l0 l1 l2 l3]. ring.
    - rewrite Ss. field. repeat split; try lra. }
  rewrite Gq. unfold repaired. fold N g. unfold scale4, add4, map4, biv4. cbn [l0 l1 l2 l3]. clearbody g U. f_equal; f_equal; field; repeat split; lra.
Qed.
Lemma mlog_lane p1 p2 : l0 (line_p1 (exact_mlog p1 p2)) = 0 /\ l0 (line_p2 (exact_mlog p1 p2)) = 0.
Proof. split; unfold exact_mlog, exact_log, add4, scale4, map4, biv4; cbn [line_p1 line_p2 l0]; ring. Qed.
Lemma repaired_unit p1 p2 : 0 < n4 p1 -> n4 (motor_p1 (repaired p1 p2)) = 1.
Proof. intro N. apply unit_of. exact N. Qed.
(** Nothing is repaired in a normalized motor. *)
Lemma repaired_same p1 p2 : n4 p1 = 1 -> l0 p1 <> 0 -> l0 p1 * l0 p2 = q4 (biv4 p1) (biv4 p2) -> repaired p1 p2 = mkmotor p1 p2.
Proof.
  intros N P Q. unfold repaired. rewrite N, <- Q. destruct p1 as [c x y z], p2 as [q x' y' z']. unfold scale4, map4. cbn [l0 l1 l2 l3] in *. f_equal; f_equal; field; exact P.
Qed.

(** ** The computed logarithm *)
Lemma one_mul (x : f32) : fin x -> Rabs (val x) <= big -> fin (fmul (fz 1) x) /\ val (fmul (fz 1) x) = val x.
Proof.
  intros F L. destruct (fz_ok 1 ltac:(lia)) as [F1 V1].
  destruct (mul_ok (fz 1) x F1 F) as [G V]; [rewrite V1, Rmult_1_l; exact L|]. split; [exact G|]. rewrite V, V1, Rmult_1_l. apply round_generic; [typeclasses eauto|apply val_format].
Qed.
Lemma neg_mul (x : f32) : fin x -> Rabs (val x) <= big -> fin (fmul x (fz (-1))) /\ val (fmul x (fz (-1))) = - val x.
Proof.
  intros F L. destruct (fz_ok (-1) ltac:(lia)) as [F1 V1].
  destruct (mul_ok x (fz (-1)) F F1) as [G V]; [rewrite V1; replace (val x * -1) with (- val x) by ring; rewrite Rabs_Ropp; exact L|]. split; [exact G|]. rewrite V, V1. replace (val x * -1) with (- val x) by ring.
  apply round_generic; [typeclasses eauto|apply generic_format_opp; apply val_format].
Qed.
Lemma ap_div k s v m p : ap k s v m -> fin p -> val p <> 0 -> 0 <= k <= 10000 -> mag (m * / Rabs (val p)) -> ap (k + 11 / 10) (Bdiv mode_NE s p) (v / val p) (m * / Rabs (val p)).
Proof.
  intros H Fp P K G. pose proof (ap_le _ _ _ _ H) as L. destruct H as (F & E & V). pose proof (ku_small k K) as Q. pose proof u_small as U.
  assert (iP : 0 < / Rabs (val p)) by (apply Rinv_0_lt_compat, Rabs_pos_lt; exact P). set (M := m * / Rabs (val p)) in *. pose proof (mag_pos M G) as M0.
  assert (A : forall x, Rabs (x / val p) = Rabs x * / Rabs (val p)) by (intro x; unfold Rdiv; rewrite Rabs_mult, Rabs_inv; reflexivity).
  assert (L' : Rabs (val s / val p) <= (1 + k * u) * M) by (rewrite A; unfold M; rewrite <- Rmult_assoc; apply Rmult_le_compat_r; lra).
  assert (L2 : (1 + k * u) * M <= 4 * M) by (apply Rmult_le_compat_r; lra).
  destruct (div_ok s p F P) as [Fd Vd]; [pose proof (mag_big M G); lra|]. split; [exact Fd|]. split; [|rewrite A; unfold M; apply Rmult_le_compat_r; lra].
  pose proof (rnd_any (val s / val p)) as R. rewrite <- Vd in R.
  assert (D : Rabs (val s / val p - v / val p) <= k * u * M) by (replace (val s / val p - v / val p) with ((val s - v) / val p) by (field; exact P); rewrite A; unfold M; rewrite <- Rmult_assoc; apply Rmult_le_compat_r; lra).
  assert (uR : u * Rabs (val s / val p) <= u * ((1 + / 1000) * M)) by (apply Rmult_le_compat_l; [lra|]; eapply Rle_trans; [exact L'|]; apply Rmult_le_compat_r; lra).
  pose proof (mag_eta M G). assert (0 < u * M) by (apply Rmult_lt_0_compat; lra).
  replace (val (Bdiv mode_NE s p) - v / val p) with ((val (Bdiv mode_NE s p) - val s / val p) + (val s / val p - v / val p)) by ring. eapply Rle_trans; [apply Rabs_triang|]. lra.
Qed.
(** sums of vectors of different magnitude *)
Lemma vap_pm2 (b : bool) k x y z x' y' z' e e' m m' : vap k x y z e m -> vap k x' y' z' e' m' -> 0 <= k <= 5000 -> mag (m + m') ->
  vap (k + 11 / 10) (plus_minus b x x') (plus_minus b y y') (plus_minus b z z') (pm4 b e e') (m + m').
Proof.
  intros (Fx & Fy & Fz & Z & E & V) (Fx' & Fy' & Fz' & Z' & E' & V') K G. pose proof (mag_pos _ G) as m0. set (mm := m + m') in *.
  assert (Ks : 0 <= k <= 10000) by lra. pose proof (ku_small k Ks) as Q. pose proof u_small as U. pose proof eta_pos as T0.
  assert (N : n4 (pm4 b e e') <= mm).
  { unfold mm. destruct b; cbn [pm4]; [eapply Rle_trans; [apply n4_add|lra]|].
    replace (sub4 e e') with (add4 e (scale4 (-1) e')) by (unfold sub4, add4, scale4, map4; cbn [l0 l1 l2 l3]; f_equal; ring). eapply Rle_trans; [apply n4_add|].
    rewrite n4_scale_abs, Rabs_left by lra. lra. }
  set (o := axis x y z) in *. set (o' := axis x' y' z') in *. pose proof (n4_pm b o o' e e') as D.
  assert (DD : n4 (sub4 (pm4 b o o') (pm4 b e e')) <= k * u * mm) by (unfold mm; lra).
  assert (S : n4 (pm4 b o o') <= (1 + k * u) * mm) by (pose proof (n4_tri (pm4 b o o') (pm4 b e e')); lra).
  assert (S' : (1 + k * u) * mm <= (1 + / 500) * mm) by (apply Rmult_le_compat_r; lra).
  pose proof (mag_big mm G) as Bg.
  destruct (n4_lane (pm4 b o o')) as (_ & X1 & X2 & X3).
  assert (LANE : forall p p', fin p -> fin p' -> Rabs (if b then val p + val p' else val p - val p') <= n4 (pm4 b o o') ->
    fin (plus_minus b p p') /\ Rabs (val (plus_minus b p p') - (if b then val p + val p' else val p - val p')) <= u * Rabs (if b then val p + val p' else val p - val p') + eta).
  { intros p p' Fp Fp' L. apply pm_any; [exact Fp|exact Fp'|]. lra. }
  destruct (LANE x x' Fx Fx') as [F1 E1]; [destruct b; exact X1|]. destruct (LANE y y' Fy Fy') as [F2 E2]; [destruct b; exact X2|]. destruct (LANE z z' Fz Fz') as [F3 E3]; [destruct b; exact X3|].
  repeat (split; [assumption|]). split; [destruct b; cbn [pm4 add4 sub4 l0]; rewrite Z, Z'; ring|]. split; [|exact N].
  eapply Rle_trans; [apply (n4_via _ (pm4 b o o'))|].
  assert (D1 : n4 (sub4 (axis (plus_minus b x x') (plus_minus b y y') (plus_minus b z z')) (pm4 b o o')) <= u * n4 (pm4 b o o') + 2 * eta).
  { apply n4_lanes; [lra|lra| | | |]; destruct b; unfold o, o', pm4, add4, sub4, axis; cbn [l0 l1 l2 l3]; try assumption; rewrite ?Rplus_0_r, ?Rminus_0_r, Rabs_R0; lra. }
  assert (u * n4 (pm4 b o o') <= u * ((1 + / 500) * mm)) by (apply Rmult_le_compat_l; lra).
  pose proof (mag_eta _ G) as Et. assert (0 < u * mm) by (apply Rmult_lt_0_compat; lra). lra.
Qed.
(** the angle *)
Lemma atan2_ap M S p s : libm_log M -> ap (91 / 10) S s s -> 0 < s -> fin p -> val p <> 0 -> mag (Ratan2 s (val p)) ->
  ap (113 / 10) (m_atan2 M S p) (Ratan2 s (val p)) (Ratan2 s (val p)).
Proof.
  intros [_ AM] (FS & ES & _) S0 Fp P G. pose proof (mag_pos _ G) as A0. pose proof (mag_eta _ G) as Et. pose proof u_small as U. set (a := Ratan2 s (val p)) in *.
  destruct (atan2_rel s (val S) (val p) (91 / 10 * u) S0 P ltac:(lra) ES) as [SS R]. fold a in R. destruct (AM S p FS Fp SS P) as [F E]. rewrite u_pow in E. set (a' := Ratan2 (val S) (val p)) in *.
  split; [exact F|]. rewrite (Rabs_pos_eq a) by lra. split; [|lra].
  assert (ua : 0 < u * a) by (apply Rmult_lt_0_compat; lra). assert (uua : u * (u * a) <= / 1000000 * (u * a)) by (apply Rmult_le_compat_r; lra).
  assert (La : Rabs a' <= a + 1002 / 1000 * (91 / 10 * u) * a) by (replace a' with (a + (a' - a)) by ring; eapply Rle_trans; [apply Rabs_triang|]; rewrite (Rabs_pos_eq a) by lra; lra).
  assert (ul : u * Rabs a' <= u * (a + 1002 / 1000 * (91 / 10 * u) * a)) by (apply Rmult_le_compat_l; lra).
  replace (val (m_atan2 M S p) - a) with ((val (m_atan2 M S p) - a') + (a' - a)) by ring. eapply Rle_trans; [apply Rabs_triang|]. lra.
Qed.
Lemma not_tiny (p : f32) : fin p -> / 2 ^ 19 <= Rabs (val p) -> Bltb (Babs p) f1em6 = false.
Proof.
  intros F L. assert (Fe : fin f1em6) by reflexivity. assert (Fa : fin (Babs p)) by (unfold fin; rewrite is_finite_Babs; exact F).
  rewrite (Bltb_correct 24 128 _ _ Fa Fe). rewrite B2R_Babs. apply Rlt_bool_false. fold (val p) (val f1em6). eapply Rle_trans; [|exact L].
  assert (V : val f1em6 = 8796094 / 8796093022208) by (vm_compute; lra). rewrite V. replace (/ 2 ^ 19) with (/ 524288) by (f_equal; ring). lra.
Qed.

Theorem C78_log : forall (B : Build) (M : machine), libm_log M -> rcp_estimate M -> rsqrt_estimate M -> let FL := Flo_f32 M in forall m : motor f32,
  let p1 := map4 val (motor_p1 m) in let p2 := map4 val (motor_p2 m) in Forall fin (reg_list (motor_p1 m) ++ reg_list (motor_p2 m)) ->
  let s := n4 (biv4 p1) in let d := n4 (biv4 p2) in / 2 ^ 40 <= s <= 2 ^ 10 -> / 2 ^ 19 <= Rabs (l0 p1) <= 2 ^ 10 -> d <= 2 ^ 16 ->
  let l := motor_log m in let e := exact_mlog p1 p2 in let h := acos (l0 p1 / n4 p1) in
  (** e is a logarithm, of length less than half a turn *)
  ExpSeries.is_exp (mv_line e) (mv_motor (repaired p1 p2)) /\ n4 (line_p1 e) = h /\ 0 < h < PI /\
  line_ok l /\
  n4 (sub4 (lv1 l) (line_p1 e)) <= 22 * / 2 ^ 24 * h /\
  n4 (sub4 (lv2 l) (line_p2 e)) <= 48 * / 2 ^ 24 * ((d + / 2 ^ 60) * (h / s + / Rabs (l0 p1))).
Proof.
  intros B M LM HR HM FL m p1 p2 FA s d L Lp Ld l e h.
  assert (P20 : bpow radix2 (-40) = / 2 ^ 40) by (cbn; f_equal; ring). assert (P19 : bpow radix2 (-19) = / 2 ^ 19) by (cbn; f_equal; ring). assert (P60 : bpow radix2 (-60) = / 2 ^ 60) by (cbn; f_equal; ring). assert (P10 : bpow radix2 10 = 2 ^ 10) by (cbn; ring). assert (P16 : bpow radix2 16 = 2 ^ 16) by (cbn; ring).
  pose proof (proj1 Lp) as Lp'. rewrite <- P20, <- P10 in L. rewrite <- P19, <- P10 in Lp. rewrite <- P16 in Ld. rewrite <- P60, u_pow. clear P20 P19 P60 P10 P16.
  pose proof (bpow_gt_0 radix2 (-40)) as G20. pose proof (bpow_gt_0 radix2 (-19)) as G19. assert (S0 : 0 < s) by lra.
  assert (Pn : l0 p1 <> 0) by (intro Z; rewrite Z, Rabs_R0 in Lp; lra).
  destruct (biv_facts p1 S0) as (Np & Cn & Tn & Ct & St). pose proof (exact_log_len _ S0) as LL. pose proof (mlog_lane p1 p2) as [Le1 Le2]. pose proof (exact_mlog_exp p1 p2 Pn S0) as EX. cbv zeta in EX. fold e in Le1, Le2, EX. fold h in Tn, Ct, St, LL. fold s in St.
  assert (AH : Ratan2 s (l0 p1) = h).
  { apply atan2_acos; [exact S0|exact Np|]. unfold s. rewrite !n4_sq. unfold q4, biv4. cbn [l0 l1 l2 l3]. ring. }
  change (exact_log p1) with (line_p1 e) in LL.
  split; [rewrite <- EX; replace e with (mkline (line_p1 e) (line_p2 e)) at 1 by reflexivity; apply exact_exp_series; [exact Le1|exact Le2|rewrite LL; lra]|].
  split; [exact LL|]. split; [exact Tn|].
  pose proof u_small as U0. pose proof eta_pos as E0.
  destruct m as [[c x0 y0 z0] [q x0' y0' z0']]. cbn [motor_p1 motor_p2] in *.
  inversion_clear FA as [|? ? Fc F1]. inversion_clear F1 as [|? ? Fx0 F2]. inversion_clear F2 as [|? ? Fy0 F3]. inversion_clear F3 as [|? ? Fz0' F4].
  inversion_clear F4 as [|? ? Fq F5]. inversion_clear F5 as [|? ? Fxb F6]. inversion_clear F6 as [|? ? Fyb F7]. inversion_clear F7 as [|? ? Fzb _].
  change (l0 p1) with (val c) in *.
  assert (BG : forall v k, Rabs v <= bpow radix2 k -> (k <= 127)%Z -> Rabs v <= big) by (intros v k V K; eapply Rle_trans; [exact V|]; apply bpow_le; exact K).
  destruct (n4_lane (biv4 p1)) as (_ & N1 & N2 & N3). fold s in N1, N2, N3. destruct (n4_lane (biv4 p2)) as (_ & N1' & N2' & N3'). fold d in N1', N2', N3'.
  unfold p1, p2, biv4, map4 in N1, N2, N3, N1', N2', N3'. cbn [l0 l1 l2 l3] in N1, N2, N3, N1', N2', N3'.
  destruct (one_mul x0 Fx0) as [Fx Vx]; [apply (BG _ 10%Z); [lra|lia]|]. destruct (one_mul y0 Fy0) as [Fy Vy]; [apply (BG _ 10%Z); [lra|lia]|]. destruct (one_mul z0 Fz0') as [Fz Vz]; [apply (BG _ 10%Z); [lra|lia]|].
  destruct (one_mul x0' Fxb) as [Fx' Vx']; [apply (BG _ 16%Z); [lra|lia]|]. destruct (one_mul y0' Fyb) as [Fy' Vy']; [apply (BG _ 16%Z); [lra|lia]|]. destruct (one_mul z0' Fzb) as [Fz' Vz']; [apply (BG _ 16%Z); [lra|lia]|].
  destruct (fz_ok 0 ltac:(lia)) as [Fz0 Vz0].
  destruct (zero_lane c (fz 0) Fc Fz0 Vz0) as (_ & _ & Fw & Zw). destruct (zero_lane q (fz 0) Fq Fz0 Vz0) as (_ & _ & Fw' & Zw').
  assert (El : l = (let '(r1, r2) := log_kernel (mk4 c x0 y0 z0) (mk4 q x0' y0' z0') in mkline r1 r2)) by reflexivity.
  set (x := fmul (fz 1) x0) in *. set (y := fmul (fz 1) y0) in *. set (z := fmul (fz 1) z0) in *. set (w := fmul (fz 0) c) in *.
  set (x' := fmul (fz 1) x0') in *. set (y' := fmul (fz 1) y0') in *. set (z' := fmul (fz 1) z0') in *. set (w' := fmul (fz 0) q) in *.
  assert (Ea : biv4 p1 = axis x y z) by (unfold biv4, p1, axis, map4; cbn [l0 l1 l2 l3]; rewrite Vx, Vy, Vz; reflexivity).
  assert (Eb : biv4 p2 = axis x' y' z') by (unfold biv4, p2, axis, map4; cbn [l0 l1 l2 l3]; rewrite Vx', Vy', Vz'; reflexivity).
  set (a := biv4 p1) in *. set (b := biv4 p2) in *. set (be := d + bpow radix2 (-60)). assert (Nb : 0 <= d) by apply n4_pos. pose proof (bpow_gt_0 radix2 (-60)) as G60.
  assert (A0 : l0 a = 0) by reflexivity. assert (B0 : l0 b = 0) by reflexivity.
  (* magnitudes *)
  assert (is : 0 < / s) by (apply Rinv_0_lt_compat; exact S0).
  assert (isl : bpow radix2 (-10) <= / s <= bpow radix2 40).
  { split; [change (-10)%Z with (- (10))%Z|change 40%Z with (- (-40))%Z]; rewrite bpow_opp; apply Rinv_le_contravar; lra. }
  assert (ic : 0 < / Rabs (val c)) by (apply Rinv_0_lt_compat; lra).
  assert (icl : bpow radix2 (-10) <= / Rabs (val c) <= bpow radix2 19).
  { split; [change (-10)%Z with (- (10))%Z|change 19%Z with (- (-19))%Z]; rewrite bpow_opp; apply Rinv_le_contravar; lra. }
  assert (bel : bpow radix2 (-60) <= be <= bpow radix2 17).
  { unfold be. split; [lra|]. replace (bpow radix2 17) with (2 * bpow radix2 16) by (cbn; lra). assert (bpow radix2 (-60) <= bpow radix2 16) by (apply bpow_le; lia). lra. }
  assert (be0 : 0 < be) by lra.
  assert (NN : bpow radix2 (-11) <= / n4 p1).
  { change (-11)%Z with (- (11))%Z. rewrite bpow_opp. apply Rinv_le_contravar; [exact Np|]. destruct p1 as [v0 v1 v2 v3] eqn:Ep. pose proof (n4_split v0 v1 v2 v3) as SP. change (mk4 0 v1 v2 v3) with a in SP. fold s in SP.
    assert (Ev : v0 = val c) by (change v0 with (l0 (mk4 v0 v1 v2 v3)); rewrite <- Ep; reflexivity). rewrite Ev in SP at 2. replace (bpow radix2 11) with (2 * bpow radix2 10) by (cbn; lra). lra. }
  pose proof (bpow_gt_0 radix2 (-11)) as G11. pose proof PI_bounds as PB.
  assert (hs : / n4 p1 <= h * / s).
  { assert (X : sin h <= h) by (apply sin_le_x; lra). rewrite St in X. apply (Rmult_le_reg_r s); [exact S0|]. rewrite Rmult_assoc, Rinv_l by lra. unfold Rdiv in X. lra. }
  assert (hl : bpow radix2 (-51) <= h <= bpow radix2 2).
  { split; [|cbn; lra]. replace h with (h * / s * s) by (field; lra). change (-51)%Z with (-11 + -40)%Z. rewrite bpow_plus. apply Rmult_le_compat; lra. }
  assert (hsl : bpow radix2 (-11) <= h * / s <= bpow radix2 42).
  { split; [lra|]. change 42%Z with (2 + 40)%Z. rewrite bpow_plus. apply Rmult_le_compat; lra. }
  assert (RNG : forall p q e1 e2 f1 f2, bpow radix2 e1 <= p <= bpow radix2 e2 -> bpow radix2 f1 <= q <= bpow radix2 f2 -> bpow radix2 (e1 + f1) <= p * q <= bpow radix2 (e2 + f2)).
  { intros p q' e1 e2 f1 f2 [X X'] [Y Y']. pose proof (bpow_gt_0 radix2 e1). pose proof (bpow_gt_0 radix2 f1). rewrite !bpow_plus. split; apply Rmult_le_compat; lra. }
  assert (MAG : forall p e f, bpow radix2 e <= p <= bpow radix2 f -> (-112 <= e)%Z -> (f <= 122)%Z -> mag p).
  { intros p e' f [X Y] H1 H2. split; [eapply Rle_trans; [|exact X]|eapply Rle_trans; [exact Y|]]; apply bpow_le; assumption. }
  assert (B1 : bpow radix2 0 <= 1 <= bpow radix2 0) by (cbn; lra).
  pose proof (RNG _ _ _ _ _ _ isl isl) as R2. pose proof (RNG _ _ _ _ _ _ isl R2) as R3. pose proof (RNG _ _ _ _ _ _ L bel) as RTB. pose proof (RNG _ _ _ _ _ _ bel R2) as RTB3.
  replace (be * (/ s * / s)) with (s * be * (/ s * (/ s * / s))) in RTB3 by (field; lra).
  pose proof (RNG _ _ _ _ _ _ bel isl) as RBI. pose proof (RNG _ _ _ _ _ _ bel icl) as RBC. pose proof (RNG _ _ _ _ _ _ bel hsl) as RBH.
  (* the branches taken *)
  assert (NZ : all4 (_mm_cmpeq_ps (FL := FL) (mk4 w x y z) (_mm_setzero_ps (A := @flo_arith f32 FL))) = false).
  { destruct (all4 _) eqn:Z; [exfalso|reflexivity]. unfold all4, _mm_cmpeq_ps in Z. cbn [l0 l1 l2 l3 map4_2 _mm_setzero_ps] in Z. rewrite !andb_true_iff in Z. destruct Z as [[[_ Z1] Z2] Z3].
    assert (EQ : forall p, fin p -> feqb p (fz 0) = true -> val p = 0).
    { intros p Fp H. change (Beqb (prec:=24) (emax:=128) p (@fz f32 _ 0) = true) in H. rewrite (Beqb_correct 24 128 p _ Fp Fz0) in H. apply Req_bool_true_inv in H || (revert H; case Req_bool_spec; intros; [|discriminate]). rewrite <- Vz0. assumption. }
    apply EQ in Z1; [|assumption]. apply EQ in Z2; [|assumption]. apply EQ in Z3; [|assumption].
    assert (s = 0); [|lra]. unfold s. rewrite Ea. unfold n4, q4, axis. cbn [l0 l1 l2 l3]. rewrite Z1, Z2, Z3. replace (0 * 0 + 0 * 0 + 0 * 0 + 0 * 0) with 0 by ring. apply sqrt_0. }
  assert (PZ : fabs_lt_1em6 (Flo := FL) c = false) by (apply not_tiny; assumption).
  destruct (length_ap B M (mk4 w x y z) HM HR Fx Fy Fz) as (n & En & Ars & AS & Arc).
  { cbn [l1 l2 l3]. rewrite <- Ea. fold s. split; [lra|]. apply (Rle_trans _ (bpow radix2 10)); [lra|apply bpow_le; lia]. }
  cbn [l1 l2 l3] in Ars, AS, Arc. rewrite <- Ea in Ars, AS, Arc. fold s in Ars, AS, Arc. fold FL in Ars, AS, Arc.
  set (rs := rsqrt_step n) in *. set (rc := rcp_step n) in *. set (S := fmul n rs) in *.
  destruct (hi_dp_ap B (mk4 w x y z) (mk4 w' x' y' z') (s * be) Fx Fy Fz Fx' Fy' Fz') as (g & Eg & Ag).
  { eapply MAG; [exact RTB|lia|lia]. }
  { cbn [l1 l2 l3]. rewrite <- Ea, <- Eb. fold s d. apply Rmult_le_compat_l; [lra|]. unfold be. lra. }
  cbn [l1 l2 l3] in Ag. assert (Gd : dotv x y z x' y' z' = q4 a b) by (rewrite Ea, Eb; unfold dotv, q4, axis; cbn [l0 l1 l2 l3]; ring). rewrite Gd in Ag. clear Gd.
  assert (AU : ap (113 / 10) (m_atan2 M S c) h h).
  { rewrite <- AH. apply atan2_ap; try assumption. rewrite AH. eapply MAG; [exact hl|lia|lia]. }
  set (uu := m_atan2 M S c) in *.
  (* the steps *)
  assert (VA : vap 0 x y z a s) by (rewrite Ea; apply vap_exact; try assumption; rewrite <- Ea; fold s; lra).
  assert (VB : vap 0 x' y' z' b be) by (rewrite Eb; apply vap_exact; try assumption; rewrite <- Eb; fold d; unfold be; lra).
  assert (t1 : s * / s = 1) by (field; lra).
  assert (Vn : vap (92 / 10) (fmul x rs) (fmul y rs) (fmul z rs) (scale4 (/ s) a) 1).
  { pose proof (vap_scale _ _ _ _ _ _ _ _ _ _ VA Ars) as V. rewrite t1 in V. replace (0 + 81 / 10 + 11 / 10) with (92 / 10) in V by lra. apply V; try lra. eapply MAG; [exact B1|lia|lia]. }
  assert (Vb : vap (92 / 10) (fmul x' rs) (fmul y' rs) (fmul z' rs) (scale4 (/ s) b) (be * / s)).
  { pose proof (vap_scale _ _ _ _ _ _ _ _ _ _ VB Ars) as V. replace (0 + 81 / 10 + 11 / 10) with (92 / 10) in V by lra. apply V; try lra. eapply MAG; [exact RBI|lia|lia]. }
  assert (Arr : ap (179 / 10) (fmul rs rc) (/ s * (/ s * / s)) (/ s * (/ s * / s))).
  { pose proof (ap_mul _ _ _ _ _ _ _ _ Ars Arc) as V. replace (81 / 10 + 87 / 10 + 11 / 10) with (179 / 10) in V by lra. apply V; try lra. eapply MAG; [exact R3|lia|lia]. }
  assert (Acc : ap (221 / 10) (fmul g (fmul rs rc)) (q4 a b * (/ s * (/ s * / s))) (s * be * (/ s * (/ s * / s)))).
  { pose proof (ap_mul _ _ _ _ _ _ _ _ Ag Arr) as V. replace (31 / 10 + 179 / 10 + 11 / 10) with (221 / 10) in V by lra. apply V; try lra. eapply MAG; [exact RTB3|lia|lia]. }
  set (cc := fmul g (fmul rs rc)) in *.
  assert (Vc : vap (232 / 10) (fmul x cc) (fmul y cc) (fmul z cc) (scale4 (q4 a b * (/ s * (/ s * / s))) a) (be * / s)).
  { pose proof (vap_scale _ _ _ _ _ _ _ _ _ _ VA Acc) as V. replace (s * (s * be * (/ s * (/ s * / s)))) with (be * / s) in V by (field; lra).
    replace (0 + 221 / 10 + 11 / 10) with (232 / 10) in V by lra. apply V; try lra. eapply MAG; [exact RBI|lia|lia]. }
  destruct (away a b A0 B0 S0) as [_ AW]. fold s in AW.
  assert (Vi : vap (335 / 10) (fsub (fmul x' rs) (fmul x cc)) (fsub (fmul y' rs) (fmul y cc)) (fsub (fmul z' rs) (fmul z cc)) (sub4 (scale4 (/ s) b) (scale4 (q4 a b * (/ s * (/ s * / s))) a)) (be * / s)).
  { pose proof (vap_pm false _ _ _ _ _ _ _ _ _ _ _ Vb Vc) as V. cbn [plus_minus pm4] in V. replace (92 / 10 + 232 / 10 + 11 / 10) with (335 / 10) in V by lra.
    apply V; try lra; [|eapply MAG; [exact RBI|lia|lia]]. eapply Rle_trans; [exact AW|]. apply Rmult_le_compat_r; [lra|]. fold d. unfold be. lra. }
  assert (Vs : vap (459 / 10) (fmul uu (fsub (fmul x' rs) (fmul x cc))) (fmul uu (fsub (fmul y' rs) (fmul y cc))) (fmul uu (fsub (fmul z' rs) (fmul z cc)))
    (scale4 h (sub4 (scale4 (/ s) b) (scale4 (q4 a b * (/ s * (/ s * / s))) a))) (be * (h * / s))).
  { pose proof (vap_scale_l _ _ _ _ _ _ _ _ _ _ Vi AU) as V. replace (be * / s * h) with (be * (h * / s)) in V by ring. replace (335 / 10 + 113 / 10 + 11 / 10) with (459 / 10) in V by lra. apply V; try lra. eapply MAG; [exact RBH|lia|lia]. }
  assert (Amv : ap (123 / 10) (fmul g rs) (q4 a b * / s) be).
  { pose proof (ap_mul _ _ _ _ _ _ _ _ Ag Ars) as V. replace (s * be * / s) with be in V by (field; lra). replace (31 / 10 + 81 / 10 + 11 / 10) with (123 / 10) in V by lra. apply V; try lra. eapply MAG; [exact bel|lia|lia]. }
  set (mv := fmul g rs) in *.
  assert (Atv : ap (123 / 10) (fmul mv (fz (-1))) (- (q4 a b * / s)) be).
  { pose proof (ap_le _ _ _ _ Amv) as La. destruct Amv as (Fm & Em & Vm). assert (Kb : (1 + 123 / 10 * u) * be <= 2 * be) by (apply Rmult_le_compat_r; lra).
    destruct (neg_mul mv Fm) as [Fn Vneg]; [apply (BG _ 18%Z); [replace (bpow radix2 18) with (2 * bpow radix2 17) by (cbn; lra); lra|lia]|].
    split; [exact Fn|]. rewrite Vneg. split; [|rewrite Rabs_Ropp; exact Vm]. replace (- val mv - - (q4 a b * / s)) with (- (val mv - q4 a b * / s)) by ring. rewrite Rabs_Ropp. exact Em. }
  set (tv := fmul mv (fz (-1))) in *.
  assert (Avv : ap (134 / 10) (fdiv (Flo := FL) tv c) (- (q4 a b * / s) / val c) (be * / Rabs (val c))).
  { pose proof (ap_div _ _ _ _ c Atv Fc Pn) as V. replace (123 / 10 + 11 / 10) with (134 / 10) in V by lra. apply V; [lra|]. eapply MAG; [exact RBC|lia|lia]. }
  set (vv := fdiv tv c) in *.
  assert (Vvn : vap (237 / 10) (fmul vv (fmul x rs)) (fmul vv (fmul y rs)) (fmul vv (fmul z rs)) (scale4 (- (q4 a b * / s) / val c) (scale4 (/ s) a)) (be * / Rabs (val c))).
  { pose proof (vap_scale_l _ _ _ _ _ _ _ _ _ _ Vn Avv) as V. rewrite Rmult_1_l in V. replace (92 / 10 + 134 / 10 + 11 / 10) with (237 / 10) in V by lra. apply V; try lra. eapply MAG; [exact RBC|lia|lia]. }
  assert (RSUM : mag (be * (h * / s) + be * / Rabs (val c))).
  { split; [apply (Rle_trans _ (be * (h * / s))); [eapply Rle_trans; [|apply RBH]; apply bpow_le; lia|]; assert (0 < be * / Rabs (val c)) by (apply Rmult_lt_0_compat; lra); lra|].
    apply (Rle_trans _ (bpow radix2 59 + bpow radix2 59)); [|replace (bpow radix2 59 + bpow radix2 59) with (bpow radix2 60) by (cbn; lra); apply bpow_le; lia].
    apply Rplus_le_compat; [apply RBH|eapply Rle_trans; [apply RBC|apply bpow_le; lia]]. }
  assert (Ep2 : sub4 (scale4 h (sub4 (scale4 (/ s) b) (scale4 (q4 a b * (/ s * (/ s * / s))) a))) (scale4 (- (q4 a b * / s) / val c) (scale4 (/ s) a)) = line_p2 e).
  { unfold e, exact_mlog. cbn [line_p2]. change (l0 p1) with (val c). fold a b. fold s h. clearbody h. set (gg := q4 a b). clearbody gg a b s. unfold sub4, add4, scale4, map4. cbn [l0 l1 l2 l3]. f_equal; field; split; lra. }
  assert (Vp : vap 47
    (fsub (fmul uu (fsub (fmul x' rs) (fmul x cc))) (fmul vv (fmul x rs))) (fsub (fmul uu (fsub (fmul y' rs) (fmul y cc))) (fmul vv (fmul y rs)))
    (fsub (fmul uu (fsub (fmul z' rs) (fmul z cc))) (fmul vv (fmul z rs))) (line_p2 e) (be * (h * / s) + be * / Rabs (val c))).
  { assert (Vvn' := vap_weak _ (459 / 10) _ _ _ _ _ _ Vvn ltac:(lra) (Rle_refl _)). pose proof (vap_pm2 false _ _ _ _ _ _ _ _ _ _ _ Vs Vvn' ltac:(lra) RSUM) as V. cbn [plus_minus pm4] in V. rewrite Ep2 in V. replace (459 / 10 + 11 / 10) with 47 in V by lra. exact V. }
  assert (Vq : vap (216 / 10) (fmul uu (fmul x rs)) (fmul uu (fmul y rs)) (fmul uu (fmul z rs)) (scale4 h (scale4 (/ s) a)) h).
  { pose proof (vap_scale_l _ _ _ _ _ _ _ _ _ _ Vn AU) as V. rewrite Rmult_1_l in V. replace (92 / 10 + 113 / 10 + 11 / 10) with (216 / 10) in V by lra. apply V; try lra. eapply MAG; [exact hl|lia|lia]. }
  (* the lanes *)
  assert (Em : l = mkline
    (mk4 (fmul uu (fmul w rs)) (fmul uu (fmul x rs)) (fmul uu (fmul y rs)) (fmul uu (fmul z rs)))
    (mk4 (fsub (fmul uu (fsub (fmul w' rs) (fmul w cc))) (fmul vv (fmul w rs))) (fsub (fmul uu (fsub (fmul x' rs) (fmul x cc))) (fmul vv (fmul x rs)))
      (fsub (fmul uu (fsub (fmul y' rs) (fmul y cc))) (fmul vv (fmul y rs))) (fsub (fmul uu (fsub (fmul z' rs) (fmul z cc))) (fmul vv (fmul z rs))))).
  { rewrite El. unfold log_kernel. cbn [l0].
    change (_mm_mul_ps (_mm_set_ps (fz 1) (fz 1) (fz 1) (fz 0)) (mk4 c x0 y0 z0)) with (mk4 w x y z). change (_mm_mul_ps (_mm_set_ps (fz 1) (fz 1) (fz 1) (fz 0)) (mk4 q x0' y0' z0')) with (mk4 w' x' y' z').
    rewrite NZ, PZ. change (@flo_arith f32 FL) with Arith_f32. change f32 with (binary_float 24 128) in *. rewrite En, Eg. reflexivity. }
  pose proof Ars as (Frs & _). pose proof Acc as (Fcc & _). pose proof AU as (Fu & _). pose proof Avv as (Fv & _).
  destruct Vp as (Fp1 & Fp2 & Fp3 & _ & Ep & _). destruct Vq as (Fq1 & Fq2 & Fq3 & _ & Eq & _).
  destruct (zero_lane rs w Frs Fw Zw) as (_ & _ & Fwr & Zwr). destruct (zero_lane uu (fmul w rs) Fu Fwr Zwr) as (Fsw & Zsw & _).
  destruct (zero_lane rs w' Frs Fw' Zw') as (_ & _ & Fwr' & Zwr'). destruct (zero_lane cc w Fcc Fw Zw) as (_ & _ & Fwc & Zwc). destruct (sub_zero _ _ Fwr' Zwr' Fwc Zwc) as [Fd Zd].
  destruct (zero_lane uu _ Fu Fd Zd) as (Fsd & Zsd & _). destruct (zero_lane vv _ Fv Fwr Zwr) as (Fm1 & Zm1 & _). destruct (sub_zero _ _ Fsd Zsd Fm1 Zm1) as [Fe Ze].
  split.
  { rewrite Em. unfold line_ok, lv1, lv2. cbn [line_p1 line_p2]. split; [repeat (apply Forall_cons; [assumption|]); apply Forall_nil|]. split; [repeat (apply Forall_cons; [assumption|]); apply Forall_nil|].
    unfold map4. cbn [l0]. split; assumption. }
  unfold lv1, lv2. rewrite Em. cbn [line_p1 line_p2]. unfold map4. cbn [l0 l1 l2 l3]. rewrite Zsw, Ze.
  assert (El1 : scale4 h (scale4 (/ s) a) = line_p1 e).
  { unfold e, exact_mlog, exact_log. cbn [line_p1]. change (l0 p1) with (val c). fold a. fold s h. clearbody h a s. unfold scale4, map4. cbn [l0 l1 l2 l3]. f_equal; field; lra. }
  rewrite El1 in Eq. assert (0 < u * h) by (apply Rmult_lt_0_compat; lra). split.
  - eapply Rle_trans; [exact Eq|]. lra.
  - eapply Rle_trans; [exact Ep|]. change (d + bpow radix2 (-60)) with be. unfold Rdiv. replace (be * (h * / s + / Rabs (val c))) with (be * (h * / s) + be * / Rabs (val c)) by ring.
    pose proof (mag_pos _ RSUM). assert (0 < u * (be * (h * / s) + be * / Rabs (val c))) by (apply Rmult_lt_0_compat; lra). lra.
Qed.

(** ** The exponential of a line known up to an error *)
Lemma u_pos_r r : 0 <= r -> 0 <= u * r <= / 1000000 * r. Proof. intro R. pose proof u_small. split; [apply Rmult_le_pos; lra|apply Rmult_le_compat_r; lra]. Qed.
Lemma exp_near (B : Build) (M : machine) : libm_fine M -> rcp_estimate M -> rsqrt_estimate M -> let FL := Flo_f32 M in forall (l : line f32) (a b : m128 R) k1 k2 r,
  line_ok l -> l0 a = 0 -> l0 b = 0 -> let t := n4 a in 2 * / 2 ^ 40 <= t <= 2 ^ 9 -> n4 b <= r -> / 2 ^ 42 <= r <= 2 ^ 39 -> 0 <= k1 <= 100 -> 0 <= k2 <= 100 ->
  n4 (sub4 (lv1 l) a) <= k1 * u * t -> n4 (sub4 (lv2 l) b) <= k2 * u * r ->
  let m := line_exp l in
  Forall fin (reg_list (motor_p1 m) ++ reg_list (motor_p2 m)) /\
  n4 (sub4 (map4 val (motor_p1 m)) (motor_p1 (exact_exp a b))) <= (15 + (191 / 10 + k1) * t) * u /\
  n4 (sub4 (map4 val (motor_p2 m)) (motor_p2 (exact_exp a b))) <= (91 + 192 / 10 * t + (14 + 2 * t) * (1001 / 1000 * k1) + k2) * u * r.
Proof.
  intros LM HR HM FL l a b k1 k2 r OK A0 B0 t Lt Lb Lr K1 K2 D1 D2 m. pose proof u_small as U.
  assert (I20 : 0 < / 2 ^ 40) by (apply Rinv_0_lt_compat, pow_lt; lra). assert (I42 : 0 < / 2 ^ 42) by (apply Rinv_0_lt_compat, pow_lt; lra). assert (t0 : 0 < t) by lra. assert (r0 : 0 < r) by lra.
  pose proof (ku_small k1 ltac:(lra)) as Q1. pose proof (ku_small k2 ltac:(lra)) as Q2.
  assert (q1 : k1 * u * t <= / 1000 * t) by (apply Rmult_le_compat_r; lra). assert (q2 : k2 * u * r <= / 1000 * r) by (apply Rmult_le_compat_r; lra).
  assert (p1' : 0 <= k1 * u * t) by (apply Rmult_le_pos; lra). assert (p2' : 0 <= k2 * u * r) by (apply Rmult_le_pos; lra).
  pose proof (n4_diff (lv1 l) a) as E1. fold t in E1. assert (E1' := Rle_trans _ _ _ E1 D1). pose proof E1' as E1''. apply Rabs_le_inv in E1'. pose proof (n4_tri (lv2 l) b) as E2.
  assert (P9 : 2 ^ 10 = 2 * 2 ^ 9) by ring. assert (P39 : 2 ^ 40 = 2 * 2 ^ 39) by ring.
  assert (T9 : t <= 512) by (replace 512 with (2 ^ 9) by ring; lra).
  destruct (C77_exp B M LM HR HM l OK ltac:(lra) ltac:(lra)) as (_ & FF & X1 & X2). cbv zeta in X1, X2. fold FL in FF, X1, X2. fold m in FF, X1, X2. rewrite u_pow in X1, X2.
  destruct OK as (_ & _ & Z1 & Z2). split; [exact FF|].
  assert (t0' : 0 < n4 (lv1 l)) by lra. pose proof (exact_exp_p1_lip a (lv1 l) b (lv2 l) A0 Z1 t0 t0') as Y1.
  pose proof (exact_exp_p2_lip a (lv1 l) (lv2 l) (k1 * u) A0 Z1 Z2 t0 t0' D1) as Y2. fold t in Y2. pose proof (exact_exp_p2_linear a b (lv2 l) A0 B0 Z2 t0) as Y3.
  set (t' := n4 (lv1 l)) in *. set (r' := n4 (lv2 l)) in *. assert (r0' : 0 <= r') by apply n4_pos.
  assert (ut : u * t' <= u * ((1 + / 1000) * t)) by (apply Rmult_le_compat_l; lra). split.
  - eapply Rle_trans; [apply (n4_via _ (motor_p1 (exact_exp (lv1 l) (lv2 l))))|]. assert (0 < u * t) by (apply Rmult_lt_0_compat; lra). lra.
  - eapply Rle_trans; [apply (n4_via _ (motor_p2 (exact_exp (lv1 l) (lv2 l))))|]. eapply Rle_trans; [apply Rplus_le_compat_l; apply (n4_via _ (motor_p2 (exact_exp a (lv2 l))))|].
    assert (S60 : / 2 ^ 60 <= / 1000 * r). { apply (Rle_trans _ (/ 1000 * / 2 ^ 42)); [|apply Rmult_le_compat_l; lra]. replace (2 ^ 60) with (2 ^ 18 * 2 ^ 42) by ring. rewrite Rinv_mult. apply Rmult_le_compat_r; [lra|]. apply Rinv_le_contravar; [lra|]. replace (2 ^ 18) with 262144 by ring. lra. }
    assert (K2s : k2 * u * r <= / 100000 * r). { apply Rmult_le_compat_r; [lra|]. apply (Rle_trans _ (100 * u)); [apply Rmult_le_compat_r; lra|unfold u; lra]. }
    assert (T' : t' <= (1 + / 100000) * t). { assert (k1 * u * t <= / 100000 * t); [|lra]. apply Rmult_le_compat_r; [lra|]. apply (Rle_trans _ (100 * u)); [apply Rmult_le_compat_r; lra|unfold u; lra]. }
    assert (S60' : / 2 ^ 60 <= / 200000 * r). { apply (Rle_trans _ (/ 200000 * / 2 ^ 42)); [|apply Rmult_le_compat_l; lra]. replace (2 ^ 60) with (2 ^ 18 * 2 ^ 42) by ring. rewrite Rinv_mult. apply Rmult_le_compat_r; [lra|]. apply Rinv_le_contravar; [lra|]. replace (2 ^ 18) with 262144 by ring. lra. }
    assert (W1 : (90 + 19 * t') * u * (r' + / 2 ^ 60) <= (91 + 192 / 10 * t) * u * r).
    { rewrite !Rmult_assoc, <- !Rmult_assoc. replace ((91 + 192 / 10 * t) * u * r) with ((90 + 19 * ((1 + / 100000) * t)) * u * ((1 + / 50000) * r) + ((91 + 192 / 10 * t) - (90 + 19 * ((1 + / 100000) * t)) * (1 + / 50000)) * u * r) by ring.
      assert (0 <= ((91 + 192 / 10 * t) - (90 + 19 * ((1 + / 100000) * t)) * (1 + / 50000)) * u * r) by (apply Rmult_le_pos; [apply Rmult_le_pos; lra|lra]).
      assert (0 <= t') by apply n4_pos. assert (0 < / 2 ^ 60) by (apply Rinv_0_lt_compat, pow_lt; lra).
      assert ((90 + 19 * t') * u * (r' + / 2 ^ 60) <= (90 + 19 * ((1 + / 100000) * t)) * u * ((1 + / 50000) * r)); [|lra]. apply Rmult_le_compat; [apply Rmult_le_pos; lra|lra| |lra]. apply Rmult_le_compat_r; lra. }
    assert (W2 : (14 + 2 * t) * (k1 * u) * r' <= (14 + 2 * t) * (1001 / 1000 * k1) * u * r).
    { replace ((14 + 2 * t) * (1001 / 1000 * k1) * u * r) with ((14 + 2 * t) * (k1 * u) * (1001 / 1000 * r)) by ring. apply Rmult_le_compat_l; [apply Rmult_le_pos; lra|lra]. }
    lra.
Qed.

(** ** Back from the logarithm *)
Lemma mlog_p2_len p1 p2 : l0 p1 <> 0 -> 0 < n4 (biv4 p1) -> n4 (line_p2 (exact_mlog p1 p2)) <= n4 (biv4 p2) * (acos (l0 p1 / n4 p1) / n4 (biv4 p1) + / Rabs (l0 p1)).
Proof.
  intros P S. destruct (biv_facts p1 S) as (Np & Cn & Tn & Ct & St). set (h := acos (l0 p1 / n4 p1)) in *. set (a := biv4 p1) in *. set (b := biv4 p2). set (s := n4 a) in *.
  destruct (away a b eq_refl eq_refl S) as [_ AW]. fold s in AW. set (r := sub4 _ _) in AW. set (g := q4 a b) in *.
  assert (is : 0 < / s) by (apply Rinv_0_lt_compat; exact S). assert (iP : 0 < / Rabs (l0 p1)) by (apply Rinv_0_lt_compat, Rabs_pos_lt; exact P).
  assert (E : line_p2 (exact_mlog p1 p2) = add4 (scale4 h r) (scale4 (g * / s * / l0 p1) (scale4 (/ s) a))).
  { unfold exact_mlog. cbn [line_p2]. fold a b h s g. unfold r. clearbody h g a b s. unfold sub4, add4, scale4, map4. cbn [l0 l1 l2 l3]. f_equal; field; split; lra. }
  rewrite E. eapply Rle_trans; [apply n4_add|]. rewrite !n4_scale_abs, (Rabs_pos_eq h), (Rabs_pos_eq (/ s)) by lra. fold s. rewrite (Rinv_l s), Rmult_1_r by lra.
  assert (G : Rabs g <= s * n4 b) by apply q4_cauchy. rewrite !Rabs_mult, (Rabs_pos_eq (/ s)), Rabs_inv by lra.
  assert (h * n4 r <= h * (n4 b * / s)) by (apply Rmult_le_compat_l; lra).
  assert (Rabs g * / s * / Rabs (l0 p1) <= n4 b * / Rabs (l0 p1)); [|unfold Rdiv; lra].
  apply Rmult_le_compat_r; [lra|]. apply (Rmult_le_reg_r s); [exact S|]. rewrite Rmult_assoc, Rinv_l by lra. lra.
Qed.
Definition radius (p1 p2 : m128 R) : R := (n4 (biv4 p2) + / 2 ^ 40) * (acos (l0 p1 / n4 p1) / n4 (biv4 p1) + / Rabs (l0 p1)).
Lemma radius_range p1 p2 : / 2 ^ 40 <= n4 (biv4 p1) -> / 2 ^ 19 <= Rabs (l0 p1) <= 2 -> / 2 ^ 41 <= radius p1 p2.
Proof.
  intros S P. assert (I20 : 0 < / 2 ^ 40) by (apply Rinv_0_lt_compat, pow_lt; lra). assert (I19 : 0 < / 2 ^ 19) by (apply Rinv_0_lt_compat, pow_lt; lra).
  assert (S0 : 0 < n4 (biv4 p1)) by lra. destruct (biv_facts p1 S0) as (Np & Cn & Tn & Ct & St). pose proof (n4_pos (biv4 p2)) as N2. unfold radius. set (h := acos _) in *. set (s := n4 (biv4 p1)) in *.
  assert (is : 0 < / s) by (apply Rinv_0_lt_compat; exact S0). assert (iP : / 2 <= / Rabs (l0 p1)) by (apply Rinv_le_contravar; lra). assert (hs : 0 < h / s) by (apply Rmult_lt_0_compat; lra).
  apply (Rle_trans _ (/ 2 ^ 40 * / 2)); [right; rewrite <- Rinv_mult; f_equal; ring|]. apply Rmult_le_compat; lra.
Qed.
(** Rotations that are not tiny: the radius is never too large. *)
Lemma radius_upper p1 p2 : / 2 ^ 20 <= n4 (biv4 p1) -> / 2 ^ 19 <= Rabs (l0 p1) -> n4 (biv4 p2) <= 2 ^ 16 -> radius p1 p2 <= 2 ^ 39.
Proof.
  intros S P D. assert (I20 : 0 < / 2 ^ 20) by (apply Rinv_0_lt_compat, pow_lt; lra). assert (I19 : 0 < / 2 ^ 19) by (apply Rinv_0_lt_compat, pow_lt; lra). assert (I40 : 0 < / 2 ^ 40) by (apply Rinv_0_lt_compat, pow_lt; lra).
  assert (S0 : 0 < n4 (biv4 p1)) by lra. destruct (biv_facts p1 S0) as (Np & Cn & Tn & Ct & St). pose proof PI_bounds as PB. pose proof (n4_pos (biv4 p2)) as N2. unfold radius. set (h := acos _) in *. set (s := n4 (biv4 p1)) in *.
  assert (is : 0 < / s) by (apply Rinv_0_lt_compat; exact S0). assert (iP : 0 < / Rabs (l0 p1)) by (apply Rinv_0_lt_compat; lra). assert (hs : 0 < h / s) by (apply Rmult_lt_0_compat; lra).
  assert (A : / s <= 2 ^ 20) by (rewrite <- (Rinv_inv (2 ^ 20)); apply Rinv_le_contravar; lra). assert (C : / Rabs (l0 p1) <= 2 ^ 19) by (rewrite <- (Rinv_inv (2 ^ 19)); apply Rinv_le_contravar; lra).
  assert (h / s <= 32 / 10 * 2 ^ 20) by (apply Rmult_le_compat; lra). apply (Rle_trans _ ((2 ^ 16 + 2 ^ 16) * (32 / 10 * 2 ^ 20 + 2 ^ 19))); [|lra]. apply Rmult_le_compat; try lra.
Qed.
Lemma radius_log p1 p2 : / 2 ^ 40 <= n4 (biv4 p1) -> / 2 ^ 19 <= Rabs (l0 p1) <= 2 ->
  n4 (line_p2 (exact_mlog p1 p2)) <= radius p1 p2 /\ (n4 (biv4 p2) + / 2 ^ 60) * (acos (l0 p1 / n4 p1) / n4 (biv4 p1) + / Rabs (l0 p1)) <= radius p1 p2.
Proof.
  intros S P. assert (I20 : 0 < / 2 ^ 40) by (apply Rinv_0_lt_compat, pow_lt; lra). assert (I19 : 0 < / 2 ^ 19) by (apply Rinv_0_lt_compat, pow_lt; lra). assert (I40 : 0 < / 2 ^ 40) by (apply Rinv_0_lt_compat, pow_lt; lra).
  assert (S0 : 0 < n4 (biv4 p1)) by lra. assert (Pn : l0 p1 <> 0) by (intro Z; rewrite Z, Rabs_R0 in P; lra). pose proof (mlog_p2_len p1 p2 Pn S0) as LL.
  destruct (biv_facts p1 S0) as (Np & Cn & Tn & Ct & St). unfold radius. set (h := acos _) in *. set (s := n4 (biv4 p1)) in *.
  assert (0 < / s) by (apply Rinv_0_lt_compat; exact S0). assert (0 < / Rabs (l0 p1)) by (apply Rinv_0_lt_compat; lra). assert (0 < h / s) by (apply Rmult_lt_0_compat; lra).
  split; [eapply Rle_trans; [exact LL|]|]; apply Rmult_le_compat_r; lra.
Qed.

(** Exponentiating the logarithm gives the motor back, normalized and with the scalar of its
    ideal part put right. *)
Theorem C78_roundtrip : forall (B : Build) (M : machine), libm_log M -> rcp_estimate M -> rsqrt_estimate M -> let FL := Flo_f32 M in forall m : motor f32,
  let p1 := map4 val (motor_p1 m) in let p2 := map4 val (motor_p2 m) in Forall fin (reg_list (motor_p1 m) ++ reg_list (motor_p2 m)) ->
  / 2 ^ 40 <= n4 (biv4 p1) -> / 2 ^ 19 <= Rabs (l0 p1) -> n4 p1 <= 2 -> n4 (biv4 p2) <= 2 ^ 16 -> radius p1 p2 <= 2 ^ 39 -> let h := acos (l0 p1 / n4 p1) in 2 * / 2 ^ 40 <= h ->
  let m' := line_exp (motor_log m) in let e := repaired p1 p2 in
  Forall fin (reg_list (motor_p1 m') ++ reg_list (motor_p2 m')) /\
  n4 (sub4 (map4 val (motor_p1 m')) (motor_p1 e)) <= (15 + 42 * h) * / 2 ^ 24 /\
  n4 (sub4 (map4 val (motor_p2 m')) (motor_p2 e)) <= (448 + 64 * h) * / 2 ^ 24 * radius p1 p2.
Proof.
  intros B M LM HR HM FL m p1 p2 FF S P N D LR h Lh m' e.
  assert (I20 : 0 < / 2 ^ 40) by (apply Rinv_0_lt_compat, pow_lt; lra). assert (I19 : 0 < / 2 ^ 19) by (apply Rinv_0_lt_compat, pow_lt; lra). assert (T10 : 2 <= 2 ^ 10) by (replace (2 ^ 10) with 1024 by ring; lra).
  assert (S0 : 0 < n4 (biv4 p1)) by lra. destruct (biv_facts p1 S0) as (Np & Cn & _). pose proof (n4_lane p1) as (P2 & _). assert (P2' : Rabs (l0 p1) <= 2) by lra.
  assert (S2 : n4 (biv4 p1) <= 2). { eapply Rle_trans; [|exact N]. apply sqrt_le_1_alt. unfold q4, biv4. cbn [l0 l1 l2 l3]. pose proof (Rle_0_sqr (l0 p1)) as Q. unfold Rsqr in Q. lra. }
  assert (Pn : l0 p1 <> 0) by (intro Z; rewrite Z, Rabs_R0 in P; lra).
  destruct (C78_log B M LM HR HM m FF) as (_ & LL & Lt & OK & D1 & D2); [fold p1; lra|fold p1; lra|exact D|]. cbv zeta in LL, Lt, OK, D1, D2. fold FL in OK, D1, D2. fold p1 p2 in LL, Lt, D1, D2. fold h in LL, Lt, D1, D2. rewrite u_pow in *.
  pose proof (mlog_lane p1 p2) as [Z1 Z2]. destruct (radius_log p1 p2 S (conj P P2')) as [Rb Rd]. fold h in Rd. pose proof (radius_range p1 p2 S (conj P P2')) as RR. set (r := radius p1 p2) in *.
  assert (D2' : n4 (sub4 (lv2 (motor_log m)) (line_p2 (exact_mlog p1 p2))) <= 48 * u * r) by (pose proof u_small; eapply Rle_trans; [exact D2|apply Rmult_le_compat_l; lra]).
  pose proof PI_bounds as PB. assert (H9 : h <= 2 ^ 9) by (replace (2 ^ 9) with 512 by ring; lra). assert (I42 : / 2 ^ 42 <= / 2 ^ 41) by (apply Rinv_le_contravar; [apply pow_lt; lra|apply Rle_pow; [lra|lia]]).
  rewrite <- LL in D1. destruct (exp_near B M (proj1 LM) HR HM (motor_log m) _ _ 22 48 r OK Z1 Z2 ltac:(rewrite LL; lra) Rb ltac:(lra) ltac:(lra) ltac:(lra) D1 D2') as (F' & Y1 & Y2). cbv zeta in Y1, Y2. fold FL in F', Y1, Y2. rewrite LL in Y1, Y2.
  rewrite (exact_mlog_exp p1 p2 Pn S0) in Y1, Y2. fold e in Y1, Y2. fold m' in F', Y1, Y2. split; [exact F'|]. pose proof u_small as U. assert (0 < u * h) by (apply Rmult_lt_0_compat; lra).
  assert (I41 : 0 < / 2 ^ 41) by (apply Rinv_0_lt_compat, pow_lt; lra). assert (ur : 0 < u * r) by (apply Rmult_lt_0_compat; lra). assert (0 < h * (u * r)) by (apply Rmult_lt_0_compat; lra). split; lra.
Qed.

(** For a motor stored to within the rounding of a normalization: back to itself.  The ideal
    scalar follows the others, so the third bound includes how far the stored motor is from
    satisfying p q = a . b. *)
Theorem C78_back : forall (B : Build) (M : machine), libm_log M -> rcp_estimate M -> rsqrt_estimate M -> let FL := Flo_f32 M in forall m : motor f32,
  let p1 := map4 val (motor_p1 m) in let p2 := map4 val (motor_p2 m) in near_unit (mkrotor (motor_p1 m)) -> Forall fin (reg_list (motor_p2 m)) ->
  / 2 ^ 40 <= n4 (biv4 p1) -> / 2 ^ 19 <= Rabs (l0 p1) -> n4 (biv4 p2) <= 2 ^ 16 -> radius p1 p2 <= 2 ^ 39 -> let h := acos (l0 p1 / n4 p1) in 2 * / 2 ^ 40 <= h ->
  let m' := line_exp (motor_log m) in
  n4 (sub4 (map4 val (motor_p1 m')) p1) <= (29 + 42 * h) * / 2 ^ 24 /\
  n4 (sub4 (map4 val (motor_p2 m')) p2) <= (462 + 64 * h) * / 2 ^ 24 * radius p1 p2 + Rabs (l0 p1 * l0 p2 - q4 (biv4 p1) (biv4 p2)) / Rabs (l0 p1).
Proof.
  intros B M LM HR HM FL m p1 p2 NU F2 S P D LR h Lh m'. pose proof (near_n4 _ NU) as NN. change (rv (mkrotor (motor_p1 m))) with p1 in NN. destruct NU as [F1 _]. change (coefs (k := KRotor) (mkrotor (motor_p1 m))) with (reg_list (motor_p1 m)) in F1.
  pose proof u_small as U. assert (FF : Forall fin (reg_list (motor_p1 m) ++ reg_list (motor_p2 m))) by (apply Forall_app; split; assumption).
  destruct (C78_roundtrip B M LM HR HM m FF S P ltac:(fold p1; lra) D LR Lh) as (_ & X1 & X2). cbv zeta in X1, X2. fold FL in X1, X2. fold m' p1 p2 in X1, X2. fold h in X1, X2. rewrite u_pow in *.
  assert (I20 : 0 < / 2 ^ 40) by (apply Rinv_0_lt_compat, pow_lt; lra). assert (I19 : 0 < / 2 ^ 19) by (apply Rinv_0_lt_compat, pow_lt; lra). assert (I40 : 0 < / 2 ^ 40) by (apply Rinv_0_lt_compat, pow_lt; lra).
  assert (S0 : 0 < n4 (biv4 p1)) by lra. assert (Pn : l0 p1 <> 0) by (intro Z; rewrite Z, Rabs_R0 in P; lra).
  destruct (biv_facts p1 S0) as (Np & Cn & Tn & Ct & St). fold h in Tn, Ct, St.
  set (N := n4 p1) in *. assert (iN : 0 < / N) by (apply Rinv_0_lt_compat; exact Np).
  assert (sN : n4 (biv4 p1) <= N). { apply sqrt_le_1_alt. unfold q4, biv4. cbn [l0 l1 l2 l3]. pose proof (Rle_0_sqr (l0 p1)) as Q. unfold Rsqr in Q. lra. }
  assert (K : Rabs (/ N - 1) <= 131 / 10 * u).
  { replace (/ N - 1) with ((1 - N) * / N) by (field; lra). rewrite Rabs_mult, (Rabs_pos_eq (/ N)) by lra. assert (Rabs (1 - N) <= 13 * u) by (apply Rabs_le; lra).
    assert (/ N <= 1001 / 1000) by (replace (1001 / 1000) with (/ (1000 / 1001)) by field; apply Rinv_le_contravar; lra).
    apply (Rle_trans _ (13 * u * (1001 / 1000))); [apply Rmult_le_compat; try lra; apply Rabs_pos|lra]. }
  set (r := radius p1 p2) in *. set (d := n4 (biv4 p2)) in *. assert (d0 : 0 <= d) by apply n4_pos. set (s := n4 (biv4 p1)) in *. set (g := q4 (biv4 p1) (biv4 p2)) in *.
  assert (is : 0 < / s) by (apply Rinv_0_lt_compat; exact S0). assert (iP : 0 < / Rabs (l0 p1)) by (apply Rinv_0_lt_compat; lra).
  assert (hs : 999 / 1000 <= h / s).
  { assert (X : sin h <= h) by (apply sin_le_x; lra). rewrite St in X. apply (Rle_trans _ (/ N)); [replace (999 / 1000) with (/ (1000 / 999)) by field; apply Rinv_le_contravar; lra|].
    apply (Rmult_le_reg_r s); [exact S0|]. unfold Rdiv in *. rewrite Rmult_assoc, Rinv_l by lra. lra. }
  assert (G : Rabs (g / l0 p1) + d <= 1002 / 1000 * r).
  { assert (G1 : Rabs g <= s * d) by apply q4_cauchy. unfold Rdiv. rewrite Rabs_mult, Rabs_inv.
    assert (G2 : Rabs g * / Rabs (l0 p1) <= 1001 / 1000 * d * / Rabs (l0 p1)). { apply Rmult_le_compat_r; [lra|]. eapply Rle_trans; [exact G1|]. apply Rmult_le_compat_r; lra. }
    assert (G3 : d * (999 / 1000) <= d * (h / s)) by (apply Rmult_le_compat_l; lra).
    assert (G4 : 0 <= d * / Rabs (l0 p1)) by (apply Rmult_le_pos; lra).
    assert (G5 : 0 <= / 2 ^ 40 * (h / s + / Rabs (l0 p1))) by (apply Rmult_le_pos; lra).
    assert (r = d * (h / s) + d * / Rabs (l0 p1) + / 2 ^ 40 * (h / s + / Rabs (l0 p1))) by (unfold r, radius; fold N; fold h d s; ring). lra. }
  assert (r0 : 0 <= r) by (pose proof (Rabs_pos (g / l0 p1)); lra). assert (ur : 0 <= u * r) by (apply Rmult_le_pos; lra). split.
  - eapply Rle_trans; [apply (n4_via _ (motor_p1 (repaired p1 p2)))|]. assert (E : n4 (sub4 (motor_p1 (repaired p1 p2)) p1) <= 131 / 10 * u * N).
    { unfold repaired. cbn [motor_p1]. fold N. replace (sub4 (scale4 (/ N) p1) p1) with (scale4 (/ N - 1) p1) by (unfold sub4, scale4, map4; cbn [l0 l1 l2 l3]; f_equal; ring). rewrite n4_scale_abs. fold N. apply Rmult_le_compat_r; lra. }
    assert (131 / 10 * u * N <= 131 / 10 * u * (1001 / 1000)) by (apply Rmult_le_compat_l; lra). lra.
  - eapply Rle_trans; [apply (n4_via _ (motor_p2 (repaired p1 p2)))|].
    assert (E : n4 (sub4 (motor_p2 (repaired p1 p2)) p2) <= 131 / 10 * u * (1002 / 1000 * r) + Rabs (l0 p1 * l0 p2 - g) / Rabs (l0 p1)).
    { unfold repaired. cbn [motor_p2]. fold N g. replace (sub4 (scale4 (/ N) (mk4 (g / l0 p1) (l1 p2) (l2 p2) (l3 p2))) p2) with (add4 (scale4 (/ N - 1) (mk4 (g / l0 p1) (l1 p2) (l2 p2) (l3 p2))) (mk4 (g / l0 p1 - l0 p2) 0 0 0))
        by (destruct p2 as [v0 v1 v2 v3]; unfold add4, sub4, scale4, map4; cbn [l0 l1 l2 l3]; f_equal; ring).
      eapply Rle_trans; [apply n4_add|]. apply Rplus_le_compat.
      - rewrite n4_scale_abs. apply Rmult_le_compat; try apply Rabs_pos; try apply n4_pos; [exact K|]. eapply Rle_trans; [apply n4_split|]. change (mk4 0 (l1 p2) (l2 p2) (l3 p2)) with (biv4 p2). fold d. exact G.
      - eapply Rle_trans; [apply n4_split|]. assert (Z : n4 (mk4 0 0 0 0) = 0) by (unfold n4, q4; cbn [l0 l1 l2 l3]; replace (0 * 0 + 0 * 0 + 0 * 0 + 0 * 0) with 0 by ring; apply sqrt_0). rewrite Z, Rplus_0_r.
        replace (g / l0 p1 - l0 p2) with (- ((l0 p1 * l0 p2 - g) * / l0 p1)) by (field; exact Pn). rewrite Rabs_Ropp, Rabs_mult, Rabs_inv. right. reflexivity. }
    lra.
Qed.

(** ** Fractions of a motion *)
Theorem C78_fraction : forall (B : Build) (M : machine), libm_log M -> rcp_estimate M -> rsqrt_estimate M -> let FL := Flo_f32 M in forall (m : motor f32) (f : f32),
  let p1 := map4 val (motor_p1 m) in let p2 := map4 val (motor_p2 m) in Forall fin (reg_list (motor_p1 m) ++ reg_list (motor_p2 m)) ->
  / 2 ^ 40 <= n4 (biv4 p1) -> / 2 ^ 19 <= Rabs (l0 p1) -> n4 p1 <= 2 -> n4 (biv4 p2) <= 2 ^ 16 -> fin f -> let F := Rabs (val f) in let T := F * acos (l0 p1 / n4 p1) in
  2 * / 2 ^ 40 <= T <= 2 ^ 9 -> F * radius p1 p2 <= 2 ^ 38 ->
  let m' := line_exp (line_mul_f (motor_log m) f) in let a := scale4 (val f) (line_p1 (exact_mlog p1 p2)) in let b := scale4 (val f) (line_p2 (exact_mlog p1 p2)) in
  ExpSeries.is_exp (mv_line (mkline a b)) (mv_motor (exact_exp a b)) /\
  Forall fin (reg_list (motor_p1 m') ++ reg_list (motor_p2 m')) /\
  n4 (sub4 (map4 val (motor_p1 m')) (motor_p1 (exact_exp a b))) <= (15 + 43 * T) * / 2 ^ 24 /\
  n4 (sub4 (map4 val (motor_p2 m')) (motor_p2 (exact_exp a b))) <= (465 + 66 * T) * / 2 ^ 24 * (F * radius p1 p2 + / 2 ^ 40).
Proof.
  intros B M LM HR HM FL m f p1 p2 FF S P N D Ff F T LT LR m' a b.
  assert (I20 : 0 < / 2 ^ 40) by (apply Rinv_0_lt_compat, pow_lt; lra). assert (I19 : 0 < / 2 ^ 19) by (apply Rinv_0_lt_compat, pow_lt; lra). assert (T10 : 2 <= 2 ^ 10) by (replace (2 ^ 10) with 1024 by ring; lra).
  assert (S0 : 0 < n4 (biv4 p1)) by lra. destruct (biv_facts p1 S0) as (Np & Cn & _). pose proof (n4_lane p1) as (P2 & _). assert (P2' : Rabs (l0 p1) <= 2) by lra.
  assert (S2 : n4 (biv4 p1) <= 2). { eapply Rle_trans; [|exact N]. apply sqrt_le_1_alt. unfold q4, biv4. cbn [l0 l1 l2 l3]. pose proof (Rle_0_sqr (l0 p1)) as Q. unfold Rsqr in Q. lra. }
  assert (Pn : l0 p1 <> 0) by (intro Z; rewrite Z, Rabs_R0 in P; lra).
  destruct (C78_log B M LM HR HM m FF) as (_ & LL & Lt & OK & D1 & D2); [fold p1; lra|fold p1; lra|exact D|]. cbv zeta in LL, Lt, OK, D1, D2. fold FL in OK, D1, D2. fold p1 p2 in LL, Lt, D1, D2. rewrite u_pow in *.
  pose proof (mlog_lane p1 p2) as [Z1 Z2]. destruct (radius_log p1 p2 S (conj P P2')) as [Rb Rd]. pose proof (radius_range p1 p2 S (conj P P2')) as RR.
  set (h := acos (l0 p1 / n4 p1)) in *. set (r := radius p1 p2) in *. set (e1 := line_p1 (exact_mlog p1 p2)) in *. set (e2 := line_p2 (exact_mlog p1 p2)) in *. pose proof u_small as U.
  assert (D2' : n4 (sub4 (lv2 (motor_log m)) e2) <= 48 * u * r) by (eapply Rle_trans; [exact D2|apply Rmult_le_compat_l; lra]).
  pose proof PI_bounds as PB. assert (I41 : 0 < / 2 ^ 41) by (apply Rinv_0_lt_compat, pow_lt; lra). assert (I40 : 0 < / 2 ^ 40) by (apply Rinv_0_lt_compat, pow_lt; lra).
  assert (F0 : 0 <= F) by apply Rabs_pos. assert (F1 : / 2 ^ 41 <= F).
  { destruct (Rle_or_lt (/ 2 ^ 41) F) as [X|X]; [exact X|exfalso]. assert (T <= / 2 ^ 41 * (32 / 10)) by (apply Rmult_le_compat; lra). assert (/ 2 ^ 41 = / 2 ^ 40 * / 2) by (rewrite <- Rinv_mult; f_equal; ring). lra. }
  assert (I21 : 0 < / 2 ^ 41) by (apply Rinv_0_lt_compat, pow_lt; lra). assert (rF : 0 < F * r) by (apply Rmult_lt_0_compat; lra).
  assert (Na : n4 a = T) by (unfold a, T; rewrite n4_scale_abs, LL; reflexivity). assert (Za : l0 a = 0) by (unfold a, scale4, map4; cbn [l0]; rewrite Z1; ring). assert (Zb : l0 b = 0) by (unfold b, scale4, map4; cbn [l0]; rewrite Z2; ring).
  split; [apply exact_exp_series; [exact Za|exact Zb|rewrite Na; lra]|].
  assert (Nb : n4 b <= F * r) by (unfold b; rewrite n4_scale_abs; apply Rmult_le_compat_l; assumption).
  (* the scaled line *)
  set (l := motor_log m) in *. destruct OK as (Fa & Fb & A0 & B0). destruct l as [[w x y z] [w' x' y' z']] eqn:El. cbn [line_p1 line_p2] in Fa, Fb.
  inversion_clear Fa as [|? ? Fw G1]. inversion_clear G1 as [|? ? Fx G2]. inversion_clear G2 as [|? ? Fy G3]. inversion_clear G3 as [|? ? Fz _].
  inversion_clear Fb as [|? ? Fw' G1]. inversion_clear G1 as [|? ? Fx' G2]. inversion_clear G2 as [|? ? Fy' G3]. inversion_clear G3 as [|? ? Fz' _].
  assert (Zw : val w = 0) by exact A0. assert (Zw' : val w' = 0) by exact B0.
  assert (E1 : lv1 (mkline (mk4 w x y z) (mk4 w' x' y' z')) = axis x y z) by (unfold lv1, axis, map4; cbn [line_p1 l0 l1 l2 l3]; rewrite Zw; reflexivity).
  assert (E2 : lv2 (mkline (mk4 w x y z) (mk4 w' x' y' z')) = axis x' y' z') by (unfold lv2, axis, map4; cbn [line_p2 l0 l1 l2 l3]; rewrite Zw'; reflexivity).
  rewrite E1 in D1. rewrite E2 in D2'.
  assert (V1 : vap 22 x y z e1 h) by (repeat (split; [assumption|]); right; exact LL). assert (V2 : vap 48 x' y' z' e2 r) by (repeat (split; [assumption|]); exact Rb).
  assert (AF : ap 0 f (val f) F) by (split; [exact Ff|]; split; [rewrite Rminus_diag_eq, Rabs_R0 by reflexivity; lra|unfold F; lra]).
  assert (MAG : forall p e f, bpow radix2 e <= p <= bpow radix2 f -> (-112 <= e)%Z -> (f <= 122)%Z -> mag p).
  { intros p e' f' [X Y] H1 H2. split; [eapply Rle_trans; [|exact X]|eapply Rle_trans; [exact Y|]]; apply bpow_le; assumption. }
  assert (P20 : bpow radix2 (-40) = / 2 ^ 40) by (cbn; f_equal; ring). assert (P9 : bpow radix2 9 = 2 ^ 9) by (cbn; ring). assert (P38 : bpow radix2 38 = 2 ^ 38) by (cbn; ring). assert (P62 : bpow radix2 (-82) = / 2 ^ 41 * / 2 ^ 41) by (cbn; rewrite <- Rinv_mult; f_equal; ring).
  assert (W1 : vap (231 / 10) (fmul x f) (fmul y f) (fmul z f) a T).
  { pose proof (vap_scale _ _ _ _ _ _ _ _ _ _ V1 AF) as V. replace (h * F) with T in V by (unfold T; ring). replace (22 + 0 + 11 / 10) with (231 / 10) in V by lra. apply V; try lra. apply (MAG _ (-40)%Z 9%Z); [|lia|lia]. rewrite P20, P9. lra. }
  assert (W2 : vap (491 / 10) (fmul x' f) (fmul y' f) (fmul z' f) b (F * r)).
  { pose proof (vap_scale _ _ _ _ _ _ _ _ _ _ V2 AF) as V. replace (r * F) with (F * r) in V by ring. replace (48 + 0 + 11 / 10) with (491 / 10) in V by lra. apply V; try lra. apply (MAG _ (-82)%Z 38%Z); [|lia|lia]. rewrite P62, P38. split; [|exact LR]. apply Rmult_le_compat; lra. }
  set (l' := line_mul_f (mkline (mk4 w x y z) (mk4 w' x' y' z')) f) in *.
  destruct W1 as (Fx1 & Fy1 & Fz1 & _ & Y1 & _). destruct W2 as (Fx2 & Fy2 & Fz2 & _ & Y2 & _).
  destruct (zero_lane f w Ff Fw Zw) as (_ & _ & Fwf & Zwf). destruct (zero_lane f w' Ff Fw' Zw') as (_ & _ & Fwf' & Zwf').
  assert (OK' : line_ok l').
  { split; [repeat (apply Forall_cons; [assumption|]); apply Forall_nil|]. split; [repeat (apply Forall_cons; [assumption|]); apply Forall_nil|]. split; assumption. }
  assert (E1' : lv1 l' = axis (fmul x f) (fmul y f) (fmul z f)) by (unfold axis; rewrite <- Zwf; reflexivity).
  assert (E2' : lv2 l' = axis (fmul x' f) (fmul y' f) (fmul z' f)) by (unfold axis; rewrite <- Zwf'; reflexivity).
  rewrite <- E1', <- Na in Y1. rewrite <- E2' in Y2.
  set (R := F * r + / 2 ^ 40). assert (ur : 0 < u * (F * r)) by (apply Rmult_lt_0_compat; lra).
  assert (I42 : / 2 ^ 42 <= / 2 ^ 40) by (apply Rinv_le_contravar; [apply pow_lt; lra|apply Rle_pow; [lra|lia]]).
  assert (L40 : / 2 ^ 40 <= 1) by (rewrite <- Rinv_1; apply Rinv_le_contravar; [lra|apply pow_R1_Rle; lra]). assert (P39 : 2 ^ 39 = 2 ^ 38 + 2 ^ 38) by ring. assert (Q38 : 1 <= 2 ^ 38) by (apply pow_R1_Rle; lra).
  assert (Y2' : n4 (sub4 (lv2 l') b) <= 491 / 10 * u * R). { eapply Rle_trans; [exact Y2|]. apply Rmult_le_compat_l; [lra|]. unfold R. lra. }
  destruct (exp_near B M (proj1 LM) HR HM l' a b (231 / 10) (491 / 10) R OK' Za Zb) as (F' & X1 & X2); try lra; try (rewrite Na; lra); try (unfold R; lra); try assumption.
  cbv zeta in X1, X2. fold FL in F', X1, X2. change (line_exp l') with m' in F', X1, X2. rewrite Na in X1, X2. split; [exact F'|].
  assert (0 < u * T) by (apply Rmult_lt_0_compat; lra). assert (uR : 0 < u * R) by (apply Rmult_lt_0_compat; unfold R; lra). assert (0 < T * (u * R)) by (apply Rmult_lt_0_compat; lra). split; lra.
Qed.
Lemma exact_exp_unit a b : l0 a = 0 -> 0 < n4 a -> n4 (motor_p1 (exact_exp a b)) = 1.
Proof.
  intros ZA PA. unfold n4. rewrite <- sqrt_1. f_equal. unfold exact_exp. cbn [motor_p1]. pose proof (n4_sq a) as Q. unfold q4 in Q |- *. cbn [l0 l1 l2 l3]. rewrite ZA in Q.
  pose proof (sin2_cos2 (n4 a)) as SC. unfold Rsqr in SC. set (s := n4 a) in *. rewrite <- SC. apply (Rmult_eq_reg_r (s * s)); [|apply Rmult_integral_contrapositive; lra].
  transitivity (cos s * cos s * (s * s) + sin s * sin s * (0 * 0 + l1 a * l1 a + l2 a * l2 a + l3 a * l3 a)); [field; lra|rewrite <- Q; ring].
Qed.
(** Where the fraction f of a motion takes a point. *)
Theorem C78_place : forall (B : Build) (M : machine), libm_log M -> rcp_estimate M -> rsqrt_estimate M -> let FL := Flo_f32 M in forall (m : motor f32) (f : f32) (p : point f32),
  let p1 := map4 val (motor_p1 m) in let p2 := map4 val (motor_p2 m) in Forall fin (reg_list (motor_p1 m) ++ reg_list (motor_p2 m)) ->
  / 2 ^ 40 <= n4 (biv4 p1) -> / 2 ^ 19 <= Rabs (l0 p1) -> n4 p1 <= 2 -> n4 (biv4 p2) <= 2 ^ 16 -> fin f -> let F := Rabs (val f) in let T := F * acos (l0 p1 / n4 p1) in
  2 * / 2 ^ 40 <= T <= 2 ^ 7 -> let r := F * radius p1 p2 + / 2 ^ 40 in r <= 2 ^ 19 ->
  Forall (bounded 20) (coefs (k := KPoint) p) -> wt p = 1 ->
  let q := motor_on_point (line_exp (line_mul_f (motor_log m) f)) p in
  let e := exact_exp (scale4 (val f) (line_p1 (exact_mlog p1 p2))) (scale4 (val f) (line_p2 (exact_mlog p1 p2))) in
  vlen (vsub (pos q) (motor_image (motor_p1 e) (motor_p2 e) 1 (pos p))) <= / 2 ^ 24 * ((53 + 87 * T) * vlen (pos p) + (987 + 219 * T) * r) /\
  Rabs (wt q - 1) <= / 2 ^ 24 * (39 + 87 * T).
Proof.
  intros B M LM HR HM FL m f p p1 p2 FF S P N D Ff F T LT r Lr Hp Hw q e. assert (I40 : 0 < / 2 ^ 40) by (apply Rinv_0_lt_compat, pow_lt; lra). assert (T128 : T <= 128) by (replace 128 with (2 ^ 7) by ring; lra).
  assert (I20 : 0 < / 2 ^ 40) by (apply Rinv_0_lt_compat, pow_lt; lra). assert (I19 : 0 < / 2 ^ 19) by (apply Rinv_0_lt_compat, pow_lt; lra).
  destruct (C78_fraction B M LM HR HM m f FF S P N D Ff) as (_ & FM & X1 & X2).
  { fold p1. fold F. fold T. split; [lra|]. replace (2 ^ 9) with (2 ^ 7 * 4) by ring. lra. }
  { fold p1 p2. fold F. apply (Rle_trans _ (2 ^ 19)); [unfold r in Lr; lra|apply Rle_pow; [lra|lia]]. }
  cbv zeta in FM, X1, X2. fold FL in FM, X1, X2. fold p1 p2 in X1, X2. fold F in X1, X2. fold T r in X1, X2. change (exact_exp _ _) with e in X1, X2. set (m' := line_exp (line_mul_f (motor_log m) f)) in *. clearbody m'. rewrite u_pow in *. pose proof u_small as U.
  assert (S0 : 0 < n4 (biv4 p1)) by lra. pose proof (n4_lane p1) as (P2 & _). assert (P2' : Rabs (l0 p1) <= 2) by lra.
  pose proof (mlog_lane p1 p2) as [Z1 Z2]. destruct (radius_log p1 p2 S (conj P P2')) as [Rb _]. pose proof (exact_log_len p1 S0) as LL. change (exact_log p1) with (line_p1 (exact_mlog p1 p2)) in LL.
  assert (F0 : 0 <= F) by apply Rabs_pos. set (a := scale4 (val f) (line_p1 (exact_mlog p1 p2))) in *. set (b := scale4 (val f) (line_p2 (exact_mlog p1 p2))) in *.
  assert (Na : n4 a = T) by (unfold a, T; rewrite n4_scale_abs, LL; reflexivity). assert (Za : l0 a = 0) by (unfold a, scale4, map4; cbn [l0]; rewrite Z1; ring). assert (Zb : l0 b = 0) by (unfold b, scale4, map4; cbn [l0]; rewrite Z2; ring). assert (a0 : 0 < n4 a) by (rewrite Na; lra).
  assert (Nb : n4 b <= F * radius p1 p2) by (unfold b; rewrite n4_scale_abs; apply Rmult_le_compat_l; assumption).
  assert (N1 : n4 (motor_p1 e) = 1) by (apply exact_exp_unit; assumption).
  assert (N2 : n4 (motor_p2 e) <= r) by (eapply Rle_trans; [apply exact_exp_p2_all; assumption|unfold r; lra]). assert (r0 : / 2 ^ 40 <= r) by (pose proof (n4_pos b); unfold r; lra).
  assert (S1 : (15 + 43 * T) * u <= / 1000). { apply (Rle_trans _ ((15 + 43 * 128) * u)); [apply Rmult_le_compat_r; lra|unfold u; lra]. }
  assert (S2 : (465 + 66 * T) * u <= / 1000). { apply (Rle_trans _ ((465 + 66 * 128) * u)); [apply Rmult_le_compat_r; lra|unfold u; lra]. }
  assert (S2' : (465 + 66 * T) * u * r <= r / 1000). { apply (Rle_trans _ (/ 1000 * r)); [apply Rmult_le_compat_r; lra|lra]. }
  assert (P20 : bpow radix2 20 = 2 ^ 20) by (cbn; ring).
  assert (Hm : Forall (bounded 20) (coefs (k := KMotor) m')).
  { apply Forall_app in FM. destruct FM as [F1 F2]. change (coefs (k := KMotor) m') with (reg_list (motor_p1 m') ++ reg_list (motor_p2 m')). apply Forall_app. split.
    - apply (rv_bounded (mkrotor (motor_p1 m')) 20); [lia|exact F1|]. change (rv (mkrotor (motor_p1 m'))) with (map4 val (motor_p1 m')). pose proof (n4_tri (map4 val (motor_p1 m')) (motor_p1 e)). rewrite P20. replace (2 ^ 20) with 1048576 by ring. lra.
    - apply (rv_bounded (mkrotor (motor_p2 m')) 20); [lia|exact F2|]. change (rv (mkrotor (motor_p2 m'))) with (map4 val (motor_p2 m')). pose proof (n4_tri (map4 val (motor_p2 m')) (motor_p2 e)). rewrite P20. replace (2 ^ 19) with 524288 in Lr by ring. replace (2 ^ 20) with 1048576 by ring. lra. }
  destruct (motor_near B m' p (motor_p1 e) (motor_p2 e) _ _ r Hm Hp Hw N1 N2 X1 S1 X2 S2') as [Y1 Y2]. fold q in Y1, Y2.
  assert (Q : bpow radix2 (-121) <= / 100 * u * r).
  { apply (Rle_trans _ (bpow radix2 (-40) * bpow radix2 (-40))); [rewrite <- bpow_plus; apply bpow_le; lia|]. apply Rmult_le_compat; try apply bpow_ge_0; [unfold u; cbn; lra|]. replace (bpow radix2 (-40)) with (/ 2 ^ 40) by (cbn; f_equal; ring). exact r0. }
  pose proof (vlen_pos (pos p)) as X0. assert (0 <= u * vlen (pos p)) by (apply Rmult_le_pos; lra). assert (0 <= u * r) by (apply Rmult_le_pos; lra). assert (0 <= T * (u * r)) by (apply Rmult_le_pos; lra). assert (0 <= T * (u * vlen (pos p))) by (apply Rmult_le_pos; lra). assert (0 < u * T) by (apply Rmult_lt_0_compat; lra).
  split; lra.
Qed.

(** ** An example *)
(** Cosine 0.6 about the z axis with a slide along it, as stored; half of it. *)
Definition c06 : f32 := f32_of 10066330 (-24).
Definition c08 : f32 := f32_of 13421773 (-24).
Definition screw_06 : motor f32 := mkmotor (mk4 c06 f0 f0 c08) (mk4 c08 f0 f0 c06).
Definition fhalf : f32 := f32_of 1 (-1).
Example C78_hypotheses : let p1 := map4 val (motor_p1 screw_06) in let p2 := map4 val (motor_p2 screw_06) in
  near_unit (mkrotor (motor_p1 screw_06)) /\ Forall fin (reg_list (motor_p1 screw_06) ++ reg_list (motor_p2 screw_06)) /\
  / 2 ^ 40 <= n4 (biv4 p1) <= 2 ^ 10 /\ / 2 ^ 19 <= Rabs (l0 p1) <= 2 ^ 10 /\ n4 p1 <= 2 /\ n4 (biv4 p2) <= 2 ^ 16 /\ 2 * / 2 ^ 40 <= acos (l0 p1 / n4 p1) /\
  fin fhalf /\ 2 * / 2 ^ 40 <= Rabs (val fhalf) * acos (l0 p1 / n4 p1) <= 2 ^ 7 /\ Rabs (val fhalf) * radius p1 p2 + / 2 ^ 40 <= 2 ^ 19 /\ radius p1 p2 <= 2 ^ 39.
Proof.
  assert (V6 : val c06 = 10066330 / 16777216) by (vm_compute; lra). assert (V8 : val c08 = 13421773 / 16777216) by (vm_compute; lra). assert (Vh : val fhalf = / 2) by (vm_compute; lra).
  intros p1 p2. assert (E1 : p1 = mk4 (10066330 / 16777216) 0 0 (13421773 / 16777216)) by (unfold p1, screw_06, map4; cbn [motor_p1 l0 l1 l2 l3]; rewrite V6, V8, val_f0; reflexivity).
  assert (E2 : p2 = mk4 (13421773 / 16777216) 0 0 (10066330 / 16777216)) by (unfold p2, screw_06, map4; cbn [motor_p2 l0 l1 l2 l3]; rewrite V6, V8, val_f0; reflexivity).
  assert (FF : Forall fin (reg_list (motor_p1 screw_06) ++ reg_list (motor_p2 screw_06))) by (repeat (apply Forall_cons; [reflexivity|]); apply Forall_nil).
  assert (NU : near_unit (mkrotor (motor_p1 screw_06))).
  { split; [repeat (apply Forall_cons; [reflexivity|]); apply Forall_nil|]. change (rv (mkrotor (motor_p1 screw_06))) with p1. rewrite E1. unfold q4. cbn [l0 l1 l2 l3]. rewrite u_pow. unfold u. apply Rabs_le. lra. }
  pose proof (near_n4 _ NU) as NN. change (rv (mkrotor (motor_p1 screw_06))) with p1 in NN. pose proof u_small as U.
  assert (Z : forall z, 0 <= z -> n4 (mk4 0 0 0 z) = z) by (intros z Hz; unfold n4, q4; cbn [l0 l1 l2 l3]; replace (0 * 0 + 0 * 0 + 0 * 0 + z * z) with (z * z) by ring; apply sqrt_square; exact Hz).
  assert (S1 : n4 (biv4 p1) = 13421773 / 16777216) by (rewrite E1; apply Z; lra). assert (S2 : n4 (biv4 p2) = 10066330 / 16777216) by (rewrite E2; apply Z; lra).
  assert (C1 : l0 p1 = 10066330 / 16777216) by (rewrite E1; reflexivity). assert (A1 : Rabs (l0 p1) = 10066330 / 16777216) by (rewrite C1, Rabs_pos_eq by lra; reflexivity).
  assert (S0 : 0 < n4 (biv4 p1)) by lra. destruct (biv_facts p1 S0) as (Np & Cn & Tn & Ct & St).
  assert (Hl : 7 / 10 <= acos (l0 p1 / n4 p1)).
  { assert (X : sin (acos (l0 p1 / n4 p1)) <= acos (l0 p1 / n4 p1)) by (apply sin_le_x; lra). rewrite St, S1 in X. eapply Rle_trans; [|exact X]. apply (Rmult_le_reg_r (n4 p1)); [lra|]. unfold Rdiv at 2. rewrite Rmult_assoc, Rinv_l by lra. lra. }
  pose proof PI_bounds as PB. assert (Q20 : / 2 ^ 40 <= / 1000) by (apply Rinv_le_contravar; [lra|]; apply (Rle_trans _ (2 ^ 20)); [replace (2 ^ 20) with 1048576 by ring; lra|apply Rle_pow; [lra|lia]]). assert (Q19 : / 2 ^ 19 <= / 1000) by (apply Rinv_le_contravar; [lra|]; replace (2 ^ 19) with 524288 by ring; lra).
  assert (Q40 : / 2 ^ 40 <= 1) by (rewrite <- Rinv_1; apply Rinv_le_contravar; [lra|apply pow_R1_Rle; lra]). assert (T10 : 1024 = 2 ^ 10) by ring. assert (T16 : 65536 = 2 ^ 16) by ring. assert (T7 : 128 = 2 ^ 7) by ring. assert (T19 : 524288 = 2 ^ 19) by ring. assert (T39 : 2 ^ 19 <= 2 ^ 39) by (apply Rle_pow; [lra|lia]).
  assert (FH : Rabs (val fhalf) = / 2) by (rewrite Vh, Rabs_pos_eq by lra; reflexivity). rewrite FH. unfold radius. rewrite S1, S2, A1. set (h := acos _) in *.
  assert (RR : (10066330 / 16777216 + / 2 ^ 40) * (h / (13421773 / 16777216) + / (10066330 / 16777216)) <= 2 * (4 * 2 + 2)).
  { assert (I40 : 0 < / 2 ^ 40) by (apply Rinv_0_lt_compat, pow_lt; lra). assert (J8 : 0 < / (13421773 / 16777216)) by (apply Rinv_0_lt_compat; lra). assert (J6 : 0 < / (10066330 / 16777216)) by (apply Rinv_0_lt_compat; lra).
    assert (K8 : / (13421773 / 16777216) <= 2) by (replace 2 with (/ / 2) by field; apply Rinv_le_contravar; lra). assert (K6 : / (10066330 / 16777216) <= 2) by (replace 2 with (/ / 2) by field; apply Rinv_le_contravar; lra).
    assert (H0 : 0 <= h / (13421773 / 16777216)) by (apply Rmult_le_pos; lra). assert (H1 : h / (13421773 / 16777216) <= 4 * 2) by (apply Rmult_le_compat; lra).
    apply Rmult_le_compat; lra. }
  repeat split; try exact FF; try apply NU; try lra.
Qed.
Example C78_library : exists M, libm_log M /\ rcp_estimate M /\ rsqrt_estimate M. Proof. exact libm_log_exists. Qed.

Print Assumptions C78_log.
Print Assumptions C78_roundtrip.
Print Assumptions C78_back.
Print Assumptions C78_fraction.
Print Assumptions C78_place.
