(** Property C80: interpolation between motors ([blend_motors] of the documentation) in binary32. *)
From Coq Require Import ZArith Reals List Bool Lra Lia Psatz Nsatz.
From Flocq Require Import Core BinarySingleNaN.
From Verif Require Import AlgTac SpecMass FloatMass Closed FloR ExpSeries KernelExpLog ExpLog LogExp2 Float32 FloatFacts ExprSyntax FloatErr FloatAbs FloatApx FloatNR FloatNorm FloatIdeal FloatLibm Props11 Props21 Props22 SpecGeom Props23 Props24 Props26 Props27 Props28 Props29 Props30 DocCode.
Import ListNotations.
Local Open Scope R_scope.

(** ** The group of exact motions *)
Definition mone : motor R := mkmotor (mk4 1 0 0 0) (mk4 0 0 0 0).
Definition mrev (e : motor R) : motor R := mkmotor (rev4 (motor_p1 e)) (rev4 (motor_p2 e)).
Lemma mmul_assoc a b c : mmul (mmul a b) c = mmul a (mmul b c).
Proof.
  unfold mmul, mm2. cbn [motor_p1 motor_p2]. rewrite !rev4_rev, qm_assoc. f_equal. f_equal. rewrite qm_add_l, qm_add_r, !qm_assoc. set (x := qm _ _). set (y := qm _ _). set (z := qm _ _). destruct x as [x0 x1 x2 x3], y as [y0 y1 y2 y3], z as [z0 z1 z2 z3]. unfold add4. cbn [l0 l1 l2 l3]. f_equal; ring.
Qed.
Lemma mmul_one e : mmul mone e = e /\ mmul e mone = e.
Proof. destruct e as [[a0 a1 a2 a3] [b0 b1 b2 b3]]. split; unfold mmul, mm2, mone, qm, rev4, add4; cbn [motor_p1 motor_p2 l0 l1 l2 l3]; f_equal; f_equal; ring. Qed.
Lemma one_proper : proper mone.
Proof. split; unfold mone; cbn [motor_p1 motor_p2]; [unfold n4, q4; cbn [l0 l1 l2 l3]; replace (_ + _) with 1 by ring; apply sqrt_1|unfold study, q4, rev4; cbn [l0 l1 l2 l3]; ring]. Qed.
Lemma mrev_proper e : proper e -> proper (mrev e).
Proof.
  intros [P S]. split; unfold mrev; cbn [motor_p1 motor_p2]; [rewrite rev4_n4; exact P|]. rewrite <- S. unfold study, q4, rev4. cbn [l0 l1 l2 l3]. ring.
Qed.
Lemma mrev_inv e : proper e -> mmul (mrev e) e = mone.
Proof.
  intros [P S]. pose proof (n4_sq (motor_p1 e)) as Q. rewrite P in Q. destruct e as [[a0 a1 a2 a3] [b0 b1 b2 b3]]. unfold mrev, mmul, mm2, mone, study, q4, qm, rev4, add4 in *. cbn [motor_p1 motor_p2 l0 l1 l2 l3] in *. f_equal; f_equal; lra.
Qed.
Lemma near_rev (B : Build) th r m e : near_motor th r m e -> near_motor th r (motor_rev m) (mrev e).
Proof.
  intros (F & P & R2 & E1 & E2). change (coefs (k := KMotor) m) with (reg_list (motor_p1 m) ++ reg_list (motor_p2 m)) in F. apply Forall_app in F. destruct F as [F1 F2].
  assert (K : forall v : m128 f32, Forall fin (reg_list v) -> Forall fin (reg_list (_mm_xor_ps sgn_hi v)) /\ map4 val (_mm_xor_ps sgn_hi v) = rev4 (map4 val v)).
  { intros v Fv. destruct (ap4_lanes v Fv) as (G0 & G1 & G2 & G3). destruct v as [a b c d]. cbn [l0 l1 l2 l3] in *. destruct (opp_ok b G1) as [H1 V1]. destruct (opp_ok c G2) as [H2 V2]. destruct (opp_ok d G3) as [H3 V3].
    split; [apply lanes_ap4; assumption|]. unfold rev4, map4. cbn [l0 l1 l2 l3]. rewrite <- V1, <- V2, <- V3. reflexivity. }
  destruct (K _ F1) as [G1 V1]. destruct (K _ F2) as [G2 V2].
  split; [apply Forall_app; split; assumption|]. split; [apply mrev_proper; exact P|]. unfold mrev. cbn [motor_p1 motor_p2]. rewrite rev4_n4. split; [exact R2|].
  unfold mv1, mv2, motor_rev. cbn [motor_p1 motor_p2]. rewrite V1, V2, <- !rev4_sub, !rev4_n4. split; assumption.
Qed.

(** ** The motions along a line: a one-parameter group *)
Definition flow (l : line R) (s : R) : motor R := exact_exp (scale4 s (line_p1 l)) (scale4 s (line_p2 l)).
Definition flow_form (a b : m128 R) (s : R) : motor R :=
  let t := n4 a in let k := sin (s * t) / t in let w := q4 a b / (t * t) in let h := w * (s * cos (s * t) - k) in
  mkmotor (mk4 (cos (s * t)) (k * l1 a) (k * l2 a) (k * l3 a)) (mk4 (s * q4 a b * k) (k * l1 b + h * l1 a) (k * l2 b + h * l2 a) (k * l3 b + h * l3 a)).
Lemma flow_closed l s : 0 < n4 (line_p1 l) -> flow l s = flow_form (line_p1 l) (line_p2 l) s.
Proof.
  intro P. destruct l as [a b]. cbn [line_p1 line_p2] in *. unfold flow, exact_exp, flow_form. cbn [line_p1 line_p2]. rewrite n4_scale_abs. set (t := n4 a) in *.
  assert (G : q4 (scale4 s a) (scale4 s b) = s * s * q4 a b) by (unfold q4, scale4, map4; cbn [l0 l1 l2 l3]; ring). rewrite G. set (g := q4 a b).
  unfold scale4, map4. cbn [l0 l1 l2 l3].
  destruct (Rtotal_order s 0) as [N|[->|N]].
  - rewrite (Rabs_left s) by exact N. replace (- s * t) with (- (s * t)) by ring. rewrite cos_neg, sin_neg. f_equal; f_equal; field; split; lra.
  - rewrite Rabs_R0, !Rmult_0_l, sin_0. unfold Rdiv. f_equal; f_equal; ring.
  - rewrite (Rabs_pos_eq s) by lra. f_equal; f_equal; field; split; lra.
Qed.
Lemma flow_add l s s' : l0 (line_p1 l) = 0 -> l0 (line_p2 l) = 0 -> 0 < n4 (line_p1 l) -> mmul (flow l s) (flow l s') = flow l (s + s').
Proof.
  intros A0 B0 P. rewrite !flow_closed by exact P. destruct l as [a b]. cbn [line_p1 line_p2] in *. unfold flow_form. rewrite Rmult_plus_distr_r, sin_plus, cos_plus. pose proof (n4_sq a) as Q. set (t := n4 a) in *.
  set (k := sin (s * t) / t). set (k' := sin (s' * t) / t). assert (E : sin (s * t) = t * k) by (unfold k; field; lra). assert (E' : sin (s' * t) = t * k') by (unfold k'; field; lra).
  replace ((sin (s * t) * cos (s' * t) + cos (s * t) * sin (s' * t)) / t) with (k * cos (s' * t) + cos (s * t) * k') by (rewrite E, E'; field; lra). rewrite E, E'. set (c := cos (s * t)). set (c' := cos (s' * t)). set (w := q4 a b / (t * t)).
  assert (W : q4 a b = w * (t * t)) by (unfold w; field; lra). clearbody k k' c c' w. clear E E'. destruct a as [a0 a1 a2 a3], b as [b0 b1 b2 b3]. cbn [l0] in A0, B0. subst a0 b0. unfold q4 in *. cbn [l0 l1 l2 l3] in *.
  assert (W' : a1 * b1 + a2 * b2 + a3 * b3 = w * (t * t)) by lra. assert (Q' : t * t = a1 * a1 + a2 * a2 + a3 * a3) by lra. rewrite W. clear W Q.
  unfold mmul, mm2, qm, rev4, add4. cbn [motor_p1 motor_p2 l0 l1 l2 l3]. f_equal; f_equal.
  all: set (tt := t * t) in *; try replace (t * k * (t * k')) with (tt * (k * k')) by (unfold tt; ring); clearbody tt; clear - W' Q'; nsatz.
Qed.
Lemma flow_proper l s : l0 (line_p1 l) = 0 -> l0 (line_p2 l) = 0 -> 0 < n4 (line_p1 l) -> proper (flow l s).
Proof.
  intros A0 B0 P. destruct (Req_dec s 0) as [->|N].
  - replace (flow l 0) with mone; [exact one_proper|]. rewrite flow_closed by exact P. unfold flow_form, mone. rewrite !Rmult_0_l, sin_0, cos_0. unfold Rdiv. f_equal; f_equal; ring.
  - apply exact_exp_proper; [unfold scale4, map4; cbn [l0]; rewrite A0; ring|unfold scale4, map4; cbn [l0]; rewrite B0; ring|]. rewrite n4_scale_abs. apply Rmult_lt_0_compat; [apply Rabs_pos_lt; exact N|exact P].
Qed.
Lemma flow_0 l : 0 < n4 (line_p1 l) -> flow l 0 = mone.
Proof. intro P. rewrite flow_closed by exact P. unfold flow_form, mone. rewrite !Rmult_0_l, sin_0, cos_0. unfold Rdiv. f_equal; f_equal; ring. Qed.
Lemma flow_1 l : flow l 1 = exact_exp (line_p1 l) (line_p2 l).
Proof. unfold flow. f_equal; unfold scale4, map4; destruct l as [[a0 a1 a2 a3] [b0 b1 b2 b3]]; cbn [line_p1 line_p2 l0 l1 l2 l3]; f_equal; ring. Qed.

(** ** Where a stored motor near a motion places a point *)
Lemma near_place (B : Build) th r m e (p : point f32) : near_motor th r m e -> th <= / 1000 -> / 2 ^ 60 <= r <= 2 ^ 19 ->
  Forall (bounded 20) (coefs (k := KPoint) p) -> wt p = 1 -> let q := motor_on_point m p in
  vlen (vsub (pos q) (moved e (pos p))) <= (2001 / 1000 * th + 222 / 10 * u) * vlen (pos p) + (4002 / 1000 * th + 252 / 10 * u) * r /\ Rabs (wt q - 1) <= 2001 / 1000 * th + 8 * u.
Proof.
  intros N T [r1 R2] Hp Hw q. assert (Y19 : 2 ^ 20 = 2 ^ 19 * 2) by ring. assert (Z19 : 1 <= 2 ^ 19) by (apply pow_R1_Rle; lra). pose proof u_small as U.
  destruct (near_motor_len _ _ _ _ N) as (A1 & A2 & T0 & r0). destruct N as (F & (P & _) & Re & E1 & E2).
  assert (P20 : bpow radix2 20 = 2 ^ 20) by (cbn; ring). assert (A3 : (1 + th) * r <= 2 * r) by (apply Rmult_le_compat_r; lra).
  assert (Hm : Forall (bounded 20) (coefs (k := KMotor) m)) by (apply motor_bounded; [lia|exact F| |]; rewrite P20, Y19; lra).
  assert (Sr : th * r <= r / 1000). { apply (Rle_trans _ (/ 1000 * r)); [apply Rmult_le_compat_r; lra|lra]. }
  destruct (motor_near B m p (motor_p1 e) (motor_p2 e) _ _ r Hm Hp Hw P Re E1 T E2 Sr) as [Y1 Y2]. fold q in Y1, Y2. unfold moved.
  assert (Q : bpow radix2 (-121) <= / 100 * u * r).
  { apply (Rle_trans _ (bpow radix2 (-40) * bpow radix2 (-60))); [rewrite <- bpow_plus; apply bpow_le; lia|]. apply Rmult_le_compat; try apply bpow_ge_0; [unfold u; cbn; lra|]. replace (bpow radix2 (-60)) with (/ 2 ^ 60) by (cbn; f_equal; ring). exact r1. }
  pose proof (vlen_pos (pos p)) as X0. assert (0 <= u * vlen (pos p)) by (apply Rmult_le_pos; lra). assert (0 <= u * r) by (apply Rmult_le_pos; lra). split; lra.
Qed.

(** ** exp of a line without real part *)
Lemma exp_ideal (B : Build) (M : machine) : let FL := Flo_f32 M in forall l : line f32, Forall fin (reg_list (line_p1 l)) -> lv1 l = mk4 0 0 0 0 -> line_exp l = mkmotor (_mm_set_ss (fz 1)) (line_p2 l).
Proof.
  intros FL l Fa Z. unfold line_exp, exp_kernel. destruct l as [[w x y z] p2]. unfold lv1 in Z. cbn [line_p1] in Z. unfold map4 in Z. cbn [l0 l1 l2 l3] in Z. injection Z as Zw Zx Zy Zz. cbn [line_p1 line_p2].
  inversion_clear Fa as [|? ? Fw F1]. inversion_clear F1 as [|? ? Fx F2]. inversion_clear F2 as [|? ? Fy F3]. inversion_clear F3 as [|? ? Fz _]. destruct (fz_ok 0 ltac:(lia)) as [Fz0 Vz0].
  assert (EQ : forall p, fin p -> val p = 0 -> feqb p (fz 0) = true).
  { intros p Fp H. change (Beqb (prec:=24) (emax:=128) p (@fz f32 _ 0) = true). rewrite (Beqb_correct 24 128 p _ Fp Fz0). apply Req_bool_true. change (val p = val (@fz f32 _ 0)). rewrite H, Vz0. reflexivity. }
  assert (T : all4 (_mm_cmpeq_ps (FL := FL) (mk4 w x y z) (_mm_setzero_ps (A := @flo_arith f32 FL))) = true).
  { unfold all4, _mm_cmpeq_ps. cbn [l0 l1 l2 l3 map4_2 _mm_setzero_ps]. rewrite !andb_true_iff. repeat split; apply EQ; assumption. }
  rewrite T. reflexivity.
Qed.
Lemma mul_zero x f : fin x -> fin f -> val f = 0 -> fin (fmul x f) /\ val (fmul x f) = 0.
Proof.
  intros Fx Ff Z. assert (V : val x * val f = 0) by (rewrite Z; ring). destruct (mul_any x f Fx Ff) as [F _]; [rewrite V, Rabs_R0; unfold big; apply bpow_ge_0|]. split; [exact F|].
  pose proof (Bmult_correct 24 128 eq_refl eq_refl mode_NE x f) as C. unfold val in *. change (B2R x * B2R f = 0) in V. rewrite V, round_0 in C by auto with typeclass_instances. rewrite Rabs_R0, Rlt_bool_true in C by apply bpow_gt_0. exact (proj1 C).
Qed.

(** ** Interpolation *)
(** [a] and [b] are stored motors within [t] of motions, the rotation of the step between them is neither too small nor too near a half turn *)
Definition blend_step (B : Build) (a b : motor f32) : motor f32 := motor_mul_motor b (motor_rev a).
Definition blendable (B : Build) (t r : R) (a b : motor f32) (ea eb : motor R) : Prop :=
  near_motor t r a ea /\ near_motor t r b eb /\ t <= / 2500 /\ / 2 ^ 40 <= r <= 2 ^ 14 /\
  / 2 ^ 38 <= n4 (biv4 (mv1 (blend_step B a b))) /\ / 2 ^ 19 <= Rabs (l0 (mv1 (blend_step B a b))).
(** the line along which it moves, fixed by the two ends, and the place at time s *)
Definition blend_line (B : Build) (a b : motor f32) : line R := exact_mlog (mv1 (blend_step B a b)) (mv2 (blend_step B a b)).
Definition blend_path (l : line R) (e : motor R) (s : R) : motor R := mmul (flow l s) e.
Lemma blend_facts (B : Build) t r a b ea eb : blendable B t r a b ea eb -> let m := blend_step B a b in let l := blend_line B a b in
  near_motor (21 / 10 * t + 12 * u) (r + r) m (mmul eb (mrev ea)) /\ n4 (mv1 m) <= 2 /\ n4 (biv4 (mv2 m)) <= 2 ^ 16 /\
  n4 (line_p1 l) = acos (l0 (mv1 m) / n4 (mv1 m)) /\ l0 (line_p1 l) = 0 /\ l0 (line_p2 l) = 0 /\ 2 * / 2 ^ 40 <= n4 (line_p1 l) < PI.
Proof.
  intros (Na & Nb & T & Lr & S & Pl) m l. fold m in S, Pl. pose proof u_small as U. destruct (near_motor_len _ _ _ _ Na) as (_ & _ & t0 & r0).
  assert (I40 : 0 < / 2 ^ 40) by (apply Rinv_0_lt_compat, pow_lt; lra). assert (I60 : / 2 ^ 60 <= / 2 ^ 40) by (apply Rinv_le_contravar; [apply pow_lt; lra|apply Rle_pow; [lra|lia]]). assert (X14 : 2 ^ 16 = 2 ^ 14 * 4) by ring. assert (X50 : 2 ^ 14 <= 2 ^ 50) by (apply Rle_pow; [lra|lia]).
  pose proof (C79_multiply B t t r r b (motor_rev a) eb (mrev ea) Nb (near_rev B _ _ _ _ Na) ltac:(lra) ltac:(lra) ltac:(lra) ltac:(lra) ltac:(lra)) as N. change (motor_mul_motor b (motor_rev a)) with m in N. rewrite u_pow in N.
  assert (Nm : near_motor (21 / 10 * t + 12 * u) (r + r) m (mmul eb (mrev ea))).
  { eapply near_motor_weak; [exact N|]. assert (0 <= t * t <= / 2500 * t) by (split; [apply Rmult_le_pos; lra|apply Rmult_le_compat_r; lra]). assert (0 <= t * u <= / 2500 * u) by (split; [apply Rmult_le_pos; lra|apply Rmult_le_compat_r; lra]). assert (t * t * u <= / 2500 * u) by (apply Rmult_le_compat_r; lra). lra. }
  split; [exact Nm|]. destruct (near_motor_len _ _ _ _ Nm) as (A1 & A2 & tm0 & _). clear N.
  assert (N2 : n4 (mv1 m) <= 101 / 100) by (unfold u in *; lra). split; [lra|].
  assert (D : n4 (biv4 (mv2 m)) <= 2 ^ 16). { apply (Rle_trans _ (n4 (mv2 m))); [apply lane03|]. eapply Rle_trans; [exact A2|]. rewrite X14. replace (2 ^ 14 * 4) with (2 * (2 ^ 14 + 2 ^ 14)) by ring. apply Rmult_le_compat; unfold u in *; lra. }
  split; [exact D|]. assert (I18 : 0 < / 2 ^ 38) by (apply Rinv_0_lt_compat, pow_lt; lra). assert (S0 : 0 < n4 (biv4 (mv1 m))) by lra. destruct (biv_facts _ S0) as (Np & Cn & Tn & Ct & St).
  assert (L1 : n4 (line_p1 l) = acos (l0 (mv1 m) / n4 (mv1 m))) by (apply exact_log_len; exact S0). split; [exact L1|]. split; [unfold l, blend_line, exact_mlog, exact_log, biv4, scale4, map4; cbn [line_p1 l0]; ring|].
  split; [unfold l, blend_line, exact_mlog, biv4, add4, scale4, map4; cbn [line_p2 l0]; ring|]. rewrite L1. split; [|lra].
  assert (X : sin (acos (l0 (mv1 m) / n4 (mv1 m))) <= acos (l0 (mv1 m) / n4 (mv1 m))) by (apply sin_le_x; lra). rewrite St in X. eapply Rle_trans; [|exact X].
  assert (I20 : / 2 ^ 38 = 4 * / 2 ^ 40) by (replace (2 ^ 40) with (2 ^ 38 * 4) by ring; rewrite Rinv_mult; field; apply pow_nonzero; lra).
  apply (Rmult_le_reg_r (n4 (mv1 m))); [lra|]. unfold Rdiv. rewrite (Rmult_assoc (n4 (biv4 (mv1 m)))), Rinv_l by lra. assert (/ 2 ^ 40 * n4 (mv1 m) <= / 2 ^ 40 * 2) by (apply Rmult_le_compat_l; lra). lra.
Qed.

Lemma repaired_gap p1 p2 : l0 p1 <> 0 -> 0 < n4 p1 -> sub4 (scale4 (n4 p1) (motor_p2 (repaired p1 p2))) p2 = scale4 (- (study p1 p2 / l0 p1)) (mk4 1 0 0 0).
Proof.
  intros P N. unfold repaired. generalize dependent (n4 p1). intros N N0. destruct p1 as [a0 a1 a2 a3], p2 as [b0 b1 b2 b3]. cbn [motor_p2 l0] in *. unfold study, biv4, q4, rev4, sub4, scale4, map4. cbn [l0 l1 l2 l3].
  assert (K : forall z, N * (/ N * z) - z = 0) by (intro z; field; lra). rewrite !K. f_equal; [|ring|ring|ring]. field. split; [exact P|lra].
Qed.
(** the exact motion starts at [ea], keeps its speed, and ends near [eb] *)
Theorem C80_path : forall (B : Build) (t r : R) (a b : motor f32) (ea eb : motor R), blendable B t r a b ea eb -> let l := blend_line B a b in let path := blend_path l ea in
  (forall s, proper (path s)) /\ path 0 = ea /\ (forall s s', path (s + s') = mmul (flow l s) (path s')) /\
  (forall s x, moved (path s) x = moved (flow l s) (moved ea x)) /\
  n4 (sub4 (motor_p1 (path 1)) (motor_p1 eb)) <= 43 / 10 * t + 25 * / 2 ^ 24 /\
  n4 (sub4 (motor_p2 (path 1)) (motor_p2 eb)) <= (13 * t + 73 * / 2 ^ 24) * r * (1 + / Rabs (l0 (mv1 (blend_step B a b)))).
Proof.
  intros B t r a b ea eb H l path. pose proof (blend_facts B _ _ _ _ _ _ H) as (Nm & N2 & D2 & L1 & Z1 & Z2 & (hl & hr)). fold l in L1, Z1, Z2, hl, hr. destruct H as (Na & Nb & T & Lr & S & Pl). set (m := blend_step B a b) in *.
  assert (I20 : 0 < / 2 ^ 40) by (apply Rinv_0_lt_compat, pow_lt; lra). assert (I19 : 0 < / 2 ^ 19) by (apply Rinv_0_lt_compat, pow_lt; lra). assert (I18 : 0 < / 2 ^ 38) by (apply Rinv_0_lt_compat, pow_lt; lra). assert (I40 : 0 < / 2 ^ 40) by (apply Rinv_0_lt_compat, pow_lt; lra). assert (h0 : 0 < n4 (line_p1 l)) by lra.
  pose proof (proj1 (proj2 Na)) as Pa. pose proof (proj1 (proj2 Nb)) as Pb. assert (Ra : n4 (motor_p2 ea) <= r) by apply Na. pose proof u_small as U. rewrite u_pow in *.
  split; [intro s; apply mmul_proper; [apply flow_proper; assumption|exact Pa]|]. split; [unfold path, blend_path; rewrite flow_0 by exact h0; apply mmul_one|].
  split; [intros s s'; unfold path, blend_path; rewrite <- flow_add by assumption; apply mmul_assoc|]. split; [intros s x; apply mmul_image; [apply flow_proper; assumption|exact Pa]|].
  set (p1 := mv1 m) in *. set (p2 := mv2 m) in *. assert (S0 : 0 < n4 (biv4 p1)) by lra. assert (p0 : l0 p1 <> 0) by (intro Z; rewrite Z, Rabs_R0 in Pl; lra).
  assert (F1 : flow l 1 = repaired p1 p2) by (rewrite flow_1; apply exact_mlog_exp; assumption).
  pose proof (near_motor_len _ _ _ _ Nm) as (A1 & A2 & tm0 & r2). destruct Nm as (_ & (Pm & Sm) & _ & E1 & E2). fold p1 p2 in A1, A2, E1, E2. destruct (near_motor_len _ _ _ _ Na) as (_ & _ & t0 & r0).
  set (d := mmul eb (mrev ea)) in *. set (tm := 21 / 10 * t + 12 * u) in *. assert (tm1 : tm <= / 1000) by (unfold tm, u; lra).
  assert (Eb : eb = mmul d ea) by (unfold d; rewrite mmul_assoc, mrev_inv by exact Pa; symmetry; apply mmul_one).
  unfold path, blend_path. rewrite F1. rewrite Eb at 1 2. clearbody d. cbn [mmul motor_p1 motor_p2]. clear Nb Pb Eb.
  pose proof (n4_diff p1 (motor_p1 d)) as ND. rewrite Pm in ND. set (N := n4 p1) in *. assert (LN : 1 - tm <= N <= 1 + tm) by (apply Rabs_le_inv in ND; lra). assert (N0 : 0 < N) by lra. assert (iN : 0 < / N) by (apply Rinv_0_lt_compat; lra).
  assert (iN' : / N <= 1002 / 1000) by (replace (1002 / 1000) with (/ (1000 / 1002)) by field; apply Rinv_le_contravar; lra). assert (AN : Rabs (1 - N) <= tm) by (apply Rabs_le; lra).
  set (w := repaired p1 p2) in *. assert (W1 : motor_p1 w = scale4 (/ N) p1) by reflexivity.
  assert (G1 : n4 (sub4 (motor_p1 w) (motor_p1 d)) <= 2 * tm).
  { eapply Rle_trans; [apply (n4_via _ p1)|]. replace (sub4 (motor_p1 w) p1) with (scale4 (/ N - 1) p1) by (rewrite W1; unfold sub4, scale4, map4; cbn [l0 l1 l2 l3]; f_equal; ring).
    rewrite n4_scale_abs. fold N. replace (Rabs (/ N - 1) * N) with (Rabs (1 - N)) by (rewrite <- (Rabs_pos_eq N) at 3 by lra; rewrite <- Rabs_mult; f_equal; field; lra). lra. }
  set (y := / Rabs (l0 p1)) in *. assert (y0 : 0 < y) by (apply Rinv_0_lt_compat; lra). set (rm := r + r) in *. assert (tr0 : 0 <= tm * rm) by (apply Rmult_le_pos; lra).
  assert (Sg : Rabs (study p1 p2) <= 2001 / 1000 * (tm * rm)).
  { pose proof (study_diff p1 p2 (motor_p1 d) (motor_p2 d)) as SD. rewrite Pm, Sm, Rminus_0_r in SD. assert (K : (1 + tm) * rm <= 1001 / 1000 * rm) by (apply Rmult_le_compat_r; lra). assert (n4 (sub4 p1 (motor_p1 d)) * n4 p2 <= tm * (1001 / 1000 * rm)) by (apply Rmult_le_compat; try apply n4_pos; lra). lra. }
  assert (Q2 : n4 (sub4 (scale4 N (motor_p2 w)) p2) <= 2001 / 1000 * (tm * rm) * y).
  { replace (sub4 (scale4 N (motor_p2 w)) p2) with (scale4 (- (study p1 p2 / l0 p1)) (mk4 1 0 0 0)).
    - rewrite n4_scale_abs. replace (n4 (mk4 1 0 0 0)) with 1 by (symmetry; exact (proj1 one_proper)). rewrite Rmult_1_r, Rabs_Ropp. unfold Rdiv. rewrite Rabs_mult, Rabs_inv. apply Rmult_le_compat_r; [left; exact y0|exact Sg].
    - symmetry. apply repaired_gap; [exact p0|exact N0]. }
  assert (tmy : 0 <= tm * rm * y) by (apply Rmult_le_pos; lra).
  assert (W2 : n4 (motor_p2 w) <= 1004 / 1000 * rm + 2006 / 1000 * (tm * rm * y)).
  { pose proof (n4_tri (scale4 N (motor_p2 w)) p2) as K. rewrite n4_scale_abs, (Rabs_pos_eq N) in K by lra. assert (K2 : (1 + tm) * rm <= 1001 / 1000 * rm) by (apply Rmult_le_compat_r; lra).
    replace (n4 (motor_p2 w)) with (/ N * (N * n4 (motor_p2 w))) by (field; lra). apply (Rle_trans _ (1002 / 1000 * (1001 / 1000 * rm + 2001 / 1000 * (tm * rm) * y))); [|lra]. apply Rmult_le_compat; try lra. apply Rmult_le_pos; [lra|apply n4_pos]. }
  assert (G2 : n4 (sub4 (motor_p2 w) (motor_p2 d)) <= 2005 / 1000 * (tm * rm) + 2004 / 1000 * (tm * rm * y)).
  { eapply Rle_trans; [apply (n4_via _ (scale4 N (motor_p2 w)))|].
    replace (sub4 (motor_p2 w) (scale4 N (motor_p2 w))) with (scale4 (1 - N) (motor_p2 w)) by (unfold sub4, scale4, map4; cbn [l0 l1 l2 l3]; f_equal; ring). rewrite n4_scale_abs.
    assert (K1 : Rabs (1 - N) * n4 (motor_p2 w) <= tm * (1004 / 1000 * rm + 2006 / 1000 * (tm * rm * y))) by (apply Rmult_le_compat; try apply Rabs_pos; try apply n4_pos; assumption).
    assert (K3 : tm * (tm * rm * y) <= / 1000 * (tm * rm * y)) by (apply Rmult_le_compat_r; lra).
    assert (K2 : n4 (sub4 (scale4 N (motor_p2 w)) (motor_p2 d)) <= 2001 / 1000 * (tm * rm) * y + tm * rm) by (eapply Rle_trans; [apply (n4_via _ p2)|]; lra). lra. }
  destruct Pa as [Pa _]. split.
  - rewrite qm_sub_l, qm_n4, Pa. unfold tm in *. lra.
  - eapply Rle_trans; [apply mm2_diff|]. rewrite Pa, !n4_self. assert (K : n4 (sub4 (motor_p1 w) (motor_p1 d)) * n4 (motor_p2 ea) <= 2 * tm * r) by (apply Rmult_le_compat; try apply n4_pos; assumption).
    assert (tr : 0 <= tm * r) by (apply Rmult_le_pos; lra). assert (tru : 0 <= tm * r * y) by (apply Rmult_le_pos; lra).
    replace (tm * rm * y) with (2 * (tm * r * y)) in * by (unfold rm; ring). replace (tm * rm) with (2 * (tm * r)) in * by (unfold rm; ring).
    assert (Z : 0 <= u * r) by (apply Rmult_le_pos; lra). assert (Zt : 0 <= t * r) by (apply Rmult_le_pos; lra). assert (0 <= u * r * y) by (apply Rmult_le_pos; lra). assert (0 <= t * r * y) by (apply Rmult_le_pos; lra).
    assert (X : tm * r = 21 / 10 * (t * r) + 12 * (u * r)) by (unfold tm; ring). rewrite X in *. lra.
Qed.

(** what is computed follows that motion *)
Theorem C80_blend : forall (B : Build) (M : machine), libm_log M -> rcp_estimate M -> rsqrt_estimate M -> let FL := Flo_f32 M in
  forall (t r : R) (a b : motor f32) (ea eb : motor R), blendable B t r a b ea eb -> let l := blend_line B a b in let path := blend_path l ea in
  let rad := radius (mv1 (blend_step B a b)) (mv2 (blend_step B a b)) in forall f : f32, fin f -> let F := Rabs (val f) in let T := F * n4 (line_p1 l) in
  2 * / 2 ^ 40 <= T <= 2 ^ 9 -> F * rad <= 2 ^ 38 ->
  near_motor (101 / 100 * t + (480 + 66 * T) * / 2 ^ 24) (F * rad + / 2 ^ 40 + r) (blend_motors a b f) (path (val f)).
Proof.
  intros B M LM HR HM FL t r a b ea eb H l path rad f Ff F T LT LR. pose proof (blend_facts B _ _ _ _ _ _ H) as (Nm & N2 & D2 & L1 & Z1 & Z2 & (hl & hr)). fold l in L1, Z1, Z2, hl, hr. destruct H as (Na & _ & Tt & Lr & S & Pl). set (m := blend_step B a b) in *.
  assert (I20 : 0 < / 2 ^ 40) by (apply Rinv_0_lt_compat, pow_lt; lra). assert (I40 : 0 < / 2 ^ 40) by (apply Rinv_0_lt_compat, pow_lt; lra). assert (I18 : / 2 ^ 40 <= / 2 ^ 38) by (apply Rinv_le_contravar; [apply pow_lt; lra|apply Rle_pow; [lra|lia]]). assert (I60 : / 2 ^ 60 <= / 2 ^ 40) by (apply Rinv_le_contravar; [apply pow_lt; lra|apply Rle_pow; [lra|lia]]). assert (h0 : 0 < n4 (line_p1 l)) by lra.
  assert (X50 : 2 ^ 14 <= 2 ^ 50) by (apply Rle_pow; [lra|lia]). assert (X38 : 2 ^ 38 + 1 <= 2 ^ 50) by (replace (2 ^ 50) with (2 ^ 38 * 4096) by ring; pose proof (pow_R1_Rle 2 38 ltac:(lra)); lra). assert (X9 : T <= 512) by (replace 512 with (2 ^ 9) by ring; lra).
  destruct Nm as (FF & _). change (coefs (k := KMotor) m) with (reg_list (motor_p1 m) ++ reg_list (motor_p2 m)) in FF. assert (F0 : 0 <= F) by apply Rabs_pos.
  destruct (C78_fraction B M LM HR HM m f FF ltac:(fold (mv1 m); lra) Pl N2 D2 Ff) as (_ & FM & X1 & X2). { fold (mv1 m). rewrite <- L1. exact LT. } { exact LR. }
  cbv zeta in FM, X1, X2. fold FL in FM, X1, X2. change (map4 val (motor_p1 m)) with (mv1 m) in X1, X2. change (map4 val (motor_p2 m)) with (mv2 m) in X1, X2. rewrite <- L1 in X1, X2.
  change (exact_mlog (mv1 m) (mv2 m)) with l in X1, X2. change (exact_exp (scale4 (val f) (line_p1 l)) (scale4 (val f) (line_p2 l))) with (flow l (val f)) in X1, X2. fold F in X1, X2. fold T in X1, X2. fold rad in X2.
  change (blend_motors a b f) with (motor_mul_motor (line_exp (line_mul_f (motor_log m) f)) a). set (x := line_exp (line_mul_f (motor_log m) f)) in *. clearbody x. pose proof u_small as U. rewrite u_pow in *.
  assert (P2' : Rabs (l0 (mv1 m)) <= 2) by (pose proof (n4_lane (mv1 m)) as (K & _); lra). destruct (radius_log (mv1 m) (mv2 m) ltac:(lra) (conj Pl P2')) as [Rb _]. fold rad in Rb. change (exact_mlog (mv1 m) (mv2 m)) with l in Rb.
  assert (rad0 : 0 <= rad) by (pose proof (n4_pos (line_p2 l)); lra).
  assert (FR : 0 <= F * rad) by (apply Rmult_le_pos; assumption).
  assert (Nx : near_motor ((465 + 66 * T) * u) (F * rad + / 2 ^ 40) x (flow l (val f))).
  { split; [exact FM|]. split; [apply flow_proper; assumption|]. split.
    - assert (Vf : val f <> 0). { intro Z. unfold T, F in LT. rewrite Z, Rabs_R0 in LT. lra. }
      eapply Rle_trans; [apply exact_exp_p2_all|]; try (unfold scale4, map4; cbn [l0]; rewrite ?Z1, ?Z2; ring); [rewrite n4_scale_abs; apply Rmult_lt_0_compat; [apply Rabs_pos_lt; exact Vf|exact h0]|]. rewrite n4_scale_abs. fold F.
      assert (F * n4 (line_p2 l) <= F * rad) by (apply Rmult_le_compat_l; assumption). lra.
    - split; [|exact X2]. assert (0 <= T * u) by (apply Rmult_le_pos; lra). unfold mv1. lra. }
  pose proof (near_motor_len _ _ _ _ Na) as (_ & _ & t0 & r0).
  assert (tf : 0 <= (465 + 66 * T) * u <= 3 / 1000). { split; [apply Rmult_le_pos; lra|]. apply (Rle_trans _ ((465 + 66 * 512) * u)); [apply Rmult_le_compat_r; lra|unfold u; lra]. }
  eapply near_motor_weak; [apply (C79_multiply B _ _ _ _ _ _ _ _ Nx Na); lra|]. rewrite u_pow. set (tx := (465 + 66 * T) * u) in *.
  assert (K1 : 0 <= tx * t <= 3 / 1000 * t) by (split; [apply Rmult_le_pos; lra|apply Rmult_le_compat_r; lra]). assert (K2 : (tx + t + tx * t) * u <= / 100 * u) by (apply Rmult_le_compat_r; lra). unfold tx in *. lra.
Qed.

(** the two ends *)
Theorem C80_ends : forall (B : Build) (M : machine), libm_log M -> rcp_estimate M -> rsqrt_estimate M -> let FL := Flo_f32 M in
  forall (t r : R) (a b : motor f32) (ea eb : motor R), blendable B t r a b ea eb -> let rad := radius (mv1 (blend_step B a b)) (mv2 (blend_step B a b)) in
  (forall f : f32, fin f -> val f = 0 -> near_motor (t + 12 * / 2 ^ 24) r (blend_motors a b f) ea) /\
  (forall f : f32, fin f -> val f = 1 -> rad <= 2 ^ 38 -> let m := blend_motors a b f in Forall fin (coefs (k := KMotor) m) /\
     n4 (sub4 (mv1 m) (motor_p1 eb)) <= 54 / 10 * t + 770 * / 2 ^ 24 /\
     n4 (sub4 (mv2 m) (motor_p2 eb)) <= (101 / 100 * t + 745 * / 2 ^ 24) * (rad + r + / 2 ^ 40) + (13 * t + 73 * / 2 ^ 24) * r * (1 + / Rabs (l0 (mv1 (blend_step B a b))))).
Proof.
  intros B M LM HR HM FL t r a b ea eb H rad. pose proof (blend_facts B _ _ _ _ _ _ H) as (Nm & N2 & D2 & L1 & Z1 & Z2 & (hl & hr)). pose proof (C80_path B _ _ _ _ _ _ H) as (_ & _ & _ & _ & Q1 & Q2). cbv zeta in Q1, Q2.
  pose proof (C80_blend B M LM HR HM t r a b ea eb H) as CB. cbv zeta in CB. fold FL in CB. set (l := blend_line B a b) in *. assert (Lr : / 2 ^ 40 <= r <= 2 ^ 14) by apply H. assert (Na : near_motor t r a ea) by apply H. assert (Tt : t <= / 2500) by apply H.
  destruct (near_motor_len _ _ _ _ Na) as (_ & _ & t0 & r0). pose proof u_small as U. assert (I40 : 0 < / 2 ^ 40) by (apply Rinv_0_lt_compat, pow_lt; lra). assert (I20 : 0 < / 2 ^ 40) by (apply Rinv_0_lt_compat, pow_lt; lra).
  split.
  - intros f Ff Z. assert (I60 : / 2 ^ 60 <= / 2 ^ 40) by (apply Rinv_le_contravar; [apply pow_lt; lra|apply Rle_pow; [lra|lia]]). assert (X50 : 2 ^ 14 <= 2 ^ 50) by (apply Rle_pow; [lra|lia]).
    set (m := blend_step B a b) in *. destruct Nm as (FF & _). change (coefs (k := KMotor) m) with (reg_list (motor_p1 m) ++ reg_list (motor_p2 m)) in FF. destruct H as (_ & _ & _ & _ & S & Pl). fold m in S, Pl.
    assert (I18 : / 2 ^ 40 <= / 2 ^ 38) by (apply Rinv_le_contravar; [apply pow_lt; lra|apply Rle_pow; [lra|lia]]). pose proof (n4_lane (mv1 m)) as (K & _). pose proof (proj2 (proj2 (lane03 (mv1 m)))) as K'. assert (X10 : 2 <= 2 ^ 10) by (replace (2 ^ 10) with 1024 by ring; lra).
    destruct (C78_log B M LM HR HM m FF) as (_ & _ & _ & OK & _). { change (map4 val (motor_p1 m)) with (mv1 m). lra. } { change (map4 val (motor_p1 m)) with (mv1 m). lra. } { exact D2. } fold FL in OK.
    change (blend_motors a b f) with (motor_mul_motor (line_exp (line_mul_f (motor_log m) f)) a). set (g := motor_log m) in *. set (x := line_exp (line_mul_f g f)). assert (Hx : forall y, line_exp (line_mul_f g f) = y -> x = y) by (intros y Hy; exact Hy). clearbody x. clearbody g. destruct OK as (G1 & G2 & _).
    assert (V : forall v : m128 f32, Forall fin (reg_list v) -> Forall fin (reg_list (_mm_mul_ps v (_mm_set1_ps f))) /\ map4 val (_mm_mul_ps v (_mm_set1_ps f)) = mk4 0 0 0 0).
    { intros v Fv. destruct (ap4_lanes v Fv) as (W0 & W1 & W2 & W3). destruct v as [v0 v1 v2 v3]. cbn [l0 l1 l2 l3] in *.
      destruct (mul_zero v0 f W0 Ff Z) as [A0 B0]. destruct (mul_zero v1 f W1 Ff Z) as [A1 B1]. destruct (mul_zero v2 f W2 Ff Z) as [A2 B2]. destruct (mul_zero v3 f W3 Ff Z) as [A3 B3].
      split; [apply lanes_ap4; assumption|]. transitivity (mk4 (val (fmul v0 f)) (val (fmul v1 f)) (val (fmul v2 f)) (val (fmul v3 f))); [reflexivity|]. rewrite B0, B1, B2, B3. reflexivity. }
    destruct (V _ G1) as [Y1 V1]. destruct (V _ G2) as [Y2 V2]. rewrite (Hx _ (exp_ideal B M (line_mul_f g f) Y1 V1)). clear x Hx.
    assert (N1 : near_motor 0 0 (mkmotor (_mm_set_ss (fz 1)) (line_p2 (line_mul_f g f))) mone).
    { destruct (fz_ok 0 ltac:(lia)) as [F0 V0]. destruct (fz_ok 1 ltac:(lia)) as [F1 V1']. split; [apply Forall_app; split; [apply lanes_ap4; assumption|exact Y2]|]. split; [exact one_proper|].
      assert (ZZ : n4 (mk4 0 0 0 0) = 0) by (unfold n4, q4; cbn [l0 l1 l2 l3]; replace (_ + _) with 0 by ring; apply sqrt_0). unfold mv1, mv2, mone. cbn [motor_p1 motor_p2]. split; [rewrite ZZ; lra|]. split.
      - replace (map4 val (_mm_set_ss (fz 1))) with (mk4 1 0 0 0) by (unfold map4, _mm_set_ss; cbn [l0 l1 l2 l3]; f_equal; symmetry; assumption). rewrite n4_self. lra.
      - change (map4 val (line_p2 (line_mul_f g f))) with (map4 val (_mm_mul_ps (line_p2 g) (_mm_set1_ps f))). rewrite V2, n4_self. lra. }
    pose proof (C79_multiply B _ _ _ _ _ _ _ _ N1 Na ltac:(lra) ltac:(lra) ltac:(lra) ltac:(lra) ltac:(lra)) as N. rewrite (proj1 (mmul_one ea)), Rplus_0_l in N. eapply near_motor_weak; [exact N|]. rewrite u_pow. assert (t * u <= / 2500 * u) by (apply Rmult_le_compat_r; lra). lra.
  - intros f Ff V LR. specialize (CB f Ff). rewrite V, (Rabs_pos_eq 1), !Rmult_1_l in CB by lra. assert (X9 : 4 <= 2 ^ 9) by (replace (2 ^ 9) with 512 by ring; lra). pose proof PI_bounds as PB.
    destruct (CB ltac:(lra) LR) as (FM & _ & _ & E1 & E2). fold rad in E2. set (m := blend_motors a b f) in *. intro m'. split; [exact FM|]. rewrite u_pow in *.
    assert (Th : (480 + 66 * n4 (line_p1 l)) * u <= 745 * u) by (apply Rmult_le_compat_r; [lra|]; lra).
    assert (rad0 : 0 <= rad + / 2 ^ 40 + r). { pose proof (near_motor_len _ _ _ _ (CB ltac:(lra) LR)) as (_ & _ & _ & K). exact K. }
    split.
    + eapply Rle_trans; [apply (n4_via _ (motor_p1 (blend_path l ea 1)))|]. unfold m'. lra.
    + eapply Rle_trans; [apply (n4_via _ (motor_p2 (blend_path l ea 1)))|]. apply Rplus_le_compat; [|exact Q2]. eapply Rle_trans; [exact E2|]. replace (rad + r + / 2 ^ 40) with (rad + / 2 ^ 40 + r) by ring. apply Rmult_le_compat_r; lra.
Qed.

(** the moved point *)
Theorem C80_place : forall (B : Build) (M : machine), libm_log M -> rcp_estimate M -> rsqrt_estimate M -> let FL := Flo_f32 M in
  forall (t r : R) (a b : motor f32) (ea eb : motor R), blendable B t r a b ea eb -> let l := blend_line B a b in
  forall (f : f32) (p : point f32), fin f -> let F := Rabs (val f) in let T := F * n4 (line_p1 l) in 2 * / 2 ^ 40 <= T <= 2 ^ 7 ->
  let R := F * radius (mv1 (blend_step B a b)) (mv2 (blend_step B a b)) + / 2 ^ 40 + r in R <= 2 ^ 19 ->
  Forall (bounded 20) (coefs (k := KPoint) p) -> wt p = 1 -> let q := motor_on_point (blend_motors a b f) p in
  vlen (vsub (pos q) (moved (flow l (val f)) (moved ea (pos p)))) <= (21 / 10 * t + (984 + 133 * T) * / 2 ^ 24) * vlen (pos p) + (41 / 10 * t + (1948 + 265 * T) * / 2 ^ 24) * R /\
  Rabs (wt q - 1) <= 21 / 10 * t + (970 + 133 * T) * / 2 ^ 24.
Proof.
  intros B M LM HR HM FL t r a b ea eb H l f p Ff F T LT Rr LR Hp Hw q. pose proof (C80_path B _ _ _ _ _ _ H) as (_ & _ & _ & MV & _). cbv zeta in MV. fold l in MV. assert (X9 : 2 ^ 9 = 2 ^ 7 * 4) by ring. assert (X7 : 0 < 2 ^ 7) by (apply pow_lt; lra). assert (T7 : T <= 128) by (replace 128 with (2 ^ 7) by ring; lra).
  assert (Lr : / 2 ^ 40 <= r <= 2 ^ 14) by apply H. assert (Tt : t <= / 2500) by apply H. assert (t0 : 0 <= t) by exact (proj1 (proj2 (proj2 (near_motor_len _ _ _ _ (proj1 H))))). assert (I40 : 0 < / 2 ^ 40) by (apply Rinv_0_lt_compat, pow_lt; lra). assert (I20 : 0 < / 2 ^ 40) by (apply Rinv_0_lt_compat, pow_lt; lra). assert (X38 : 2 ^ 19 <= 2 ^ 38) by (apply Rle_pow; [lra|lia]).
  assert (I60 : / 2 ^ 60 <= / 2 ^ 40) by (apply Rinv_le_contravar; [apply pow_lt; lra|apply Rle_pow; [lra|lia]]).
  pose proof (C80_blend B M LM HR HM t r a b ea eb H f Ff) as N. cbv zeta in N. fold FL in N. fold l in N. fold F in N. fold T in N.
  assert (FR : 0 <= F * radius (mv1 (blend_step B a b)) (mv2 (blend_step B a b))).
  { apply Rmult_le_pos; [apply Rabs_pos|]. pose proof (blend_facts B _ _ _ _ _ _ H) as (_ & N2 & _). cbv zeta in N2. destruct H as (_ & _ & _ & _ & S & Pl). pose proof (n4_lane (mv1 (blend_step B a b))) as (K & _).
    assert (I18 : / 2 ^ 40 <= / 2 ^ 38) by (apply Rinv_le_contravar; [apply pow_lt; lra|apply Rle_pow; [lra|lia]]). destruct (radius_log (mv1 (blend_step B a b)) (mv2 (blend_step B a b)) ltac:(lra) ltac:(lra)) as [Rb _]. eapply Rle_trans; [apply n4_pos|exact Rb]. }
  specialize (N ltac:(lra) ltac:(unfold Rr in LR; fold F; lra)). fold F in N. fold Rr in N.
  pose proof u_small as U. rewrite u_pow in *. assert (Th : (480 + 66 * T) * u <= / 1800). { apply (Rle_trans _ ((480 + 66 * 128) * u)); [apply Rmult_le_compat_r; lra|unfold u; lra]. }
  destruct (near_place B _ _ _ _ p N ltac:(lra) ltac:(unfold Rr in *; lra) Hp Hw) as [Y1 Y2]. fold q in Y1, Y2. change (moved (blend_path l ea (val f)) (pos p)) with (moved (mmul (flow l (val f)) ea) (pos p)) in Y1. specialize (MV (val f) (pos p)). unfold blend_path in MV. rewrite MV in Y1.
  pose proof (vlen_pos (pos p)) as X0. assert (uT : 0 <= u * T) by (apply Rmult_le_pos; lra). set (x := vlen (pos p)) in *. assert (R0 : 0 <= Rr) by (unfold Rr; lra).
  split.
  - eapply Rle_trans; [exact Y1|]. apply Rplus_le_compat; apply Rmult_le_compat_r; lra.
  - lra.
Qed.

(** ** An instance *)
(** From the screw [third] to another one, both exact in binary32. *)
Definition fmhalf : f32 := f32_of (-1) (-1).
Definition other : motor f32 := mkmotor (mk4 fhalf fmhalf fhalf fhalf) (mk4 f2_ f1_ f1_ f2_).
Definition other_e : motor R := mkmotor (mk4 (/ 2) (- / 2) (/ 2) (/ 2)) (mk4 2 1 1 2).
Lemma near_other : near_motor 0 4 other other_e.
Proof.
  assert (Vh : val fhalf = / 2) by (vm_compute; lra). assert (Vm : val fmhalf = - / 2) by (vm_compute; lra). assert (V2 : val f2_ = 2) by (vm_compute; lra). assert (V1 : val f1_ = 1) by (vm_compute; lra).
  split; [repeat (apply Forall_cons; [reflexivity|]); apply Forall_nil|]. split; [split|].
  - unfold other_e, n4, q4. cbn [motor_p1 l0 l1 l2 l3]. replace (_ + _) with 1 by field. apply sqrt_1.
  - unfold other_e, study, q4, rev4. cbn [motor_p1 motor_p2 l0 l1 l2 l3]. field.
  - split.
    + unfold other_e, n4, q4. cbn [motor_p2 l0 l1 l2 l3]. replace 4 with (sqrt (4 * 4)) by (apply sqrt_square; lra). apply sqrt_le_1; lra.
    + unfold mv1, mv2, other, other_e, map4. cbn [motor_p1 motor_p2 l0 l1 l2 l3]. rewrite Vh, Vm, V2, V1, !n4_self. lra.
Qed.
Example C80_hypotheses (B : Build) : blendable B 0 4 third other third_e other_e /\
  let l := blend_line B third other in let rad := radius (mv1 (blend_step B third other)) (mv2 (blend_step B third other)) in
  fin fhalf /\ 2 * / 2 ^ 40 <= Rabs (val fhalf) * n4 (line_p1 l) <= 2 ^ 7 /\ rad <= 2 ^ 18.
Proof.
  assert (E : exists x1 x2 x3 y0, mv1 (blend_step B third other) = mk4 (/ 2) x1 x2 x3 /\ / 2 <= Rabs x2 /\ mv2 (blend_step B third other) = y0 /\ n4 (biv4 y0) <= 20).
  { set (m := blend_step B third other). exists (l1 (mv1 m)), (l2 (mv1 m)), (l3 (mv1 m)), (mv2 m).
    assert (K : l0 (mv1 m) = / 2 /\ l2 (mv1 m) = / 2 /\ Rabs (l1 (mv2 m)) <= 10 /\ Rabs (l2 (mv2 m)) <= 10 /\ Rabs (l3 (mv2 m)) <= 10) by (destruct B as [[|]]; repeat split; try apply Rabs_le; vm_compute; lra).
    destruct K as (K0 & K2 & K4 & K5 & K6). split; [destruct (mv1 m) as [z0 z1 z2 z3]; cbn [l0 l1 l2 l3] in *; congruence|]. split; [rewrite K2, Rabs_pos_eq; lra|]. split; [reflexivity|].
    replace 20 with (2 * 10) by ring. apply n4_all; [lra|unfold biv4; cbn [l0]; rewrite Rabs_R0; lra|assumption|assumption|assumption]. }
  destruct E as (x1 & x2 & x3 & y0 & E1 & X2 & E2 & Ny). set (m := blend_step B third other) in *.
  assert (S : / 2 <= n4 (biv4 (mv1 m))). { pose proof (n4_lane (biv4 (mv1 m))) as (_ & _ & K & _). rewrite E1 in K |- *. unfold biv4 in K at 1. cbn [l2] in K. lra. }
  assert (P : Rabs (l0 (mv1 m)) = / 2) by (rewrite E1; cbn [l0]; apply Rabs_pos_eq; lra).
  assert (Q18 : / 2 ^ 38 <= / 1000) by (apply Rinv_le_contravar; [lra|]; apply (Rle_trans _ (2 ^ 18)); [replace (2 ^ 18) with 262144 by ring; lra|apply Rle_pow; [lra|lia]]). assert (Q19 : / 2 ^ 19 <= / 1000) by (apply Rinv_le_contravar; [lra|]; replace (2 ^ 19) with 524288 by ring; lra). assert (Q20 : / 2 ^ 40 <= / 1000) by (apply Rinv_le_contravar; [lra|]; replace (2 ^ 20) with 1048576 by ring; lra).
  assert (Q40 : 0 < / 2 ^ 40 <= 1) by (split; [apply Rinv_0_lt_compat, pow_lt; lra|rewrite <- Rinv_1; apply Rinv_le_contravar; [lra|apply pow_R1_Rle; lra]]).
  assert (H : blendable B 0 4 third other third_e other_e).
  { split; [exact near_third|]. split; [exact near_other|]. split; [lra|]. split; [split; [lra|replace (2 ^ 14) with 16384 by ring; lra]|]. fold m. split; lra. }
  split; [exact H|]. intros l rad. pose proof (blend_facts B _ _ _ _ _ _ H) as (_ & N2 & _ & L1 & _ & _ & hl & hr). fold l in L1, hl, hr. fold m in N2, L1.
  split; [reflexivity|]. replace (val fhalf) with (/ 2) by (vm_compute; lra). rewrite (Rabs_pos_eq (/ 2)) by lra. pose proof PI_bounds as PB. assert (S0 : 0 < n4 (biv4 (mv1 m))) by lra. destruct (biv_facts _ S0) as (Np & Cn & Tn & Ct & St).
  assert (h2 : / 4 <= n4 (line_p1 l)). { rewrite L1. assert (X : sin (acos (l0 (mv1 m) / n4 (mv1 m))) <= acos (l0 (mv1 m) / n4 (mv1 m))) by (apply sin_le_x; lra). rewrite St in X. eapply Rle_trans; [|exact X]. apply (Rmult_le_reg_r (n4 (mv1 m))); [lra|]. unfold Rdiv. rewrite (Rmult_assoc (n4 (biv4 (mv1 m)))), Rinv_l by lra. lra. }
  split; [replace (2 ^ 7) with 128 by ring; lra|]. unfold rad, radius. rewrite <- L1, P, E2. replace (2 ^ 18) with (21 * (262144 / 21)) by field. assert (iS : 0 < / n4 (biv4 (mv1 m)) <= 2) by (split; [apply Rinv_0_lt_compat; lra|replace 2 with (/ / 2) by field; apply Rinv_le_contravar; lra]).
  assert (hS : 0 <= n4 (line_p1 l) / n4 (biv4 (mv1 m)) <= 4 * 2) by (unfold Rdiv; split; [apply Rmult_le_pos; lra|apply Rmult_le_compat; lra]). pose proof (n4_pos (biv4 y0)). rewrite Rinv_inv. apply Rmult_le_compat; lra.
Qed.
Example C80_library : exists M, libm_log M /\ rcp_estimate M /\ rsqrt_estimate M. Proof. exact libm_log_exists. Qed.

Print Assumptions C80_path.
Print Assumptions C80_blend.
Print Assumptions C80_ends.
Print Assumptions C80_place.
