(** Property C82: square roots of motors and rotors in binary32. *)
From Coq Require Import ZArith Reals List Bool Lra Lia Psatz.
From Flocq Require Import Core BinarySingleNaN.
From Verif Require Import AlgTac SpecMass FloatMass Closed FloR ExpSeries KernelExpLog ExpLog LogExp2 Float32 FloatFacts ExprSyntax FloatErr FloatAbs FloatApx FloatNR FloatNorm FloatIdeal FloatLibm Props11 Props21 Props22 SpecGeom Props23 Props24 Props26 Props27 Props28 Props29 Props30 Props31 Props32 DocCode.
Import ListNotations.
Local Open Scope R_scope.

(** the exact root: halfway between the rest position and the motion (C81) *)
Definition mroot (e : motor R) : motor R := nblend (/ 2) mone e.
Lemma exact_norm_scale k p1 p2 : 0 < k -> 0 < n4 p1 -> exact_norm (scale4 k p1) (scale4 k p2) = exact_norm p1 p2.
Proof.
  intros K N. unfold exact_norm. cbv zeta. rewrite n4_scale by lra. replace (study (scale4 k p1) (scale4 k p2)) with (k * k * study p1 p2) by (unfold study, q4, rev4, scale4, map4; cbn [l0 l1 l2 l3]; ring).
  generalize dependent (n4 p1). intros n n0. set (s := study p1 p2). clearbody s. assert (E : k * k * s / (k * n * (k * n)) = s / (n * n)) by (field; lra). rewrite E. assert (E' : / (k * n) = / n * / k) by (field; lra). rewrite E'. set (c := s / (n * n)). set (v := / n). clearbody c v. assert (Ek : / k * k = 1) by (apply Rinv_l; lra). set (j := / k) in *. clearbody j.
  destruct p1 as [a0 a1 a2 a3], p2 as [b0 b1 b2 b3]. unfold scale4, sub4, rev4, map4. cbn [l0 l1 l2 l3].
  f_equal; f_equal; match goal with |- _ = ?b => transitivity (j * k * b); [ring|rewrite Ek; ring] end.
Qed.
Lemma root_len e : proper e -> let c := l0 (motor_p1 e) in n4 (mix (/ 2) (motor_p1 mone) (motor_p1 e)) = sqrt ((1 + c) / 2) /\ -1 <= c <= 1.
Proof.
  intros P c. destruct (C81_path mone e one_proper P) as (W & _). rewrite (W (/ 2)) by lra. split.
  - f_equal. unfold c, q4, mone. cbn [motor_p1 l0 l1 l2 l3]. field.
  - pose proof (lane03 (motor_p1 e)) as (L & _). rewrite (proj1 P) in L. apply Rabs_le_inv in L. fold c in L. lra.
Qed.
Theorem C82_sqrt : forall (B : Build) (M : machine), rcp_estimate M -> rsqrt_estimate M -> let FL := Flo_f32 M in
  forall (t r : R) (m : motor f32) (e : motor R), near_motor t r m e -> / 2 ^ 39 <= r <= 2 ^ 39 -> let w := sqrt ((1 + l0 (motor_p1 e)) / 2) in / 2 ^ 18 <= w -> t + 2 * / 2 ^ 24 <= w / 1000 ->
  near_motor (61 / 10 * ((t + 2 * / 2 ^ 24) / w) + 39 * / 2 ^ 24) (r / (2 * w)) (motor_sqrt m) (mroot e) /\
  n4 (sub4 (mv1 (motor_sqrt m)) (motor_p1 (mroot e))) <= 2 * ((t + 2 * / 2 ^ 24) / w) + 10 * / 2 ^ 24 /\ mmul (mroot e) (mroot e) = e.
Proof.
  intros B M HR HM FL t r m e H Lr w Lw Lt. rewrite u_pow in *. destruct (near_motor_len _ _ _ _ H) as (A1 & A2 & t0 & r0). destruct H as (F & P & R2 & D1 & D2). destruct (root_len e P) as [W Lc]. fold w in W. pose proof u_small as U.
  assert (I18 : 0 < / 2 ^ 18) by (apply Rinv_0_lt_compat, pow_lt; lra). assert (w0 : 0 < w) by lra.
  assert (w1 : w <= 1) by (apply (Rle_trans _ (sqrt 1)); [apply sqrt_le_1_alt; lra|rewrite sqrt_1; lra]).
  change (coefs (k := KMotor) m) with (reg_list (motor_p1 m) ++ reg_list (motor_p2 m)) in F. apply Forall_app in F. destruct F as [F1 F2]. destruct (ap4_lanes _ F1) as (G0 & G1 & G2 & G3).
  unfold motor_sqrt. set (m1 := mkmotor _ (motor_p2 m)). destruct (fz_ok 1 ltac:(lia)) as [Fo Vo].
  assert (L0 : Rabs (l0 (mv1 m)) <= 1 + t) by (pose proof (lane03 (mv1 m)); lra). change (l0 (mv1 m)) with (val (l0 (motor_p1 m))) in L0.
  assert (SUM : forall o : f32, fin o -> val o = 1 -> fin (fadd (l0 (motor_p1 m)) o) /\ Rabs (val (fadd (l0 (motor_p1 m)) o) - (val (l0 (motor_p1 m)) + 1)) <= 21 / 10 * u).
  { intros o Ho Vo'. pose proof (mag_big 1 mag_1) as Bg. pose proof (mag_eta 1 mag_1) as Et. assert (Q : Rabs (val (l0 (motor_p1 m)) + 1) <= 2 + t) by (eapply Rle_trans; [apply Rabs_triang|]; rewrite (Rabs_pos_eq 1); lra).
    destruct (pm_any true (l0 (motor_p1 m)) o G0 Ho) as [Fs Es]; [rewrite Vo'; lra|]. rewrite Vo' in Es. split; [exact Fs|]. change (Rabs (val (fadd (l0 (motor_p1 m)) o) - (val (l0 (motor_p1 m)) + 1)) <= u * Rabs (val (l0 (motor_p1 m)) + 1) + eta) in Es.
    assert (u * Rabs (val (l0 (motor_p1 m)) + 1) <= u * (2 + t)) by (apply Rmult_le_compat_l; lra). assert (u * t <= u * / 100) by (apply Rmult_le_compat_l; lra). lra. }
  destruct (SUM _ Fo Vo) as [Fs Es]. clear SUM.
  assert (FM1 : Forall fin (reg_list (motor_p1 m1))) by (apply lanes_ap4; assumption). assert (FM : Forall fin (coefs (k := KMotor) m1)) by (apply Forall_app; split; assumption).
  set (x := mix (/ 2) (motor_p1 mone) (motor_p1 e)) in *. set (y := mix (/ 2) (motor_p2 mone) (motor_p2 e)).
  assert (X1 : n4 (sub4 (mv1 m1) (scale4 2 x)) <= t + 21 / 10 * u).
  { eapply Rle_trans; [apply (n4_via _ (add4 (mk4 1 0 0 0) (mv1 m)))|]. rewrite Rplus_comm. apply Rplus_le_compat.
    - replace (sub4 (add4 (mk4 1 0 0 0) (mv1 m)) (scale4 2 x)) with (sub4 (mv1 m) (motor_p1 e)); [exact D1|]. unfold x, mix, mone, sub4, add4, scale4, map4. cbn [motor_p1 l0 l1 l2 l3]. f_equal; field.
    - replace (sub4 (mv1 m1) (add4 (mk4 1 0 0 0) (mv1 m))) with (scale4 (l0 (mv1 m1) - (l0 (mv1 m) + 1)) (mk4 1 0 0 0)).
      + rewrite n4_scale_abs. replace (n4 (mk4 1 0 0 0)) with 1 by (unfold n4, q4; cbn [l0 l1 l2 l3]; replace (_ + _) with 1 by ring; symmetry; apply sqrt_1). rewrite Rmult_1_r. exact Es.
      + unfold sub4, add4, scale4, mv1, map4, m1. cbn [motor_p1 l0 l1 l2 l3]. unfold _mm_add_ss. cbn [l0 l1 l2 l3]. f_equal; ring. }
  assert (t1 : t <= / 1000) by lra. set (d := t + 2 * u) in *. assert (d1 : d <= / 1000) by lra. set (p1 := scale4 (/ 2) (mv1 m1)). set (p2 := scale4 (/ 2) (mv2 m1)).
  assert (Y1 : n4 (sub4 p1 x) <= d).
  { replace (sub4 p1 x) with (scale4 (/ 2) (sub4 (mv1 m1) (scale4 2 x))) by (unfold p1, sub4, scale4, map4; cbn [l0 l1 l2 l3]; f_equal; field). rewrite n4_scale by lra. unfold d. lra. }
  assert (Y2 : n4 (sub4 p2 y) <= d * (r / 2)).
  { replace (sub4 p2 y) with (scale4 (/ 2) (sub4 (mv2 m) (motor_p2 e))) by (unfold p2, y, mix, mone, m1, mv2, sub4, add4, scale4, map4; cbn [motor_p2 l0 l1 l2 l3]; f_equal; field). rewrite n4_scale by lra. assert (0 <= u * r) by (apply Rmult_le_pos; lra). unfold d. lra. }
  assert (Y3 : n4 y <= r / 2).
  { replace y with (scale4 (/ 2) (motor_p2 e)) by (unfold y, mix, mone, add4, scale4, map4; cbn [motor_p2 l0 l1 l2 l3]; f_equal; field). rewrite n4_scale by lra. lra. }
  assert (wx : 0 < n4 x <= 1) by (rewrite W; lra). destruct (norm_lip p1 p2 x y d (r / 2) Y1 Y2 Y3 wx ltac:(rewrite W; exact Lt)) as (L1 & L2 & L3). rewrite W in L1, L2, L3.
  assert (N0 : 0 < n4 p1) by lra. assert (NN : n4 p1 = / 2 * n4 (mv1 m1)) by (unfold p1; apply n4_scale; lra). assert (N1 : 0 < n4 (mv1 m1)) by lra.
  unfold p1, p2 in L1, L2. rewrite exact_norm_scale in L1, L2 by lra. clear p2 Y2.
  assert (N2 : n4 p1 <= w + d) by (pose proof (n4_tri p1 x) as K; rewrite W in K; lra). rewrite NN in L3, N2. set (N := n4 (mv1 m1)) in *.
  assert (X18 : / 2 ^ 18 = 4 * / 2 ^ 20) by (replace (2 ^ 20) with (2 ^ 18 * 4) by ring; rewrite Rinv_mult; field; apply pow_nonzero; lra). assert (I20 : 0 < / 2 ^ 20) by (apply Rinv_0_lt_compat, pow_lt; lra).
  assert (X20 : 4 <= 2 ^ 20) by (replace (2 ^ 20) with 1048576 by ring; lra). assert (X40 : 2 ^ 40 = 2 ^ 39 * 2) by ring.
  assert (tr : (1 + t) * r <= (1 + / 1000) * r) by (apply Rmult_le_compat_r; lra). change (mv2 m) with (mv2 m1) in A2.
  destruct (C79_normalize B M HR HM m1 FM ltac:(fold N; lra) ltac:(lra)) as (NM & D10 & _). cbv zeta in NM, D10. fold FL in NM, D10. rewrite u_pow in NM, D10. destruct NM as (F' & _ & _ & _ & D2'). set (m' := motor_normalized m1) in *. clearbody m'. fold N in D2'.
  assert (iw : 0 < / w) by (apply Rinv_0_lt_compat; lra). assert (iN : 0 < / N) by (apply Rinv_0_lt_compat; lra).
  assert (iN' : / N <= 10011 / 20000 * / w). { replace (10011 / 20000 * / w) with (/ (20000 / 10011 * w)) by (field; lra). apply Rinv_le_contravar; lra. }
  assert (I39 : / 2 ^ 50 = / 2 ^ 39 * / 2048) by (rewrite <- Rinv_mult; f_equal; ring). assert (I39' : 0 < / 2 ^ 39) by (apply Rinv_0_lt_compat, pow_lt; lra).
  assert (rw : 0 <= r / (2 * w)). { unfold Rdiv. rewrite Rinv_mult. apply Rmult_le_pos; lra. }
  assert (E2 : r / (2 * w) = / 2 * r * / w) by (field; lra).
  assert (Wr : (n4 (mv2 m1) + / 2 ^ 50) / N <= 1004 / 1000 * (r / (2 * w))).
  { unfold Rdiv at 1. rewrite E2. apply (Rle_trans _ (1002 / 1000 * r * (10011 / 20000 * / w))); [apply Rmult_le_compat; try lra; pose proof (n4_pos (mv2 m1)); lra|]. assert (0 <= r * / w) by (apply Rmult_le_pos; lra). lra. }
  assert (UW : 38 * u * ((n4 (mv2 m1) + / 2 ^ 50) / N) <= 38 * u * (1004 / 1000 * (r / (2 * w)))) by (apply Rmult_le_compat_l; lra). assert (urw : 0 <= u * (r / (2 * w))) by (apply Rmult_le_pos; lra).
  assert (dw : 0 <= d / w) by (apply Rmult_le_pos; unfold d in *; lra). replace (r / 2 / w) with (r / (2 * w)) in L2 by (field; lra).
  destruct (exact_norm_spec x y ltac:(lra)) as (PE & _ & LE). rewrite W in LE. change (exact_norm x y) with (mroot e) in *.
  assert (Q1 : n4 (sub4 (mv1 m') (motor_p1 (mroot e))) <= 2 * (d / w) + 10 * u).
  { eapply Rle_trans; [apply (n4_via _ (motor_p1 (exact_norm (mv1 m1) (mv2 m1))))|]. lra. }
  split; [|split; [exact Q1|]].
  - split; [exact F'|]. split; [exact PE|]. split.
    { eapply Rle_trans; [exact LE|]. rewrite E2. unfold Rdiv. apply Rmult_le_compat_r; lra. }
    split; [lra|]. eapply Rle_trans; [apply (n4_via _ (motor_p2 (exact_norm (mv1 m1) (mv2 m1))))|]. lra.
  - unfold mroot. apply mid_square; [exact P|]. destruct (Rle_lt_or_eq_dec _ _ (proj1 Lc)) as [K|K]; [exact K|]. unfold w in w0. rewrite <- K in w0. replace ((1 + -1) / 2) with 0 in w0 by field. rewrite sqrt_0 in w0. lra.
Qed.
(** motors that turn by at most a half turn: the root, and the way back *)
Theorem C82_square : forall (B : Build) (M : machine), rcp_estimate M -> rsqrt_estimate M -> let FL := Flo_f32 M in
  forall (t r : R) (m : motor f32) (e : motor R), near_motor t r m e -> t <= / 2000 -> / 2 ^ 39 <= r <= 2 ^ 39 -> 0 <= l0 (motor_p1 e) ->
  near_motor (9 * t + 57 * / 2 ^ 24) (5 / 7 * r) (motor_sqrt m) (mroot e) /\
  near_motor (182 / 10 * t + 127 * / 2 ^ 24) (10 / 7 * r) (motor_mul_motor (motor_sqrt m) (motor_sqrt m)) e /\
  (forall x, moved (mroot e) (moved (mroot e) x) = moved e x).
Proof.
  intros B M HR HM FL t r m e H Lt Lr L0. destruct (near_motor_len _ _ _ _ H) as (_ & _ & t0 & r0). pose proof (proj1 (proj2 H)) as P. pose proof u_small as U.
  set (w := sqrt ((1 + l0 (motor_p1 e)) / 2)). assert (Lw : 7 / 10 <= w). { unfold w. replace (7 / 10) with (sqrt (7 / 10 * (7 / 10))) by (apply sqrt_square; lra). apply sqrt_le_1_alt. lra. }
  assert (I18 : / 2 ^ 18 <= 7 / 10) by (apply (Rle_trans _ (/ 2)); [apply Rinv_le_contravar; [lra|replace (2 ^ 18) with 262144 by ring; lra]|lra]).
  destruct (C82_sqrt B M HR HM t r m e H Lr ltac:(fold w; lra) ltac:(fold w; rewrite u_pow; lra)) as (N & _ & E). cbv zeta in N. fold w FL in N. rewrite u_pow in *. set (s := motor_sqrt m) in *. clearbody s.
  assert (iw : 0 < / w <= 10 / 7) by (split; [apply Rinv_0_lt_compat; lra|replace (10 / 7) with (/ (7 / 10)) by field; apply Rinv_le_contravar; lra]).
  assert (Q : near_motor (9 * t + 57 * u) (5 / 7 * r) s (mroot e)).
  { assert (rw : 0 <= r / (2 * w) <= 5 / 7 * r). { replace (r / (2 * w)) with (/ 2 * (r * / w)) by (field; lra). assert (0 <= r * / w) by (apply Rmult_le_pos; lra). assert (r * / w <= r * (10 / 7)) by (apply Rmult_le_compat_l; lra). lra. }
    assert (K : (t + 2 * u) / w <= (t + 2 * u) * (10 / 7)) by (apply Rmult_le_compat_l; lra). assert (0 <= (t + 2 * u) / w) by (apply Rmult_le_pos; lra).
    destruct N as (F & PE & R2 & D1 & D2). split; [exact F|]. split; [exact PE|]. split; [lra|]. split; [lra|]. eapply Rle_trans; [exact D2|]. apply Rmult_le_compat; lra. }
  split; [exact Q|]. assert (I39 : 0 < / 2 ^ 39) by (apply Rinv_0_lt_compat, pow_lt; lra). assert (I60 : / 2 ^ 60 <= / 2 ^ 39) by (apply Rinv_le_contravar; [apply pow_lt; lra|apply Rle_pow; [lra|lia]]). assert (X50 : 2 ^ 39 <= 2 ^ 50) by (apply Rle_pow; [lra|lia]).
  split.
  - pose proof (C79_multiply B _ _ _ _ _ _ _ _ Q Q ltac:(unfold u in *; lra) ltac:(unfold u in *; lra) ltac:(lra) ltac:(lra) ltac:(lra)) as K. rewrite E in K. rewrite u_pow in K. replace (5 / 7 * r + 5 / 7 * r) with (10 / 7 * r) in K by field.
    eapply near_motor_weak; [exact K|]. set (h := 9 * t + 57 * u). assert (Hh : 0 <= h <= / 200) by (unfold h, u in *; lra). assert (hh : h * h <= / 200 * h) by (apply Rmult_le_compat_r; lra). assert (hu : (2 * h + h * h) * (11 * u) <= / 50 * (11 * u)) by (apply Rmult_le_compat_r; lra).
    replace ((1 + h) * (1 + h) * (1 + 11 * u) - 1) with (2 * h + h * h + 11 * u + (2 * h + h * h) * (11 * u)) by ring. unfold h in *. lra.
  - intro x. unfold moved. rewrite <- mmul_image by exact (proj1 (proj2 Q)). rewrite E. reflexivity.
Qed.
Theorem C82_place : forall (B : Build) (M : machine), rcp_estimate M -> rsqrt_estimate M -> let FL := Flo_f32 M in
  forall (t r : R) (m : motor f32) (e : motor R), near_motor t r m e -> t <= / 10000 -> / 2 ^ 39 <= r <= 2 ^ 19 -> 0 <= l0 (motor_p1 e) ->
  forall p : point f32, Forall (bounded 20) (coefs (k := KPoint) p) -> wt p = 1 -> let q := motor_on_point (motor_sqrt m) p in
  vlen (vsub (pos q) (moved (mroot e) (pos p))) <= (181 / 10 * t + 137 * / 2 ^ 24) * vlen (pos p) + (258 / 10 * t + 182 * / 2 ^ 24) * r /\ Rabs (wt q - 1) <= 181 / 10 * t + 123 * / 2 ^ 24.
Proof.
  intros B M HR HM FL t r m e H Lt Lr L0 p Hp Hw q. destruct (near_motor_len _ _ _ _ H) as (_ & _ & t0 & r0). assert (X39 : 2 ^ 19 <= 2 ^ 39) by (apply Rle_pow; [lra|lia]). assert (I39 : 0 < / 2 ^ 39) by (apply Rinv_0_lt_compat, pow_lt; lra).
  assert (I60 : / 2 ^ 60 <= / 2 ^ 40) by (apply Rinv_le_contravar; [apply pow_lt; lra|apply Rle_pow; [lra|lia]]). assert (I40 : / 2 ^ 40 = / 2 ^ 39 * / 2) by (rewrite <- Rinv_mult; f_equal; ring).
  destruct (C82_square B M HR HM t r m e H ltac:(lra) ltac:(lra) L0) as [Q _]. fold FL in Q. rewrite u_pow in *. pose proof u_small as U.
  destruct (near_place B _ _ _ _ p Q ltac:(unfold u in *; lra) ltac:(lra) Hp Hw) as [K1 K2]. fold q in K1, K2. assert (V0 : 0 <= vlen (pos p)) by apply sqrt_pos.
  assert (K3 : (2001 / 1000 * (9 * t + 57 * u) + 222 / 10 * u) * vlen (pos p) <= (181 / 10 * t + 137 * u) * vlen (pos p)) by (apply Rmult_le_compat_r; lra).
  assert (K4 : (4002 / 1000 * (9 * t + 57 * u) + 252 / 10 * u) * (5 / 7) * r <= (258 / 10 * t + 182 * u) * r) by (apply Rmult_le_compat_r; lra).
  split; lra.
Qed.
(** rotors: the real register alone *)
Theorem C82_rotor : forall (B : Build) (M : machine), rcp_estimate M -> rsqrt_estimate M -> let FL := Flo_f32 M in
  forall (t : R) (r : rotor f32) (e : m128 R), Forall fin (coefs (k := KRotor) r) -> n4 e = 1 -> n4 (sub4 (rv r) e) <= t -> let w := sqrt ((1 + l0 e) / 2) in / 2 ^ 18 <= w -> t + 2 * / 2 ^ 24 <= w / 1000 ->
  let root := scale4 (/ (2 * w)) (add4 (mk4 1 0 0 0) e) in
  qm root root = e /\ n4 root = 1 /\ Forall fin (coefs (k := KRotor) (rotor_sqrt r)) /\ n4 (sub4 (rv (rotor_sqrt r)) root) <= 2 * ((t + 2 * / 2 ^ 24) / w) + 10 * / 2 ^ 24.
Proof.
  intros B M HR HM FL t r e F N D w Lw Lt root. set (z := B754_zero false : f32). set (m := mkmotor (rotor_p1 r) (mk4 z z z z)). set (e' := mkmotor e (mk4 0 0 0 0)). assert (I18 : 0 < / 2 ^ 18) by (apply Rinv_0_lt_compat, pow_lt; lra). assert (w0 : 0 < w) by lra.
  assert (P : proper e') by (split; [exact N|]; unfold e', study, q4, rev4; cbn [motor_p1 motor_p2 l0 l1 l2 l3]; ring).
  assert (Z : n4 (mk4 0 0 0 0) = 0) by (unfold n4, q4; cbn [l0 l1 l2 l3]; replace (_ + _) with 0 by ring; apply sqrt_0).
  assert (t0 : 0 <= t) by (pose proof (n4_pos (sub4 (rv r) e)); lra). assert (Y : / 2 ^ 39 <= 1 <= 2 ^ 39) by (split; [rewrite <- Rinv_1; apply Rinv_le_contravar; [lra|]|]; apply pow_R1_Rle; lra).
  assert (NM : near_motor t 1 m e').
  { split; [apply Forall_app; split; [exact F|repeat (apply Forall_cons; [reflexivity|]); apply Forall_nil]|]. split; [exact P|]. split; [unfold e'; cbn [motor_p2]; lra|]. split; [exact D|].
    change (mv2 m) with (mk4 0 0 0 0). unfold e'. cbn [motor_p2]. replace (sub4 (mk4 0 0 0 0) (mk4 0 0 0 0)) with (mk4 0 0 0 0) by (unfold sub4; cbn [l0 l1 l2 l3]; f_equal; ring). rewrite Z. lra. }
  destruct (C82_sqrt B M HR HM t 1 m e' NM Y Lw Lt) as (NR & D1 & E). cbv zeta in NR, D1. fold FL in NR, D1. change (motor_p1 e') with e in NR, D1. fold w in NR, D1.
  assert (ER : motor_p1 (mroot e') = root).
  { destruct (root_len e' P) as [W _]. change (motor_p1 e') with e in W. fold w in W. unfold mroot, nblend, exact_norm. cbv zeta. cbn [motor_p1]. change (motor_p1 e') with e. rewrite W. unfold root, mix, mone, scale4, add4, map4. cbn [motor_p1 l0 l1 l2 l3]. f_equal; field; lra. }
  rewrite ER in D1. split; [|split; [|split; [|exact D1]]].
  - apply (f_equal motor_p1) in E. unfold mmul in E. cbn [motor_p1] in E. rewrite ER in E. exact E.
  - rewrite <- ER. exact (proj1 (proj1 (proj2 NR))).
  - destruct NR as [FF _]. change (coefs (k := KMotor) (motor_sqrt m)) with (reg_list (motor_p1 (motor_sqrt m)) ++ reg_list (motor_p2 (motor_sqrt m))) in FF. apply Forall_app in FF. exact (proj1 FF).
Qed.
(** translators: halving is exact *)
Lemma half_exact x : fin x -> val x = 0 \/ bpow radix2 (-125) <= Rabs (val x) -> Rabs (val x) <= big ->
  let h := fmul x (f32_of 1 (-1)) in (fin h /\ val h = val x / 2) /\ fin (fadd h h) /\ val (fadd h h) = val x.
Proof.
  intros F L H h. assert (Vh : val (f32_of 1 (-1)) = / 2) by (vm_compute; lra). pose proof (Rabs_pos (val x)) as x0.
  destruct (mul_ok x (f32_of 1 (-1)) F eq_refl) as [Fh Eh]; [rewrite Vh, Rabs_mult, (Rabs_pos_eq (/ 2)); lra|]. fold h in Fh, Eh.
  assert (V : val h = val x / 2).
  { rewrite Eh, Vh. change (val x * / 2) with (val x / 2). apply round_generic; [apply valid_rnd_N|]. destruct L as [->|L]; [unfold Rdiv; rewrite Rmult_0_l; apply generic_format_0|].
    assert (Hx : val x <> 0) by (intro X; rewrite X, Rabs_R0 in L; pose proof (bpow_gt_0 radix2 (-125)); lra). pose proof (mag_ge_bpow radix2 (val x) (-124) L) as G.
    pose proof (shift_format (val x) (-1) (val_format x) Hx ltac:(lia) ltac:(lia)) as S. exact S. }
  split; [split; assumption|]. destruct (add_ok h h Fh Fh) as [Fs Es]; [rewrite V; replace (val x / 2 + val x / 2) with (val x) by field; exact H|]. split; [exact Fs|]. rewrite Es, V. replace (val x / 2 + val x / 2) with (val x) by field. apply round_generic; [apply valid_rnd_N|apply val_format].
Qed.
Theorem C82_translator : forall (M : machine), let FL := Flo_f32 M in forall t : translator f32,
  Forall (fun x => fin x /\ (val x = 0 \/ / 2 ^ 125 <= Rabs (val x)) /\ Rabs (val x) <= 2 ^ 127) (reg_list (translator_p2 t)) ->
  let s := translator_sqrt t in map4 val (translator_p2 s) = scale4 (/ 2) (map4 val (translator_p2 t)) /\
  let t' := translator_mul_translator s s in Forall fin (reg_list (translator_p2 t')) /\ map4 val (translator_p2 t') = map4 val (translator_p2 t).
Proof.
  intros M FL [[a b c d]] H s. assert (P : / 2 ^ 125 = bpow radix2 (-125)) by (cbn; f_equal; ring). assert (P' : 2 ^ 127 = big) by (unfold big; cbn; ring). rewrite P, P' in H. cbn [translator_p2] in *.
  inversion_clear H as [|? ? H0 T0]. inversion_clear T0 as [|? ? H1 T1]. inversion_clear T1 as [|? ? H2 T2]. inversion_clear T2 as [|? ? H3 _].
  destruct (half_exact a (proj1 H0) (proj1 (proj2 H0)) (proj2 (proj2 H0))) as ((A1 & A2) & A3 & A4). destruct (half_exact b (proj1 H1) (proj1 (proj2 H1)) (proj2 (proj2 H1))) as ((B1 & B2) & B3 & B4).
  destruct (half_exact c (proj1 H2) (proj1 (proj2 H2)) (proj2 (proj2 H2))) as ((C1 & C2) & C3 & C4). destruct (half_exact d (proj1 H3) (proj1 (proj2 H3)) (proj2 (proj2 H3))) as ((D1 & D2) & D3 & D4).
  split; [|split].
  - unfold scale4, map4. cbn [l0 l1 l2 l3]. unfold Rdiv in *. f_equal; rewrite Rmult_comm; assumption.
  - apply lanes_ap4; assumption.
  - unfold map4. cbn [l0 l1 l2 l3]. f_equal; assumption.
Qed.

(** ** Examples *)
Example C82_hypotheses : near_motor 0 4 third third_e /\ / 2 ^ 39 <= 4 <= 2 ^ 19 /\ 0 <= l0 (motor_p1 third_e) /\ l0 (motor_p1 (mroot third_e)) = sqrt 3 / 2.
Proof.
  assert (X : 4 <= 2 ^ 19) by (replace (2 ^ 19) with 524288 by ring; lra). split; [exact near_third|]. split.
  { split; [apply (Rle_trans _ 1); [|lra]; rewrite <- Rinv_1; apply Rinv_le_contravar; [lra|apply pow_R1_Rle; lra]|exact X]. }
  split; [unfold third_e; cbn [motor_p1 l0]; lra|]. destruct (root_len third_e (proj1 (proj2 near_third))) as [W _]. cbv zeta in W. unfold mroot, nblend, exact_norm. cbv zeta. cbn [motor_p1]. rewrite W. unfold third_e, mix, mone, scale4, add4, map4. cbn [motor_p1 l0 l1 l2 l3].
  replace ((1 + / 2) / 2) with (3 / (2 * 2)) by field. rewrite sqrt_div_alt, sqrt_square by lra. pose proof (sqrt_sqrt 3 ltac:(lra)) as S. assert (S0 : 0 < sqrt 3) by (apply sqrt_lt_R0; lra). replace ((1 - / 2) * 1 + / 2 * / 2) with (sqrt 3 * sqrt 3 / 4) by (rewrite S; field). field. lra.
Qed.
(** the root of a third of a turn with a slide, squared, is the motion again *)
Example C82_third (B : Build) (M : machine) : rcp_estimate M -> rsqrt_estimate M -> let FL := Flo_f32 M in near_motor (127 * / 2 ^ 24) (40 / 7) (motor_mul_motor (motor_sqrt third) (motor_sqrt third)) third_e.
Proof.
  intros HR HM FL. destruct C82_hypotheses as (H1 & H2 & H3 & _). assert (X : 2 ^ 19 <= 2 ^ 39) by (apply Rle_pow; [lra|lia]).
  destruct (C82_square B M HR HM 0 4 third third_e H1 ltac:(lra) ltac:(lra) H3) as (_ & H & _). replace (182 / 10 * 0 + 127 * / 2 ^ 24) with (127 * / 2 ^ 24) in H by ring. replace (10 / 7 * 4) with (40 / 7) in H by field. exact H.
Qed.
(** a rotor by a quarter turn *)
Example C82_quarter : let r := mkrotor (mk4 (f32_of 11863283 (-24)) (f32_of 11863283 (-24)) (f32_of 0 0) (f32_of 0 0)) in let e := mk4 (sqrt 2 / 2) (sqrt 2 / 2) 0 0 in
  Forall fin (coefs (k := KRotor) r) /\ n4 e = 1 /\ n4 (sub4 (rv r) e) <= / 2 ^ 24 /\ / 2 ^ 18 <= sqrt ((1 + l0 e) / 2) /\ / 2 ^ 24 + 2 * / 2 ^ 24 <= sqrt ((1 + l0 e) / 2) / 1000.
Proof.
  intros r e. split; [repeat (apply Forall_cons; [reflexivity|]); apply Forall_nil|]. assert (S : sqrt 2 * sqrt 2 = 2) by (apply sqrt_sqrt; lra). assert (S0 : 0 < sqrt 2) by (apply sqrt_lt_R0; lra).
  assert (B1 : 1.41421356 <= sqrt 2 <= 1.41421357). { split; [replace 1.41421356 with (sqrt (1.41421356 * 1.41421356)) by (apply sqrt_square; lra)|replace 1.41421357 with (sqrt (1.41421357 * 1.41421357)) by (apply sqrt_square; lra)]; apply sqrt_le_1_alt; lra. }
  split; [unfold e, n4, q4; cbn [l0 l1 l2 l3]; replace (_ + _) with 1 by lra; apply sqrt_1|]. assert (V : val (f32_of 11863283 (-24)) = 11863283 / 16777216) by (vm_compute; lra). assert (V0 : val (f32_of 0 0) = 0) by reflexivity. rewrite u_pow.
  split.
  - unfold n4, q4, sub4, rv, r, e, map4. cbn [rotor_p1 l0 l1 l2 l3]. rewrite V, V0. rewrite <- (sqrt_square u) by (unfold u; lra). apply sqrt_le_1_alt. set (x := 11863283 / 16777216 - sqrt 2 / 2). assert (Hx : Rabs x <= / 1000000000 * 25) by (apply Rabs_le; unfold x; lra).
    assert (Rabs x * Rabs x <= / 1000000000 * 25 * (/ 1000000000 * 25)) by (apply Rmult_le_compat; try apply Rabs_pos; exact Hx). rewrite <- Rabs_mult, Rabs_pos_eq in H by apply (Rle_0_sqr x). unfold u. lra.
  - cbn [e l0]. assert (W : 9 / 10 <= sqrt ((1 + sqrt 2 / 2) / 2)) by (replace (9 / 10) with (sqrt (9 / 10 * (9 / 10))) by (apply sqrt_square; lra); apply sqrt_le_1_alt; lra). split; [|unfold u; lra]. apply (Rle_trans _ (/ 2)); [apply Rinv_le_contravar; [lra|replace (2 ^ 18) with 262144 by ring; lra]|lra].
Qed.

Print Assumptions C82_sqrt.
Print Assumptions C82_square.
Print Assumptions C82_place.
Print Assumptions C82_rotor.
Print Assumptions C82_translator.
