(** Property C79: products, chains and normalization of motors in binary32. *)
From Coq Require Import ZArith Reals List Bool Lra Lia Psatz.
From Flocq Require Import Core BinarySingleNaN.
From Verif Require Import AlgTac SpecMass FloatMass Closed FloR ExpSeries KernelExpLog ExpLog LogExp2 Float32 FloatFacts ExprSyntax FloatErr FloatAbs FloatApx FloatNR FloatNorm FloatIdeal FloatLibm Props11 Props21 Props22 SpecGeom Props23 Props24 Props26 Props27 Props28 Props29.
Import ListNotations.
Local Open Scope R_scope.

(** ** Exact motors *)
(** a motor of a rigid motion: unit norm, and p q = a . b *)
Definition study (p1 p2 : m128 R) : R := q4 p1 (rev4 p2).
Definition proper (e : motor R) : Prop := n4 (motor_p1 e) = 1 /\ study (motor_p1 e) (motor_p2 e) = 0.
(** the product, in the two registers *)
Definition mm2 (a1 a2 b1 b2 : m128 R) : m128 R := rev4 (add4 (qm a1 (rev4 b2)) (qm (rev4 a2) b1)).
Definition mmul (a b : motor R) : motor R := mkmotor (qm (motor_p1 a) (motor_p1 b)) (mm2 (motor_p1 a) (motor_p2 a) (motor_p1 b) (motor_p2 b)).
Lemma mmul_gp a b : mv_motor (mmul a b) == gp (mv_motor a) (mv_motor b).
Proof. destruct a as [[a0 a1 a2 a3] [a4 a5 a6 a7]], b as [[b0 b1 b2 b3] [b4 b5 b6 b7]]. intros [[|] [|] [|] [|]]; cbv -[Rplus Rmult Ropp Rminus IZR]; ring. Qed.
Lemma rev4_add p q : rev4 (add4 p q) = add4 (rev4 p) (rev4 q).
Proof. unfold rev4, add4. cbn [l0 l1 l2 l3]. f_equal; ring. Qed.
Lemma mmul_proper a b : proper a -> proper b -> proper (mmul a b).
Proof.
  intros [A1 A2] [B1 B2]. split; cbn [mmul motor_p1 motor_p2].
  - rewrite qm_n4, A1, B1. ring.
  - destruct a as [p d], b as [p' d']. cbn [motor_p1 motor_p2] in *. pose proof (n4_sq p) as Q. pose proof (n4_sq p') as Q'. rewrite A1 in Q. rewrite B1 in Q'.
    transitivity (q4 p p * study p' d' + q4 p' p' * study p d); [|rewrite A2, B2; ring]. clear.
    destruct p as [a0 a1 a2 a3], d as [a4 a5 a6 a7], p' as [b0 b1 b2 b3], d' as [b4 b5 b6 b7]. unfold study, mm2, q4, qm, rev4, add4. cbn [l0 l1 l2 l3]. ring.
Qed.
Lemma qm_assoc a b c : qm (qm a b) c = qm a (qm b c).
Proof. destruct a as [a0 a1 a2 a3], b as [b0 b1 b2 b3], c as [c0 c1 c2 c3]. unfold qm. cbn [l0 l1 l2 l3]. f_equal; ring. Qed.
Lemma qm_rev a b : rev4 (qm a b) = qm (rev4 b) (rev4 a).
Proof. destruct a as [a0 a1 a2 a3], b as [b0 b1 b2 b3]. unfold qm, rev4. cbn [l0 l1 l2 l3]. f_equal; ring. Qed.
Lemma qm_add_l a b c : qm (add4 a b) c = add4 (qm a c) (qm b c).
Proof. destruct a as [a0 a1 a2 a3], b as [b0 b1 b2 b3], c as [c0 c1 c2 c3]. unfold qm, add4. cbn [l0 l1 l2 l3]. f_equal; ring. Qed.
Lemma qm_add_r a b c : qm c (add4 a b) = add4 (qm c a) (qm c b).
Proof. destruct a as [a0 a1 a2 a3], b as [b0 b1 b2 b3], c as [c0 c1 c2 c3]. unfold qm, add4. cbn [l0 l1 l2 l3]. f_equal; ring. Qed.
Lemma rev4_rev p : rev4 (rev4 p) = p.
Proof. destruct p as [a0 a1 a2 a3]. unfold rev4. cbn [l0 l1 l2 l3]. f_equal; ring. Qed.
Lemma qm_norm p : qm p (rev4 p) = mk4 (q4 p p) 0 0 0.
Proof. destruct p as [a0 a1 a2 a3]. unfold qm, rev4, q4. cbn [l0 l1 l2 l3]. f_equal; ring. Qed.
Lemma qm_one p : qm p (mk4 1 0 0 0) = p /\ qm (mk4 1 0 0 0) p = p.
Proof. destruct p as [a0 a1 a2 a3]. unfold qm. cbn [l0 l1 l2 l3]. split; f_equal; ring. Qed.
Lemma lift_vpart p : l0 p = 0 -> lift (vpart p) = p.
Proof. destruct p as [a b c d]. unfold lift, vpart. cbn [l0 l1 l2 l3 vx vy vz]. intros ->. reflexivity. Qed.
Lemma turn_lane p y : l0 y = 0 -> l0 (qm (qm p y) (rev4 p)) = 0.
Proof. destruct p as [a0 a1 a2 a3], y as [w y1 y2 y3]. cbn [l0]. intros ->. unfold qm, rev4. cbn [l0 l1 l2 l3]. ring. Qed.
Lemma turn_turn p p' x : turn (qm p p') x = turn p (turn p' x).
Proof. unfold turn. rewrite (lift_vpart (qm (qm p' (lift x)) (rev4 p'))) by (apply turn_lane; reflexivity). rewrite qm_rev, !qm_assoc. reflexivity. Qed.
Lemma turn_scale p k x : turn p (vscale k x) = vscale k (turn p x).
Proof. destruct p as [a0 a1 a2 a3], x as [x y z]. unfold turn, vpart, qm, lift, rev4, vscale. cbn [vx vy vz l0 l1 l2 l3]. apply vec_eq; cbn [vx vy vz]; ring. Qed.
(** the motions compose: the right factor acts first *)
Lemma mmul_image a b x : proper a -> proper b ->
  motor_image (motor_p1 (mmul a b)) (motor_p2 (mmul a b)) 1 x = motor_image (motor_p1 a) (motor_p2 a) 1 (motor_image (motor_p1 b) (motor_p2 b) 1 x).
Proof.
  intros [A1 A2] [B1 B2]. destruct a as [p d], b as [p' d']. cbn [motor_p1 motor_p2 mmul] in *.
  pose proof (n4_sq p') as Q'. rewrite B1 in Q'. rewrite !image_turn, turn_turn, <- turn_sub, turn_scale.
  assert (V : vpart (qm (qm p p') (mm2 p d p' d')) = vadd (turn p (vpart (qm p' d'))) (vpart (qm p d))).
  { assert (S : l0 (qm p' d') = 0) by (rewrite <- B2; destruct p' as [a0 a1 a2 a3], d' as [b0 b1 b2 b3]; unfold study, qm, q4, rev4; cbn [l0 l1 l2 l3]; ring).
    unfold turn. rewrite (lift_vpart (qm p' d') S). unfold mm2. rewrite rev4_add, !qm_rev, !rev4_rev, qm_add_r.
    assert (E : qm (qm p p') (qm (rev4 p') d) = qm p d) by (rewrite qm_assoc, <- (qm_assoc p'), qm_norm, <- Q', Rmult_1_l, (proj2 (qm_one d)); reflexivity).
    rewrite E, !qm_assoc. destruct (qm p (qm p' (qm d' (rev4 p)))), (qm p d). reflexivity. }
  rewrite V. generalize (turn p (turn p' x)) (turn p (vpart (qm p' d'))) (vpart (qm p d)). intros [x1 x2 x3] [y1 y2 y3] [z1 z2 z3]. unfold vsub, vadd, vscale. cbn [vx vy vz]. apply vec_eq; cbn [vx vy vz]; ring.
Qed.
Definition moved (e : motor R) (x : vec) : vec := motor_image (motor_p1 e) (motor_p2 e) 1 x.

(** ** The stored product *)
Definition mv1 (m : motor f32) : m128 R := map4 val (motor_p1 m).
Definition mv2 (m : motor f32) : m128 R := map4 val (motor_p2 m).
Lemma motor_mass (a b : motor R) i : gp_mass (mv_motor a) (mv_motor b) i <=
  match i with Bl false _ _ _ => n4 (motor_p1 a) * n4 (motor_p1 b) | Bl true _ _ _ => n4 (motor_p1 a) * n4 (motor_p2 b) + n4 (motor_p2 a) * n4 (motor_p1 b) end.
Proof.
  destruct a as [[a0 a1 a2 a3] [a4 a5 a6 a7]], b as [[b0 b1 b2 b3] [b4 b5 b6 b7]]. cbn [motor_p1 motor_p2].
  assert (K : forall c0 c1 c2 c3 d0 d1 d2 d3, let m := n4 (mk4 c0 c1 c2 c3) * n4 (mk4 d0 d1 d2 d3) in 0 <= m /\
    Rabs c0 * Rabs d0 + Rabs c1 * Rabs d1 + Rabs c2 * Rabs d2 + Rabs c3 * Rabs d3 <= m /\ Rabs c0 * Rabs d1 + Rabs c1 * Rabs d0 + Rabs c2 * Rabs d3 + Rabs c3 * Rabs d2 <= m /\
    Rabs c0 * Rabs d2 + Rabs c1 * Rabs d3 + Rabs c2 * Rabs d0 + Rabs c3 * Rabs d1 <= m /\ Rabs c0 * Rabs d3 + Rabs c1 * Rabs d2 + Rabs c2 * Rabs d1 + Rabs c3 * Rabs d0 <= m).
  { intros c0 c1 c2 c3 d0 d1 d2 d3 m. split; [apply Rmult_le_pos; apply n4_pos|]. unfold m. destruct (n4_perm d0 d1 d2 d3) as (P1 & P2 & P3).
    pose proof (mass_bound c0 c1 c2 c3 d0 d1 d2 d3) as M0. pose proof (mass_bound c0 c1 c2 c3 d1 d0 d3 d2) as M1. pose proof (mass_bound c0 c1 c2 c3 d2 d3 d0 d1) as M2. pose proof (mass_bound c0 c1 c2 c3 d3 d2 d1 d0) as M3.
    rewrite P1 in M1. rewrite P2 in M2. rewrite P3 in M3. repeat split; lra. }
  destruct (K a0 a1 a2 a3 b0 b1 b2 b3) as (Z & M0 & M1 & M2 & M3). destruct (K a0 a1 a2 a3 b4 b5 b6 b7) as (Z' & M0' & M1' & M2' & M3'). destruct (K a4 a5 a6 a7 b0 b1 b2 b3) as (Z'' & M0'' & M1'' & M2'' & M3'').
  set (m := n4 (mk4 a0 a1 a2 a3) * n4 (mk4 b0 b1 b2 b3)) in *. set (m' := n4 (mk4 a0 a1 a2 a3) * n4 (mk4 b4 b5 b6 b7)) in *. set (m'' := n4 (mk4 a4 a5 a6 a7) * n4 (mk4 b0 b1 b2 b3)) in *. clearbody m m' m''. clear K.
  destruct i as [[|] [|] [|] [|]]; cbv -[Rplus Rmult Ropp Rminus Rabs IZR Rle]; rewrite ?Rplus_0_l, ?Rplus_0_r, ?Rabs_Ropp, ?Rabs_R0; lra.
Qed.
Lemma motor_lanes (m : motor R) :
  (mv_motor m (Bl false false false false) = l0 (motor_p1 m) /\ mv_motor m (Bl false false true true) = l1 (motor_p1 m) /\ mv_motor m (Bl false true false true) = - l2 (motor_p1 m) /\ mv_motor m (Bl false true true false) = l3 (motor_p1 m)) /\
  mv_motor m (Bl true true true true) = l0 (motor_p2 m) /\ mv_motor m (Bl true true false false) = l1 (motor_p2 m) /\ mv_motor m (Bl true false true false) = l2 (motor_p2 m) /\ mv_motor m (Bl true false false true) = l3 (motor_p2 m).
Proof. destruct m as [[a0 a1 a2 a3] [a4 a5 a6 a7]]. repeat split; cbv -[Rplus Rmult Ropp Rminus IZR]; ring. Qed.
Theorem C79_product : forall (B : Build) (a b : motor f32),
  Forall (bounded 60) (coefs (k := KMotor) a) -> Forall (bounded 60) (coefs (k := KMotor) b) -> let m := motor_mul_motor a b in
  Forall fin (coefs (k := KMotor) m) /\
  n4 (sub4 (mv1 m) (qm (mv1 a) (mv1 b))) <= 10 * (1 + / 100000) * / 2 ^ 24 * (n4 (mv1 a) * n4 (mv1 b)) + bpow radix2 (-143) /\
  n4 (sub4 (mv2 m) (mm2 (mv1 a) (mv2 a) (mv1 b) (mv2 b))) <= 10 * (1 + / 100000) * / 2 ^ 24 * (n4 (mv1 a) * n4 (mv2 b) + n4 (mv2 a) * n4 (mv1 b)) + bpow radix2 (-143).
Proof.
  intros B a b Ha Hb m. destruct (C41_any_geometric_product_partial B) as (_ & _ & _ & _ & _ & _ & _ & _ & _ & _ & _ & _ & _ & _ & A).
  destruct (A a b Ha Hb I I) as [F E]. clear A. fold m in F, E. split; [exact F|]. rewrite u_pow in *.
  set (a' := mkmotor (mv1 a) (mv2 a)). set (b' := mkmotor (mv1 b) (mv2 b)).
  assert (E' : forall i, Rabs (mv_motor (mkmotor (mv1 m) (mv2 m)) i - gp (mv_motor a') (mv_motor b') i) <= 5 * (1 + / 100000) * u * gp_mass (mv_motor a') (mv_motor b') i + bpow radix2 (-144)) by exact E.
  clear E. clearbody m. assert (B1 : bpow radix2 (-143) = 2 * bpow radix2 (-144)) by (change (-143)%Z with (1 + -144)%Z; rewrite bpow_plus; reflexivity). rewrite B1. pose proof (bpow_gt_0 radix2 (-144)) as B0. pose proof u_small as U.
  assert (E2 : forall i, Rabs (mv_motor (mkmotor (mv1 m) (mv2 m)) i - mv_motor (mmul a' b') i) <= 5 * (1 + / 100000) * u * (match i with Bl false _ _ _ => n4 (mv1 a) * n4 (mv1 b) | Bl true _ _ _ => n4 (mv1 a) * n4 (mv2 b) + n4 (mv2 a) * n4 (mv1 b) end) + bpow radix2 (-144)).
  { intro i. rewrite (mmul_gp a' b' i). eapply Rle_trans; [apply E'|]. apply Rplus_le_compat_r, Rmult_le_compat_l; [lra|]. exact (motor_mass a' b' i). }
  assert (X : forall v w k, 0 <= k -> Rabs (l0 v - l0 w) <= k -> Rabs (l1 v - l1 w) <= k -> Rabs (l2 v - l2 w) <= k -> Rabs (l3 v - l3 w) <= k -> n4 (sub4 v w) <= 2 * k) by (intros v w k K H0 H1 H2 H3; apply n4_all; assumption).
  pose proof (n4_pos (mv1 a)) as a1. pose proof (n4_pos (mv2 a)) as a2. pose proof (n4_pos (mv1 b)) as b1. pose proof (n4_pos (mv2 b)) as b2.
  assert (Y1 : 0 <= n4 (mv1 a) * n4 (mv1 b)) by (apply Rmult_le_pos; assumption). assert (Y2 : 0 <= n4 (mv1 a) * n4 (mv2 b) + n4 (mv2 a) * n4 (mv1 b)) by (apply Rplus_le_le_0_compat; apply Rmult_le_pos; assumption).
  destruct (motor_lanes (mkmotor (mv1 m) (mv2 m))) as ((L0 & L1 & L2 & L3) & L4 & L5 & L6 & L7). destruct (motor_lanes (mmul a' b')) as ((T0 & T1 & T2 & T3) & T4 & T5 & T6 & T7).
  split.
  - set (g := n4 (mv1 a) * n4 (mv1 b)) in *. assert (0 <= u * g) by (apply Rmult_le_pos; lra). replace (10 * (1 + / 100000) * u * g + 2 * bpow radix2 (-144)) with (2 * (5 * (1 + / 100000) * u * g + bpow radix2 (-144))) by ring.
    pose proof (E2 (Bl false false false false)) as K0. pose proof (E2 (Bl false false true true)) as K1. pose proof (E2 (Bl false true false true)) as K2. pose proof (E2 (Bl false true true false)) as K3.
    rewrite L0, T0 in K0. rewrite L1, T1 in K1. rewrite L2, T2 in K2. rewrite L3, T3 in K3. apply X; [lra|exact K0|exact K1| |exact K3]. rewrite <- Rabs_Ropp. refine (Rle_trans _ _ _ (Req_le _ _ _) K2). f_equal. cbn [motor_p1 mmul]. unfold a', b'. cbn [motor_p1]. ring.
  - set (g := n4 (mv1 a) * n4 (mv2 b) + n4 (mv2 a) * n4 (mv1 b)) in *. assert (0 <= u * g) by (apply Rmult_le_pos; lra). replace (10 * (1 + / 100000) * u * g + 2 * bpow radix2 (-144)) with (2 * (5 * (1 + / 100000) * u * g + bpow radix2 (-144))) by ring.
    pose proof (E2 (Bl true true true true)) as K0. pose proof (E2 (Bl true true false false)) as K1. pose proof (E2 (Bl true false true false)) as K2. pose proof (E2 (Bl true false false true)) as K3.
    rewrite L4, T4 in K0. rewrite L5, T5 in K1. rewrite L6, T6 in K2. rewrite L7, T7 in K3. apply X; [lra|exact K0|exact K1|exact K2|exact K3].
Qed.

(** ** Stored motors near exact ones *)
(** [m] is within [th] of the proper motor [e]; [r] bounds the ideal part of [e]. *)
Definition near_motor (th r : R) (m : motor f32) (e : motor R) : Prop :=
  Forall fin (coefs (k := KMotor) m) /\ proper e /\ n4 (motor_p2 e) <= r /\ n4 (sub4 (mv1 m) (motor_p1 e)) <= th /\ n4 (sub4 (mv2 m) (motor_p2 e)) <= th * r.
Lemma near_motor_weak th th' r m e : near_motor th r m e -> th <= th' -> near_motor th' r m e.
Proof.
  intros (F & P & R2 & E1 & E2) H. assert (0 <= r) by (pose proof (n4_pos (motor_p2 e)); lra). repeat (split; [assumption|]). split; [lra|].
  eapply Rle_trans; [exact E2|]. apply Rmult_le_compat_r; assumption.
Qed.
Lemma near_motor_len th r m e : near_motor th r m e -> n4 (mv1 m) <= 1 + th /\ n4 (mv2 m) <= (1 + th) * r /\ 0 <= th /\ 0 <= r.
Proof.
  intros (F & (P & _) & R2 & E1 & E2). pose proof (n4_tri (mv1 m) (motor_p1 e)). pose proof (n4_tri (mv2 m) (motor_p2 e)). pose proof (n4_pos (sub4 (mv1 m) (motor_p1 e))). pose proof (n4_pos (motor_p2 e)). lra.
Qed.
Lemma motor_bounded (m : motor f32) hi : (0 <= hi)%Z -> Forall fin (coefs (k := KMotor) m) -> n4 (mv1 m) <= bpow radix2 hi -> n4 (mv2 m) <= bpow radix2 hi -> Forall (bounded hi) (coefs (k := KMotor) m).
Proof.
  intros H F N1 N2. change (coefs (k := KMotor) m) with (reg_list (motor_p1 m) ++ reg_list (motor_p2 m)) in *. apply Forall_app in F. destruct F as [F1 F2]. apply Forall_app. split.
  - exact (rv_bounded (mkrotor (motor_p1 m)) hi H F1 N1).
  - exact (rv_bounded (mkrotor (motor_p2 m)) hi H F2 N2).
Qed.
Lemma mm2_diff a1 a2 b1 b2 e1 e2 f1 f2 : n4 (sub4 (mm2 a1 a2 b1 b2) (mm2 e1 e2 f1 f2)) <=
  n4 (sub4 a1 e1) * n4 b2 + n4 e1 * n4 (sub4 b2 f2) + (n4 (sub4 a2 e2) * n4 b1 + n4 e2 * n4 (sub4 b1 f1)).
Proof.
  unfold mm2. rewrite <- rev4_sub, rev4_n4.
  replace (sub4 (add4 (qm a1 (rev4 b2)) (qm (rev4 a2) b1)) (add4 (qm e1 (rev4 f2)) (qm (rev4 e2) f1))) with (add4 (sub4 (qm a1 (rev4 b2)) (qm e1 (rev4 f2))) (sub4 (qm (rev4 a2) b1) (qm (rev4 e2) f1))) by (unfold add4, sub4; cbn [l0 l1 l2 l3]; f_equal; ring).
  eapply Rle_trans; [apply n4_add|]. apply Rplus_le_compat.
  - eapply Rle_trans; [apply (n4_via _ (qm e1 (rev4 b2)))|]. rewrite qm_sub_l, qm_sub_r, <- rev4_sub, !qm_n4, !rev4_n4. lra.
  - eapply Rle_trans; [apply (n4_via _ (qm (rev4 e2) b1))|]. rewrite qm_sub_l, qm_sub_r, <- rev4_sub, !qm_n4, !rev4_n4. lra.
Qed.
Lemma mm2_n4 a1 a2 b1 b2 : n4 (mm2 a1 a2 b1 b2) <= n4 a1 * n4 b2 + n4 a2 * n4 b1.
Proof. unfold mm2. rewrite rev4_n4. eapply Rle_trans; [apply n4_add|]. rewrite !qm_n4, !rev4_n4. lra. Qed.
Theorem C79_multiply : forall (B : Build) (th th' r r' : R) (a b : motor f32) (e f : motor R),
  near_motor th r a e -> near_motor th' r' b f -> th <= 1 -> th' <= 1 -> / 2 ^ 60 <= r + r' -> r <= 2 ^ 50 -> r' <= 2 ^ 50 ->
  near_motor ((1 + th) * (1 + th') * (1 + 11 * / 2 ^ 24) - 1) (r + r') (motor_mul_motor a b) (mmul e f).
Proof.
  intros B th th' r r' a b e f Ha Hb T T' L H H'. destruct (near_motor_len _ _ _ _ Ha) as (A1 & A2 & t0 & r0). destruct (near_motor_len _ _ _ _ Hb) as (B1 & B2 & t0' & r0').
  destruct Ha as (Fa & Pa & Ra & E1 & E2). destruct Hb as (Fb & Pb & Rb & E1' & E2'). pose proof u_small as U.
  assert (P60 : bpow radix2 60 = 2 ^ 60) by (cbn; ring). assert (X50 : 2 ^ 60 = 2 ^ 50 * 1024) by ring. assert (Y50 : 1 <= 2 ^ 50) by (apply pow_R1_Rle; lra).
  pose proof (n4_pos (mv1 a)) as a1. pose proof (n4_pos (mv2 a)) as a2. pose proof (n4_pos (mv1 b)) as b1. pose proof (n4_pos (mv2 b)) as b2.
  assert (A2' : (1 + th) * r <= 2 * 2 ^ 50) by (apply Rmult_le_compat; lra). assert (B2' : (1 + th') * r' <= 2 * 2 ^ 50) by (apply Rmult_le_compat; lra).
  destruct (C79_product B a b) as (F & D1 & D2).
  { apply motor_bounded; [lia|exact Fa| |]; rewrite P60, X50; lra. } { apply motor_bounded; [lia|exact Fb| |]; rewrite P60, X50; lra. }
  cbv zeta in F, D1, D2. rewrite u_pow in *. set (m := motor_mul_motor a b) in *. clearbody m.
  assert (Bt : bpow radix2 (-143) <= / 100 * u * (r + r') /\ bpow radix2 (-143) <= / 100 * u).
  { assert (Q : bpow radix2 (-40) <= / 100 * u) by (unfold u; cbn; lra). split; [|eapply Rle_trans; [apply bpow_le|exact Q]; lia].
    apply (Rle_trans _ (bpow radix2 (-40) * bpow radix2 (-60))); [rewrite <- bpow_plus; apply bpow_le; lia|]. apply Rmult_le_compat; try apply bpow_ge_0; [exact Q|]. replace (bpow radix2 (-60)) with (/ 2 ^ 60) by (cbn; f_equal; ring). exact L. }
  destruct Bt as [Bt1 Bt2]. assert (AB : n4 (mv1 a) * n4 (mv1 b) <= (1 + th) * (1 + th')) by (apply Rmult_le_compat; assumption).
  assert (S1 : 1 <= (1 + th) * (1 + th')) by (apply (Rle_trans _ (1 * 1)); [lra|apply Rmult_le_compat; lra]).
  split; [exact F|]. split; [apply mmul_proper; assumption|]. destruct Pa as [Ea _]. destruct Pb as [Eb _]. cbn [mmul motor_p1 motor_p2].
  set (e1 := motor_p1 e) in *. set (e2 := motor_p2 e) in *. set (f1 := motor_p1 f) in *. set (f2 := motor_p2 f) in *. pose proof (n4_pos e2) as Pe2. pose proof (n4_pos f2) as Pf2.
  split; [eapply Rle_trans; [apply mm2_n4|]; rewrite Ea, Eb; lra|]. split.
  - eapply Rle_trans; [apply (n4_via _ (qm (mv1 a) (mv1 b)))|].
    assert (D : n4 (sub4 (qm (mv1 a) (mv1 b)) (qm e1 f1)) <= th * (1 + th') + th').
    { eapply Rle_trans; [apply (n4_via _ (qm e1 (mv1 b)))|]. rewrite qm_sub_l, qm_sub_r, !qm_n4, Ea. pose proof (n4_pos (sub4 (mv1 a) e1)). assert (n4 (sub4 (mv1 a) e1) * n4 (mv1 b) <= th * (1 + th')) by (apply Rmult_le_compat; assumption). lra. }
    assert (u * (n4 (mv1 a) * n4 (mv1 b)) <= u * ((1 + th) * (1 + th'))) by (apply Rmult_le_compat_l; lra).
    assert (u * 1 <= u * ((1 + th) * (1 + th'))) by (apply Rmult_le_compat_l; lra). lra.
  - eapply Rle_trans; [apply (n4_via _ (mm2 (mv1 a) (mv2 a) (mv1 b) (mv2 b)))|]. pose proof (mm2_diff (mv1 a) (mv2 a) (mv1 b) (mv2 b) e1 e2 f1 f2) as D. rewrite Ea in D.
    pose proof (n4_pos (sub4 (mv1 a) e1)) as z1. pose proof (n4_pos (sub4 (mv2 a) e2)) as z2. pose proof (n4_pos (sub4 (mv1 b) f1)) as z3.
    assert (K1 : n4 (sub4 (mv1 a) e1) * n4 (mv2 b) <= th * ((1 + th') * r')) by (apply Rmult_le_compat; assumption).
    assert (K2 : n4 (sub4 (mv2 a) e2) * n4 (mv1 b) <= th * r * (1 + th')) by (apply Rmult_le_compat; assumption).
    assert (K3 : n4 e2 * n4 (sub4 (mv1 b) f1) <= r * th') by (apply Rmult_le_compat; assumption).
    assert (K4 : n4 (mv1 a) * n4 (mv2 b) + n4 (mv2 a) * n4 (mv1 b) <= (1 + th) * (1 + th') * (r + r')).
    { assert (n4 (mv1 a) * n4 (mv2 b) <= (1 + th) * ((1 + th') * r')) by (apply Rmult_le_compat; assumption). assert (n4 (mv2 a) * n4 (mv1 b) <= (1 + th) * r * (1 + th')) by (apply Rmult_le_compat; assumption). lra. }
    apply (Rmult_le_compat_l u) in K4; [|lra].
    assert (K5 : u * (r + r') <= u * ((1 + th) * (1 + th') * (r + r'))). { apply Rmult_le_compat_l; [lra|]. rewrite <- (Rmult_1_l (r + r')) at 1. apply Rmult_le_compat_r; lra. }
    assert (0 <= u * (r + r')) by (apply Rmult_le_pos; lra). lra.
Qed.

(** ** Chains of motors *)
Record leg := mkleg { leg_m : motor f32; leg_e : motor R; leg_r : R }.
Definition leg_ok (th : R) (l : leg) : Prop := near_motor th (leg_r l) (leg_m l) (leg_e l) /\ / 2 ^ 60 <= leg_r l.
Definition chain_m (l : leg) (ls : list leg) : motor f32 := fold_left (fun m k => motor_mul_motor m (leg_m k)) ls (leg_m l).
Definition chain_e (l : leg) (ls : list leg) : motor R := fold_left (fun e k => mmul e (leg_e k)) ls (leg_e l).
Definition total (ls : list leg) : R := fold_right (fun k s => leg_r k + s) 0 ls.
(** the motions one after the other, the last of the list first *)
Definition walk (ls : list leg) (x : vec) : vec := fold_right (fun k y => moved (leg_e k) y) x ls.
Lemma walk_chain th ls x : Forall (leg_ok th) ls -> forall e, proper e -> proper (fold_left (fun e k => mmul e (leg_e k)) ls e) /\ moved (fold_left (fun e k => mmul e (leg_e k)) ls e) x = moved e (walk ls x).
Proof.
  induction 1 as [|k ls [(F & Pk & _) _] H IH]; intros e Pe; [split; [exact Pe|reflexivity]|]. cbn [fold_left walk fold_right]. fold (walk ls x).
  destruct (IH (mmul e (leg_e k)) (mmul_proper _ _ Pe Pk)) as [P I]. split; [exact P|]. rewrite I. unfold moved. apply mmul_image; assumption.
Qed.
Lemma total_pos th ls : Forall (leg_ok th) ls -> 0 <= total ls.
Proof.
  induction 1 as [|k ls [_ L] H IH]; cbn [total fold_right]; [lra|]. fold (total ls). assert (0 < / 2 ^ 60) by (apply Rinv_0_lt_compat, pow_lt; lra). lra.
Qed.
Lemma chain_step (B : Build) th ls : Forall (leg_ok th) ls -> 0 <= th -> forall g r m e, near_motor (g - 1) r m e -> / 2 ^ 60 <= r -> r + total ls <= 2 ^ 50 -> g * ((1 + th) * (1 + 11 * u)) ^ length ls <= 2 ->
  near_motor (g * ((1 + th) * (1 + 11 * u)) ^ length ls - 1) (r + total ls) (fold_left (fun m k => motor_mul_motor m (leg_m k)) ls m) (fold_left (fun e k => mmul e (leg_e k)) ls e).
Proof.
  intros H T0. pose proof u_small as U. assert (X1 : 1 + th <= (1 + th) * (1 + 11 * u)) by (rewrite <- (Rmult_1_r (1 + th)) at 1; apply Rmult_le_compat_l; lra).
  induction H as [|k ls [Nk Lk] H IH]; intros g r m e N L R2 G.
  - cbn [length pow fold_left total fold_right] in *. rewrite Rmult_1_r, Rplus_0_r. exact N.
  - cbn [length pow fold_left total fold_right] in *. fold (total ls) in *. destruct (near_motor_len _ _ _ _ N) as (_ & _ & g0 & r0). pose proof (total_pos th ls H) as T1.
    set (x := (1 + th) * (1 + 11 * u)) in *. assert (Xp : 1 <= x ^ length ls) by (apply pow_R1_Rle; lra).
    assert (I60 : 0 < / 2 ^ 60) by (apply Rinv_0_lt_compat, pow_lt; lra).
    assert (G1 : g * x <= 2). { eapply Rle_trans; [|exact G]. rewrite <- (Rmult_1_r (g * x)), <- Rmult_assoc. apply Rmult_le_compat_l; [apply Rmult_le_pos; lra|exact Xp]. }
    assert (X2 : x <= 2) by (eapply Rle_trans; [|exact G1]; rewrite <- (Rmult_1_l x) at 1; apply Rmult_le_compat_r; lra).
    assert (G3 : g <= 2) by (eapply Rle_trans; [|exact G1]; rewrite <- (Rmult_1_r g) at 1; apply Rmult_le_compat_l; lra).
    assert (N2 : near_motor (g * x - 1) (r + leg_r k) (motor_mul_motor m (leg_m k)) (mmul e (leg_e k))).
    { pose proof (C79_multiply B (g - 1) th r (leg_r k) m (leg_m k) e (leg_e k) N Nk ltac:(lra) ltac:(lra) ltac:(lra) ltac:(lra) ltac:(lra)) as K. rewrite u_pow in K.
      replace ((1 + (g - 1)) * (1 + th) * (1 + 11 * u) - 1) with (g * x - 1) in K by (unfold x; ring). exact K. }
    specialize (IH (g * x) (r + leg_r k) _ _ N2 ltac:(lra) ltac:(lra) ltac:(rewrite Rmult_assoc; exact G)). rewrite Rmult_assoc, Rplus_assoc in IH. exact IH.
Qed.
Theorem C79_chain : forall (B : Build) (th : R) (l : leg) (ls : list leg), Forall (leg_ok th) (l :: ls) ->
  let n := INR (length (l :: ls)) in n * (th + 12 * / 2 ^ 24) <= / 12 -> total (l :: ls) <= 2 ^ 50 ->
  near_motor (11 / 10 * (n * (th + 12 * / 2 ^ 24))) (total (l :: ls)) (chain_m l ls) (chain_e l ls) /\
  forall x, moved (chain_e l ls) x = walk (l :: ls) x.
Proof.
  intros B th l ls H n S R2. inversion_clear H as [|k0 ks0 [Nl Ll] H']. pose proof u_small as U. rewrite u_pow in *.
  destruct (near_motor_len _ _ _ _ Nl) as (_ & _ & T0 & r0). split; [|intro x; exact (proj2 (walk_chain th ls x H' (leg_e l) (proj1 (proj2 Nl))))].
  assert (n1 : n = 1 + INR (length ls)) by (unfold n; cbn [length]; rewrite S_INR; ring). pose proof (pos_INR (length ls)) as n0.
  set (y := th + 12 * u) in *. assert (Y0 : 0 < y) by (unfold y; lra). assert (YS : y <= / 12). { eapply Rle_trans; [|exact S]. rewrite <- (Rmult_1_l y) at 1. apply Rmult_le_compat_r; lra. }
  set (x := (1 + th) * (1 + 11 * u)). assert (XY : x <= 1 + y). { unfold x, y in *. assert (th * (11 * u) <= / 12 * (11 * u)) by (apply Rmult_le_compat_r; lra). lra. }
  assert (X1 : 1 + th <= x) by (unfold x; rewrite <- (Rmult_1_r (1 + th)) at 1; apply Rmult_le_compat_l; lra).
  assert (P : (1 + y) ^ length (l :: ls) <= 1 + 11 / 10 * (n * y)).
  { eapply Rle_trans; [apply pow_up; [lra|fold n; lra]|]. fold n. assert (0 <= n * y) by (apply Rmult_le_pos; lra). assert (n * y * (n * y) <= n * y * / 12) by (apply Rmult_le_compat_l; assumption). lra. }
  assert (Q : (1 + th) * x ^ length ls <= (1 + y) ^ length (l :: ls)). { cbn [length pow]. apply Rmult_le_compat; [lra|apply pow_le; lra|lra|apply pow_incr; lra]. }
  assert (K : near_motor ((1 + th) * x ^ length ls - 1) (leg_r l + total ls) (chain_m l ls) (chain_e l ls)).
  { apply (chain_step B th ls H' T0 (1 + th) (leg_r l)); [replace (1 + th - 1) with th by ring; exact Nl|exact Ll|exact R2|fold x; lra]. }
  eapply near_motor_weak; [exact K|lra].
Qed.
Theorem C79_place : forall (B : Build) (th : R) (l : leg) (ls : list leg) (p : point f32), Forall (leg_ok th) (l :: ls) ->
  let n := INR (length (l :: ls)) in n * (th + 12 * / 2 ^ 24) <= / 1100 -> let r := total (l :: ls) in r <= 2 ^ 19 ->
  Forall (bounded 20) (coefs (k := KPoint) p) -> wt p = 1 ->
  let q := motor_on_point (chain_m l ls) p in
  vlen (vsub (pos q) (walk (l :: ls) (pos p))) <= (23 / 10 * (n * th) + (28 * n + 23) * / 2 ^ 24) * vlen (pos p) + (46 / 10 * (n * th) + (56 * n + 26) * / 2 ^ 24) * r /\
  Rabs (wt q - 1) <= 23 / 10 * (n * th) + (28 * n + 8) * / 2 ^ 24.
Proof.
  intros B th l ls p H n S r R2 Hp Hw q. assert (X50 : 2 ^ 50 = 2 ^ 19 * 2147483648) by ring. assert (Y19 : 2 ^ 20 = 2 ^ 19 * 2) by ring. assert (Z19 : 1 <= 2 ^ 19) by (apply pow_R1_Rle; lra).
  destruct (C79_chain B th l ls H ltac:(fold n; lra) ltac:(fold r; lra)) as [N W]. fold n r in N. rewrite u_pow in *. rewrite <- W. clear W. pose proof u_small as U.
  assert (n0 : 0 <= n) by apply pos_INR. set (y := n * (th + 12 * u)) in *. destruct (near_motor_len _ _ _ _ N) as (A1 & A2 & T0 & r0). destruct N as (F & (P & _) & Re & E1 & E2).
  assert (r1 : / 2 ^ 60 <= r). { inversion_clear H as [|k0 ks0 [_ L] H']. unfold r. cbn [total fold_right]. fold (total ls). pose proof (total_pos th ls H'). lra. }
  assert (P20 : bpow radix2 20 = 2 ^ 20) by (cbn; ring). assert (A3 : (1 + 11 / 10 * y) * r <= 2 * r) by (apply Rmult_le_compat_r; lra).
  assert (Hm : Forall (bounded 20) (coefs (k := KMotor) (chain_m l ls))) by (apply motor_bounded; [lia|exact F| |]; rewrite P20, Y19; lra).
  assert (Sr : 11 / 10 * y * r <= r / 1000). { apply (Rle_trans _ (/ 1000 * r)); [apply Rmult_le_compat_r; lra|lra]. }
  destruct (motor_near B (chain_m l ls) p (motor_p1 (chain_e l ls)) (motor_p2 (chain_e l ls)) _ _ r Hm Hp Hw P Re E1 ltac:(lra) E2 Sr) as [Y1 Y2]. fold q in Y1, Y2. unfold moved.
  assert (Q : bpow radix2 (-121) <= / 100 * u * r).
  { apply (Rle_trans _ (bpow radix2 (-40) * bpow radix2 (-60))); [rewrite <- bpow_plus; apply bpow_le; lia|]. apply Rmult_le_compat; try apply bpow_ge_0; [unfold u; cbn; lra|]. replace (bpow radix2 (-60)) with (/ 2 ^ 60) by (cbn; f_equal; ring). exact r1. }
  pose proof (vlen_pos (pos p)) as X0. assert (V0 : 0 <= u * vlen (pos p)) by (apply Rmult_le_pos; lra). assert (W0 : 0 <= u * r) by (apply Rmult_le_pos; lra). assert (y0 : 0 <= y) by lra. assert (0 <= y * vlen (pos p)) by (apply Rmult_le_pos; lra). assert (0 <= y * r) by (apply Rmult_le_pos; lra). assert (nu : 0 <= n * u) by (apply Rmult_le_pos; lra).
  replace (23 / 10 * (n * th) + (28 * n + 23) * u) with (23 / 10 * y + 4 / 10 * (n * u) + 23 * u) by (unfold y; field). replace (46 / 10 * (n * th) + (56 * n + 26) * u) with (46 / 10 * y + 8 / 10 * (n * u) + 26 * u) by (unfold y; field). replace (23 / 10 * (n * th) + (28 * n + 8) * u) with (23 / 10 * y + 4 / 10 * (n * u) + 8 * u) by (unfold y; field).
  assert (0 <= n * u * r) by (apply Rmult_le_pos; lra). assert (0 <= n * u * vlen (pos p)) by (apply Rmult_le_pos; lra). split; lra.
Qed.

(** ** Four-lane registers *)
Definition ap4 (k : R) (v : m128 f32) (e : m128 R) (m : R) : Prop := Forall fin (reg_list v) /\ n4 (sub4 (map4 val v) e) <= k * u * m /\ n4 e <= m.
Lemma ap4_lanes v : Forall fin (reg_list v) -> fin (l0 v) /\ fin (l1 v) /\ fin (l2 v) /\ fin (l3 v).
Proof. intro F. inversion_clear F as [|? ? F0 F']. inversion_clear F' as [|? ? F1 F'']. inversion_clear F'' as [|? ? F2 F3]. inversion_clear F3 as [|? ? F4 _]. repeat split; assumption. Qed.
Lemma lanes_ap4 (v : m128 f32) : fin (l0 v) -> fin (l1 v) -> fin (l2 v) -> fin (l3 v) -> Forall fin (reg_list v).
Proof. intros. repeat (apply Forall_cons; [assumption|]). apply Forall_nil. Qed.
Lemma ap4_le k v e m : ap4 k v e m -> n4 (map4 val v) <= (1 + k * u) * m.
Proof. intros (_ & E & V). pose proof (n4_tri (map4 val v) e). lra. Qed.
Lemma n4_self v : n4 (sub4 v v) = 0.
Proof.
  replace (sub4 v v) with (mk4 0 0 0 0) by (unfold sub4; cbn [l0 l1 l2 l3]; f_equal; ring). unfold n4, q4. cbn [l0 l1 l2 l3]. replace (0 * 0 + 0 * 0 + 0 * 0 + 0 * 0) with 0 by ring. apply sqrt_0.
Qed.
Lemma ap4_exact v m : Forall fin (reg_list v) -> n4 (map4 val v) <= m -> ap4 0 v (map4 val v) m.
Proof. intros F N. split; [exact F|]. split; [rewrite n4_self; lra|exact N]. Qed.
Lemma ap4_weak k k' v e m m' : ap4 k v e m -> 0 <= k <= k' -> m <= m' -> ap4 k' v e m'.
Proof.
  intros (F & E & V) K Mm. assert (0 <= m) by (pose proof (n4_pos e); lra). pose proof u_small. split; [exact F|]. split; [|lra].
  eapply Rle_trans; [exact E|]. apply Rmult_le_compat; try lra; [apply Rmult_le_pos; lra|]. apply Rmult_le_compat_r; lra.
Qed.
Lemma ap4_scale k k' v s e c m m' : ap4 k v e m -> ap k' s c m' -> 0 <= k <= 10000 -> 0 <= k' <= 10000 -> k * k' <= 1000000 -> mag (m * m') ->
  ap4 (k + k' + 11 / 10) (_mm_mul_ps v (mk4 s s s s)) (scale4 c e) (m * m').
Proof.
  intros H H' K K' P G. pose proof (ap4_le _ _ _ _ H) as L. pose proof (ap_le _ _ _ _ H') as L'. destruct H as (Fv & E & V). destruct H' as (F' & E' & V'). destruct (ap4_lanes v Fv) as (Fw & Fx & Fy & Fz).
  assert (m0 : 0 <= m) by (pose proof (n4_pos e); lra). assert (m0' : 0 <= m') by (pose proof (Rabs_pos c); lra). assert (mm : 0 < m * m') by (apply mag_pos; exact G).
  pose proof (ku_small k K) as Q. pose proof (ku_small k' K') as Q'. pose proof u_small as U. pose proof eta_pos as T0.
  set (a := map4 val v) in *.
  assert (Bb : (1 + k * u) * (1 + k' * u) <= 4) by (apply (Rle_trans _ ((1 + / 1000) * (1 + / 1000))); [apply Rmult_le_compat; lra|lra]).
  assert (OS : n4 a * Rabs (val s) <= (1 + k * u) * (1 + k' * u) * (m * m')).
  { apply (Rle_trans _ ((1 + k * u) * m * ((1 + k' * u) * m'))); [apply Rmult_le_compat; try apply Rabs_pos; try apply n4_pos; assumption|]. lra. }
  destruct (n4_lane a) as (X0 & X1 & X2 & X3).
  assert (LANE : forall p, fin p -> Rabs (val p) <= n4 a -> fin (fmul p s) /\ Rabs (val (fmul p s) - val s * val p) <= u * Rabs (val s) * Rabs (val p) + eta).
  { intros p Fp Lp. destruct (mul_any p s Fp F') as [Fm Em].
    - rewrite Rabs_mult. apply (Rle_trans _ (n4 a * Rabs (val s))); [apply Rmult_le_compat_r; [apply Rabs_pos|exact Lp]|].
      eapply Rle_trans; [exact OS|]. apply (Rle_trans _ (4 * (m * m'))); [apply Rmult_le_compat_r; lra|apply mag_big; exact G].
    - split; [exact Fm|]. rewrite Rabs_mult in Em. rewrite (Rmult_comm (val s)). lra. }
  destruct (LANE _ Fw X0) as [F0 E0]. destruct (LANE _ Fx X1) as [F1 E1]. destruct (LANE _ Fy X2) as [F2 E2]. destruct (LANE _ Fz X3) as [F3 E3].
  split; [apply lanes_ap4; assumption|]. split.
  2: { rewrite n4_scale_abs, Rmult_comm. apply Rmult_le_compat; try apply Rabs_pos; try apply n4_pos; assumption. }
  eapply Rle_trans; [apply (n4_via _ (scale4 (val s) a))|]. eapply Rle_trans; [apply Rplus_le_compat_l; apply (n4_via _ (scale4 c a))|].
  assert (D1 : n4 (sub4 (map4 val (_mm_mul_ps v (mk4 s s s s))) (scale4 (val s) a)) <= u * Rabs (val s) * n4 a + 2 * eta).
  { apply n4_lanes; [apply Rmult_le_pos; [lra|apply Rabs_pos]|lra|exact E0|exact E1|exact E2|exact E3]. }
  assert (D2 : n4 (sub4 (scale4 (val s) a) (scale4 c a)) <= k' * u * m' * ((1 + k * u) * m)).
  { replace (sub4 _ _) with (scale4 (val s - c) a) by (unfold sub4, scale4, map4; cbn [l0 l1 l2 l3]; f_equal; ring).
    rewrite n4_scale_abs. apply Rmult_le_compat; try apply Rabs_pos; try apply n4_pos; assumption. }
  assert (D3 : n4 (sub4 (scale4 c a) (scale4 c e)) <= m' * (k * u * m)).
  { replace (sub4 _ _) with (scale4 c (sub4 a e)) by (unfold sub4, scale4, map4; cbn [l0 l1 l2 l3]; f_equal; ring).
    rewrite n4_scale_abs. apply Rmult_le_compat; try apply Rabs_pos; try apply n4_pos; assumption. }
  assert (A4 : u * (n4 a * Rabs (val s)) <= u * ((1 + k * u) * (1 + k' * u) * (m * m'))) by (apply Rmult_le_compat_l; lra).
  pose proof (mag_eta _ G) as Et. pose proof (second k k' K K' P) as S. apply (Rmult_le_compat_r (m * m')) in S; [|lra].
  assert (0 < u * (m * m')) by (apply Rmult_lt_0_compat; lra). lra.
Qed.
Lemma ap4_sub k k' v w e f m : ap4 k v e m -> ap4 k' w f m -> n4 (sub4 e f) <= m -> 0 <= k <= 10000 -> 0 <= k' <= 10000 -> mag m ->
  ap4 (k + k' + 11 / 10) (_mm_sub_ps v w) (sub4 e f) m.
Proof.
  intros (Fv & E & V) (Fw & E' & V') N K K' G. pose proof (mag_pos m G) as m0. destruct (ap4_lanes v Fv) as (v0 & v1 & v2 & v3). destruct (ap4_lanes w Fw) as (w0 & w1 & w2 & w3).
  pose proof (ku_small k K) as Q. pose proof (ku_small k' K') as Q'. pose proof u_small as U. pose proof eta_pos as T0.
  set (o := map4 val v) in *. set (o' := map4 val w) in *. pose proof (n4_pm false o o' e f) as D. cbn [pm4] in D.
  assert (S : n4 (sub4 o o') <= (1 + k * u + k' * u) * m) by (pose proof (n4_tri (sub4 o o') (sub4 e f)); lra).
  assert (S' : (1 + k * u + k' * u) * m <= (1 + / 500) * m) by (apply Rmult_le_compat_r; lra). pose proof (mag_big m G) as Bg.
  destruct (n4_lane (sub4 o o')) as (X0 & X1 & X2 & X3).
  assert (LANE : forall p p', fin p -> fin p' -> Rabs (val p - val p') <= n4 (sub4 o o') -> fin (fsub p p') /\ Rabs (val (fsub p p') - (val p - val p')) <= u * Rabs (val p - val p') + eta).
  { intros p p' Fp Fp' L. exact (pm_any false p p' Fp Fp' ltac:(lra)). }
  destruct (LANE _ _ v0 w0 X0) as [F0 E0]. destruct (LANE _ _ v1 w1 X1) as [F1 E1]. destruct (LANE _ _ v2 w2 X2) as [F2 E2]. destruct (LANE _ _ v3 w3 X3) as [F3 E3].
  split; [apply lanes_ap4; assumption|]. split; [|exact N]. eapply Rle_trans; [apply (n4_via _ (sub4 o o'))|].
  assert (D1 : n4 (sub4 (map4 val (_mm_sub_ps v w)) (sub4 o o')) <= u * n4 (sub4 o o') + 2 * eta) by (apply n4_lanes; [lra|lra|exact E0|exact E1|exact E2|exact E3]).
  assert (u * n4 (sub4 o o') <= u * ((1 + / 500) * m)) by (apply Rmult_le_compat_l; lra).
  pose proof (mag_eta _ G) as Et. assert (0 < u * m) by (apply Rmult_lt_0_compat; lra). lra.
Qed.
Definition flip0 (v : m128 R) : m128 R := mk4 (- l0 v) (l1 v) (l2 v) (l3 v).
Lemma flip0_n4 v w : n4 (sub4 (flip0 v) (flip0 w)) = n4 (sub4 v w) /\ n4 (flip0 v) = n4 v.
Proof. split; unfold n4, q4, flip0, sub4; cbn [l0 l1 l2 l3]; f_equal; ring. Qed.
Lemma xor_val (v : m128 f32) : Forall fin (reg_list v) -> Forall fin (reg_list (_mm_xor_ps sgn_ss v)) /\ map4 val (_mm_xor_ps sgn_ss v) = flip0 (map4 val v).
Proof.
  intro F. destruct (ap4_lanes v F) as (F0 & F1 & F2 & F3). destruct v as [a b c d]. cbn [l0 l1 l2 l3] in *. destruct (opp_ok a F0) as [Fo Vo]. split; [apply lanes_ap4; assumption|].
  unfold flip0, map4. cbn [l0 l1 l2 l3]. rewrite <- Vo. reflexivity.
Qed.
Lemma ap4_flip k v e m : ap4 k v e m -> ap4 k (_mm_xor_ps sgn_ss v) (flip0 e) m.
Proof. intros (F & E & V). destruct (xor_val v F) as [F' V']. split; [exact F'|]. rewrite V'. destruct (flip0_n4 (map4 val v) e) as [-> _]. split; [exact E|]. rewrite (proj2 (flip0_n4 e e)). exact V. Qed.

(** ** The dot product of two registers *)
Definition ea (c j : R) (p : f32) (a A : R) : Prop := fin p /\ Rabs (val p - a) <= c * u * A + j * eta /\ Rabs a <= A.
Lemma ea_mul x y : fin x -> fin y -> Rabs (val x * val y) <= big -> ea 1 1 (fmul x y) (val x * val y) (Rabs (val x * val y)).
Proof. intros Fx Fy H. destruct (mul_any x y Fx Fy H) as [F E]. split; [exact F|]. split; [lra|lra]. Qed.
Lemma ea_add c j p q a b A A' : ea c j p a A -> ea c j q b A' -> 0 <= c <= 10 -> 0 <= j <= 10 -> 4 * (A + A') <= big -> ea (c + 101 / 100) (2 * j + 2) (fadd p q) (a + b) (A + A').
Proof.
  intros (Fp & Ep & Vp) (Fq & Eq & Vq) C J S. pose proof u_small as U. pose proof eta_pos as T0. pose proof (Rabs_pos a) as a0. pose proof (Rabs_pos b) as b0.
  assert (D : Rabs (val p + val q - (a + b)) <= c * u * (A + A') + 2 * j * eta).
  { replace (val p + val q - (a + b)) with ((val p - a) + (val q - b)) by ring. eapply Rle_trans; [apply Rabs_triang|]. lra. }
  assert (cu : 0 <= c * u <= / 1000) by (split; [apply Rmult_le_pos; lra|apply (Rle_trans _ (10 * u)); [apply Rmult_le_compat_r; lra|lra]]).
  assert (cuA : c * u * (A + A') <= / 1000 * (A + A')) by (apply Rmult_le_compat_r; lra).
  assert (je : 2 * j * eta <= 20 * eta) by (apply Rmult_le_compat_r; lra). assert (je0 : 0 <= j * eta) by (apply Rmult_le_pos; lra).
  assert (T : Rabs (val p + val q) <= A + A' + c * u * (A + A') + 2 * j * eta).
  { replace (val p + val q) with ((val p + val q - (a + b)) + (a + b)) by ring. eapply Rle_trans; [apply Rabs_triang|]. pose proof (Rabs_triang a b). lra. }
  assert (et : 20 * eta <= 1) by (pose proof eta_tiny; lra). assert (bg : 4 <= big) by (change 4 with (bpow radix2 2); unfold big; apply bpow_le; lia).
  destruct (add_any p q Fp Fq) as [F E]; [lra|]. split; [exact F|]. split; [|eapply Rle_trans; [apply Rabs_triang|lra]].
  replace (val (fadd p q) - (a + b)) with ((val (fadd p q) - (val p + val q)) + (val p + val q - (a + b))) by ring. eapply Rle_trans; [apply Rabs_triang|].
  assert (H : u * Rabs (val p + val q) <= u * (1001 / 1000 * (A + A') + 20 * eta)) by (apply Rmult_le_compat_l; lra).
  assert (u * eta <= / 1000000 * eta) by (apply Rmult_le_compat_r; lra). assert (0 <= u * (A + A')) by (apply Rmult_le_pos; lra). lra.
Qed.
Lemma dot4_le v w : Rabs (l0 v * l0 w) + Rabs (l1 v * l1 w) + (Rabs (l2 v * l2 w) + Rabs (l3 v * l3 w)) <= n4 v * n4 w.
Proof. destruct v as [a b c d], w as [a' b' c' d']. cbn [l0 l1 l2 l3]. rewrite !Rabs_mult. pose proof (mass_bound a b c d a' b' c' d'). lra. Qed.
Lemma dp_ap (B : Build) (v w : m128 f32) m : Forall fin (reg_list v) -> Forall fin (reg_list w) -> mag m -> n4 (map4 val v) * n4 (map4 val w) <= m ->
  exists h, dp_bc v w = mk4 h h h h /\ ap (31 / 10) h (q4 (map4 val v) (map4 val w)) m.
Proof.
  intros Fv Fw G L. destruct (ap4_lanes v Fv) as (v0 & v1 & v2 & v3). destruct (ap4_lanes w Fw) as (w0 & w1 & w2 & w3). pose proof (mag_big m G) as Bg. pose proof (mag_pos m G) as m0. pose proof (mag_eta m G) as Et. pose proof u_small as U.
  pose proof (dot4_le (map4 val v) (map4 val w)) as D. destruct v as [x0 x1 x2 x3], w as [y0 y1 y2 y3]. unfold map4 in *. cbn [l0 l1 l2 l3] in *.
  set (A0 := Rabs (val x0 * val y0)) in *. set (A1 := Rabs (val x1 * val y1)) in *. set (A2 := Rabs (val x2 * val y2)) in *. set (A3 := Rabs (val x3 * val y3)) in *.
  assert (P0 : 0 <= A0) by apply Rabs_pos. assert (P1 : 0 <= A1) by apply Rabs_pos. assert (P2 : 0 <= A2) by apply Rabs_pos. assert (P3 : 0 <= A3) by apply Rabs_pos.
  assert (E0 : ea 1 1 (fmul x0 y0) (val x0 * val y0) A0) by (apply ea_mul; try assumption; fold A0; lra). assert (E1 : ea 1 1 (fmul x1 y1) (val x1 * val y1) A1) by (apply ea_mul; try assumption; fold A1; lra).
  assert (E2 : ea 1 1 (fmul x2 y2) (val x2 * val y2) A2) by (apply ea_mul; try assumption; fold A2; lra). assert (E3 : ea 1 1 (fmul x3 y3) (val x3 * val y3) A3) by (apply ea_mul; try assumption; fold A3; lra).
  pose proof (ea_add _ _ _ _ _ _ _ _ E0 E1 ltac:(lra) ltac:(lra) ltac:(lra)) as S01. pose proof (ea_add _ _ _ _ _ _ _ _ E2 E3 ltac:(lra) ltac:(lra) ltac:(lra)) as S23.
  pose proof (ea_add _ _ _ _ _ _ _ _ S01 S23 ltac:(lra) ltac:(lra) ltac:(lra)) as (F & E & V).
  assert (K : ap (31 / 10) (fadd (fadd (fmul x0 y0) (fmul x1 y1)) (fadd (fmul x2 y2) (fmul x3 y3))) (q4 (mk4 (val x0) (val x1) (val x2) (val x3)) (mk4 (val y0) (val y1) (val y2) (val y3))) m).
  { unfold q4. cbn [l0 l1 l2 l3]. replace (val x0 * val y0 + val x1 * val y1 + val x2 * val y2 + val x3 * val y3) with (val x0 * val y0 + val x1 * val y1 + (val x2 * val y2 + val x3 * val y3)) by ring.
    split; [exact F|]. split; [|lra]. eapply Rle_trans; [exact E|]. assert (u * (A0 + A1 + (A2 + A3)) <= u * m) by (apply Rmult_le_compat_l; lra). assert (0 < u * m) by (apply Rmult_lt_0_compat; lra). lra. }
  destruct B as [[|]].
  - eexists. split; [reflexivity|exact K].
  - exists (fadd (fadd (fmul x1 y1) (fmul x0 y0)) (fadd (fmul x3 y3) (fmul x2 y2))). split; [reflexivity|]. rewrite (add_comm_f32 (fmul x1 y1)), (add_comm_f32 (fmul x3 y3)). exact K.
Qed.

(** ** The norm and its inverses *)
Lemma norm_ap (B : Build) M (v : m128 f32) : rsqrt_estimate M -> rcp_estimate M -> let t := n4 (map4 val v) in
  Forall fin (reg_list v) -> bpow radix2 (-20) <= t <= bpow radix2 20 ->
  exists n, dp_bc v v = mk4 n n n n /\ ap (87 / 10) (rsqrt_step (H := Flo_f32 M) n) (/ t) (/ t) /\ ap (97 / 10) (rcp_step (H := Flo_f32 M) n) (/ t * / t) (/ t * / t).
Proof.
  intros HM HR t F L. destruct (squares_any B v F L) as (n & Dn & Fn & En). exists n. split; [exact Dn|]. rewrite <- n4_sq in En. fold t in En.
  pose proof u_small as U. assert (uu : u * u <= / 1000000 * u) by (apply Rmult_le_compat_r; lra). assert (uu0 : 0 < u * u) by (apply Rmult_lt_0_compat; lra).
  destruct L as [Ll Lh]. pose proof (bpow_gt_0 radix2 (-20)) as G. assert (T0 : 0 < t) by lra.
  assert (Tt : 0 < t * t) by (apply Rmult_lt_0_compat; lra). set (e := (val n - t * t) / (t * t)). assert (Vn : val n = t * t * (1 + e)) by (unfold e; field; lra).
  assert (Ee : Rabs e <= 41 / 10 * u).
  { unfold e, Rdiv. rewrite Rabs_mult, (Rabs_pos_eq (/ (t * t))) by (apply Rlt_le, Rinv_0_lt_compat, Tt). apply (Rmult_le_reg_r (t * t)); [exact Tt|]. rewrite Rmult_assoc, Rinv_l by lra. lra. }
  clearbody e. apply Rabs_le_inv in Ee. assert (Pn : 0 < val n) by (rewrite Vn; apply Rmult_lt_0_compat; lra).
  assert (T1 : bpow radix2 (-40) <= t * t) by (change (-40)%Z with (-20 + -20)%Z; rewrite bpow_plus; apply Rmult_le_compat; lra).
  assert (T2 : t * t <= bpow radix2 40) by (change 40%Z with (20 + 20)%Z; rewrite bpow_plus; apply Rmult_le_compat; lra).
  assert (B1 : t * t * / 2 <= val n <= t * t * 2) by (rewrite Vn; split; apply Rmult_le_compat_l; lra).
  assert (Rn : nr_range n).
  { split; [exact Fn|]. rewrite Rabs_pos_eq by lra. split.
    - apply (Rle_trans _ (bpow radix2 (-40) * bpow radix2 (-1))); [rewrite <- bpow_plus; apply bpow_le; lia|]. change (bpow radix2 (-1)) with (/ 2). lra.
    - apply (Rle_trans _ (bpow radix2 40 * bpow radix2 1)); [|rewrite <- bpow_plus; apply bpow_le; lia]. change (bpow radix2 1) with 2. lra. }
  assert (it : 0 < / t) by (apply Rinv_0_lt_compat; exact T0). assert (itt : 0 < / t * / t) by (apply Rmult_lt_0_compat; lra).
  split.
  - destruct (rsqrt_step_error M n HM Rn Pn) as (Fs & Ps & Es). set (s := rsqrt_step n) in *. apply Rabs_le_inv in Es.
    set (w := sqrt (val n)) in *. assert (W0 : 0 < w) by (apply sqrt_lt_R0; exact Pn). assert (W : w * w = val n) by (apply sqrt_sqrt; lra).
    assert (Wt : t * (1 - 206 / 100 * u) <= w <= t * (1 + 206 / 100 * u)).
    { split.
      - destruct (Rle_or_lt (t * (1 - 206 / 100 * u)) w) as [X|X]; [exact X|exfalso].
        assert (w * w <= t * (1 - 206 / 100 * u) * (t * (1 - 206 / 100 * u))) by (apply Rmult_le_compat; lra).
        assert (t * t * ((1 - 206 / 100 * u) * (1 - 206 / 100 * u)) < t * t * (1 + e)) by (apply Rmult_lt_compat_l; lra). lra.
      - destruct (Rle_or_lt w (t * (1 + 206 / 100 * u))) as [X|X]; [exact X|exfalso].
        assert (t * (1 + 206 / 100 * u) * (t * (1 + 206 / 100 * u)) <= w * w) by (apply Rmult_le_compat; try (apply Rmult_le_pos; lra); lra).
        assert (t * t * (1 + e) < t * t * ((1 + 206 / 100 * u) * (1 + 206 / 100 * u))) by (apply Rmult_lt_compat_l; lra). lra. }
    assert (H1 : w * val s <= t * (1 + 206 / 100 * u) * val s) by (apply Rmult_le_compat_r; lra).
    assert (H2 : t * (1 - 206 / 100 * u) * val s <= w * val s) by (apply Rmult_le_compat_r; lra).
    set (g := t * val s). assert (Vs : val s = / t * g) by (unfold g; field; lra).
    replace (t * (1 + 206 / 100 * u) * val s) with (g * (1 + 206 / 100 * u)) in H1 by (unfold g; ring). replace (t * (1 - 206 / 100 * u) * val s) with (g * (1 - 206 / 100 * u)) in H2 by (unfold g; ring).
    apply ap_of_err; [exact Fs|exact it|]. rewrite Vs. clearbody g. clear Vs. split; apply Rmult_le_compat_l; try lra.
    + destruct (Rle_or_lt (1 - 87 / 10 * u) g) as [X|X]; [exact X|exfalso]. assert (g * (1 + 206 / 100 * u) <= (1 - 87 / 10 * u) * (1 + 206 / 100 * u)) by (apply Rmult_le_compat_r; lra). lra.
    + destruct (Rle_or_lt g (1 + 87 / 10 * u)) as [X|X]; [exact X|exfalso]. assert ((1 + 87 / 10 * u) * (1 - 206 / 100 * u) <= g * (1 - 206 / 100 * u)) by (apply Rmult_le_compat_r; lra). lra.
  - destruct (rcp_step_error M n HR Rn) as [Fq Eq]. set (q := rcp_step n) in *. apply Rabs_le_inv in Eq.
    set (g := t * t * val q). assert (Vq : val q = / t * / t * g) by (unfold g; field; lra).
    assert (P : val n * val q = g * (1 + e)) by (rewrite Vn; unfold g; ring).
    apply ap_of_err; [exact Fq|exact itt|]. rewrite Vq. clearbody g. rewrite P in Eq. clear Vq P. split; apply Rmult_le_compat_l; try lra.
    + destruct (Rle_or_lt (1 - 97 / 10 * u) g) as [X|X]; [exact X|exfalso]. assert (g * (1 + e) <= (1 - 97 / 10 * u) * (1 + e)) by (apply Rmult_le_compat_r; lra).
      assert ((1 - 97 / 10 * u) * (1 + e) <= (1 - 97 / 10 * u) * (1 + 41 / 10 * u)) by (apply Rmult_le_compat_l; lra). lra.
    + destruct (Rle_or_lt g (1 + 97 / 10 * u)) as [X|X]; [exact X|exfalso]. assert ((1 + 97 / 10 * u) * (1 + e) <= g * (1 + e)) by (apply Rmult_le_compat_r; lra).
      assert ((1 + 97 / 10 * u) * (1 - 41 / 10 * u) <= (1 + 97 / 10 * u) * (1 + e)) by (apply Rmult_le_compat_l; lra). lra.
Qed.

(** ** Normalization *)
Definition exact_norm (p1 p2 : m128 R) : motor R :=
  let N := n4 p1 in mkmotor (scale4 (/ N) p1) (scale4 (/ N) (sub4 p2 (scale4 (study p1 p2 / (N * N)) (rev4 p1)))).
(** what it is: [m] is a dual number times a proper motor, and the dual number is its norm *)
Lemma exact_norm_spec p1 p2 : 0 < n4 p1 -> let e := exact_norm p1 p2 in
  proper e /\ mv_motor (mkmotor p1 p2) == gp (mv_dual (mkdual (n4 p1) (study p1 p2 / n4 p1))) (mv_motor e) /\ n4 (motor_p2 e) <= n4 p2 / n4 p1.
Proof.
  intros P e. set (N := n4 p1) in *. assert (iN : 0 < / N) by (apply Rinv_0_lt_compat; exact P). pose proof (n4_sq p1) as Q. fold N in Q.
  assert (S0 : study (motor_p1 e) (motor_p2 e) = 0).
  { unfold e, exact_norm. cbv zeta. fold N. cbn [motor_p1 motor_p2]. set (s := study p1 p2).
    transitivity (/ N * / N * (s - s / (N * N) * q4 p1 p1)).
    - unfold s, study, q4, rev4, sub4, scale4, map4. cbn [l0 l1 l2 l3]. generalize (/ N) (N * N). intros i k. unfold Rdiv. ring.
    - rewrite <- Q. field. lra. }
  split; [split|split].
  - unfold e, exact_norm. cbv zeta. fold N. cbn [motor_p1]. rewrite n4_scale by lra. fold N. field. lra.
  - exact S0.
  - clear S0 Q. unfold e, exact_norm. cbv zeta. fold N. clearbody N. destruct p1 as [a0 a1 a2 a3], p2 as [a4 a5 a6 a7]. set (s := study _ _). clearbody s.
    intros [[|] [|] [|] [|]]; cbv -[Rplus Rmult Ropp Rminus IZR Rinv]; field; lra.
  - unfold e, exact_norm. cbv zeta. fold N. cbn [motor_p2]. rewrite n4_scale by lra. replace (n4 p2 / N) with (/ N * n4 p2) by (field; lra). apply Rmult_le_compat_l; [lra|].
    apply sqrt_le_1_alt. set (s := study p1 p2).
    replace (q4 (sub4 p2 (scale4 (s / (N * N)) (rev4 p1))) (sub4 p2 (scale4 (s / (N * N)) (rev4 p1)))) with (q4 p2 p2 - 2 * (s / (N * N)) * s + s / (N * N) * (s / (N * N)) * q4 p1 p1).
    2: { unfold s, study, q4, rev4, sub4, scale4, map4. cbn [l0 l1 l2 l3]. unfold Rdiv. ring. }
    rewrite <- Q. replace (s / (N * N) * (s / (N * N)) * (N * N)) with (s / (N * N) * s) by (field; lra).
    assert (0 <= s / (N * N) * s). { unfold Rdiv. replace (s * / (N * N) * s) with (s * s * (/ N * / N)) by (field; lra). apply Rmult_le_pos; [apply Rle_0_sqr|]. apply Rmult_le_pos; lra. }
    lra.
Qed.
Lemma study_le p1 p2 : Rabs (study p1 p2) <= n4 p1 * n4 p2.
Proof. unfold study. eapply Rle_trans; [apply q4_cauchy|]. rewrite rev4_n4. lra. Qed.
Lemma study_diff p1 p2 e1 e2 : Rabs (study p1 p2 - study e1 e2) <= n4 (sub4 p1 e1) * n4 p2 + n4 e1 * n4 (sub4 p2 e2).
Proof.
  replace (study p1 p2 - study e1 e2) with (study (sub4 p1 e1) p2 + study e1 (sub4 p2 e2)) by (unfold study, q4, rev4, sub4; cbn [l0 l1 l2 l3]; ring).
  eapply Rle_trans; [apply Rabs_triang|]. pose proof (study_le (sub4 p1 e1) p2). pose proof (study_le e1 (sub4 p2 e2)). lra.
Qed.
Theorem C79_normalize : forall (B : Build) (M : machine), rcp_estimate M -> rsqrt_estimate M -> let FL := Flo_f32 M in forall m : motor f32,
  Forall fin (coefs (k := KMotor) m) -> let N := n4 (mv1 m) in / 2 ^ 20 <= N <= 2 ^ 20 -> n4 (mv2 m) <= 2 ^ 40 ->
  let m' := motor_normalized m in let e := exact_norm (mv1 m) (mv2 m) in let r := (n4 (mv2 m) + / 2 ^ 50) / N in
  near_motor (38 * / 2 ^ 24) r m' e /\ n4 (sub4 (mv1 m') (motor_p1 e)) <= 10 * / 2 ^ 24 /\
  (** how far the result is from a motor: the Study condition *)
  Rabs (study (mv1 m') (mv2 m')) <= 49 * / 2 ^ 24 * r.
Proof.
  intros B M HR HM FL m FF N LN L2 m' e r.
  assert (P20 : bpow radix2 (-20) = / 2 ^ 20) by (cbn; f_equal; ring). assert (P20' : bpow radix2 20 = 2 ^ 20) by (cbn; ring). assert (P40 : bpow radix2 40 = 2 ^ 40) by (cbn; ring). assert (P50 : bpow radix2 (-50) = / 2 ^ 50) by (cbn; f_equal; ring).
  rewrite <- P20, <- P20' in LN. rewrite <- P40 in L2. unfold r in *. rewrite <- P50 in *. clear P20 P20' P40 P50. rewrite u_pow. pose proof u_small as U.
  change (coefs (k := KMotor) m) with (reg_list (motor_p1 m) ++ reg_list (motor_p2 m)) in FF. apply Forall_app in FF. destruct FF as [F1 F2].
  pose proof (bpow_gt_0 radix2 (-20)) as G20. assert (N0 : 0 < N) by lra. assert (iN : 0 < / N) by (apply Rinv_0_lt_compat; exact N0).
  set (p1 := mv1 m) in *. set (p2 := mv2 m) in *. fold N in r. set (R2 := n4 p2 + bpow radix2 (-50)). pose proof (n4_pos p2) as p20. pose proof (bpow_gt_0 radix2 (-50)) as G50.
  assert (iL : bpow radix2 (-20) <= / N <= bpow radix2 20).
  { split; [change (bpow radix2 (-20)) with (/ bpow radix2 20); apply Rinv_le_contravar; lra|]. replace (bpow radix2 20) with (/ bpow radix2 (-20)) by (rewrite <- bpow_opp; reflexivity). apply Rinv_le_contravar; lra. }
  assert (RL : bpow radix2 (-50) <= R2 <= bpow radix2 41).
  { unfold R2. split; [lra|]. change (bpow radix2 41) with (bpow radix2 (1 + 40)). rewrite bpow_plus. change (bpow radix2 1) with 2. assert (bpow radix2 (-50) <= bpow radix2 40) by (apply bpow_le; lia). lra. }
  assert (MAG : forall a b i j k l, (-112 <= i + k)%Z -> (j + l <= 122)%Z -> bpow radix2 i <= a <= bpow radix2 j -> bpow radix2 k <= b <= bpow radix2 l -> bpow radix2 (i + k) <= a * b <= bpow radix2 (j + l) /\ mag (a * b)).
  { intros a b i j k l I J [A1 A2] [C1 C2]. pose proof (bpow_gt_0 radix2 i). pose proof (bpow_gt_0 radix2 k). assert (X : bpow radix2 (i + k) <= a * b <= bpow radix2 (j + l)) by (rewrite !bpow_plus; split; apply Rmult_le_compat; lra).
    split; [exact X|]. split; [eapply Rle_trans; [|apply X]|eapply Rle_trans; [apply X|]]; apply bpow_le; lia. }
  destruct (MAG N R2 (-20)%Z 20%Z (-50)%Z 41%Z ltac:(lia) ltac:(lia) LN RL) as [B1 M1].
  destruct (MAG R2 (/ N) (-50)%Z 41%Z (-20)%Z 20%Z ltac:(lia) ltac:(lia) RL iL) as [B6 M6]. destruct (MAG N (/ N) (-20)%Z 20%Z (-20)%Z 20%Z ltac:(lia) ltac:(lia) LN iL) as [B7 M7]. destruct (MAG (R2 * / N) (/ N) (-70)%Z 61%Z (-20)%Z 20%Z ltac:(lia) ltac:(lia) B6 iL) as [B4 M4]. clear MAG.
  assert (M3 : mag (N * R2 * (/ N * / N))) by (replace (N * R2 * (/ N * / N)) with (R2 * / N) by (field; lra); exact M6).
  assert (M5 : mag (N * (N * R2 * (/ N * / N) * / N))) by (replace (N * (N * R2 * (/ N * / N) * / N)) with (R2 * / N) by (field; lra); exact M6).
  replace (R2 * / N * / N) with (N * R2 * (/ N * / N) * / N) in M4 by (field; lra).
  destruct (norm_ap B M (motor_p1 m) HM HR F1 LN) as (n & Dn & As & Aq). change (map4 val (motor_p1 m)) with p1 in As, Aq. fold N in As, Aq.
  destruct (xor_val (motor_p1 m) F1) as [F1' V1']. change (map4 val (motor_p1 m)) with p1 in V1'.
  destruct (dp_ap B (_mm_xor_ps sgn_ss (motor_p1 m)) (motor_p2 m) (N * R2) F1' F2 M1) as (c & Dc & Ac).
  { rewrite V1', (proj2 (flip0_n4 p1 p1)). change (map4 val (motor_p2 m)) with p2. apply Rmult_le_compat_l; [lra|]. unfold R2. lra. }
  rewrite V1' in Ac. change (map4 val (motor_p2 m)) with p2 in Ac. replace (q4 (flip0 p1) p2) with (- study p1 p2) in Ac by (unfold study, q4, flip0, rev4; cbn [l0 l1 l2 l3]; ring).
  assert (Em : m' = mkmotor (_mm_mul_ps (motor_p1 m) (let s := rsqrt_step (H := FL) n in mk4 s s s s))
    (_mm_sub_ps (_mm_mul_ps (motor_p2 m) (let s := rsqrt_step (H := FL) n in mk4 s s s s)) (_mm_xor_ps sgn_ss (_mm_mul_ps (motor_p1 m) (let t := fmul (fmul c (rcp_step (H := FL) n)) (rsqrt_step (H := FL) n) in mk4 t t t t))))).
  { unfold m', motor_normalized. change (@flo_arith f32 FL) with Arith_f32. change f32 with (binary_float 24 128) in *. rewrite Dn, Dc. reflexivity. }
  change (Flo_f32 M) with FL in As, Aq. set (s := rsqrt_step (H := FL) n) in *. set (q := rcp_step (H := FL) n) in *. clearbody s q. cbv zeta in Em. set (t := fmul (fmul c q) s) in *.
  pose proof (ap_mul _ _ _ _ _ _ _ _ Ac Aq ltac:(lra) ltac:(lra) ltac:(lra) M3) as Acq. pose proof (ap_mul _ _ _ _ _ _ _ _ Acq As ltac:(lra) ltac:(lra) ltac:(lra) M4) as At. fold t in At. clearbody t. clear Acq.
  assert (Ap1 : ap4 0 (motor_p1 m) p1 N) by (apply ap4_exact; [exact F1|right; reflexivity]). assert (Ap2 : ap4 0 (motor_p2 m) p2 R2) by (apply ap4_exact; [exact F2|change (map4 val (motor_p2 m)) with p2; unfold R2; lra]).
  pose proof (ap4_scale _ _ _ _ _ _ _ _ Ap1 As ltac:(lra) ltac:(lra) ltac:(lra) M7) as H1. pose proof (ap4_scale _ _ _ _ _ _ _ _ Ap2 As ltac:(lra) ltac:(lra) ltac:(lra) M6) as H2.
  pose proof (ap4_flip _ _ _ _ (ap4_scale _ _ _ _ _ _ _ _ Ap1 At ltac:(lra) ltac:(lra) ltac:(lra) M5)) as H3.
  replace (N * (N * R2 * (/ N * / N) * / N)) with (R2 * / N) in H3 by (field; lra). replace (N * / N) with 1 in H1 by (field; lra).
  destruct (exact_norm_spec p1 p2 N0) as (PE & _ & L2e). fold e in PE, L2e. fold N in L2e.
  assert (EX : sub4 (scale4 (/ N) p2) (flip0 (scale4 (- study p1 p2 * (/ N * / N) * / N) p1)) = motor_p2 e).
  { unfold e, exact_norm. cbv zeta. fold N. cbn [motor_p2]. set (y := study p1 p2). unfold sub4, scale4, flip0, rev4, map4. cbn [l0 l1 l2 l3]. f_equal; field; lra. }
  assert (LE : n4 (motor_p2 e) <= R2 * / N) by (eapply Rle_trans; [exact L2e|]; unfold Rdiv; apply Rmult_le_compat_r; unfold R2; lra).
  pose proof (ap4_sub _ _ _ _ _ _ _ H2 H3 ltac:(rewrite EX; exact LE) ltac:(lra) ltac:(lra) M6) as H4. rewrite EX in H4. clear H2 H3 EX.
  destruct H1 as (X1 & Y1' & _). destruct H4 as (X2 & Y2' & _).
  assert (Y1 : n4 (sub4 (mv1 m') (motor_p1 e)) <= (0 + 87 / 10 + 11 / 10) * u * 1) by (rewrite Em; exact Y1').
  assert (Y2 : n4 (sub4 (mv2 m') (motor_p2 e)) <= 375 / 10 * u * (R2 * / N)) by (rewrite Em; eapply Rle_trans; [exact Y2'|]; assert (0 < u * (R2 * / N)) by (apply Rmult_lt_0_compat; [lra|apply mag_pos; exact M6]); lra).
  assert (FM : Forall fin (coefs (k := KMotor) m')) by (rewrite Em; apply Forall_app; split; assumption).
  change (R2 / N) with (R2 * / N). set (w := R2 * / N) in *. assert (W0 : 0 < w) by (apply mag_pos; exact M6). assert (uw : 0 < u * w) by (apply Rmult_lt_0_compat; lra).
  split; [|split; [lra|]].
  - split; [exact FM|]. split; [exact PE|]. split; [exact LE|]. split; lra.
  - destruct PE as [PE1 PE2]. pose proof (study_diff (mv1 m') (mv2 m') (motor_p1 e) (motor_p2 e)) as SD. rewrite PE1, PE2, Rminus_0_r in SD. pose proof (n4_tri (mv2 m') (motor_p2 e)) as T2.
    assert (n4 (sub4 (mv1 m') (motor_p1 e)) * n4 (mv2 m') <= 10 * u * (1001 / 1000 * w)).
    { apply Rmult_le_compat; try apply n4_pos; [lra|]. assert (u * w <= / 1000000 * w) by (apply Rmult_le_compat_r; lra). lra. }
    lra.
Qed.
(** the exact result is where a motor near [e] normalizes to *)
Theorem C79_renormalize : forall (B : Build) (M : machine), rcp_estimate M -> rsqrt_estimate M -> let FL := Flo_f32 M in forall (th r : R) (m : motor f32) (e : motor R),
  near_motor th r m e -> th <= / 1000 -> / 2 ^ 40 <= r <= 2 ^ 39 -> near_motor (5 * th + 40 * / 2 ^ 24) r (motor_normalized m) e.
Proof.
  intros B M HR HM FL th r m e N T LR. pose proof (near_motor_len _ _ _ _ N) as (A1 & A2 & t0 & r0). destruct N as (F & (P & S0) & R2 & E1 & E2).
  assert (I40 : 0 < / 2 ^ 40) by (apply Rinv_0_lt_compat, pow_lt; lra). assert (X20 : 2 <= 2 ^ 20) by (replace (2 ^ 20) with 1048576 by ring; lra). assert (Y20 : / 2 ^ 20 <= / 2) by (apply Rinv_le_contravar; lra).
  assert (X40 : 2 ^ 40 = 2 ^ 39 * 2) by ring. assert (I50 : / 2 ^ 50 = / 2 ^ 40 * / 1024) by (rewrite <- Rinv_mult; f_equal; ring). assert (X39 : 0 < 2 ^ 39) by (apply pow_lt; lra).
  pose proof (n4_diff (mv1 m) (motor_p1 e)) as ND. rewrite P in ND. assert (LN : 1 - th <= n4 (mv1 m) <= 1 + th) by (apply Rabs_le_inv in ND; lra).
  assert (A3 : (1 + th) * r <= 1001 / 1000 * r) by (apply Rmult_le_compat_r; lra).
  destruct (C79_normalize B M HR HM m F ltac:(lra) ltac:(lra)) as (NM & _). cbv zeta in NM. fold FL in NM. rewrite u_pow in *. set (m' := motor_normalized m) in *. clearbody m'.
  set (p1 := mv1 m) in *. set (p2 := mv2 m) in *. set (Nn := n4 p1) in *. assert (N0 : 0 < Nn) by lra. assert (iN : 0 < / Nn) by (apply Rinv_0_lt_compat; lra).
  assert (iN' : / Nn <= 1002 / 1000) by (replace (1002 / 1000) with (/ (1000 / 1002)) by field; apply Rinv_le_contravar; lra).
  assert (W : (n4 p2 + / 2 ^ 50) / Nn <= 1005 / 1000 * r).
  { unfold Rdiv. apply (Rle_trans _ ((1001 / 1000 * r + / 1024 * r) * (1002 / 1000))); [apply Rmult_le_compat; try lra; pose proof (n4_pos p2); lra|]. lra. }
  destruct (exact_norm_spec p1 p2 N0) as (_ & _ & L2e). fold Nn in L2e. set (e' := exact_norm p1 p2) in *.
  destruct NM as (F' & _ & _ & D1 & D2). pose proof u_small as U.
  assert (G1 : n4 (sub4 (motor_p1 e') (motor_p1 e)) <= 2 * th).
  { eapply Rle_trans; [apply (n4_via _ p1)|]. replace (sub4 (motor_p1 e') p1) with (scale4 (/ Nn - 1) p1) by (unfold e', exact_norm, sub4, scale4, map4; fold Nn; cbn [motor_p1 l0 l1 l2 l3]; f_equal; ring).
    rewrite n4_scale_abs. fold Nn. replace (Rabs (/ Nn - 1) * Nn) with (Rabs (1 - Nn)) by (rewrite <- (Rabs_pos_eq Nn) at 3 by lra; rewrite <- Rabs_mult; f_equal; field; lra).
    assert (Rabs (1 - Nn) <= th) by (apply Rabs_le; lra). lra. }
  assert (Sg : Rabs (study p1 p2) <= 2001 / 1000 * (th * r)).
  { pose proof (study_diff p1 p2 (motor_p1 e) (motor_p2 e)) as SD. rewrite P, S0, Rminus_0_r in SD. assert (n4 (sub4 p1 (motor_p1 e)) * n4 p2 <= th * (1001 / 1000 * r)) by (apply Rmult_le_compat; try apply n4_pos; lra). lra. }
  assert (tr0 : 0 <= th * r) by (apply Rmult_le_pos; lra).
  assert (G2 : n4 (sub4 (motor_p2 e') (motor_p2 e)) <= 402 / 100 * (th * r)).
  { eapply Rle_trans; [apply (n4_via _ (scale4 Nn (motor_p2 e')))|].
    replace (sub4 (motor_p2 e') (scale4 Nn (motor_p2 e'))) with (scale4 (1 - Nn) (motor_p2 e')) by (unfold sub4, scale4, map4; cbn [l0 l1 l2 l3]; f_equal; ring). rewrite n4_scale_abs.
    assert (K1 : Rabs (1 - Nn) * n4 (motor_p2 e') <= th * (1005 / 1000 * r)).
    { apply Rmult_le_compat; try apply Rabs_pos; try apply n4_pos; [apply Rabs_le; lra|]. eapply Rle_trans; [exact L2e|]. unfold Rdiv. apply (Rle_trans _ (1001 / 1000 * r * (1002 / 1000))); [apply Rmult_le_compat; try lra; apply n4_pos|lra]. }
    assert (K2 : n4 (sub4 (scale4 Nn (motor_p2 e')) (motor_p2 e)) <= th * r + 2001 / 1000 * (th * r) * (1002 / 1000)).
    { eapply Rle_trans; [apply (n4_via _ p2)|]. rewrite Rplus_comm. apply Rplus_le_compat; [exact E2|].
      replace (sub4 (scale4 Nn (motor_p2 e')) p2) with (scale4 (- (study p1 p2 / (Nn * Nn))) (rev4 p1)).
      - rewrite n4_scale_abs, rev4_n4, Rabs_Ropp. fold Nn. unfold Rdiv. rewrite Rabs_mult, Rmult_assoc. apply Rmult_le_compat; try apply Rabs_pos; [apply Rmult_le_pos; [apply Rabs_pos|lra]|exact Sg|].
        rewrite Rabs_pos_eq by (apply Rlt_le, Rinv_0_lt_compat, Rmult_lt_0_compat; lra). replace (/ (Nn * Nn) * Nn) with (/ Nn) by (field; lra). exact iN'.
      - unfold e', exact_norm. cbv zeta. fold Nn. cbn [motor_p2]. set (y := study p1 p2). unfold sub4, scale4, rev4, map4. cbn [l0 l1 l2 l3]. f_equal; field; lra. }
    lra. }
  assert (uW : 38 * u * ((n4 p2 + / 2 ^ 50) / Nn) <= 38 * u * (1005 / 1000 * r)) by (apply Rmult_le_compat_l; lra). assert (0 <= u * r) by (apply Rmult_le_pos; lra).
  split; [exact F'|]. split; [split; assumption|]. split; [exact R2|]. split.
  - eapply Rle_trans; [apply (n4_via _ (motor_p1 e'))|]. lra.
  - eapply Rle_trans; [apply (n4_via _ (motor_p2 e'))|]. lra.
Qed.

(** ** Where near motors come from: the exponential and the screw constructor *)
Lemma exact_exp_proper a b : l0 a = 0 -> l0 b = 0 -> 0 < n4 a -> proper (exact_exp a b).
Proof.
  intros A0 B0 P. split; [apply exact_exp_unit; assumption|]. pose proof (n4_sq a) as Q. unfold exact_exp. cbn [motor_p1 motor_p2]. set (t := n4 a) in *. set (g := q4 a b). set (k := sin t / t). set (c := cos t).
  transitivity (k * (c * g - k * g - g / (t * t) * (c - k) * q4 a a)).
  - unfold g, study, q4, rev4. cbn [l0 l1 l2 l3]. rewrite A0, B0. unfold Rdiv. ring.
  - rewrite <- Q. field. lra.
Qed.
Theorem C79_sources : forall (B : Build) (M : machine), libm_fine M -> rcp_estimate M -> rsqrt_estimate M -> let FL := Flo_f32 M in
  (forall l : line f32, line_ok l -> let a := lv1 l in let b := lv2 l in / 2 ^ 40 <= n4 a <= 2 ^ 10 -> n4 b <= 2 ^ 40 ->
     near_motor ((90 + 19 * n4 a) * / 2 ^ 24) (n4 b + / 2 ^ 60) (line_exp l) (exact_exp a b)) /\
  (forall (ang d : f32) (l : line f32), line_ok l -> fin ang -> fin d -> let a := lv1 l in let b := lv2 l in
     / 2 ^ 10 <= n4 a <= 2 ^ 10 -> n4 b <= 2 ^ 18 -> Rabs (val d) <= 2 ^ 20 -> let t := Rabs (val ang) / 2 * n4 a in / 2 ^ 32 <= t <= 2 ^ 9 ->
     near_motor ((111 + 22 * t) * / 2 ^ 24) (Rabs (val ang) / 2 * n4 b + Rabs (val d) / 2 * n4 a + / 2 ^ 50) (motor_screw ang d l) (exact_screw (val ang) (val d) a b) /\
     forall x, moved (exact_screw (val ang) (val d) a b) x = screw_place (val ang) (val d) a b x).
Proof.
  intros B M LM HR HM FL. pose proof u_small as U. split.
  - intros l OK a b L Lb. destruct (C77_exp B M LM HR HM l OK L Lb) as (_ & F & X1 & X2). cbv zeta in F, X1, X2. fold FL in F, X1, X2. fold a b in X1, X2. rewrite u_pow in *.
    assert (I20 : 0 < / 2 ^ 40) by (apply Rinv_0_lt_compat, pow_lt; lra). assert (I60 : 0 < / 2 ^ 60) by (apply Rinv_0_lt_compat, pow_lt; lra). assert (a0 : 0 < n4 a) by lra. assert (0 < u * n4 a) by (apply Rmult_lt_0_compat; lra).
    destruct OK as (_ & _ & A0 & B0). split; [exact F|]. split; [apply exact_exp_proper; assumption|]. split; [pose proof (exact_exp_p2_all a b A0 B0 a0); lra|]. split; [unfold mv1; lra|exact X2].
  - intros ang d l OK Fang Fd a b La Lb Ld t Lt. destruct (C77_screw B M LM HR HM ang d l OK Fang Fd La Lb Ld Lt) as (_ & F & X1 & X2). cbv zeta in F, X1, X2. fold FL in F, X1, X2. fold a b in X1, X2. fold t in X1, X2. rewrite u_pow in *.
    assert (I10 : 0 < / 2 ^ 10) by (apply Rinv_0_lt_compat, pow_lt; lra). assert (I19 : 0 < / 2 ^ 32) by (apply Rinv_0_lt_compat, pow_lt; lra). assert (a0 : 0 < n4 a) by lra. assert (t0 : 0 < t) by lra.
    assert (NA : val ang <> 0). { intro Z. unfold t in t0. rewrite Z, Rabs_R0 in t0. lra. }
    destruct OK as (_ & _ & A0 & B0). split; [|intro x; apply exact_screw_motion; assumption].
    set (A := scale4 (- val ang / 2) a). set (Bq := sub4 (scale4 (- val ang / 2) b) (scale4 (val d / 2) a)).
    assert (PA : 0 < n4 A). { unfold A. rewrite n4_scale_abs. apply Rmult_lt_0_compat; [|exact a0]. apply Rabs_pos_lt. lra. }
    assert (ZA : l0 A = 0) by (unfold A, scale4, map4; cbn [l0]; unfold a; rewrite A0; ring). assert (ZB : l0 Bq = 0) by (unfold Bq, sub4, scale4, map4; cbn [l0]; unfold a, b; rewrite A0, B0; ring).
    assert (ut : 0 < u * t) by (apply Rmult_lt_0_compat; lra). assert (I50 : 0 < / 2 ^ 50) by (apply Rinv_0_lt_compat, pow_lt; lra).
    split; [exact F|]. split; [apply exact_exp_proper; assumption|]. split; [|split; [unfold mv1; lra|exact X2]].
    eapply Rle_trans; [apply (exact_exp_p2_all A Bq ZA ZB PA)|]. unfold Bq. eapply Rle_trans; [apply (n4_tri _ (scale4 (- val ang / 2) b))|]. rewrite n4_sym.
    replace (sub4 (scale4 (- val ang / 2) b) (sub4 (scale4 (- val ang / 2) b) (scale4 (val d / 2) a))) with (scale4 (val d / 2) a) by (unfold sub4, scale4, map4; cbn [l0 l1 l2 l3]; f_equal; ring).
    rewrite !n4_scale_abs. unfold Rdiv. rewrite !Rabs_mult, Rabs_Ropp, (Rabs_pos_eq (/ 2)) by lra. unfold Rdiv. lra.
Qed.
(** ** Normalize, then logarithm and exponential: back to the normalized motor *)
Theorem C79_back : forall (B : Build) (M : machine), libm_log M -> rcp_estimate M -> rsqrt_estimate M -> let FL := Flo_f32 M in forall m : motor f32,
  Forall fin (coefs (k := KMotor) m) -> let N := n4 (mv1 m) in / 2 ^ 20 <= N <= 2 ^ 20 -> n4 (mv2 m) <= 2 ^ 40 ->
  let m' := motor_normalized m in let p1 := mv1 m' in let p2 := mv2 m' in
  / 2 ^ 40 <= n4 (biv4 p1) -> / 2 ^ 19 <= Rabs (l0 p1) -> n4 (biv4 p2) <= 2 ^ 16 -> radius p1 p2 <= 2 ^ 39 -> let h := acos (l0 p1 / n4 p1) in 2 * / 2 ^ 40 <= h ->
  let m'' := line_exp (motor_log m') in
  n4 (sub4 (mv1 m'') p1) <= (29 + 42 * h) * / 2 ^ 24 /\
  n4 (sub4 (mv2 m'') p2) <= / 2 ^ 24 * ((462 + 64 * h) * radius p1 p2 + 49 * ((n4 (mv2 m) + / 2 ^ 50) / N) / Rabs (l0 p1)).
Proof.
  intros B M LM HR HM FL m F N LN L2 m' p1 p2 S P D LR h Lh m''.
  destruct (C79_normalize B M HR HM m F LN L2) as ((F' & _) & _ & SD). cbv zeta in SD. fold FL in F', SD. fold m' in F', SD. fold p1 p2 in SD. fold N in SD.
  change (coefs (k := KMotor) m') with (reg_list (motor_p1 m') ++ reg_list (motor_p2 m')) in F'. apply Forall_app in F'. destruct F' as [F1 F2].
  destruct (C72_normalize B M HM) as [_ NU]. specialize (NU m). change (coefs (k := KMotor) m) with (reg_list (motor_p1 m) ++ reg_list (motor_p2 m)) in F. apply Forall_app in F. destruct F as [G1 G2]. specialize (NU G1 LN). fold FL in NU. fold m' in NU.
  destruct (C78_back B M LM HR HM m' NU F2 S P D LR Lh) as [X1 X2]. cbv zeta in X1, X2. fold FL in X1, X2. change (map4 val (motor_p1 m')) with p1 in X1, X2. change (map4 val (motor_p2 m')) with p2 in X2. fold h in X1, X2. fold m'' in X1, X2.
  split; [exact X1|]. replace (l0 p1 * l0 p2 - q4 (biv4 p1) (biv4 p2)) with (study p1 p2) in X2 by (unfold study, q4, rev4, biv4; cbn [l0 l1 l2 l3]; ring).
  assert (I19 : 0 < / 2 ^ 19) by (apply Rinv_0_lt_compat, pow_lt; lra). assert (iP : 0 < / Rabs (l0 p1)) by (apply Rinv_0_lt_compat; lra). set (r := (n4 (mv2 m) + / 2 ^ 50) / N) in *.
  apply (Rmult_le_compat_r (/ Rabs (l0 p1))) in SD; [|lra]. change (map4 val (motor_p2 m'')) with (mv2 m'') in X2. unfold Rdiv in *. lra.
Qed.

(** ** Examples *)
(** A third of a turn with a slide, exact in binary32; a thousand of them in a row. *)
Definition f3_ : f32 := f32_of 3 0.
Definition f1_ : f32 := f32_of 1 0.
Definition third : motor f32 := mkmotor (mk4 fhalf fhalf fhalf fhalf) (mk4 f3_ f1_ f1_ f1_).
Definition third_e : motor R := mkmotor (mk4 (/ 2) (/ 2) (/ 2) (/ 2)) (mk4 3 1 1 1).
Lemma near_third : near_motor 0 4 third third_e.
Proof.
  assert (Vh : val fhalf = / 2) by (vm_compute; lra). assert (V3 : val f3_ = 3) by (vm_compute; lra). assert (V1 : val f1_ = 1) by (vm_compute; lra).
  split; [repeat (apply Forall_cons; [reflexivity|]); apply Forall_nil|]. split; [split|].
  - unfold third_e, n4, q4. cbn [motor_p1 l0 l1 l2 l3]. replace (_ + _) with 1 by field. apply sqrt_1.
  - unfold third_e, study, q4, rev4. cbn [motor_p1 motor_p2 l0 l1 l2 l3]. field.
  - split.
    + unfold third_e, n4, q4. cbn [motor_p2 l0 l1 l2 l3]. replace 4 with (sqrt (4 * 4)) by (apply sqrt_square; lra). apply sqrt_le_1; lra.
    + unfold mv1, mv2, third, third_e, map4, sub4. cbn [motor_p1 motor_p2 l0 l1 l2 l3]. rewrite Vh, V3, V1. split.
      * replace (/ 2 - / 2) with 0 by ring. replace (n4 _) with 0; [lra|]. unfold n4, q4. cbn [l0 l1 l2 l3]. replace (_ + _) with 0 by ring. symmetry. apply sqrt_0.
      * replace (3 - 3) with 0 by ring. replace (1 - 1) with 0 by ring. replace (n4 _) with 0; [lra|]. unfold n4, q4. cbn [l0 l1 l2 l3]. replace (_ + _) with 0 by ring. symmetry. apply sqrt_0.
Qed.
Example C79_hypotheses : let k := mkleg third third_e 4 in let ks := repeat k 999 in let n := INR (length (k :: ks)) in
  Forall (leg_ok 0) (k :: ks) /\ n * (0 + 12 * / 2 ^ 24) <= / 1100 /\ / 1100 <= / 12 /\ total (k :: ks) <= 2 ^ 19.
Proof.
  intros k ks n. assert (K : leg_ok 0 k).
  { split; [exact near_third|]. cbn [k leg_r]. apply (Rle_trans _ 1); [|lra]. rewrite <- Rinv_1. apply Rinv_le_contravar; [lra|apply pow_R1_Rle; lra]. }
  assert (T : forall i, total (repeat k i) = 4 * INR i).
  { induction i as [|i IH]; [cbn; lra|]. rewrite S_INR. cbn [repeat total fold_right]. fold (total (repeat k i)). rewrite IH. cbn [k leg_r]. lra. }
  assert (Nn : n = 1000). { unfold n, ks. cbn [length]. rewrite repeat_length. rewrite INR_IZR_INZ. reflexivity. }
  split; [|split; [|split]].
  - apply Forall_cons; [exact K|]. apply Forall_forall. intros x Hx. apply repeat_spec in Hx. rewrite Hx. exact K.
  - rewrite Nn, u_pow. unfold u. lra.
  - lra.
  - change (k :: ks) with (repeat k 1000). rewrite T, INR_IZR_INZ. change (Z.of_nat 1000) with 1000%Z. replace (2 ^ 19) with 524288 by ring. lra.
Qed.
(** A motor of norm 5 that is not a motion until it is normalized. *)
Definition f2_ : f32 := f32_of 2 0.
Definition f4_ : f32 := f32_of 4 0.
Definition loose : motor f32 := mkmotor (mk4 f1_ f2_ f2_ f4_) (mk4 f1_ f0 f2_ f0).
Lemma lane03 v : Rabs (l0 v) <= n4 v /\ Rabs (l3 v) <= n4 v /\ n4 (biv4 v) <= n4 v.
Proof.
  pose proof (Rle_0_sqr (l0 v)). pose proof (Rle_0_sqr (l1 v)). pose proof (Rle_0_sqr (l2 v)). pose proof (Rle_0_sqr (l3 v)). unfold Rsqr in *.
  assert (Q : forall a, 0 <= q4 v v - a * a -> Rabs a <= n4 v) by (intros a Ha; unfold n4; rewrite <- sqrt_Rsqr_abs; apply sqrt_le_1; unfold Rsqr; pose proof (Rle_0_sqr a) as Sa; unfold Rsqr in Sa; lra).
  split; [|split]; [apply Q; unfold q4; lra|apply Q; unfold q4; lra|]. unfold n4. apply sqrt_le_1; unfold q4, biv4; cbn [l0 l1 l2 l3]; lra.
Qed.
Example C79_loose : Forall fin (coefs (k := KMotor) loose) /\ n4 (mv1 loose) = 5 /\ study (mv1 loose) (mv2 loose) = - 3 /\ n4 (mv2 loose) <= 3 /\
  forall (B : Build) (M : machine), rcp_estimate M -> rsqrt_estimate M -> let FL := Flo_f32 M in
  let m' := motor_normalized loose in let p1 := mv1 m' in let p2 := mv2 m' in
  / 2 ^ 40 <= n4 (biv4 p1) /\ / 2 ^ 19 <= Rabs (l0 p1) /\ n4 (biv4 p2) <= 2 ^ 16 /\ radius p1 p2 <= 2 ^ 39 /\ 2 * / 2 ^ 40 <= acos (l0 p1 / n4 p1).
Proof.
  assert (V1 : val f1_ = 1) by (vm_compute; lra). assert (V2 : val f2_ = 2) by (vm_compute; lra). assert (V4 : val f4_ = 4) by (vm_compute; lra).
  assert (E1 : mv1 loose = mk4 1 2 2 4) by (unfold mv1, loose, map4; cbn [motor_p1 l0 l1 l2 l3]; rewrite V1, V2, V4; reflexivity).
  assert (E2 : mv2 loose = mk4 1 0 2 0) by (unfold mv2, loose, map4; cbn [motor_p2 l0 l1 l2 l3]; rewrite V1, V2, val_f0; reflexivity).
  assert (FF : Forall fin (coefs (k := KMotor) loose)) by (repeat (apply Forall_cons; [reflexivity|]); apply Forall_nil).
  assert (N1 : n4 (mv1 loose) = 5) by (rewrite E1; unfold n4, q4; cbn [l0 l1 l2 l3]; replace (_ + _) with (5 * 5) by ring; apply sqrt_square; lra).
  assert (N2 : n4 (mv2 loose) <= 3) by (rewrite E2; unfold n4, q4; cbn [l0 l1 l2 l3]; rewrite <- (sqrt_square 3) by lra; apply sqrt_le_1; lra).
  assert (S0 : study (mv1 loose) (mv2 loose) = - 3) by (rewrite E1, E2; unfold study, q4, rev4; cbn [l0 l1 l2 l3]; ring).
  split; [exact FF|]. split; [exact N1|]. split; [exact S0|]. split; [exact N2|]. intros B M HR HM FL m' p1 p2.
  assert (X20 : 1048576 = 2 ^ 20) by ring. assert (Q20 : / 2 ^ 20 <= / 1000) by (apply Rinv_le_contravar; lra). assert (Q19 : / 2 ^ 19 <= / 1000) by (apply Rinv_le_contravar; [lra|]; replace (2 ^ 19) with 524288 by ring; lra).
  assert (X40 : 1048576 <= 2 ^ 40) by (rewrite X20; apply Rle_pow; [lra|lia]). assert (Q50 : / 2 ^ 50 <= 1) by (rewrite <- Rinv_1; apply Rinv_le_contravar; [lra|apply pow_R1_Rle; lra]).
  destruct (C79_normalize B M HR HM loose FF ltac:(rewrite N1; lra) ltac:(lra)) as (NM & D1 & _). cbv zeta in NM, D1. fold FL in NM, D1. fold m' in NM, D1. pose proof (near_motor_len _ _ _ _ NM) as (A1 & A2 & _). destruct NM as (_ & (P & _) & _ & _ & _). rewrite u_pow in *. fold p1 p2 in A1, A2, D1. pose proof u_small as U.
  set (e1 := motor_p1 (exact_norm (mv1 loose) (mv2 loose))) in *. assert (Ee : e1 = mk4 (1 / 5) (2 / 5) (2 / 5) (4 / 5)) by (unfold e1, exact_norm; cbn [motor_p1]; rewrite N1, E1; unfold scale4, map4; cbn [l0 l1 l2 l3]; f_equal; field).
  pose proof (lane03 (sub4 p1 e1)) as (L0 & L3 & _). unfold sub4 in L0 at 1. unfold sub4 in L3 at 1. cbn [l0 l1 l2 l3] in L0, L3. rewrite Ee in L0, L3. cbn [l0 l1 l2 l3] in L0, L3. rewrite Ee in D1.
  assert (B0 : 1 / 10 <= l0 p1) by (apply Rabs_le_inv in L0; unfold u in D1; lra). assert (B3 : 7 / 10 <= l3 p1) by (apply Rabs_le_inv in L3; unfold u in D1; lra).
  assert (S1 : 7 / 10 <= n4 (biv4 p1)). { pose proof (lane03 (biv4 p1)) as (_ & M3 & _). change (l3 (biv4 p1)) with (l3 p1) in M3. rewrite Rabs_pos_eq in M3 by lra. lra. }
  assert (NP : n4 p1 <= 2) by (unfold u in A1; lra).
  assert (Q40 : / 2 ^ 40 <= / 1000) by (apply Rinv_le_contravar; lra). assert (P0 : / 2 ^ 19 <= Rabs (l0 p1)) by (rewrite Rabs_pos_eq by lra; lra).
  assert (D2 : n4 (biv4 p2) <= 2 ^ 16).
  { apply (Rle_trans _ (n4 p2)); [apply lane03|]. eapply Rle_trans; [exact A2|]. rewrite N1. replace (2 ^ 16) with (2 * 32768) by ring. apply Rmult_le_compat; unfold u in *; try lra. apply Rmult_le_pos; [pose proof (n4_pos (mv2 loose)); assert (0 < / 2 ^ 50) by (apply Rinv_0_lt_compat, pow_lt; lra)|]; lra. }
  split; [lra|]. split; [exact P0|]. split; [exact D2|]. split.
  - apply radius_upper; try assumption; lra.
  - assert (S0' : 0 < n4 (biv4 p1)) by lra. destruct (biv_facts p1 S0') as (Np & Cn & Tn & Ct & St). assert (X : sin (acos (l0 p1 / n4 p1)) <= acos (l0 p1 / n4 p1)) by (apply sin_le_x; lra). rewrite St in X.
    apply (Rle_trans _ (35 / 100)); [lra|]. eapply Rle_trans; [|exact X]. apply (Rmult_le_reg_r (n4 p1)); [lra|]. unfold Rdiv at 2. rewrite Rmult_assoc, Rinv_l by lra. lra.
Qed.
Example C79_renormalize_at (B : Build) (M : machine) : rcp_estimate M -> rsqrt_estimate M -> let FL := Flo_f32 M in near_motor (40 * / 2 ^ 24) 4 (motor_normalized third) third_e.
Proof.
  intros HR HM FL. replace (40 * / 2 ^ 24) with (5 * 0 + 40 * / 2 ^ 24) by ring. apply (C79_renormalize B M HR HM 0 4 third third_e near_third); [lra|].
  split; [apply (Rle_trans _ 1); [|lra]; rewrite <- Rinv_1; apply Rinv_le_contravar; [lra|apply pow_R1_Rle; lra]|]. apply (Rle_trans _ (2 ^ 2)); [lra|apply Rle_pow; [lra|lia]].
Qed.

Print Assumptions C79_product.
Print Assumptions C79_multiply.
Print Assumptions C79_chain.
Print Assumptions C79_place.
Print Assumptions C79_normalize.
Print Assumptions C79_renormalize.
Print Assumptions C79_sources.
Print Assumptions C79_back.
