(** Property C89: the documented meaning of products of planes and of points, in binary32. *)
From Coq Require Import ZArith Reals List Bool Lra Lia Psatz.
From Flocq Require Import Core BinarySingleNaN.
From Verif Require Import AlgTac SpecMass FloatMass Float32 FloatFacts ExprSyntax FloatErr FloatAbs FloatApx FloatNR FloatOps FloatIdeal Props11 SpecGeom Props20 Props21 Props23 Props24 Props26 Props28 Props30 Props31 Props32 Props33 Props34 Props35 Props36 Props37 Props38.
Import ListNotations.
Local Open Scope R_scope.

(** ** The code *)
Section Gen.
Context {F : Type} {A : Arith F} {B : Build} (x : nat -> F).
Notation h := (map4 (eval x)).
Definition e_gp : motor expr := plane_mul_plane (mkplane (vreg 0)) (mkplane (vreg 4)).
Lemma gp_gen1 : motor_p1 (plane_mul_plane (mkplane (h (vreg 0))) (mkplane (h (vreg 4)))) = h (motor_p1 e_gp). Proof. reflexivity. Qed.
Lemma gp_gen2 : motor_p2 (plane_mul_plane (mkplane (h (vreg 0))) (mkplane (h (vreg 4)))) = h (motor_p2 e_gp). Proof. reflexivity. Qed.
End Gen.
Lemma gp_code1 (a b : plane f32) : motor_p1 (plane_mul_plane a b) = map4 (eval (lanes12 (plane_p0 a) (plane_p0 b) nought)) (motor_p1 e_gp).
Proof. destruct a as [[a0 a1 a2 a3]], b as [[b0 b1 b2 b3]]. exact (gp_gen1 (lanes12 (mk4 a0 a1 a2 a3) (mk4 b0 b1 b2 b3) nought)). Qed.
Lemma gp_code2 (a b : plane f32) : motor_p2 (plane_mul_plane a b) = map4 (eval (lanes12 (plane_p0 a) (plane_p0 b) nought)) (motor_p2 e_gp).
Proof. destruct a as [[a0 a1 a2 a3]], b as [[b0 b1 b2 b3]]. exact (gp_gen2 (lanes12 (mk4 a0 a1 a2 a3) (mk4 b0 b1 b2 b3) nought)). Qed.
Lemma gp_exact y : let n := vy3 y 0 in let n' := vy3 y 4 in let d := y 0%nat in let d' := y 4%nat in
  eval (A := Arith_R) y (l0 (motor_p1 e_gp)) = vdot n n' /\ vcross n n' = ev3 y (motor_p1 e_gp) /\ vsub (vscale d n') (vscale d' n) = ev3 y (motor_p2 e_gp) /\
  absv y (l0 (motor_p1 e_gp)) <= vdot (vabs n) (vabs n') /\ vle (av3 y (motor_p1 e_gp)) (vmass (vabs n) (vabs n')) /\ vle (av3 y (motor_p2 e_gp)) (vadd (vscale (Rabs d) (vabs n')) (vscale (Rabs d') (vabs n))).
Proof.
  intros n n' d d'. unfold n, n', d, d', vy3. split; [|split; [|split; [|split; [|split]]]].
  1: unfold vdot; cbn [vx vy vz]; rcbv; ring.
  1,2: unfold vcross, vsub, vscale, ev3; cbn [vx vy vz]; apply vec_eq; rcbv; ring.
  1: unfold vdot, vabs; cbn [vx vy vz]; norm_abs; lra.
  all: unfold vle, vabs, vmass, vadd, vscale, av3; cbn [vx vy vz]; (split; [|split]); norm_abs; lra.
Qed.
(** The motor of two planes n.x + d = 0 and n'.x + d' = 0. *)
Definition pair_motor (n : vec) (d : R) (n' : vec) (d' : R) : motor R :=
  let c := vcross n n' in let k := vsub (vscale d n') (vscale d' n) in mkmotor (mk4 (vdot n n') (vx c) (vy c) (vz c)) (mk4 0 (vx k) (vy k) (vz k)).
Lemma n4_parts (v : m128 R) : n4 v <= Rabs (l0 v) + vlen (vpart v).
Proof. destruct v as [a b c d]. eapply Rle_trans; [apply n4_split|]. cbn [l0]. apply Rplus_le_compat_l. rewrite vlen_n4. apply Rle_refl. Qed.
Theorem C89_product : forall a b : plane f32, bound (plane_p0 a) -> bound (plane_p0 b) ->
  let n := nrm a in let d := off a in let n' := nrm b in let d' := off b in let m := plane_mul_plane a b in let e := pair_motor n d n' d' in
  Forall fin (coefs (k := KMotor) m) /\ val (l0 (motor_p2 m)) = 0 /\
  n4 (sub4 (mv1 m) (motor_p1 e)) <= unit_err 6 * (vlen n * vlen n') + 3 * tiny /\
  n4 (sub4 (mv2 m) (motor_p2 e)) <= unit_err 2 * (Rabs d * vlen n' + Rabs d' * vlen n) + 2 * tiny.
Proof.
  intros a b Ha Hb n d n' d' m0 e0. pose proof (lanes_ok2 _ _ Ha Hb) as X. set (L := lanes12 (plane_p0 a) (plane_p0 b) nought) in *.
  set (c := motor_p1 e_gp). set (e := motor_p2 e_gp).
  assert (G0 : good 3 (l0 c) = true) by (vm_compute; reflexivity).
  assert (G1 : good 2 (l1 c) && good 2 (l2 c) && good 2 (l3 c) = true) by (vm_compute; reflexivity).
  assert (G2 : good 2 (l1 e) && good 2 (l2 e) && good 2 (l3 e) = true) by (vm_compute; reflexivity).
  assert (G4 : dead (l0 e) = true) by (vm_compute; reflexivity).
  destruct (gp_exact (fun k => val (L k))) as (E0 & E1 & E2 & M0 & M1 & M2). fold c in E0, E1, M0, M1. fold e in E2, M2.
  assert (C1 : motor_p1 m0 = map4 (eval L) c) by apply gp_code1. assert (C2 : motor_p2 m0 = map4 (eval L) e) by apply gp_code2. clearbody m0 c e.
  destruct (dead_ok L _ X G4) as [F4 V4]. destruct (term L (l0 c) _ _ 3 X G0 E0 M0) as [F0 Q0].
  destruct (term3 L c _ _ 2 X G1 E1 M1) as (F1 & F2 & F3 & Q1). destruct (term3 L e _ _ 2 X G2 E2 M2) as (F5 & F6 & F7 & Q2).
  change (vy3 (fun k => val (L k)) 4) with n' in *. change (vy3 (fun k => val (L k)) 0) with n in *. change (val (L 0%nat)) with d in *. change (val (L 4%nat)) with d' in *.
  split; [|split; [|split]].
  - change (coefs (k := KMotor) m0) with (reg_list (motor_p1 m0) ++ reg_list (motor_p2 m0)). rewrite C1, C2. repeat (apply Forall_cons; [assumption|]). apply Forall_nil.
  - rewrite C2. exact V4.
  - unfold mv1, e0, pair_motor. rewrite C1. cbn [motor_p1]. eapply Rle_trans; [apply n4_parts|]. replace (vpart _) with (vsub (vval (map4 (eval L) c)) (vcross n n')) by reflexivity.
    cbn [sub4 l0 map4]. assert (K0 : unit_err 3 * vdot (vabs n) (vabs n') <= unit_err 3 * (vlen n * vlen n')) by (apply Rmult_le_compat_l; [apply unit_err_pos|apply vdot_abs_len]).
    assert (K1 : unit_err 2 * vlen (vmass (vabs n) (vabs n')) <= unit_err 2 * (3 / 2 * (vlen n * vlen n'))) by (apply Rmult_le_compat_l; [apply unit_err_pos|apply vmass_abs]).
    assert (K2 : unit_err 6 = unit_err 3 + 3 / 2 * unit_err 2) by (unfold unit_err; cbn [INR]; field). rewrite K2. eapply Rle_trans; [apply Rplus_le_compat; [exact Q0|exact Q1]|]. lra.
  - unfold mv2, e0, pair_motor. rewrite C2. cbn [motor_p2]. eapply Rle_trans; [apply n4_parts|]. replace (vpart _) with (vsub (vval (map4 (eval L) e)) (vsub (vscale d n') (vscale d' n))) by reflexivity.
    cbn [sub4 l0 map4]. rewrite V4, Rminus_0_r, Rabs_R0, Rplus_0_l. eapply Rle_trans; [exact Q2|]. apply grow; [apply unit_err_pos|]. eapply Rle_trans; [apply vlen_tri|]. rewrite !vlen_scale_pos, !vlen_vabs by apply Rabs_pos. lra.
Qed.
Print Assumptions C89_product.

(** ** What the square root of the exact product does *)
Lemma pair_scale k k' n d n' d' : pair_motor (vscale k n) (k * d) (vscale k' n') (k' * d') = mkmotor (scale4 (k * k') (motor_p1 (pair_motor n d n' d'))) (scale4 (k * k') (motor_p2 (pair_motor n d n' d'))).
Proof. unfold pair_motor, scale4, map4, vdot, vcross, vsub, vscale. cbn [vx vy vz motor_p1 motor_p2 l0 l1 l2 l3]. f_equal; f_equal; ring. Qed.
Lemma pair_proper n d n' d' : vdot n n = 1 -> vdot n' n' = 1 -> proper (pair_motor n d n' d').
Proof.
  intros N N'. split.
  - unfold n4. replace (q4 _ _) with (vdot n n * vdot n' n') by (unfold q4, pair_motor, vdot, vcross; cbn [vx vy vz motor_p1 l0 l1 l2 l3]; ring). rewrite N, N', Rmult_1_r. apply sqrt_1.
  - unfold study, q4, rev4, pair_motor, vdot, vcross, vsub, vscale. cbn [vx vy vz motor_p1 motor_p2 l0 l1 l2 l3]. ring.
Qed.
Lemma ext4 (v w : m128 R) : l0 v = l0 w -> l1 v = l1 w -> l2 v = l2 w -> l3 v = l3 w -> v = w.
Proof. destruct v as [v0 v1 v2 v3], w as [w0 w1 w2 w3]. cbn. intros. subst. reflexivity. Qed.
Lemma pair_root n d n' d' : vdot n n = 1 -> vdot n' n' = 1 -> -1 < vdot n n' -> let e := pair_motor n d n' d' in let w := sqrt ((1 + vdot n n') / 2) in
  mroot e = mkmotor (scale4 (/ (2 * w)) (add4 (mk4 1 0 0 0) (motor_p1 e))) (scale4 (/ (2 * w)) (motor_p2 e)) /\ 2 * w * w = 1 + vdot n n' /\ 0 < w.
Proof.
  intros N N' C e w. assert (W : 2 * w * w = 1 + vdot n n') by (rewrite Rmult_assoc; unfold w; rewrite sqrt_sqrt by lra; field). assert (w0 : 0 < w) by (apply sqrt_lt_R0; lra).
  split; [|split; assumption]. destruct (root_len e (pair_proper n d n' d' N N')) as [R _]. change (l0 (motor_p1 e)) with (vdot n n') in R. fold w in R. unfold mroot, nblend, exact_norm. cbv zeta. rewrite R.
  assert (S : study (mix (/ 2) (motor_p1 mone) (motor_p1 e)) (mix (/ 2) (motor_p2 mone) (motor_p2 e)) = 0). { unfold study, q4, rev4, mix, add4, scale4, map4, mone, e, pair_motor, vdot, vcross, vsub, vscale. cbn [vx vy vz motor_p1 motor_p2 l0 l1 l2 l3]. ring. }
  rewrite S. generalize (motor_p1 e), (motor_p2 e). intros [a0 a1 a2 a3] [b0 b1 b2 b3]. unfold mix, mone, scale4, add4, sub4, rev4, map4. cbn [motor_p1 motor_p2 l0 l1 l2 l3]. f_equal; apply ext4; cbn [l0 l1 l2 l3]; field; lra.
Qed.
Theorem C89_exact : forall n d n' d', vdot n n = 1 -> vdot n' n' = 1 -> -1 < vdot n n' -> let s := mroot (pair_motor n d n' d') in
  proper s /\ mmul s s = pair_motor n d n' d' /\ swung s n' = n /\ moved_off s n' d' = d.
Proof.
  intros n d n' d' N N' C s. destruct (pair_root n d n' d' N N' C) as (E & W & w0). fold s in E. set (w := sqrt ((1 + vdot n n') / 2)) in *. clearbody w.
  assert (P : proper s).
  { rewrite E. split.
    - cbn [motor_p1]. rewrite n4_scale by (left; apply Rinv_0_lt_compat; lra). replace (n4 (add4 (mk4 1 0 0 0) (motor_p1 (pair_motor n d n' d')))) with (2 * w); [field; lra|]. unfold n4. replace (q4 _ _) with (2 * w * (2 * w)); [rewrite sqrt_square by lra; reflexivity|].
      transitivity (1 + 2 * vdot n n' + vdot n n * vdot n' n'); [rewrite N, N'; replace (2 * w * (2 * w)) with (2 * (2 * w * w)) by ring; rewrite W; ring|]. unfold q4, pair_motor, add4, vdot, vcross. cbn [vx vy vz motor_p1 l0 l1 l2 l3]. ring.
    - unfold study, q4, rev4, pair_motor, scale4, map4, add4, vdot, vcross, vsub, vscale. cbn [vx vy vz motor_p1 motor_p2 l0 l1 l2 l3]. ring. }
  assert (I : / (2 * w) * / (2 * w) * (2 * (1 + vdot n n')) = 1) by (rewrite <- W; field; lra). split; [exact P|split; [|split]].
  - rewrite E. unfold mmul. cbn [motor_p1 motor_p2]. set (k := / (2 * w)) in *. clearbody k. clear E P W.
    assert (M1 : qm (add4 (mk4 1 0 0 0) (motor_p1 (pair_motor n d n' d'))) (add4 (mk4 1 0 0 0) (motor_p1 (pair_motor n d n' d'))) = add4 (scale4 (2 * (1 + vdot n n')) (motor_p1 (pair_motor n d n' d'))) (mk4 (1 - vdot n n * vdot n' n') 0 0 0)).
    { unfold qm, add4, scale4, map4, pair_motor, vdot, vcross. cbn [vx vy vz motor_p1 l0 l1 l2 l3]. f_equal; ring. }
    assert (M2 : forall x y, qm (scale4 k x) (scale4 k y) = scale4 (k * k) (qm x y)) by (intros [x0 x1 x2 x3] [y0 y1 y2 y3]; unfold qm, scale4, map4; cbn [l0 l1 l2 l3]; f_equal; ring).
    rewrite M2, M1, N, N'. transitivity (mkmotor (scale4 (k * k * (2 * (1 + vdot n n'))) (motor_p1 (pair_motor n d n' d'))) (scale4 (k * k * (2 * (1 + vdot n n'))) (motor_p2 (pair_motor n d n' d')))).
    + f_equal.
      * generalize (motor_p1 (pair_motor n d n' d')). intro v. apply ext4; unfold scale4, add4, map4; cbn [l0 l1 l2 l3]; ring.
      * unfold mm2, qm, rev4, add4, scale4, map4, pair_motor, vdot, vcross, vsub, vscale. cbn [vx vy vz motor_p1 motor_p2 l0 l1 l2 l3]. apply ext4; cbn [l0 l1 l2 l3]; ring.
    + rewrite I. destruct (pair_motor n d n' d') as [p1 p2]. cbn [motor_p1 motor_p2]. f_equal; apply ext4; unfold scale4, map4; cbn [l0 l1 l2 l3]; ring.
  - rewrite swung_turn, E. cbn [motor_p1]. set (k := / (2 * w)) in *. clearbody k. clear E P W.
    assert (T : turn (scale4 k (add4 (mk4 1 0 0 0) (motor_p1 (pair_motor n d n' d')))) n' = vscale (k * k) (vadd (vscale (1 - vdot n n * vdot n' n') n') (vscale (2 * vdot n' n' * (1 + vdot n n')) n))).
    { unfold turn, vpart, qm, lift, rev4, scale4, map4, add4, pair_motor, vscale, vadd, vdot, vcross. cbn [vx vy vz motor_p1 l0 l1 l2 l3]. apply vec_eq; cbn [vx vy vz]; ring. }
    rewrite T, N, N'. unfold vscale, vadd. destruct n as [n1 n2 n3]. cbn [vx vy vz]. apply vec_eq; cbn [vx vy vz]; match goal with |- _ = ?b => transitivity (k * k * (2 * (1 + vdot (V n1 n2 n3) n')) * b); [ring|rewrite I; ring] end.
  - rewrite (off_exact s n' d' P), E. cbn [motor_p1 motor_p2]. set (k := / (2 * w)) in *. clearbody k. clear E P W.
    transitivity (k * k * (2 * (1 + vdot n n')) * d'  + 2 * vdot n' (vpart (qm (scale4 k (motor_p2 (pair_motor n d n' d'))) (scale4 k (add4 (mk4 1 0 0 0) (motor_p1 (pair_motor n d n' d'))))))); [rewrite I; ring|].
    transitivity (k * k * (2 * (1 + vdot n n')) * d); [|rewrite I; ring].
    transitivity (k * k * (2 * (1 + vdot n n') * d' + 2 * (vdot n' n' * d - vdot n n' * d' + (vdot n' n' * vdot n n' * d - vdot n n * vdot n' n' * d')))); [|rewrite N, N'; ring].
    unfold vpart, qm, scale4, map4, add4, pair_motor, vscale, vsub, vdot, vcross. cbn [vx vy vz motor_p1 motor_p2 l0 l1 l2 l3]. ring.
Qed.
Print Assumptions C89_exact.

(** ** In binary32 *)
Lemma near_scale x k e E : n4 (sub4 x (scale4 k e)) <= E -> n4 (sub4 x e) <= E + Rabs (k - 1) * n4 e.
Proof.
  intro H. replace (sub4 x e) with (add4 (sub4 x (scale4 k e)) (scale4 (k - 1) e)); [|apply ext4; unfold add4, sub4, scale4, map4; cbn [l0 l1 l2 l3]; ring].
  eapply Rle_trans; [apply n4_add|]. rewrite n4_scale_abs. lra.
Qed.
Lemma unit_plane n (d l : R) : l = vlen n -> 0 < l -> let n' := vscale (/ l) n in n = vscale l n' /\ d = l * (d / l) /\ vdot n' n' = 1.
Proof.
  intros L L0 n'. split; [|split]; [unfold n', vscale; destruct n as [x y z]; cbn [vx vy vz]; apply vec_eq; cbn [vx vy vz]; field; lra|field; lra|].
  replace (vdot n' n') with (/ l * / l * vdot n n) by (unfold n', vdot, vscale; cbn [vx vy vz]; ring). rewrite <- vlen_sq, <- L. field. lra.
Qed.
(** the plane of a register, normalized *)
Definition unrm (a : plane f32) : vec := vscale (/ vlen (nrm a)) (nrm a).
Definition uoff (a : plane f32) : R := off a / vlen (nrm a).
Theorem C89_near : forall (a b : plane f32) t r, bound (plane_p0 a) -> bound (plane_p0 b) -> Rabs (vlen (nrm a) - 1) <= t -> Rabs (vlen (nrm b) - 1) <= t -> t <= / 10000 -> Rabs (uoff a) + Rabs (uoff b) <= r -> / 2 ^ 39 <= r ->
  near_motor (2001 / 1000 * t + 61 / 10 * / 2 ^ 24) r (plane_mul_plane a b) (pair_motor (unrm a) (uoff a) (unrm b) (uoff b)).
Proof.
  intros a b t r Ha Hb La Lb Ht Hr R0. destruct (C89_product a b Ha Hb) as (F & _ & Q1 & Q2). set (m := plane_mul_plane a b) in *. clearbody m. rewrite u_pow. pose proof u_small as U.
  assert (I60 : / 2 ^ 60 <= / 2 ^ 39) by (apply Rinv_le_contravar; [apply pow_lt; lra|apply Rle_pow; [lra|lia]]). destruct (tiny_small r ltac:(lra)) as [T0 T1]. destruct (tiny_small 1 ltac:(rewrite <- Rinv_1; apply Rinv_le_contravar; [lra|apply pow_R1_Rle; lra])) as [_ T2].
  assert (r0 : 0 < r) by (eapply Rlt_le_trans; [|exact R0]; apply Rinv_0_lt_compat, pow_lt; lra).
  unfold unrm, uoff in *. set (n := nrm a) in *. set (d := off a) in *. set (n' := nrm b) in *. set (d' := off b) in *. clearbody n d n' d'.
  remember (vlen n) as l eqn:El. remember (vlen n') as l' eqn:El'. apply Rabs_le_inv in La. apply Rabs_le_inv in Lb. destruct (unit_plane n d l El ltac:(lra)) as (En & Ed & N). destruct (unit_plane n' d' l' El' ltac:(lra)) as (En' & Ed' & N').
  rewrite Ed, Ed' in Q1, Q2. set (v := vscale (/ l) n) in *. set (v' := vscale (/ l') n') in *. rewrite En, En' in Q1, Q2. set (k := d / l) in *. set (k' := d' / l') in *. rewrite pair_scale in Q1, Q2. cbn [motor_p1 motor_p2] in Q1, Q2.
  pose proof (pair_proper v k v' k' N N') as P. set (e := pair_motor v k v' k') in *.
  assert (E2 : n4 (motor_p2 e) <= Rabs k + Rabs k').
  { eapply Rle_trans; [apply n4_parts|]. unfold e, pair_motor. cbn [motor_p2 l0]. rewrite Rabs_R0, Rplus_0_l. replace (vpart _) with (vadd (vscale k v') (vscale (- k') v)) by (unfold vpart, vadd, vsub, vscale; cbn [vx vy vz l1 l2 l3]; apply vec_eq; cbn [vx vy vz]; ring).
    eapply Rle_trans; [apply vlen_tri|]. rewrite !vlen_scale, Rabs_Ropp. unfold vlen. rewrite N, N', sqrt_1. lra. }
  assert (LL : Rabs (l * l' - 1) <= 20001 / 10000 * t). { replace (l * l' - 1) with ((l - 1) * (l' - 1) + (l - 1) + (l' - 1)) by ring. assert (K : Rabs ((l - 1) * (l' - 1)) <= / 10000 * t). { rewrite Rabs_mult. apply Rmult_le_compat; try apply Rabs_pos; apply Rabs_le; lra. } apply Rabs_le_inv in K. apply Rabs_le. lra. }
  assert (LU : 0 <= l * l' <= 10003 / 10000) by (apply Rabs_le_inv in LL; lra).
  pose proof (Rabs_pos k) as k0. pose proof (Rabs_pos k') as k1. apply near_scale in Q1. apply near_scale in Q2. rewrite (proj1 P), Rmult_1_r in Q1. split; [exact F|split; [exact P|split; [lra|split]]].
  - eapply Rle_trans; [exact Q1|]. rewrite unit_err_u. replace (INR 6) with 6 by (cbn; ring).
    assert (6 * (1 + / 100000) * u * (l * l') <= 6 * (1 + / 100000) * u * (10003 / 10000)) by (apply Rmult_le_compat_l; lra). lra.
  - eapply Rle_trans; [exact Q2|]. rewrite !Rabs_mult, !(Rabs_pos_eq l), !(Rabs_pos_eq l'), unit_err_u by lra. replace (INR 2) with 2 by (cbn; ring).
    replace (l * Rabs k * l' + l' * Rabs k' * l) with (l * l' * (Rabs k + Rabs k')) by ring. assert (K1 : l * l' * (Rabs k + Rabs k') <= 10003 / 10000 * r) by (apply Rmult_le_compat; lra).
    assert (K2 : 2 * (1 + / 100000) * u * (l * l' * (Rabs k + Rabs k')) <= 2 * (1 + / 100000) * u * (10003 / 10000 * r)) by (apply Rmult_le_compat_l; lra).
    assert (K3 : Rabs (l * l' - 1) * n4 (motor_p2 e) <= 20001 / 10000 * t * r) by (apply Rmult_le_compat; try apply Rabs_pos; try apply n4_pos; lra). assert (0 <= u * r) by (apply Rmult_le_pos; lra). assert (0 <= t * r) by (apply Rmult_le_pos; lra). lra.
Qed.
Print Assumptions C89_near.
Lemma shift_plane (q0 q1 q2 : vec) E D : vlen (vsub q0 q1) <= E -> vlen (vsub q1 q2) <= D -> vlen (vsub q0 q2) <= E + D.
Proof. intros H1 H2. replace (vsub q0 q2) with (vadd (vsub q0 q1) (vsub q1 q2)) by (unfold vadd, vsub; apply vec_eq; cbn [vx vy vz]; ring). eapply Rle_trans; [apply vlen_tri|lra]. Qed.
Lemma sqrt_near (B : Build) (M : machine) (HR : rcp_estimate M) (HM : rsqrt_estimate M) t r (m : motor f32) (e : motor R) c w T : l0 (motor_p1 e) = c -> w = sqrt ((1 + c) / 2) -> near_motor t r m e -> / 2 ^ 39 <= r <= 2 ^ 39 ->
  / 2 ^ 18 <= w -> t + 2 * u <= w / 1000 -> T = 61 / 10 * ((t + 2 * u) / w) + 39 * u -> near_motor T (r / (2 * w)) (motor_sqrt (FL := Flo_f32 M) m) (mroot e).
Proof. intros <- -> NE R W H ->. rewrite <- u_pow in *. exact (proj1 (C82_sqrt B M HR HM t r m e NE R W H)). Qed.
Lemma plane_near (B : Build) (m : motor f32) (b : plane f32) T s e : near_motor T s m e -> T <= / 1000 -> s <= 2 ^ 19 -> bound (plane_p0 b) -> let q := motor_on_plane m b in
  Forall fin (reg_list (plane_p0 q)) /\ vlen (vsub (nrm q) (swung e (nrm b))) <= (201 / 100 * T + 22 * u) * vlen (nrm b) + 2 * tiny /\
  Rabs (off q - moved_off e (nrm b) (off b)) <= (201 / 100 * T + 28 * u) * Rabs (off b) + (401 / 100 * T + 32 * u) * (s * vlen (nrm b)) + tiny.
Proof. rewrite <- u_pow. exact (C85_plane B T s m e b). Qed.
Lemma land_gen (n d n' d' nq oq : _) t r T s : let l := vlen n in let l' := vlen n' in let v := vscale (/ l) n in let v' := vscale (/ l') n' in let e := mroot (pair_motor v (d / l) v' (d' / l')) in
  Rabs (l - 1) <= t -> Rabs (l' - 1) <= t -> t <= / 10000 -> Rabs (d / l) + Rabs (d' / l') <= r -> / 2 ^ 39 <= r -> -1 < vdot v v' -> 0 <= T -> 0 <= s ->
  vlen (vsub nq (swung e n')) <= (201 / 100 * T + 22 * u) * vlen n' + 2 * tiny ->
  Rabs (oq - moved_off e n' d') <= (201 / 100 * T + 28 * u) * Rabs d' + (401 / 100 * T + 32 * u) * (s * vlen n') + tiny ->
  vlen (vsub nq n) <= 202 / 100 * T + 23 * u + 2 * t /\ Rabs (oq - d) <= (202 / 100 * T + 29 * u + 2 * t) * r + (402 / 100 * T + 33 * u) * s.
Proof.
  intros l l' v v' e La Lb Ht Hr R0 C TP s0 K1 K2. pose proof u_small as U.
  assert (I60 : / 2 ^ 60 <= / 2 ^ 39) by (apply Rinv_le_contravar; [apply pow_lt; lra|apply Rle_pow; [lra|lia]]). destruct (tiny_small r ltac:(lra)) as [T0 T1]. destruct (tiny_small 1 ltac:(rewrite <- Rinv_1; apply Rinv_le_contravar; [lra|apply pow_R1_Rle; lra])) as [_ T2].
  assert (r0 : 0 < r) by (eapply Rlt_le_trans; [|exact R0]; apply Rinv_0_lt_compat, pow_lt; lra). assert (t0 : 0 <= t) by (pose proof (Rabs_pos (l - 1)); lra).
  apply Rabs_le_inv in La. apply Rabs_le_inv in Lb. destruct (unit_plane n d l eq_refl ltac:(lra)) as (En & Ed & N). destruct (unit_plane n' d' l' eq_refl ltac:(lra)) as (En' & Ed' & N').
  fold v in En, N. fold v' in En', N'. fold l' in K1, K2. set (k := d / l) in *. set (k' := d' / l') in *. destruct (C89_exact v k v' k' N N' C) as (P & _ & X1 & X2). fold e in P, X1, X2. clearbody e v v' k k' l l'.
  assert (Y1 : swung e n' = vscale l' v) by (rewrite En', swung_turn, turn_scale, <- swung_turn, X1; reflexivity).
  assert (Y2 : moved_off e n' d' = l' * k). { unfold moved_off in *. rewrite Y1. rewrite X1 in X2. rewrite Ed', <- X2. unfold vdot, vscale. cbn [vx vy vz]. ring. }
  rewrite Y1 in K1. rewrite Y2 in K2. pose proof (Rabs_pos k) as k0. pose proof (Rabs_pos k') as k1. assert (DL : Rabs (l' - l) <= 2 * t) by (apply Rabs_le; lra). split.
  - replace (202 / 100 * T + 23 * u + 2 * t) with ((202 / 100 * T + 23 * u) + 2 * t) by ring. apply (shift_plane _ (vscale l' v)).
    + eapply Rle_trans; [exact K1|]. assert ((201 / 100 * T + 22 * u) * l' <= (201 / 100 * T + 22 * u) * (10001 / 10000)) by (apply Rmult_le_compat_l; lra). lra.
    + rewrite En. replace (vsub (vscale l' v) (vscale l v)) with (vscale (l' - l) v) by (unfold vsub, vscale; apply vec_eq; cbn [vx vy vz]; ring). rewrite vlen_scale. unfold vlen. rewrite N, sqrt_1, Rmult_1_r. exact DL.
  - rewrite Ed. replace (oq - l * k) with ((oq - l' * k) + (l' - l) * k) by ring. eapply Rle_trans; [apply Rabs_triang|]. rewrite Rabs_mult. eapply Rle_trans; [apply Rplus_le_compat; [exact K2|apply Rmult_le_compat_r; [exact k0|exact DL]]|].
    rewrite Ed', Rabs_mult, (Rabs_pos_eq l') by lra.
    assert (L1 : l' * Rabs k' <= 10001 / 10000 * Rabs k') by (apply Rmult_le_compat_r; lra). assert (L2 : s * l' <= s * (10001 / 10000)) by (apply Rmult_le_compat_l; lra).
    assert (A1 : (201 / 100 * T + 28 * u) * (l' * Rabs k') <= (201 / 100 * T + 28 * u) * (10001 / 10000 * Rabs k')) by (apply Rmult_le_compat_l; lra). assert (A2 : (401 / 100 * T + 32 * u) * (s * l') <= (401 / 100 * T + 32 * u) * (s * (10001 / 10000))) by (apply Rmult_le_compat_l; lra).
    assert (A3 : 2 * t * Rabs k <= 2 * t * r) by (apply Rmult_le_compat_l; lra). assert (A4 : (201 / 100 * T + 28 * u) * (10001 / 10000 * Rabs k') <= (201 / 100 * T + 28 * u) * (10001 / 10000 * r)) by (apply Rmult_le_compat_l; lra).
    assert (0 <= T * r) by (apply Rmult_le_pos; lra). assert (0 <= u * r) by (apply Rmult_le_pos; lra). assert (0 <= T * s) by (apply Rmult_le_pos; lra). assert (0 <= u * s) by (apply Rmult_le_pos; lra). lra.
Qed.
Lemma side_gen (c t r w T : R) : -1 <= c <= 1 -> 0 <= t -> w = sqrt ((1 + c) / 2) -> T = 61 / 10 * ((2001 / 1000 * t + 81 / 10 * u) / w) + 39 * u -> / 2 ^ 39 <= r -> / 2 ^ 18 <= w -> T <= / 1000 -> r / (2 * w) <= 2 ^ 19 ->
  r <= 2 ^ 39 /\ (2001 / 1000 * t + 61 / 10 * u) + 2 * u <= w / 1000 /\ T = 61 / 10 * ((2001 / 1000 * t + 61 / 10 * u + 2 * u) / w) + 39 * u /\ 0 <= T /\ 0 <= r / (2 * w).
Proof.
  intros C t0 W ET R0 Hw HT Hr2. pose proof u_small as U. assert (I18 : 0 < / 2 ^ 18) by (apply Rinv_0_lt_compat, pow_lt; lra). assert (w0 : 0 < w) by lra. assert (w1 : w <= 1) by (rewrite W; apply (Rle_trans _ (sqrt 1)); [apply sqrt_le_1_alt; lra|rewrite sqrt_1; lra]).
  clear W. assert (r0 : 0 < r) by (eapply Rlt_le_trans; [|exact R0]; apply Rinv_0_lt_compat, pow_lt; lra). assert (iw : 0 < / w) by (apply Rinv_0_lt_compat; lra). assert (iw1 : 1 <= / w) by (rewrite <- Rinv_1; apply Rinv_le_contravar; lra).
  set (x := 2001 / 1000 * t + 81 / 10 * u) in *. assert (Ex : 2001 / 1000 * t + 61 / 10 * u + 2 * u = x) by (unfold x; lra). rewrite Ex. assert (x0 : 0 <= x / w) by (apply Rmult_le_pos; [unfold x; lra|lra]).
  split; [|split; [|split; [exact ET|split; [lra|]]]].
  - replace (r / (2 * w)) with (r * / w / 2) in Hr2 by (field; lra). assert (r * 1 <= r * / w) by (apply Rmult_le_compat_l; lra). assert (E : 2 ^ 39 = 2 ^ 19 * 2 ^ 20) by ring. assert (0 < 2 ^ 19) by (apply pow_lt; lra). assert (2 ^ 19 * 2 <= 2 ^ 19 * 2 ^ 20). { apply Rmult_le_compat_l; [lra|]. replace (2 ^ 20) with 1048576 by ring. lra. } lra.
  - assert (X : x / w <= / 1000) by lra. apply (Rmult_le_compat_r w) in X; [|lra]. replace (x / w * w) with x in X by (field; lra). lra.
  - apply Rmult_le_pos; [lra|left; apply Rinv_0_lt_compat; lra].
Qed.
Lemma land_all (B : Build) (M : machine) (HR : rcp_estimate M) (HM : rsqrt_estimate M) (m : motor f32) (b : plane f32) n d t r w T : let n' := nrm b in let d' := off b in let l := vlen n in let l' := vlen n' in let v := vscale (/ l) n in let v' := vscale (/ l') n' in
  near_motor (2001 / 1000 * t + 61 / 10 * u) r m (pair_motor v (d / l) v' (d' / l')) -> bound (plane_p0 b) ->
  Rabs (l - 1) <= t -> Rabs (l' - 1) <= t -> t <= / 10000 -> Rabs (d / l) + Rabs (d' / l') <= r -> / 2 ^ 39 <= r -> -1 < vdot v v' -> w = sqrt ((1 + vdot v v') / 2) -> T = 61 / 10 * ((2001 / 1000 * t + 81 / 10 * u) / w) + 39 * u ->
  / 2 ^ 18 <= w -> T <= / 1000 -> r / (2 * w) <= 2 ^ 19 -> let q := motor_on_plane (motor_sqrt (FL := Flo_f32 M) m) b in
  Forall fin (reg_list (plane_p0 q)) /\ vlen (vsub (nrm q) n) <= 202 / 100 * T + 23 * u + 2 * t /\ Rabs (off q - d) <= (202 / 100 * T + 29 * u + 2 * t) * r + (402 / 100 * T + 33 * u) * (r / (2 * w)).
Proof.
  intros n' d' l l' v v' NE Hb La Lb Ht Hr R0 C W ET Hw HT Hr2 q. assert (t0 : 0 <= t) by (pose proof (Rabs_pos (l - 1)); lra). pose proof (root_len _ (proj1 (proj2 NE))) as (_ & X).
  destruct (side_gen (vdot v v') t r w T X t0 W ET R0 Hw HT Hr2) as (S1 & S2 & S3 & S4 & S5).
  pose proof (sqrt_near B M HR HM _ r m (pair_motor v (d / l) v' (d' / l')) (vdot v v') w T eq_refl W NE (conj R0 S1) Hw S2 S3) as Q. set (ms := motor_sqrt m) in *. clearbody ms.
  destruct (plane_near B ms b T _ _ Q HT Hr2 Hb) as (F & K1 & K2). fold q in F, K1, K2. clearbody q. split; [exact F|]. exact (land_gen n d n' d' (nrm q) (off q) t r T _ La Lb Ht Hr R0 C S4 S5 K1 K2).
Qed.
Theorem C89_planes : forall (B : Build) (M : machine), rcp_estimate M -> rsqrt_estimate M -> let FL := Flo_f32 M in
  forall (a b : plane f32) t r, bound (plane_p0 a) -> bound (plane_p0 b) -> Rabs (vlen (nrm a) - 1) <= t -> Rabs (vlen (nrm b) - 1) <= t -> t <= / 10000 -> Rabs (uoff a) + Rabs (uoff b) <= r -> / 2 ^ 39 <= r -> -1 < vdot (unrm a) (unrm b) ->
  let w := sqrt ((1 + vdot (unrm a) (unrm b)) / 2) in let T := 61 / 10 * ((2001 / 1000 * t + 81 / 10 * / 2 ^ 24) / w) + 39 * / 2 ^ 24 in / 2 ^ 18 <= w -> T <= / 1000 -> r / (2 * w) <= 2 ^ 19 ->
  let q := motor_on_plane (motor_sqrt (plane_mul_plane a b)) b in
  Forall fin (reg_list (plane_p0 q)) /\ vlen (vsub (nrm q) (nrm a)) <= 202 / 100 * T + 23 * / 2 ^ 24 + 2 * t /\
  Rabs (off q - off a) <= (202 / 100 * T + 29 * / 2 ^ 24 + 2 * t) * r + (402 / 100 * T + 33 * / 2 ^ 24) * (r / (2 * w)).
Proof.
  intros B M HR HM FL a b t r Ha Hb La Lb Ht Hr R0 C w T Hw HT Hr2. pose proof (C89_near a b t r Ha Hb La Lb Ht Hr R0) as NE. assert (EU := u_pow).
  assert (ET : T = 61 / 10 * ((2001 / 1000 * t + 81 / 10 * u) / w) + 39 * u) by (unfold T; rewrite EU; reflexivity). clearbody T. set (m := plane_mul_plane a b) in *. clearbody m. rewrite EU in *.
  exact (land_all B M HR HM m b (nrm a) (off a) t r w T NE Hb La Lb Ht Hr R0 C eq_refl ET Hw HT Hr2).
Qed.
Print Assumptions C89_planes.
(** Planes at an angle of at most 90 degrees. *)
Theorem C89_planes_acute : forall (B : Build) (M : machine), rcp_estimate M -> rsqrt_estimate M -> let FL := Flo_f32 M in
  forall (a b : plane f32) t r, bound (plane_p0 a) -> bound (plane_p0 b) -> Rabs (vlen (nrm a) - 1) <= t -> Rabs (vlen (nrm b) - 1) <= t -> t <= / 20000 -> Rabs (uoff a) + Rabs (uoff b) <= r -> / 2 ^ 39 <= r <= 2 ^ 19 -> 0 <= vdot (unrm a) (unrm b) ->
  let q := motor_on_plane (motor_sqrt (plane_mul_plane a b)) b in
  Forall fin (reg_list (plane_p0 q)) /\ vlen (vsub (nrm q) (nrm a)) <= 38 * t + 246 * / 2 ^ 24 /\ Rabs (off q - off a) <= (88 * t + 591 * / 2 ^ 24) * r.
Proof.
  intros B M HR HM FL a b t r Ha Hb La Lb Ht Hr [R0 R1] C q. assert (t0 : 0 <= t) by (pose proof (Rabs_pos (vlen (nrm a) - 1)); lra). pose proof u_small as U.
  set (w := sqrt ((1 + vdot (unrm a) (unrm b)) / 2)). assert (Lw : 7 / 10 <= w). { unfold w. replace (7 / 10) with (sqrt (7 / 10 * (7 / 10))) by (apply sqrt_square; lra). apply sqrt_le_1_alt. lra. }
  set (T := 61 / 10 * ((2001 / 1000 * t + 81 / 10 * u) / w) + 39 * u). assert (I7 : / w <= 10 / 7) by (replace (10 / 7) with (/ (7 / 10)) by field; apply Rinv_le_contravar; lra).
  assert (HT : 0 <= T <= 175 / 10 * t + 110 * u). { unfold T. assert ((2001 / 1000 * t + 81 / 10 * u) / w <= (2001 / 1000 * t + 81 / 10 * u) * (10 / 7)) by (apply Rmult_le_compat_l; lra). assert (0 <= (2001 / 1000 * t + 81 / 10 * u) / w) by (apply Rmult_le_pos; [lra|left; apply Rinv_0_lt_compat; lra]). lra. }
  assert (r0 : 0 < r) by (eapply Rlt_le_trans; [|exact R0]; apply Rinv_0_lt_compat, pow_lt; lra). assert (S : r / (2 * w) <= 5 / 7 * r). { replace (r / (2 * w)) with (r / 2 * / w) by (field; lra). apply (Rle_trans _ (r / 2 * (10 / 7))); [apply Rmult_le_compat_l; lra|lra]. }
  assert (S0 : 0 <= r / (2 * w)) by (apply Rmult_le_pos; [lra|left; apply Rinv_0_lt_compat; lra]).
  assert (I18 : / 2 ^ 18 <= 7 / 10) by (apply (Rle_trans _ (/ 2)); [apply Rinv_le_contravar; [lra|replace (2 ^ 18) with 262144 by ring; lra]|lra]).
  destruct (C89_planes B M HR HM a b t r Ha Hb La Lb ltac:(lra) Hr R0 ltac:(lra)) as (F & Q1 & Q2); [fold w; lra|rewrite u_pow; fold w; fold T; unfold u in *; lra|fold w; lra|]. fold FL in F, Q1, Q2. fold q in F, Q1, Q2. rewrite u_pow in *. fold w in Q1, Q2. fold T in Q1, Q2. clearbody q T w.
  split; [exact F|split; [lra|]]. eapply Rle_trans; [exact Q2|]. assert (A1 : (202 / 100 * T + 29 * u + 2 * t) * r <= (202 / 100 * (175 / 10 * t + 110 * u) + 29 * u + 2 * t) * r) by (apply Rmult_le_compat_r; lra).
  assert (A2 : (402 / 100 * T + 33 * u) * (r / (2 * w)) <= (402 / 100 * (175 / 10 * t + 110 * u) + 33 * u) * (5 / 7 * r)) by (apply Rmult_le_compat; lra). assert (0 <= u * r) by (apply Rmult_le_pos; lra). assert (0 <= t * r) by (apply Rmult_le_pos; lra). lra.
Qed.
Print Assumptions C89_planes_acute.
