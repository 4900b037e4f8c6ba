(** Property C91: products of branches, what they mean, and their square roots, in binary32. *)
From Coq Require Import ZArith Reals List Bool Lra Lia Psatz.
From Flocq Require Import Core BinarySingleNaN.
From Verif Require Import AlgTac SpecMass FloatMass Float32 FloatFacts ExprSyntax FloatErr FloatAbs FloatApx FloatNR FloatOps FloatIdeal Props11 SpecGeom Props20 Props21 Props23 Props24 Props26 Props28 Props30 Props31 Props32 Props33 Props34 Props35 Props36 Props37 Props38 Props40 Props42.
Import ListNotations.
Local Open Scope R_scope.

(** ** The code *)
Section Gen.
Context {F : Type} {A : Arith F} {B : Build} (x : nat -> F).
Notation h := (map4 (eval x)).
Definition e_bb : rotor expr := branch_mul_branch (mkbranch (vreg 0)) (mkbranch (vreg 4)).
Lemma bb_gen : rotor_p1 (branch_mul_branch (mkbranch (h (vreg 0))) (mkbranch (h (vreg 4)))) = h (rotor_p1 e_bb). Proof. reflexivity. Qed.
End Gen.
Lemma bb_code (a b : branch f32) : rotor_p1 (branch_mul_branch a b) = map4 (eval (lanes12 (branch_p1 a) (branch_p1 b) nought)) (rotor_p1 e_bb).
Proof. destruct a as [[a0 a1 a2 a3]], b as [[b0 b1 b2 b3]]. exact (bb_gen (lanes12 (mk4 a0 a1 a2 a3) (mk4 b0 b1 b2 b3) nought)). Qed.
Lemma bb_exact y : y 0%nat = 0 -> y 4%nat = 0 -> let a := vy3 y 0 in let b := vy3 y 4 in
  eval (A := Arith_R) y (l0 (rotor_p1 e_bb)) = - vdot a b /\ vcross b a = ev3 y (rotor_p1 e_bb) /\
  absv y (l0 (rotor_p1 e_bb)) <= vdot (vabs a) (vabs b) /\ vle (av3 y (rotor_p1 e_bb)) (vmass (vabs a) (vabs b)).
Proof.
  intros Z0 Z4 a b. unfold a, b, vy3. split; [|split; [|split]].
  1: unfold vdot; cbn [vx vy vz]; rcbv; rewrite ?Z0, ?Z4; ring.
  1: unfold vcross, ev3; cbn [vx vy vz]; apply vec_eq; rcbv; rewrite ?Z0, ?Z4; ring.
  1: unfold vdot, vabs; cbn [vx vy vz]; norm_abs; rewrite ?Z0, ?Z4, ?Rabs_R0; lra.
  unfold vle, vabs, vmass, av3; cbn [vx vy vz]; (split; [|split]); norm_abs; rewrite ?Z0, ?Z4, ?Rabs_R0; lra.
Qed.
(** The rotor of two branches with vectors a and b (e23, e31 and e12 square to -1). *)
Definition pair_rotor (a b : vec) : m128 R := let c := vcross b a in mk4 (- vdot a b) (vx c) (vy c) (vz c).
Theorem C91_product : forall a b : branch f32, bound (branch_p1 a) -> bound (branch_p1 b) -> val (l0 (branch_p1 a)) = 0 -> val (l0 (branch_p1 b)) = 0 ->
  let x := vval (branch_p1 a) in let y := vval (branch_p1 b) in let r := branch_mul_branch a b in
  Forall fin (coefs (k := KRotor) r) /\ n4 (sub4 (rv r) (pair_rotor x y)) <= unit_err 8 * (vlen x * vlen y) + 3 * tiny.
Proof.
  intros a b Ha Hb Za Zb x y r. pose proof (lanes_ok2 _ _ Ha Hb) as X. set (L := lanes12 (branch_p1 a) (branch_p1 b) nought) in *. set (c := rotor_p1 e_bb).
  assert (G0 : good 3 (l0 c) = true) by (vm_compute; reflexivity). assert (G1 : good 3 (l1 c) && good 3 (l2 c) && good 3 (l3 c) = true) by (vm_compute; reflexivity).
  destruct (bb_exact (fun k => val (L k)) Za Zb) as (E0 & E1 & M0 & M1). fold c in E0, E1, M0, M1. assert (C : rotor_p1 r = map4 (eval L) c) by apply bb_code. clearbody r c.
  destruct (term L (l0 c) _ _ 3 X G0 E0 M0) as [F0 Q0]. destruct (term3 L c _ _ 3 X G1 E1 M1) as (F1 & F2 & F3 & Q1).
  change (vy3 (fun k => val (L k)) 4) with y in *. change (vy3 (fun k => val (L k)) 0) with x in *. split.
  - change (coefs (k := KRotor) r) with (reg_list (rotor_p1 r)). rewrite C. repeat (apply Forall_cons; [assumption|]). apply Forall_nil.
  - unfold rv, pair_rotor. rewrite C. eapply Rle_trans; [apply n4_parts|]. replace (vpart _) with (vsub (vval (map4 (eval L) c)) (vcross y x)) by reflexivity.
    cbn [sub4 l0 map4]. assert (K0 : unit_err 3 * vdot (vabs x) (vabs y) <= unit_err 3 * (vlen x * vlen y)) by (apply Rmult_le_compat_l; [apply unit_err_pos|apply vdot_abs_len]).
    assert (K1 : unit_err 3 * vlen (vmass (vabs x) (vabs y)) <= unit_err 3 * (3 / 2 * (vlen x * vlen y))) by (apply Rmult_le_compat_l; [apply unit_err_pos|apply vmass_abs]).
    assert (K2 : unit_err 8 = unit_err 3 + 5 / 3 * unit_err 3) by (unfold unit_err; cbn [INR]; field). assert (K3 : 0 <= unit_err 3 * (vlen x * vlen y)) by (apply Rmult_le_pos; [apply unit_err_pos|apply Rmult_le_pos; apply vlen_pos]).
    rewrite K2. eapply Rle_trans; [apply Rplus_le_compat; [exact Q0|exact Q1]|]. lra.
Qed.
Print Assumptions C91_product.

(** ** What the product and its square root do, exactly *)
Lemma pair_rotor_motor a b : pair_rotor a b = motor_p1 (pair_motor (vscale (-1) a) 0 b 0).
Proof. unfold pair_rotor, pair_motor, vdot, vcross, vscale. cbn [vx vy vz motor_p1]. f_equal; ring. Qed.
Lemma pair_rotor_scale k k' a b : pair_rotor (vscale k a) (vscale k' b) = scale4 (k * k') (pair_rotor a b).
Proof. unfold pair_rotor, scale4, map4, vdot, vcross, vscale. cbn [vx vy vz l0 l1 l2 l3]. f_equal; ring. Qed.
Lemma opposite_unit a : vdot a a = 1 -> vdot (vscale (-1) a) (vscale (-1) a) = 1.
Proof. intro H. rewrite <- H. unfold vdot, vscale. cbn [vx vy vz]. ring. Qed.
Lemma opposite_dot a b : vdot (vscale (-1) a) b = - vdot a b.
Proof. unfold vdot, vscale. cbn [vx vy vz]. ring. Qed.
Lemma pair_rotor_unit a b : vdot a a = 1 -> vdot b b = 1 -> n4 (pair_rotor a b) = 1.
Proof. intros H1 H2. rewrite pair_rotor_motor. exact (proj1 (pair_proper _ 0 _ 0 (opposite_unit a H1) H2)). Qed.
Lemma pair_turn a b : turn (pair_rotor a b) b = vscale (vdot b b) (vsub (vscale (2 * vdot a b) a) (vscale (vdot a a) b)).
Proof. destruct a as [a1 a2 a3], b as [b1 b2 b3]. unfold pair_rotor, turn, vpart, qm, lift, rev4, vdot, vcross, vsub, vscale. cbn [l0 l1 l2 l3 vx vy vz]. apply vec_eq; cbn [vx vy vz]; ring. Qed.
Theorem C91_exact : forall a b, vdot a a = 1 -> vdot b b = 1 -> vdot a b < 1 -> let e := pair_rotor a b in let w := sqrt ((1 + l0 e) / 2) in let root := scale4 (/ (2 * w)) (add4 (mk4 1 0 0 0) e) in
  n4 e = 1 /\ n4 root = 1 /\ qm root root = e /\ turn root b = vscale (-1) a /\ (forall x, turn e x = turn root (turn root x)) /\ turn e b = vsub (vscale (2 * vdot a b) a) b.
Proof.
  intros a b Ha Hb C e w root. pose proof (opposite_unit a Ha) as Na. pose proof (opposite_dot a b) as D. assert (Cn : -1 < vdot (vscale (-1) a) b) by (rewrite D; lra).
  destruct (C89_exact (vscale (-1) a) 0 b 0 Na Hb Cn) as (P & S & T & _). destruct (pair_root (vscale (-1) a) 0 b 0 Na Hb Cn) as (E & _ & _).
  assert (R : root = motor_p1 (mroot (pair_motor (vscale (-1) a) 0 b 0))). { rewrite E. cbn [motor_p1]. unfold root. replace w with (sqrt ((1 + vdot (vscale (-1) a) b) / 2)) by (unfold w, e, pair_rotor; cbn [l0]; rewrite D; reflexivity). unfold e. rewrite pair_rotor_motor. reflexivity. }
  assert (Q : qm root root = e). { rewrite R. unfold e. rewrite pair_rotor_motor. apply (f_equal motor_p1) in S. exact S. }
  split; [exact (pair_rotor_unit a b Ha Hb)|]. split; [rewrite R; exact (proj1 P)|]. split; [exact Q|]. split; [rewrite R, <- swung_turn; exact T|]. split; [intro x; rewrite <- Q; apply turn_turn|].
  unfold e. rewrite pair_turn, Ha, Hb. unfold vsub, vscale. apply vec_eq; cbn [vx vy vz]; ring.
Qed.
Print Assumptions C91_exact.

(** ** Stored branches *)
Definition bvec (b : branch f32) : vec := vval (branch_p1 b).
Definition ubvec (b : branch f32) : vec := vscale (/ vlen (bvec b)) (bvec b).
Theorem C91_near : forall (a b : branch f32) t, bound (branch_p1 a) -> bound (branch_p1 b) -> val (l0 (branch_p1 a)) = 0 -> val (l0 (branch_p1 b)) = 0 -> Rabs (vlen (bvec a) - 1) <= t -> Rabs (vlen (bvec b) - 1) <= t -> t <= / 10000 ->
  near_rotor (2001 / 1000 * t + 81 / 10 * / 2 ^ 24) (branch_mul_branch a b) (pair_rotor (ubvec a) (ubvec b)).
Proof.
  intros a b t Ha Hb Za Zb La Lb Ht. destruct (C91_product a b Ha Hb Za Zb) as (F & Q). set (r := branch_mul_branch a b) in *. clearbody r. rewrite u_pow. pose proof u_small as U. destruct (tiny_small 1 ltac:(rewrite <- Rinv_1; apply Rinv_le_contravar; [lra|apply pow_R1_Rle; lra])) as [T0 T2].
  unfold ubvec. fold (bvec a) in Q. fold (bvec b) in Q. set (n := bvec a) in *. set (n' := bvec b) in *. clearbody n n'.
  remember (vlen n) as l eqn:El. remember (vlen n') as l' eqn:El'. apply Rabs_le_inv in La. apply Rabs_le_inv in Lb. destruct (unit_plane n 0 l El ltac:(lra)) as (En & _ & N). destruct (unit_plane n' 0 l' El' ltac:(lra)) as (En' & _ & N').
  set (v := vscale (/ l) n) in *. set (v' := vscale (/ l') n') in *. rewrite En, En' in Q. rewrite pair_rotor_scale in Q. pose proof (pair_rotor_unit v v' N N') as P.
  assert (LL : Rabs (l * l' - 1) <= 20001 / 10000 * t). { replace (l * l' - 1) with ((l - 1) * (l' - 1) + (l - 1) + (l' - 1)) by ring. assert (K : Rabs ((l - 1) * (l' - 1)) <= / 10000 * t). { rewrite Rabs_mult. apply Rmult_le_compat; try apply Rabs_pos; apply Rabs_le; lra. } apply Rabs_le_inv in K. apply Rabs_le. lra. }
  assert (LU : 0 <= l * l' <= 10003 / 10000) by (apply Rabs_le_inv in LL; lra).
  apply near_scale in Q. rewrite P, Rmult_1_r in Q. split; [exact F|split; [exact P|]]. eapply Rle_trans; [exact Q|]. rewrite unit_err_u. replace (INR 8) with 8 by (cbn; ring).
  assert (8 * (1 + / 100000) * u * (l * l') <= 8 * (1 + / 100000) * u * (10003 / 10000)) by (apply Rmult_le_compat_l; lra). lra.
Qed.
Print Assumptions C91_near.
Lemma root_near (B : Build) (M : machine) (HR : rcp_estimate M) (HM : rsqrt_estimate M) t (r : rotor f32) e w T : near_rotor t r e -> w = sqrt ((1 + l0 e) / 2) -> / 2 ^ 18 <= w -> T = 2 * ((t + 2 * u) / w) + 10 * u -> T <= / 1000 ->
  near_rotor T (rotor_sqrt (FL := Flo_f32 M) r) (scale4 (/ (2 * w)) (add4 (mk4 1 0 0 0) e)).
Proof.
  intros (F & N & D) -> Hw -> HT. set (w := sqrt ((1 + l0 e) / 2)) in *. pose proof u_small as U. assert (I18 : 0 < / 2 ^ 18) by (apply Rinv_0_lt_compat, pow_lt; lra). assert (DW : forall A, A / w * w = A) by (intro A; field; lra).
  assert (K : (t + 2 * u) / w <= / 1000) by (unfold u in *; lra). apply (Rmult_le_compat_r w) in K; [|lra]. rewrite DW in K.
  destruct (C82_rotor B M HR HM t r e F N D) as (_ & N' & F' & D'); [exact Hw|rewrite u_pow; fold w; lra|]. rewrite u_pow in D'. split; [exact F'|split; [exact N'|exact D']].
Qed.
Lemma turn_scale e k v : turn e (vscale k v) = vscale k (turn e v).
Proof. destruct e as [p0 p1 p2 p3], v as [z1 z2 z3]. unfold turn, vpart, qm, lift, rev4, vscale. cbn [l0 l1 l2 l3 vx vy vz]. apply vec_eq; cbn [vx vy vz]; ring. Qed.
Lemma branch_lands (B : Build) T (s : rotor f32) root (b : branch f32) (x : vec) t : near_rotor T s root -> T <= / 1000 -> bound (branch_p1 b) -> val (l0 (branch_p1 b)) = 0 -> Rabs (vlen x - 1) <= t -> Rabs (vlen (bvec b) - 1) <= t -> t <= / 10000 ->
  turn root (ubvec b) = vscale (-1) (vscale (/ vlen x) x) -> let q := rotor_on_branch s b in
  Forall fin (reg_list (branch_p1 q)) /\ val (l0 (branch_p1 q)) = 0 /\ vlen (vadd (bvec q) x) <= 2002 / 1000 * T + 20 * u + 2 * t.
Proof.
  intros NR HT Hb Zb La Lb Ht TR q. assert (T0 : 0 <= T) by (eapply Rle_trans; [apply n4_pos|exact (proj2 (proj2 NR))]). assert (t0 : 0 <= t) by (pose proof (Rabs_pos (vlen x - 1)); lra). pose proof u_small as U.
  destruct (C90_rotor T s root NR HT) as (_ & _ & BR & _). destruct (BR b Hb) as ((Fq & Zq) & Q). fold q in Fq, Zq, Q. fold (bvec q) in Q. fold (bvec b) in Q. specialize (Zq Zb). clearbody q. split; [exact Fq|split; [exact Zq|]]. rewrite u_pow in Q.
  clear BR NR Fq Zq. apply Rabs_le_inv in La. apply Rabs_le_inv in Lb. unfold ubvec in TR. set (y := bvec b) in *. clearbody y. remember (vlen x) as l eqn:El. remember (vlen y) as l' eqn:El'.
  destruct (unit_plane x 0 l El ltac:(lra)) as (Ex & _ & Nx). destruct (unit_plane y 0 l' El' ltac:(lra)) as (Ey & _ & Ny). set (v := vscale (/ l) x) in *. set (v' := vscale (/ l') y) in *. clearbody v v'.
  assert (TY : turn root y = vscale (- l') v) by (rewrite Ey, turn_scale, TR; unfold vscale; apply vec_eq; cbn [vx vy vz]; ring).
  rewrite TY in Q. replace (vadd (bvec q) x) with (vadd (vsub (bvec q) (vscale (- l') v)) (vscale (l - l') v)) by (rewrite Ex; unfold vadd, vsub, vscale; apply vec_eq; cbn [vx vy vz]; ring).
  eapply Rle_trans; [apply vlen_tri|]. rewrite vlen_scale. assert (Lv : vlen v = 1) by (unfold vlen; rewrite Nx; apply sqrt_1). rewrite Lv, Rmult_1_r.
  assert (K1 : Rabs (l - l') <= 2 * t) by (apply Rabs_le; lra). assert (ty : tiny <= u / 1000) by (unfold tiny, u; cbn; lra).
  assert (K2 : (2001 / 1000 * T + 19 * u) * l' <= (2001 / 1000 * T + 19 * u) * (1 + / 10000)) by (apply Rmult_le_compat_l; lra). lra.
Qed.
Lemma ubvec_unit b t : Rabs (vlen (bvec b) - 1) <= t -> t <= / 10000 -> vdot (ubvec b) (ubvec b) = 1.
Proof. intros H Ht. apply Rabs_le_inv in H. exact (proj2 (proj2 (unit_plane (bvec b) 0 (vlen (bvec b)) eq_refl ltac:(lra)))). Qed.
(** sqrt(a * b) takes b to - a; w is the cosine of half the angle between b and - a. *)
Theorem C91_branches : forall (B : Build) (M : machine), rcp_estimate M -> rsqrt_estimate M -> let FL := Flo_f32 M in
  forall (a b : branch f32) t, bound (branch_p1 a) -> bound (branch_p1 b) -> val (l0 (branch_p1 a)) = 0 -> val (l0 (branch_p1 b)) = 0 -> Rabs (vlen (bvec a) - 1) <= t -> Rabs (vlen (bvec b) - 1) <= t -> t <= / 10000 -> vdot (ubvec a) (ubvec b) < 1 ->
  let w := sqrt ((1 - vdot (ubvec a) (ubvec b)) / 2) in let T := 2 * ((2001 / 1000 * t + 101 / 10 * / 2 ^ 24) / w) + 10 * / 2 ^ 24 in / 2 ^ 18 <= w -> T <= / 1000 ->
  let s := rotor_sqrt (branch_mul_branch a b) in let q := rotor_on_branch s b in
  near_rotor T s (scale4 (/ (2 * w)) (add4 (mk4 1 0 0 0) (pair_rotor (ubvec a) (ubvec b)))) /\ Forall fin (reg_list (branch_p1 q)) /\ val (l0 (branch_p1 q)) = 0 /\ vlen (vadd (bvec q) (bvec a)) <= 2002 / 1000 * T + 20 * / 2 ^ 24 + 2 * t.
Proof.
  intros B M HR HM FL a b t Ha Hb Za Zb La Lb Ht C w T Hw HT s. pose proof (C91_near a b t Ha Hb Za Zb La Lb Ht) as NE. set (e := pair_rotor (ubvec a) (ubvec b)) in *.
  assert (W : w = sqrt ((1 + l0 e) / 2)) by reflexivity.
  assert (ET : T = 2 * ((2001 / 1000 * t + 81 / 10 * / 2 ^ 24 + 2 * u) / w) + 10 * u) by (unfold T; rewrite u_pow; f_equal; f_equal; f_equal; lra).
  pose proof (root_near B M HR HM _ _ e w T NE W Hw ET HT) as NR. change (near_rotor T s (scale4 (/ (2 * w)) (add4 (mk4 1 0 0 0) e))) in NR. split; [exact NR|]. clearbody s.
  destruct (C91_exact (ubvec a) (ubvec b) (ubvec_unit a t La Ht) (ubvec_unit b t Lb Ht) C) as (_ & _ & _ & TR & _). fold e in TR. rewrite <- W in TR.
  clearbody T w. rewrite u_pow. exact (branch_lands B T s _ b (bvec a) t NR HT Hb Zb La Lb Ht TR).
Qed.
Print Assumptions C91_branches.
(** Branches whose angle is at least 90 degrees. *)
Theorem C91_branches_acute : forall (B : Build) (M : machine), rcp_estimate M -> rsqrt_estimate M -> let FL := Flo_f32 M in
  forall (a b : branch f32) t, bound (branch_p1 a) -> bound (branch_p1 b) -> val (l0 (branch_p1 a)) = 0 -> val (l0 (branch_p1 b)) = 0 -> Rabs (vlen (bvec a) - 1) <= t -> Rabs (vlen (bvec b) - 1) <= t -> t <= / 10000 -> vdot (ubvec a) (ubvec b) <= 0 ->
  let q := rotor_on_branch (rotor_sqrt (branch_mul_branch a b)) b in
  Forall fin (reg_list (branch_p1 q)) /\ val (l0 (branch_p1 q)) = 0 /\ vlen (vadd (bvec q) (bvec a)) <= 14 * t + 98 * / 2 ^ 24.
Proof.
  intros B M HR HM FL a b t Ha Hb Za Zb La Lb Ht C q. assert (t0 : 0 <= t) by (pose proof (Rabs_pos (vlen (bvec a) - 1)); lra). pose proof u_small as U.
  set (w := sqrt ((1 - vdot (ubvec a) (ubvec b)) / 2)). assert (Lw : 7 / 10 <= w). { unfold w. replace (7 / 10) with (sqrt (7 / 10 * (7 / 10))) by (apply sqrt_square; lra). apply sqrt_le_1_alt. lra. }
  assert (I7 : / w <= 10 / 7) by (replace (10 / 7) with (/ (7 / 10)) by field; apply Rinv_le_contravar; lra).
  assert (K : (2001 / 1000 * t + 101 / 10 * / 2 ^ 24) / w <= (2001 / 1000 * t + 101 / 10 * / 2 ^ 24) * (10 / 7)) by (rewrite u_pow; apply Rmult_le_compat_l; [unfold u; lra|exact I7]).
  assert (I18 : / 2 ^ 18 <= 7 / 10) by (apply (Rle_trans _ (/ 2)); [apply Rinv_le_contravar; [lra|replace (2 ^ 18) with 262144 by ring; lra]|lra]).
  destruct (C91_branches B M HR HM a b t Ha Hb Za Zb La Lb Ht ltac:(lra)) as (_ & F & Z & Q); fold w; [lra|rewrite u_pow in *; unfold u in *; lra|].
  split; [exact F|split; [exact Z|]]. eapply Rle_trans; [exact Q|]. fold w. rewrite u_pow in *. unfold u in *. lra.
Qed.
Print Assumptions C91_branches_acute.
(** Two branches at an obtuse angle, the first of which is normalized only up to rounding. *)
Example C91_ex : let a := mkbranch (mk4 (fz 0) (f32_of 10066330 (-24)) (f32_of 13421773 (-24)) (fz 0)) in let b := mkbranch (mk4 (fz 0) (fz (-1)) (fz 0) (fz 0)) in
  bound (branch_p1 a) /\ bound (branch_p1 b) /\ val (l0 (branch_p1 a)) = 0 /\ val (l0 (branch_p1 b)) = 0 /\ Rabs (vlen (bvec a) - 1) <= / 2 ^ 22 /\ Rabs (vlen (bvec b) - 1) <= / 2 ^ 22 /\ / 2 ^ 22 <= / 10000 /\ vdot (ubvec a) (ubvec b) < 0 /\ ~ vlen (bvec a) = 1.
Proof.
  intros a b. assert (V1 : val (f32_of 10066330 (-24)) = 10066330 / 16777216) by (vm_compute; lra). assert (V2 : val (f32_of 13421773 (-24)) = 13421773 / 16777216) by (vm_compute; lra).
  assert (Z : forall k, (Z.abs k <= 2 ^ 20)%Z -> val (fz k) = IZR k) by (intros k Hk; apply fz_ok; lia).
  assert (EA : bvec a = V (10066330 / 16777216) (13421773 / 16777216) 0) by (unfold bvec, vval, a; cbn [branch_p1 l1 l2 l3]; rewrite V1, V2, Z by lia; reflexivity).
  assert (EB : bvec b = V (-1) 0 0) by (unfold bvec, vval, b; cbn [branch_p1 l1 l2 l3]; rewrite !Z by lia; reflexivity).
  assert (I : / 2 ^ 22 = / 4194304) by (f_equal; ring). rewrite I.
  assert (LB : vlen (bvec b) = 1) by (rewrite EB; unfold vlen, vdot; cbn [vx vy vz]; replace (-1 * -1 + 0 * 0 + 0 * 0) with 1 by ring; apply sqrt_1).
  pose proof (vlen_sq (bvec a)) as S. pose proof (vlen_pos (bvec a)) as P. set (l := vlen (bvec a)) in *.
  assert (S' : l * l = 10066330 / 16777216 * (10066330 / 16777216) + 13421773 / 16777216 * (13421773 / 16777216) + 0 * 0) by (rewrite S, EA; reflexivity).
  assert (L1 : 1 - / 4194304 <= l <= 1 + / 4194304) by (split; nra).
  split; [|split; [|split; [|split; [|split; [|split; [|split; [|split]]]]]]].
  - assert (H1 : forall x, fin x -> Rabs (val x) <= 1 -> bounded 20 x). { intros x F H. split; [exact F|]. eapply Rle_trans; [exact H|]. change 1 with (bpow radix2 0). apply bpow_le. lia. }
    unfold bound. change (Forall (bounded 20) [fz 0; f32_of 10066330 (-24); f32_of 13421773 (-24); fz 0]).
    repeat (apply Forall_cons; [apply H1; [reflexivity|rewrite ?V1, ?V2, ?Z by lia; apply Rabs_le; lra]|]). apply Forall_nil.
  - repeat (apply Forall_cons; [apply int_bounded; lia|]); apply Forall_nil.
  - apply (Z 0%Z). lia.
  - apply (Z 0%Z). lia.
  - apply Rabs_le. lra.
  - rewrite LB. apply Rabs_le. lra.
  - lra.
  - unfold ubvec. fold l. rewrite LB, Rinv_1, EA, EB. unfold vdot, vscale. cbn [vx vy vz]. assert (0 < / l) by (apply Rinv_0_lt_compat; lra). lra.
  - intro H. rewrite H in S'. lra.
Qed.
