(** Property C92: points of any weight, the origin, and the way back, in binary32. *)
From Coq Require Import ZArith Reals List Bool Lra Lia Psatz.
From Flocq Require Import Core BinarySingleNaN.
From Verif Require Import AlgTac SpecMass FloatMass Float32 FloatFacts ExprSyntax FloatErr FloatAbs FloatApx FloatNR FloatOps FloatIdeal Props11 SpecGeom Props20 Props21 Props22 Props23 Props24 Props26 Props28 Props30 Props31 Props34 Props36 Props37 Props38.
Import ListNotations.
Local Open Scope R_scope.

(** ** Points of any weight *)
(** The point w e123 + x, moved by e: its position x / w is moved, its weight kept. *)
Definition brought (e : motor R) (w : R) (x : vec) : vec := vadd (swung e x) (vscale w (moved e (V 0 0 0))).
Lemma brought_place e w x : w <> 0 -> brought e w x = vscale w (moved e (vscale (/ w) x)).
Proof.
  intro H. unfold brought. rewrite (moved_swung e (vscale (/ w) x)). assert (K : swung e x = vscale w (swung e (vscale (/ w) x))).
  { rewrite !swung_turn, turn_scale. destruct (turn (motor_p1 e) x) as [a b c]. unfold vscale. apply vec_eq; cbn [vx vy vz]; field; exact H. }
  rewrite K. unfold vadd, vscale. apply vec_eq; cbn [vx vy vz]; ring.
Qed.
Lemma image_weight p1 p2 w x : motor_image p1 p2 w x = vsub (turn p1 x) (vscale (2 * w) (vpart (qm p1 p2))).
Proof.
  destruct p1 as [a b c d], p2 as [e f g h], x as [x y z]. unfold motor_image, turn, vpart, qm, lift, rev4, vsub, vscale. cbn [l0 l1 l2 l3 vx vy vz].
  apply vec_eq; cbv -[Rplus Rmult Ropp Rminus IZR]; ring.
Qed.
Lemma brought_image e w x : brought e w x = motor_image (motor_p1 e) (motor_p2 e) w x.
Proof. rewrite image_weight. unfold brought. rewrite swung_turn, shift_exact. unfold vadd, vsub, vscale. apply vec_eq; cbn [vx vy vz]; ring. Qed.
Lemma motor_moves_any (B : Build) (m : motor f32) (p : point f32) :
  Forall (bounded 20) (coefs (k := KMotor) m) -> Forall (bounded 20) (coefs (k := KPoint) p) ->
  let p1 := map4 val (motor_p1 m) in let p2 := map4 val (motor_p2 m) in let w := wt p in let q := motor_on_point m p in
  Forall fin (reg_list (point_p3 q)) /\
  vlen (vsub (pos q) (motor_image p1 p2 w (pos p))) <= 22 * u * (q4 p1 p1 * vlen (pos p)) + 25 * u * (n4 p1 * n4 p2 * Rabs w) + bpow radix2 (-121) /\
  Rabs (wt q - q4 p1 p1 * w) <= 7 * (1 + / 100000) * u * (q4 p1 p1 * Rabs w) + bpow radix2 (-122).
Proof.
  intros Hm Hp p1 p2 w q. destruct (C41_any_sandwich_20 B) as (_ & _ & _ & _ & _ & _ & _ & _ & _ & A & _). destruct (A m p Hm Hp I I) as [F E]. clear A. fold q in E, F. clearbody q. destruct q as [[y0 y1 y2 y3]]. split; [exact F|]. clear F.
  set (N := q4 p1 p1). assert (N0 : 0 <= N) by apply q4_pos. set (T := n4 p1 * n4 p2 * Rabs w). assert (T0 : 0 <= T) by (apply Rmult_le_pos; [apply Rmult_le_pos; apply n4_pos|apply Rabs_pos]).
  set (k := 7 * (1 + / 100000) * / 2 ^ 24) in *. assert (k0 : 0 < k <= 701 / 100 * u) by (unfold k, u; lra). set (x := pos p) in *. set (t := bpow radix2 (-122)) in *. assert (t0 : 0 < t) by apply bpow_gt_0.
  assert (E' : forall i, Rabs (mv_point (mkpoint (map4 val (mk4 y0 y1 y2 y3))) i -
      sandwich (mv_motor (mkmotor p1 p2)) (mv_point (mkpoint (mk4 w (vx x) (vy x) (vz x)))) i) <=
      k * sandwich_mass (mv_motor (mkmotor p1 p2)) (mv_point (mkpoint (mk4 w (vx x) (vy x) (vz x)))) i + t) by exact E.
  clear E. set (y := pos (mkpoint (mk4 y0 y1 y2 y3))). split.
  - assert (K : forall i, In i (Bl true false true true :: Bl true true false true :: Bl true true true false :: nil) ->
      Rabs (mv_point (mkpoint (mk4 0 (vx y) (vy y) (vz y))) i -
      sandwich (mv_motor (mkmotor p1 p2)) (mv_point (mkpoint (mk4 w (vx x) (vy x) (vz x)))) i) <= k * N * (Rabs (vx x) + Rabs (vy x) + Rabs (vz x)) + (2 * k * T + t)).
    { intros i Hi. apply (Rle_trans _ (k * sandwich_mass (mv_motor (mkmotor p1 p2)) (mv_point (mkpoint (mk4 w (vx x) (vy x) (vz x)))) i + t)).
      - specialize (E' i). destruct Hi as [<-|[<-|[<-|[]]]]; exact E'.
      - pose proof (image_mass p1 p2 w x i Hi) as Q. fold N in Q. replace (2 * (n4 p1 * n4 p2) * Rabs w) with (2 * T) in Q by (unfold T; ring).
        assert (k * sandwich_mass (mv_motor (mkmotor p1 p2)) (mv_point (mkpoint (mk4 w (vx x) (vy x) (vz x)))) i <= k * (N * (Rabs (vx x) + Rabs (vy x) + Rabs (vz x)) + 2 * T)) by (apply Rmult_le_compat_l; lra). lra. }
    assert (V1 : vlen (vsub y (motor_image p1 p2 w x)) <= 3 * (k * N) * vlen x + 7 / 4 * (2 * k * T + t)).
    { apply vlen_sum; [apply Rmult_le_pos; lra|assert (0 <= k * T) by (apply Rmult_le_pos; lra); lra|].
      intros v [<-|[<-|[<-|[]]]].
      - rewrite <- Rabs_Ropp. eapply Rle_trans; [|apply (K (Bl true false true true)); cbn; tauto]. apply Req_le. f_equal. unfold vsub, motor_image. cbn [vx vy vz]. cbn [mv_point mv_p3 point_p3 l0 l1 l2 l3]. ring.
      - eapply Rle_trans; [|apply (K (Bl true true false true)); cbn; tauto]. apply Req_le. f_equal.
      - rewrite <- Rabs_Ropp. eapply Rle_trans; [|apply (K (Bl true true true false)); cbn; tauto]. apply Req_le. f_equal. unfold vsub, motor_image. cbn [vx vy vz]. cbn [mv_point mv_p3 point_p3 l0 l1 l2 l3]. ring. }
    eapply Rle_trans; [exact V1|]. pose proof (vlen_pos x) as X0. assert (Nx : 0 <= N * vlen x) by (apply Rmult_le_pos; assumption).
    assert (k * (N * vlen x) <= 701 / 100 * u * (N * vlen x)) by (apply Rmult_le_compat_r; lra). assert (k * T <= 701 / 100 * u * T) by (apply Rmult_le_compat_r; lra).
    assert (0 <= u * (N * vlen x)) by (apply Rmult_le_pos; [unfold u; lra|exact Nx]). assert (0 <= u * T) by (apply Rmult_le_pos; [unfold u; lra|exact T0]).
    replace (bpow radix2 (-121)) with (2 * t) by (unfold t; change (-121)%Z with (1 + -122)%Z; rewrite bpow_plus; reflexivity). lra.
  - specialize (E' (Bl false true true true)). rewrite weight_exact, weight_mass in E'. fold N in E'. replace k with (7 * (1 + / 100000) * u) in E' by (unfold k; rewrite u_pow; reflexivity). exact E'.
Qed.
Lemma image_near_any p1 p2 e1 e2 w x : vlen (vsub (motor_image p1 p2 w x) (motor_image e1 e2 w x)) <=
  n4 (sub4 p1 e1) * (n4 p1 + n4 e1) * vlen x + 2 * (Rabs w * (n4 (sub4 p1 e1) * n4 p2 + n4 e1 * n4 (sub4 p2 e2))).
Proof.
  rewrite !image_weight. eapply Rle_trans; [apply (vlen_via _ (vsub (turn e1 x) (vscale (2 * w) (vpart (qm p1 p2)))))|]. apply Rplus_le_compat.
  - replace (vsub (vsub (turn p1 x) (vscale (2 * w) (vpart (qm p1 p2)))) (vsub (turn e1 x) (vscale (2 * w) (vpart (qm p1 p2))))) with (vsub (turn p1 x) (turn e1 x)); [apply turn_diff|].
    unfold vsub, vscale. cbn [vx vy vz]. f_equal; ring.
  - replace (vsub (vsub (turn e1 x) (vscale (2 * w) (vpart (qm p1 p2)))) (vsub (turn e1 x) (vscale (2 * w) (vpart (qm e1 e2))))) with (vscale (-2 * w) (vpart (sub4 (qm p1 p2) (qm e1 e2)))).
    + rewrite vlen_scale, Rabs_mult, (Rabs_left (-2)) by lra. replace (- -2) with 2 by ring. rewrite Rmult_assoc. apply Rmult_le_compat_l; [lra|]. apply Rmult_le_compat_l; [apply Rabs_pos|]. eapply Rle_trans; [apply vpart_le|].
      eapply Rle_trans; [apply (n4_via _ (qm e1 p2))|]. rewrite qm_sub_l, qm_sub_r, !qm_n4. lra.
    + rewrite vpart_sub. unfold vsub, vscale. cbn [vx vy vz]. f_equal; ring.
Qed.
Theorem C92_point : forall (B : Build) (th r : R) (m : motor f32) (e : motor R) (p : point f32), near_motor th r m e -> th <= / 1000 -> r <= 2 ^ 19 -> bound (point_p3 p) ->
  let w := wt p in let x := pos p in let q := motor_on_point m p in
  Forall fin (reg_list (point_p3 q)) /\ (w <> 0 -> brought e w x = vscale w (moved e (vscale (/ w) x))) /\
  vlen (vsub (pos q) (brought e w x)) <= (2001 / 1000 * th + 221 / 10 * / 2 ^ 24) * vlen x + (4002 / 1000 * th + 251 / 10 * / 2 ^ 24) * (r * Rabs w) + 2 * tiny /\
  Rabs (wt q - w) <= (2001 / 1000 * th + 71 / 10 * / 2 ^ 24) * Rabs w + tiny.
Proof.
  intros B th r m e p N T H Hp w x q. destruct (near_facts _ _ _ _ N T H) as ([Hm1 Hm2] & t0 & r0 & A1 & A2 & Q & Q' & AB & D). rewrite u_pow. pose proof u_small as U. destruct N as (_ & (P & _) & Re & E1 & E2).
  assert (Hm : Forall (bounded 20) (coefs (k := KMotor) m)) by (change (coefs (k := KMotor) m) with (reg_list (motor_p1 m) ++ reg_list (motor_p2 m)); apply Forall_app; split; assumption).
  destruct (motor_moves_any B m p Hm Hp) as (F & K1 & K2). fold w q x in F, K1, K2. fold (mv1 m) in K1, K2. fold (mv2 m) in K1. clearbody q. split; [exact F|]. split; [intro Hw; apply brought_place; exact Hw|].
  rewrite brought_image. set (p1 := mv1 m) in *. set (p2 := mv2 m) in *. set (e1 := motor_p1 e) in *. set (e2 := motor_p2 e) in *. clearbody p1 p2 e1 e2. pose proof (vlen_pos x) as x0. pose proof (Rabs_pos w) as w0. assert (ux : 0 <= u * vlen x) by (apply Rmult_le_pos; lra). assert (uw : 0 <= u * Rabs w) by (apply Rmult_le_pos; lra). assert (rw : 0 <= r * Rabs w) by (apply Rmult_le_pos; lra). assert (urw : 0 <= u * (r * Rabs w)) by (apply Rmult_le_pos; lra). assert (ty : 0 < tiny) by apply bpow_gt_0.
  replace (bpow radix2 (-121)) with (2 * tiny) in K1 by (unfold tiny; change (-121)%Z with (1 + -122)%Z; rewrite bpow_plus; reflexivity). fold tiny in K2. split.
  - eapply Rle_trans; [apply (vlen_via _ (motor_image p1 p2 w x))|]. pose proof (image_near_any p1 p2 e1 e2 w x) as I2. rewrite P in I2.
    pose proof (Rmult_le_compat_r _ _ _ x0 D) as L1. assert (L2 : n4 (sub4 p1 e1) * n4 p2 + 1 * n4 (sub4 p2 e2) <= 2001 / 1000 * (th * r)). { assert (n4 (sub4 p1 e1) * n4 p2 <= th * (1001 / 1000 * r)) by (apply Rmult_le_compat; try apply n4_pos; lra). lra. }
    apply (Rmult_le_compat_l _ _ _ w0) in L2. pose proof (Rmult_le_compat_r _ _ _ x0 Q') as L3. apply (Rmult_le_compat_l u) in L3; [|lra]. pose proof (Rmult_le_compat_r _ _ _ w0 AB) as L4. apply (Rmult_le_compat_l u) in L4; [|lra]. lra.
  - replace (wt q - w) with ((wt q - q4 p1 p1 * w) + (q4 p1 p1 - 1) * w) by ring. eapply Rle_trans; [apply Rabs_triang|]. rewrite (Rabs_mult (q4 p1 p1 - 1)). pose proof (Rmult_le_compat_r _ _ _ w0 Q) as L1. pose proof (Rmult_le_compat_r _ _ _ w0 Q') as L2. apply (Rmult_le_compat_l u) in L2; [|lra]. lra.
Qed.
Print Assumptions C92_point.

(** ** The image of the origin *)
Section Gen.
Context {F : Type} {A : Arith F} {B : Build} (x : nat -> F).
Notation h := (map4 (eval x)).
Lemma mo_gen : point_p3 (motor_on_origin (mkmotor (h (vreg 0)) (h (vreg 4)))) = h (point_p3 (motor_on_origin (mkmotor (vreg 0) (vreg 4)))).
Proof. destruct B as [[|]]; reflexivity. Qed.
End Gen.
Lemma mo_code (B : Build) (m : motor f32) : point_p3 (motor_on_origin m) = map4 (eval (lanes16 (motor_p1 m) (motor_p2 m) nought nought)) (point_p3 (motor_on_origin (mkmotor (vreg 0) (vreg 4)))).
Proof. destruct m as [[a0 a1 a2 a3] [a4 a5 a6 a7]]. exact (mo_gen (lanes16 (mk4 a0 a1 a2 a3) (mk4 a4 a5 a6 a7) nought nought)). Qed.
Lemma mo_exact (B : Build) y : let c := point_p3 (motor_on_origin (mkmotor (vreg 0) (vreg 4))) in vscale (-2) (vpart (qm (r4 y 0) (r4 y 4))) = ev3 y c.
Proof. intro c. unfold c, vscale, vpart, qm, r4, ev3. cbn [vx vy vz l0 l1 l2 l3]. destruct B as [[|]]; apply vec_eq; rcbv; ring. Qed.
Lemma mo_mass (B : Build) y : let c := point_p3 (motor_on_origin (mkmotor (vreg 0) (vreg 4))) in vle (av3 y c) (v3 (2 * (n4 (r4 y 0) * n4 (r4 y 4)))).
Proof.
  intro c. unfold c. destruct (cross4 (r4 y 0) (r4 y 4)) as (M0 & M1 & M2 & M3). set (t := n4 (r4 y 0) * n4 (r4 y 4)) in *. clearbody t. unfold r4 in *. cbn [l0 l1 l2 l3 Nat.add] in *. cbv beta in *.
  unfold vle, av3, v3 in *. cbn [vx vy vz Nat.add] in *. assert (A2 : Rabs 2 = 2) by (apply Rabs_pos_eq; lra). destruct B as [[|]]; (split; [|split]); norm_abs; change (IZR 2) with 2; rewrite ?A2; lra.
Qed.
Lemma origin_moves (B : Build) (m : motor f32) : motor_bound m ->
  let p1 := mv1 m in let p2 := mv2 m in let q := motor_on_origin m in
  Forall fin (reg_list (point_p3 q)) /\ wt q = 1 /\ vlen (vsub (pos q) (vscale (-2) (vpart (qm p1 p2)))) <= unit_err 6 * (7 / 2 * (n4 p1 * n4 p2)) + 2 * tiny.
Proof.
  intros [Hm1 Hm2] p1 p2 q. pose proof (lanes16_ok _ _ _ _ Hm1 Hm2 nought_ok nought_ok) as X. set (L := lanes16 (motor_p1 m) (motor_p2 m) nought nought) in *.
  set (c := point_p3 (motor_on_origin (A := Arith_expr) (mkmotor (vreg 0) (vreg 4)))).
  assert (G : good 6 (l1 c) && good 6 (l2 c) && good 6 (l3 c) = true) by (unfold c; destruct B as [[|]]; vm_compute; reflexivity).
  assert (G0 : exists a, l0 c = EAdd a (ECst 1) /\ null (fun _ => false) a = true) by (unfold c; destruct B as [[|]]; eexists; (split; [reflexivity|vm_compute; reflexivity])).
  pose proof (mo_exact B (fun k => val (L k))) as E. pose proof (mo_mass B (fun k => val (L k))) as M. fold c in E, M.
  assert (C : point_p3 q = map4 (eval L) c) by exact (mo_code B m). clearbody q c.
  destruct (term3 L c _ _ 6 X G E M) as (F1 & F2 & F3 & Q). destruct G0 as (a & Ha & Na). destruct (null_ok L (fun _ => false) a X ltac:(intros ? K; discriminate K) Na) as [Fa Va].
  assert (F0 : fin (eval L (l0 c)) /\ val (eval L (l0 c)) = 1). { rewrite Ha. cbn [eval]. destruct (fz_ok 1 ltac:(lia)) as [Fo Vo]. destruct (add_ok _ _ Fa Fo) as [Fs Vs]; [rewrite Va, Vo, Rplus_0_l, Rabs_R1; change 1 with (bpow radix2 0); apply bpow_le; lia|]. split; [exact Fs|]. etransitivity; [exact Vs|]. rewrite Va. etransitivity; [apply f_equal; rewrite Vo; apply Rplus_0_l|]. apply (rnd_Z 1). lia. }
  split; [rewrite C; repeat (apply Forall_cons; [first [exact (proj1 F0)|assumption]|]); apply Forall_nil|]. split; [unfold wt; rewrite C; exact (proj2 F0)|].
  unfold pos. rewrite C. eapply Rle_trans; [exact Q|]. apply grow; [apply unit_err_pos|]. eapply Rle_trans; [apply v3_len|].
  - apply Rmult_le_pos; [lra|]. apply Rmult_le_pos; apply n4_pos.
  - apply Req_le. change (r4 (fun k => val (L k)) 0) with p1. change (r4 (fun k => val (L k)) 4) with p2. lra.
Qed.
Theorem C92_origin : forall (B : Build) (th r : R) (m : motor f32) (e : motor R), near_motor th r m e -> th <= / 1000 -> r <= 2 ^ 19 ->
  let q := motor_on_origin m in
  Forall fin (reg_list (point_p3 q)) /\ wt q = 1 /\ vlen (vsub (pos q) (moved e (V 0 0 0))) <= (4002 / 1000 * th + 211 / 10 * / 2 ^ 24) * r + 2 * tiny.
Proof.
  intros B th r m e N T H q. destruct (near_facts _ _ _ _ N T H) as (Hm & t0 & r0 & A1 & A2 & Q & Q' & AB & D). rewrite u_pow. pose proof u_small as U. destruct N as (_ & (P & _) & Re & E1 & E2).
  destruct (origin_moves B m Hm) as (F & W & K). fold q in F, W, K. clearbody q. split; [exact F|]. split; [exact W|]. rewrite shift_exact.
  pose proof (image_near_any (mv1 m) (mv2 m) (motor_p1 e) (motor_p2 e) 1 (V 0 0 0)) as I2. rewrite P in I2. rewrite !image_weight in I2. replace (vlen (V 0 0 0)) with 0 in I2 by (symmetry; unfold vlen, vdot; cbn [vx vy vz]; rewrite !Rmult_0_l, !Rplus_0_l; apply sqrt_0). rewrite Rabs_R1 in I2.
  set (a := vpart (qm (mv1 m) (mv2 m))) in *. set (b := vpart (qm (motor_p1 e) (motor_p2 e))) in *.
  assert (Z : forall p, turn p (V 0 0 0) = V 0 0 0) by (intros [z0 z1 z2 z3]; unfold turn, vpart, qm, rev4, lift; cbn [vx vy vz l0 l1 l2 l3]; apply vec_eq; cbn [vx vy vz]; ring). rewrite !Z in I2.
  replace (vsub (vsub (V 0 0 0) (vscale (2 * 1) a)) (vsub (V 0 0 0) (vscale (2 * 1) b))) with (vsub (vscale (-2) a) (vscale (-2) b)) in I2 by (unfold vsub, vscale; apply vec_eq; cbn [vx vy vz]; ring).
  eapply Rle_trans; [apply (vlen_via _ (vscale (-2) a))|]. clearbody a b.
  assert (L2 : n4 (sub4 (mv1 m) (motor_p1 e)) * n4 (mv2 m) <= th * (1001 / 1000 * r)) by (apply Rmult_le_compat; try apply n4_pos; lra).
  assert (L3 : unit_err 6 * (7 / 2 * (n4 (mv1 m) * n4 (mv2 m))) <= 211 / 10 * u * r). { assert (0 <= n4 (mv1 m) * n4 (mv2 m)) by (apply Rmult_le_pos; apply n4_pos). apply (Rle_trans _ (601 / 100 * u * (7 / 2 * (10021 / 10000 * r)))). - apply Rmult_le_compat; [apply unit_err_pos|lra| |lra]. unfold unit_err. cbn [INR]. unfold u. lra. - assert (0 <= u * r) by (apply Rmult_le_pos; lra). lra. }
  lra.
Qed.
Print Assumptions C92_origin.

(** ** There and back *)
Lemma moved_back e x : proper e -> moved (mrev e) (moved e x) = x.
Proof.
  intro P. unfold moved. rewrite <- (mmul_image (mrev e) e x (mrev_proper e P) P), (mrev_inv e P). unfold mone. cbn [motor_p1 motor_p2]. destruct x as [a b c]. unfold motor_image. apply vec_eq; rcbv; ring.
Qed.
Lemma mrev_mrev e : mrev (mrev e) = e.
Proof. destruct e as [p1 p2]. unfold mrev. cbn [motor_p1 motor_p2]. rewrite !rev4_rev. reflexivity. Qed.
Lemma swung_back e x : proper e -> swung (mrev e) (swung e x) = x.
Proof.
  intro P. unfold swung at 2. rewrite swung_lin. unfold swung. rewrite !(moved_back e _ P). destruct x as [a b c], (moved (mrev e) (V 0 0 0)) as [o1 o2 o3]. unfold vsub. apply vec_eq; cbn [vx vy vz]; ring.
Qed.
Lemma shift_back e : proper e -> vadd (swung (mrev e) (moved e (V 0 0 0))) (moved (mrev e) (V 0 0 0)) = V 0 0 0.
Proof. intro P. rewrite <- moved_swung. apply moved_back. exact P. Qed.
Lemma off_back e n d : proper e -> moved_off (mrev e) (swung e n) (moved_off e n d) = d.
Proof.
  intro P. unfold moved_off. rewrite (swung_back e n P). rewrite <- (swung_dot (mrev e) (swung e n) (moved e (V 0 0 0)) (mrev_proper e P)), (swung_back e n P). pose proof (shift_back e P) as S.
  destruct (swung (mrev e) (moved e (V 0 0 0))) as [a b c], (moved (mrev e) (V 0 0 0)) as [x y z]. unfold vadd in S. cbn [vx vy vz] in S. injection S as S1 S2 S3. unfold vdot. cbn [vx vy vz]. replace a with (- x) by lra. replace b with (- y) by lra. replace c with (- z) by lra. ring.
Qed.
Lemma swung_add e a b : swung e (vadd a b) = vadd (swung e a) (swung e b).
Proof. rewrite !swung_turn. destruct (motor_p1 e) as [p0 p1 p2 p3], a as [a1 a2 a3], b as [b1 b2 b3]. unfold turn, vpart, qm, rev4, lift, vadd. cbn [vx vy vz l0 l1 l2 l3]. apply vec_eq; cbn [vx vy vz]; ring. Qed.
Lemma mom_back e s k : proper e -> moved_mom (mrev e) (swung e s) (moved_mom e s k) = k.
Proof.
  intro P. unfold moved_mom. rewrite (swung_back e s P), swung_add, (swung_back e k P), <- (swung_cross (mrev e) _ _ (mrev_proper e P)), (swung_back e s P). pose proof (shift_back e P) as S.
  destruct (swung (mrev e) (moved e (V 0 0 0))) as [a b c], (moved (mrev e) (V 0 0 0)) as [x y z]. unfold vadd in S. cbn [vx vy vz] in S. injection S as S1 S2 S3. destruct k as [k1 k2 k3], s as [s1 s2 s3]. unfold vadd, vcross. cbn [vx vy vz]. replace a with (- x) by lra. replace b with (- y) by lra. replace c with (- z) by lra. apply vec_eq; cbn [vx vy vz]; ring.
Qed.
Lemma brought_back e w x : proper e -> brought (mrev e) w (brought e w x) = x.
Proof.
  intro P. unfold brought. rewrite swung_add, (swung_back e x P). replace (swung (mrev e) (vscale w (moved e (V 0 0 0)))) with (vscale w (swung (mrev e) (moved e (V 0 0 0)))) by (rewrite !swung_turn, turn_scale; reflexivity).
  pose proof (shift_back e P) as S. destruct (swung (mrev e) (moved e (V 0 0 0))) as [a b c], (moved (mrev e) (V 0 0 0)) as [y1 y2 y3], x as [x1 x2 x3]. unfold vadd in S. cbn [vx vy vz] in S. injection S as S1 S2 S3. unfold vadd, vscale. cbn [vx vy vz]. replace a with (- y1) by lra. replace b with (- y2) by lra. replace c with (- y3) by lra. apply vec_eq; cbn [vx vy vz]; ring.
Qed.
(** two steps, each with its own relative error *)
Lemma two_steps th r c1 c2 c3 A D A' D' ea ec ea' ec' : 0 <= th <= / 1000 -> 0 <= r <= 2 ^ 19 -> 0 <= A -> 0 <= D -> 0 <= c1 <= 30 -> 0 <= c2 <= 30 -> 0 <= c3 <= 60 ->
  0 <= ea <= (201 / 100 * th + c1 * u) * A + 2 * tiny -> 0 <= ec <= (201 / 100 * th + c2 * u) * D + (401 / 100 * th + c3 * u) * (r * A) + 2 * tiny ->
  0 <= A' <= A + ea -> 0 <= D' <= D + 2 * (r * A) + ec ->
  ea' <= (201 / 100 * th + c1 * u) * A' + 2 * tiny -> ec' <= (201 / 100 * th + c2 * u) * D' + (401 / 100 * th + c3 * u) * (r * A') + 2 * tiny ->
  ea + ea' <= (403 / 100 * th + 2003 / 1000 * c1 * u) * A + 5 * tiny /\
  ec + 2 * (r * ea) + ec' <= (403 / 100 * th + 2003 / 1000 * c2 * u) * D + (161 / 10 * th + (2005 / 1000 * c3 + 2 * c1 + 2 * c2) * u) * (r * A) + slop.
Proof.
  intros Ht Hr HA HD H1 H2 H3 [ea0 Ea] [ec0 Ec] [a0 A1] [d0 D1] Ea' Ec'. pose proof u_small as U. assert (u6 : u <= / 1000000) by (unfold u; lra).
  set (k1 := 201 / 100 * th + c1 * u) in *. set (k2 := 201 / 100 * th + c2 * u) in *. set (k3 := 401 / 100 * th + c3 * u) in *.
  assert (P1 : 0 <= c1 * u <= 30 * u) by (split; [apply Rmult_le_pos; lra|apply Rmult_le_compat_r; lra]). assert (P2 : 0 <= c2 * u <= 30 * u) by (split; [apply Rmult_le_pos; lra|apply Rmult_le_compat_r; lra]). assert (P3 : 0 <= c3 * u <= 60 * u) by (split; [apply Rmult_le_pos; lra|apply Rmult_le_compat_r; lra]).
  assert (K1 : 0 <= k1 <= 21 / 10000) by (unfold k1; lra). assert (K2 : 0 <= k2 <= 21 / 10000) by (unfold k2; lra). assert (K3 : 0 <= k3 <= 41 / 10000) by (unfold k3; lra).
  assert (t0 : 0 < tiny) by apply bpow_gt_0. assert (S : 2 ^ 22 * tiny <= slop) by (unfold tiny, slop; replace (2 ^ 22) with (bpow radix2 22) by (cbn; ring); rewrite <- bpow_plus; apply bpow_le; lia).
  assert (rA : 0 <= r * A) by (apply Rmult_le_pos; lra).
  assert (k1A : 0 <= k1 * A) by (apply Rmult_le_pos; lra). assert (k1rA : 0 <= k1 * (r * A)) by (apply Rmult_le_pos; lra). assert (k2D : 0 <= k2 * D) by (apply Rmult_le_pos; lra). assert (k2rA : 0 <= k2 * (r * A)) by (apply Rmult_le_pos; lra). assert (k3rA : 0 <= k3 * (r * A)) by (apply Rmult_le_pos; lra). assert (rt : 0 <= r * tiny <= 2 ^ 19 * tiny) by (split; [apply Rmult_le_pos; lra|apply Rmult_le_compat_r; lra]).
  (* products *)
  assert (X1 : k1 * A' <= k1 * (A + (k1 * A + 2 * tiny))) by (apply Rmult_le_compat_l; lra). assert (X2 : k1 * (k1 * A) <= 21 / 10000 * (k1 * A)) by (apply Rmult_le_compat_r; lra). assert (X3 : k1 * tiny <= 21 / 10000 * tiny) by (apply Rmult_le_compat_r; lra).
  assert (thA : 0 <= th * A) by (apply Rmult_le_pos; lra). assert (thD : 0 <= th * D) by (apply Rmult_le_pos; lra). assert (thrA : 0 <= th * (r * A)) by (apply Rmult_le_pos; lra).
  assert (c1A : 0 <= c1 * u * A) by (apply Rmult_le_pos; lra). assert (c2D : 0 <= c2 * u * D) by (apply Rmult_le_pos; lra). assert (c1rA : 0 <= c1 * u * (r * A)) by (apply Rmult_le_pos; lra). assert (c2rA : 0 <= c2 * u * (r * A)) by (apply Rmult_le_pos; lra). assert (c3rA : 0 <= c3 * u * (r * A)) by (apply Rmult_le_pos; lra).
  assert (E1 : k1 * A = 201 / 100 * (th * A) + c1 * u * A) by (unfold k1; ring). assert (E2 : k2 * D = 201 / 100 * (th * D) + c2 * u * D) by (unfold k2; ring). assert (E3 : k3 * (r * A) = 401 / 100 * (th * (r * A)) + c3 * u * (r * A)) by (unfold k3; ring). assert (E4 : k1 * (r * A) = 201 / 100 * (th * (r * A)) + c1 * u * (r * A)) by (unfold k1; ring). assert (E5 : k2 * (r * A) = 201 / 100 * (th * (r * A)) + c2 * u * (r * A)) by (unfold k2; ring).
  split.
  - apply (Rle_trans _ (2003 / 1000 * (k1 * A) + 5 * tiny)); [|rewrite E1; lra]. lra.
  - assert (Y1 : r * ea <= k1 * (r * A) + 2 * (r * tiny)). { pose proof (Rmult_le_compat_l r _ _ (proj1 Hr) Ea). lra. }
    assert (Y2 : k2 * D' <= k2 * (D + 2 * (r * A) + (k2 * D + k3 * (r * A) + 2 * tiny))) by (apply Rmult_le_compat_l; lra).
    assert (Y3 : k2 * (k2 * D) <= 21 / 10000 * (k2 * D)) by (apply Rmult_le_compat_r; lra). assert (Y4 : k2 * (k3 * (r * A)) <= 21 / 10000 * (k3 * (r * A))) by (apply Rmult_le_compat_r; lra). assert (Y5 : k2 * tiny <= 21 / 10000 * tiny) by (apply Rmult_le_compat_r; lra).
    assert (Z1 : r * A' <= r * A + k1 * (r * A) + 2 * (r * tiny)). { assert (r * A' <= r * (A + ea)) by (apply Rmult_le_compat_l; lra). lra. }
    assert (Y6 : k3 * (r * A') <= k3 * (r * A + k1 * (r * A) + 2 * (r * tiny))) by (apply Rmult_le_compat_l; lra). assert (Y7 : k1 * (k3 * (r * A)) <= 21 / 10000 * (k3 * (r * A))) by (apply Rmult_le_compat_r; lra). assert (Y8 : k3 * (r * tiny) <= 41 / 10000 * (r * tiny)) by (apply Rmult_le_compat_r; lra).
    assert (Y7' : k3 * (k1 * (r * A)) <= 21 / 10000 * (k3 * (r * A))) by (eapply Rle_trans; [apply Req_le|exact Y7]; ring).
    apply (Rle_trans _ (2003 / 1000 * (k2 * D) + (20045 / 10000 * (k3 * (r * A)) + 2 * (k1 * (r * A)) + 2 * (k2 * (r * A))) + slop)); [|rewrite E2, E3, E4, E5; lra].
    lra.
Qed.
Lemma vlen_grow a b : vlen a <= vlen b + vlen (vsub a b).
Proof. replace a with (vadd b (vsub a b)) at 1 by (destruct a as [a1 a2 a3], b as [b1 b2 b3]; unfold vadd, vsub; apply vec_eq; cbn [vx vy vz]; ring). apply vlen_tri. Qed.
(** moving by [motor_rev m] what [m] moved *)
Theorem C92_back : forall (B : Build) (th r : R) (m : motor f32) (e : motor R), near_motor th r m e -> th <= / 1000 -> r <= 2 ^ 19 ->
  (forall b : plane f32, bound (plane_p0 b) -> bound (plane_p0 (motor_on_plane m b)) -> let q := motor_on_plane (motor_rev m) (motor_on_plane m b) in
    Forall fin (reg_list (plane_p0 q)) /\ vlen (vsub (nrm q) (nrm b)) <= (403 / 100 * th + 45 * / 2 ^ 24) * vlen (nrm b) + 5 * tiny /\
    Rabs (off q - off b) <= (403 / 100 * th + 57 * / 2 ^ 24) * Rabs (off b) + (161 / 10 * th + 165 * / 2 ^ 24) * (r * vlen (nrm b)) + slop) /\
  (forall b : line f32, bound (line_p1 b) -> bound (line_p2 b) -> bound (line_p1 (motor_on_line m b)) -> bound (line_p2 (motor_on_line m b)) -> let q := motor_on_line (motor_rev m) (motor_on_line m b) in
    Forall fin (coefs (k := KLine) q) /\ vlen (vsub (dirn q) (dirn b)) <= (403 / 100 * th + 39 * / 2 ^ 24) * vlen (dirn b) + 5 * tiny /\
    vlen (vsub (mom q) (mom b)) <= (403 / 100 * th + 57 * / 2 ^ 24) * vlen (mom b) + (161 / 10 * th + 207 * / 2 ^ 24) * (r * vlen (dirn b)) + slop) /\
  (forall b : point f32, bound (point_p3 b) -> bound (point_p3 (motor_on_point m b)) -> let q := motor_on_point (motor_rev m) (motor_on_point m b) in
    Forall fin (reg_list (point_p3 q)) /\ Rabs (wt q - wt b) <= (403 / 100 * th + 15 * / 2 ^ 24) * Rabs (wt b) + 5 * tiny /\
    vlen (vsub (pos q) (pos b)) <= (403 / 100 * th + 45 * / 2 ^ 24) * vlen (pos b) + (161 / 10 * th + 110 * / 2 ^ 24) * (r * Rabs (wt b)) + slop) /\
  (forall b : direction f32, bound (direction_p3 b) -> bound (direction_p3 (motor_on_direction m b)) -> let q := motor_on_direction (motor_rev m) (motor_on_direction m b) in
    (fin (l1 (direction_p3 q)) /\ fin (l2 (direction_p3 q)) /\ fin (l3 (direction_p3 q))) /\
    vlen (vsub (vval (direction_p3 q)) (vval (direction_p3 b))) <= (403 / 100 * th + 45 * / 2 ^ 24) * vlen (vval (direction_p3 b)) + 5 * tiny).
Proof.
  intros B th r m e N T H. pose proof (near_rev B _ _ _ _ N) as N'. destruct (near_facts _ _ _ _ N T H) as (_ & t0 & r0 & _). assert (P : proper e) by (destruct N as (_ & K & _); exact K). pose proof (mrev_proper e P) as P'.
  destruct (moved_len e r (V 0 0 0) P ltac:(destruct N as (_ & _ & K & _); exact K)) as [S _]. destruct (moved_len (mrev e) r (V 0 0 0) P' ltac:(destruct N' as (_ & _ & K & _); exact K)) as [S' _]. pose proof u_small as U. assert (y0 : 0 < tiny) by apply bpow_gt_0.
  split; [|split; [|split]].
  - intros b Hb Hb' q. destruct (C85_plane B th r m e b N T H Hb) as (_ & E1 & E2). destruct (C85_plane B th r (motor_rev m) (mrev e) _ N' T H Hb') as (F & G1 & G2). fold q in F, G1, G2. split; [exact F|]. rewrite u_pow in *. clear F. clearbody q. set (a := motor_on_plane m b) in *. clearbody a.
    set (n := nrm b) in *. set (d := off b) in *. set (n1 := nrm a) in *. set (d1 := off a) in *. clearbody n d n1 d1. pose proof (vlen_pos n) as n0. pose proof (Rabs_pos d) as d0.
    assert (A' : vlen n1 <= vlen n + vlen (vsub n1 (swung e n))) by (pose proof (vlen_grow n1 (swung e n)) as K; rewrite (swung_len e n P) in K; exact K).
    assert (R1 : Rabs (moved_off e n d) <= Rabs d + 2 * (r * vlen n)). { unfold moved_off. eapply Rle_trans; [apply Rabs_triang|]. rewrite Rabs_Ropp. apply Rplus_le_compat_l. eapply Rle_trans; [apply vdot_abs|]. rewrite (swung_len e n P). pose proof (Rmult_le_compat_l _ _ _ n0 S). lra. }
    assert (D' : Rabs d1 <= Rabs d + 2 * (r * vlen n) + Rabs (d1 - moved_off e n d)). { replace d1 with (moved_off e n d + (d1 - moved_off e n d)) at 1 by ring. eapply Rle_trans; [apply Rabs_triang|]. lra. }
    destruct (two_steps th r 22 28 32 (vlen n) (Rabs d) (vlen n1) (Rabs d1) (vlen (vsub n1 (swung e n))) (Rabs (d1 - moved_off e n d)) (vlen (vsub (nrm q) (swung (mrev e) n1))) (Rabs (off q - moved_off (mrev e) n1 d1))) as [K1 K2]; try (split; [apply vlen_pos || apply Rabs_pos|]); try lra.
    assert (un : 0 <= u * vlen n) by (apply Rmult_le_pos; lra). assert (ud : 0 <= u * Rabs d) by (apply Rmult_le_pos; lra). assert (urn : 0 <= u * (r * vlen n)) by (apply Rmult_le_pos; [lra|apply Rmult_le_pos; lra]).
    split.
    + eapply Rle_trans; [apply (vlen_via _ (swung (mrev e) n1))|]. replace (vsub (swung (mrev e) n1) n) with (swung (mrev e) (vsub n1 (swung e n))) by (rewrite swung_lin, (swung_back e n P); reflexivity). rewrite (swung_len _ _ P'). lra.
    + pose proof (off_back e n d P) as Ob. replace (off q - d) with ((off q - moved_off (mrev e) n1 d1) + ((d1 - moved_off e n d) + - vdot (swung (mrev e) (vsub n1 (swung e n))) (moved (mrev e) (V 0 0 0)))).
      * eapply Rle_trans; [apply Rabs_triang|]. pose proof (Rabs_triang (d1 - moved_off e n d) (- vdot (swung (mrev e) (vsub n1 (swung e n))) (moved (mrev e) (V 0 0 0)))) as K. rewrite Rabs_Ropp in K.
        pose proof (vdot_abs (swung (mrev e) (vsub n1 (swung e n))) (moved (mrev e) (V 0 0 0))) as V1. rewrite (swung_len _ _ P') in V1. pose proof (Rmult_le_compat_l _ _ _ (vlen_pos (vsub n1 (swung e n))) S') as V2. lra.
      * rewrite <- Ob at 2. unfold moved_off at 1 3. rewrite swung_lin, (swung_back e n P). unfold vdot, vsub. cbn [vx vy vz]. ring.
  - intros b Ha Hb Ha' Hb' q. destruct (C85_line th r m e b N T H Ha Hb) as (_ & E1 & E2). destruct (C85_line th r (motor_rev m) (mrev e) _ N' T H Ha' Hb') as (F & G1 & G2). fold q in F, G1, G2. split; [exact F|]. rewrite u_pow in *. clear F. clearbody q. set (a := motor_on_line m b) in *. clearbody a.
    set (n := dirn b) in *. set (d := mom b) in *. set (n1 := dirn a) in *. set (d1 := mom a) in *. clearbody n d n1 d1. pose proof (vlen_pos n) as n0. pose proof (vlen_pos d) as d0.
    assert (A' : vlen n1 <= vlen n + vlen (vsub n1 (swung e n))) by (pose proof (vlen_grow n1 (swung e n)) as K; rewrite (swung_len e n P) in K; exact K).
    assert (R1 : vlen (moved_mom e n d) <= vlen d + 2 * (r * vlen n)). { unfold moved_mom. eapply Rle_trans; [apply vlen_tri|]. rewrite (swung_len e d P). apply Rplus_le_compat_l. eapply Rle_trans; [apply vcross_len|]. rewrite (swung_len e n P). pose proof (Rmult_le_compat_r _ _ _ n0 S). lra. }
    assert (D' : vlen d1 <= vlen d + 2 * (r * vlen n) + vlen (vsub d1 (moved_mom e n d))) by (pose proof (vlen_grow d1 (moved_mom e n d)); lra).
    destruct (two_steps th r 19 28 56 (vlen n) (vlen d) (vlen n1) (vlen d1) (vlen (vsub n1 (swung e n))) (vlen (vsub d1 (moved_mom e n d))) (vlen (vsub (dirn q) (swung (mrev e) n1))) (vlen (vsub (mom q) (moved_mom (mrev e) n1 d1)))) as [K1 K2]; try (split; [apply vlen_pos || apply Rabs_pos|]); try lra.
    assert (un : 0 <= u * vlen n) by (apply Rmult_le_pos; lra). assert (ud : 0 <= u * vlen d) by (apply Rmult_le_pos; lra). assert (urn : 0 <= u * (r * vlen n)) by (apply Rmult_le_pos; [lra|apply Rmult_le_pos; lra]).
    split.
    + eapply Rle_trans; [apply (vlen_via _ (swung (mrev e) n1))|]. replace (vsub (swung (mrev e) n1) n) with (swung (mrev e) (vsub n1 (swung e n))) by (rewrite swung_lin, (swung_back e n P); reflexivity). rewrite (swung_len _ _ P'). lra.
    + eapply Rle_trans; [apply (vlen_via _ (moved_mom (mrev e) n1 d1))|].
      assert (Ob : vsub (moved_mom (mrev e) n1 d1) d = vadd (swung (mrev e) (vsub d1 (moved_mom e n d))) (vcross (moved (mrev e) (V 0 0 0)) (swung (mrev e) (vsub n1 (swung e n))))).
      { rewrite <- (mom_back e n d P) at 1. unfold moved_mom at 1 2. rewrite !swung_lin. unfold vsub, vadd, vcross. cbn [vx vy vz]. apply vec_eq; cbn [vx vy vz]; ring. }
      rewrite Ob. pose proof (vlen_tri (swung (mrev e) (vsub d1 (moved_mom e n d))) (vcross (moved (mrev e) (V 0 0 0)) (swung (mrev e) (vsub n1 (swung e n))))) as K. rewrite (swung_len _ (vsub d1 _) P') in K.
      pose proof (vcross_len (moved (mrev e) (V 0 0 0)) (swung (mrev e) (vsub n1 (swung e n)))) as V1. rewrite (swung_len _ _ P') in V1. pose proof (Rmult_le_compat_r _ _ _ (vlen_pos (vsub n1 (swung e n))) S') as V2. lra.
  - intros b Hb Hb' q. destruct (C92_point B th r m e b N T H Hb) as (_ & _ & E2 & E1). destruct (C92_point B th r (motor_rev m) (mrev e) _ N' T H Hb') as (F & _ & G2 & G1). fold q in F, G1, G2. split; [exact F|]. rewrite u_pow in *. clear F. clearbody q. set (a := motor_on_point m b) in *. clearbody a.
    set (n := wt b) in *. set (d := pos b) in *. set (n1 := wt a) in *. set (d1 := pos a) in *. clearbody n d n1 d1. pose proof (Rabs_pos n) as n0. pose proof (vlen_pos d) as d0. pose proof (Rabs_pos n1) as n10. pose proof (vlen_pos d1) as d10.
    assert (A' : Rabs n1 <= Rabs n + Rabs (n1 - n)) by (replace n1 with (n + (n1 - n)) at 1 by ring; apply Rabs_triang).
    assert (R1 : vlen (brought e n d) <= vlen d + 2 * (r * Rabs n)). { unfold brought. eapply Rle_trans; [apply vlen_tri|]. rewrite (swung_len e d P), vlen_scale. pose proof (Rmult_le_compat_l _ _ _ n0 S). lra. }
    assert (D' : vlen d1 <= vlen d + 2 * (r * Rabs n) + vlen (vsub d1 (brought e n d))) by (pose proof (vlen_grow d1 (brought e n d)); lra).
    assert (thn : 0 <= th * Rabs n) by (apply Rmult_le_pos; lra). assert (thd : 0 <= th * vlen d) by (apply Rmult_le_pos; lra). assert (thrn : 0 <= th * (r * Rabs n)) by (apply Rmult_le_pos; [lra|apply Rmult_le_pos; lra]).
    assert (thn1 : 0 <= th * Rabs n1) by (apply Rmult_le_pos; lra). assert (thd1 : 0 <= th * vlen d1) by (apply Rmult_le_pos; lra). assert (thrn1 : 0 <= th * (r * Rabs n1)) by (apply Rmult_le_pos; [lra|apply Rmult_le_pos; lra]).
    destruct (two_steps th r (71 / 10) (221 / 10) (251 / 10) (Rabs n) (vlen d) (Rabs n1) (vlen d1) (Rabs (n1 - n)) (vlen (vsub d1 (brought e n d))) (Rabs (wt q - n1)) (vlen (vsub (pos q) (brought (mrev e) n1 d1)))) as [K1 K2]; try (split; [apply vlen_pos || apply Rabs_pos|]); try lra.
    assert (un : 0 <= u * Rabs n) by (apply Rmult_le_pos; lra). assert (ud : 0 <= u * vlen d) by (apply Rmult_le_pos; lra). assert (urn : 0 <= u * (r * Rabs n)) by (apply Rmult_le_pos; [lra|apply Rmult_le_pos; lra]).
    split.
    + replace (wt q - n) with ((wt q - n1) + (n1 - n)) by ring. eapply Rle_trans; [apply Rabs_triang|]. lra.
    + eapply Rle_trans; [apply (vlen_via _ (brought (mrev e) n1 d1))|].
      assert (Ob : vsub (brought (mrev e) n1 d1) d = vadd (swung (mrev e) (vsub d1 (brought e n d))) (vscale (n1 - n) (moved (mrev e) (V 0 0 0)))).
      { rewrite <- (brought_back e n d P) at 1. unfold brought at 1 2. rewrite !swung_lin. unfold vsub, vadd, vscale. cbn [vx vy vz]. apply vec_eq; cbn [vx vy vz]; ring. }
      rewrite Ob. pose proof (vlen_tri (swung (mrev e) (vsub d1 (brought e n d))) (vscale (n1 - n) (moved (mrev e) (V 0 0 0)))) as K. rewrite (swung_len _ _ P'), vlen_scale in K.
      pose proof (Rmult_le_compat_l _ _ _ (Rabs_pos (n1 - n)) S') as V2. lra.
  - intros b Hb Hb' q. destruct (C85_direction B th r m e b N T H Hb) as (_ & E1). destruct (C85_direction B th r (motor_rev m) (mrev e) _ N' T H Hb') as (F & G1). fold q in F, G1. split; [exact F|]. rewrite u_pow in *. clear F. clearbody q. set (a := motor_on_direction m b) in *. clearbody a.
    set (n := vval (direction_p3 b)) in *. set (n1 := vval (direction_p3 a)) in *. clearbody n n1. pose proof (vlen_pos n) as n0.
    assert (A' : vlen n1 <= vlen n + vlen (vsub n1 (swung e n))) by (pose proof (vlen_grow n1 (swung e n)) as K; rewrite (swung_len e n P) in K; exact K).
    destruct (two_steps th 0 22 28 32 (vlen n) 0 (vlen n1) 0 (vlen (vsub n1 (swung e n))) 0 (vlen (vsub (vval (direction_p3 q)) (swung (mrev e) n1))) 0) as [K1 _]; try (split; [apply vlen_pos || apply Rabs_pos|]); try lra.
    assert (un : 0 <= u * vlen n) by (apply Rmult_le_pos; lra).
    eapply Rle_trans; [apply (vlen_via _ (swung (mrev e) n1))|]. replace (vsub (swung (mrev e) n1) n) with (swung (mrev e) (vsub n1 (swung e n))) by (rewrite swung_lin, (swung_back e n P); reflexivity). rewrite (swung_len _ _ P'). lra.
Qed.
Print Assumptions C92_back.
Example C92_ex (B : Build) : let b := mkplane (mk4 (fz (-9)) (fz 1) (fz 2) (fz 2)) in let p := mkpoint (mk4 (fz 2) (fz 2) (fz 6) (fz 2)) in let l := mkline (mk4 (fz 0) (fz 1) (fz 2) (fz 2)) (mk4 (fz 0) (fz 4) (fz (-1)) (fz (-1))) in let v := mkdirection (mk4 (fz 0) (fz 1) (fz 2) (fz 2)) in
  near_motor 0 4 third third_e /\ (bound (plane_p0 b) /\ bound (point_p3 p) /\ bound (line_p1 l) /\ bound (line_p2 l) /\ bound (direction_p3 v)) /\
  (bound (plane_p0 (motor_on_plane third b)) /\ bound (point_p3 (motor_on_point third p)) /\ bound (line_p1 (motor_on_line third l)) /\ bound (line_p2 (motor_on_line third l)) /\ bound (direction_p3 (motor_on_direction third v))) /\
  wt p = 2 /\ brought third_e 2 (V 2 6 2) = V (-2) (-6) (-6) /\ moved third_e (V 0 0 0) = V (-4) (-4) (-4).
Proof.
  assert (J : forall k, (Z.abs k <= 2 ^ 20)%Z -> bounded 20 (fz k)).
  { intros k Hk. destruct (fz_ok k ltac:(lia)) as [F V]. split; [exact F|]. rewrite V, <- abs_IZR. rewrite <- (IZR_Zpower radix2) by lia. apply IZR_le. exact Hk. }
  assert (I : forall (v : m128 f32) a b c d, map4 B2SF v = map4 B2SF (mk4 (fz a) (fz b) (fz c) (fz d)) -> (Z.abs a <= 2 ^ 20 /\ Z.abs b <= 2 ^ 20 /\ Z.abs c <= 2 ^ 20 /\ Z.abs d <= 2 ^ 20)%Z -> bound v).
  { intros [v0 v1 v2 v3] a b c d E (Ha & Hb & Hc & Hd). unfold map4 in E. cbn [l0 l1 l2 l3] in E. injection E as E0 E1 E2 E3. apply B2SF_inj in E0, E1, E2, E3. subst. repeat (apply Forall_cons; [apply J; assumption|]). apply Forall_nil. }
  intros b p l v. split; [exact near_third|]. split; [|split; [|split; [apply fz_ok; lia|split]]].
  - repeat split; repeat (apply Forall_cons; [apply J; lia|]); apply Forall_nil.
  - split; [|split; [|split; [|split]]].
    + apply (I _ 11 2 2 1)%Z; [destruct B as [[|]]; vm_compute; reflexivity|lia].
    + apply (I _ 2 (-2) (-6) (-6))%Z; [destruct B as [[|]]; vm_compute; reflexivity|lia].
    + apply (I _ 0 2 2 1)%Z; [vm_compute; reflexivity|lia].
    + apply (I _ 0 3 (-5) 4)%Z; [vm_compute; reflexivity|lia].
    + apply (I _ 0 2 2 1)%Z; [destruct B as [[|]]; vm_compute; reflexivity|lia].
  - unfold brought, third_e, swung, moved. cbv -[Rplus Rmult Ropp Rminus IZR Rinv]. apply vec_eq; cbn [vx vy vz]; field.
  - unfold third_e, moved. cbv -[Rplus Rmult Ropp Rminus IZR Rinv]. apply vec_eq; cbn [vx vy vz]; field.
Qed.
