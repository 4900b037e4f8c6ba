(** Property C75: from the constructors to the moved point, in binary32. *)
From Coq Require Import ZArith Reals List Bool Lra Lia Psatz.
From Flocq Require Import Core BinarySingleNaN.
From Verif Require Import AlgTac SpecMass SpecGeom Float32 FloatFacts ExprSyntax FloatErr FloatMass FloatAbs FloatApx FloatNR FloatNorm FloatIdeal FloatLibm Props11 Props21 Props22 Props23 Props24.
Import ListNotations.
Local Open Scope R_scope.

(** ** The exact motions as products of four coefficients *)
Definition zero4 : m128 R := mk4 0 0 0 0.
Definition lift (x : vec) : m128 R := mk4 0 (vx x) (vy x) (vz x).
Definition rev4 (p : m128 R) : m128 R := mk4 (l0 p) (- l1 p) (- l2 p) (- l3 p).
Definition vpart (p : m128 R) : vec := V (l1 p) (l2 p) (l3 p).
Definition turn (p : m128 R) (x : vec) : vec := vpart (qm (qm p (lift x)) (rev4 p)).
Lemma vpart_le p : vlen (vpart p) <= n4 p.
Proof.
  unfold vlen, n4. apply sqrt_le_1_alt. unfold vdot, vpart, q4. cbn [vx vy vz]. pose proof (Rle_0_sqr (l0 p)) as H. unfold Rsqr in H. lra.
Qed.
Lemma lift_n4 x : n4 (lift x) = vlen x.
Proof. rewrite vlen_n4. reflexivity. Qed.
Lemma rev4_n4 p : n4 (rev4 p) = n4 p.
Proof. unfold n4, q4, rev4. cbn [l0 l1 l2 l3]. f_equal. ring. Qed.
Lemma image_turn p1 p2 x : motor_image p1 p2 1 x = vsub (turn p1 x) (vscale 2 (vpart (qm p1 p2))).
Proof.
  destruct p1 as [a b c d], p2 as [e f g h], x as [x y z]. unfold motor_image, turn, vpart, qm, lift, rev4, vsub, vscale. cbn [l0 l1 l2 l3 vx vy vz].
  apply vec_eq; cbv -[Rplus Rmult Ropp Rminus IZR]; ring.
Qed.
Lemma image_rotor p1 w x : motor_image p1 zero4 w x = turn p1 x.
Proof.
  destruct p1 as [a b c d], x as [x y z]. unfold motor_image, zero4, turn, vpart, qm, lift, rev4, vsub, vscale. cbn [l0 l1 l2 l3 vx vy vz].
  apply vec_eq; cbv -[Rplus Rmult Ropp Rminus IZR]; ring.
Qed.
Lemma lift_sub x y : lift (vsub x y) = sub4 (lift x) (lift y).
Proof. unfold lift, sub4, vsub. cbn [vx vy vz l0 l1 l2 l3]. f_equal; ring. Qed.
Lemma rev4_sub p q : rev4 (sub4 p q) = sub4 (rev4 p) (rev4 q).
Proof. unfold rev4, sub4. cbn [l0 l1 l2 l3]. f_equal; ring. Qed.
Lemma vpart_sub p q : vpart (sub4 p q) = vsub (vpart p) (vpart q).
Proof. reflexivity. Qed.
Lemma turn_len p x : vlen (turn p x) <= n4 p * n4 p * vlen x.
Proof. unfold turn. eapply Rle_trans; [apply vpart_le|]. rewrite !qm_n4, rev4_n4, lift_n4. apply Req_le. ring. Qed.
Lemma turn_sub p x y : vsub (turn p x) (turn p y) = turn p (vsub x y).
Proof. unfold turn. rewrite lift_sub, <- qm_sub_r, <- qm_sub_l, vpart_sub. reflexivity. Qed.
Lemma turn_diff p e x : vlen (vsub (turn p x) (turn e x)) <= n4 (sub4 p e) * (n4 p + n4 e) * vlen x.
Proof.
  unfold turn. rewrite <- vpart_sub. eapply Rle_trans; [apply vpart_le|].
  eapply Rle_trans; [apply (n4_via _ (qm (qm e (lift x)) (rev4 p)))|]. rewrite !qm_sub_l, !qm_sub_r, <- rev4_sub, !qm_n4, !rev4_n4, lift_n4. apply Req_le. ring.
Qed.
Lemma vlen_via x y z : vlen (vsub x z) <= vlen (vsub x y) + vlen (vsub y z).
Proof. eapply Rle_trans; [|apply vlen_tri]. apply Req_le. f_equal. unfold vsub, vadd. cbn [vx vy vz]. apply vec_eq; cbn [vx vy vz]; ring. Qed.
Lemma vlen_scale k x : vlen (vscale k x) = Rabs k * vlen x.
Proof.
  rewrite !vlen_n4. rewrite <- n4_scale_abs. f_equal. unfold scale4, vscale, map4. cbn [vx vy vz l0 l1 l2 l3]. f_equal; ring.
Qed.
Lemma vlen_sym x y : vlen (vsub x y) = vlen (vsub y x).
Proof. unfold vlen. f_equal. unfold vdot, vsub. cbn [vx vy vz]. ring. Qed.
(** the exact rotor turns about its axis, by its angle, in the negative sense (C10) *)
Lemma exact_turn ang a x : l0 a = 0 -> 0 < n4 a -> turn (exact_rotor ang a) x = rodrigues (vunit (vpart a)) (- ang) x.
Proof.
  intros Z P. assert (N : vlen (vpart a) = n4 a).
  { rewrite vlen_n4. unfold n4. f_equal. unfold q4, vpart. cbn [vx vy vz l0 l1 l2 l3]. rewrite Z. ring. }
  unfold vunit. rewrite N. pose proof (n4_sq a) as S. unfold q4 in S. rewrite Z in S.
  set (k := vscale (/ n4 a) (vpart a)).
  assert (E : exact_rotor ang a = mk4 (cos (ang / 2)) (sin (ang / 2) * vx k) (sin (ang / 2) * vy k) (sin (ang / 2) * vz k)).
  { unfold exact_rotor, k, vscale, vpart. cbn [vx vy vz]. f_equal; field; lra. }
  rewrite E.
  assert (K : vx k * vx k + vy k * vy k + vz k * vz k = 1).
  { unfold k, vscale, vpart. cbn [vx vy vz]. transitivity ((0 * 0 + l1 a * l1 a + l2 a * l2 a + l3 a * l3 a) / (n4 a * n4 a)); [field; lra|]. rewrite <- S. field. lra. }
  clearbody k. clear - K. assert (D : ang = 2 * (ang / 2)) by field. set (h := ang / 2) in *.
  unfold rodrigues. rewrite cos_neg, sin_neg. rewrite D. rewrite sin_2a.
  assert (C1 : 1 - cos (2 * h) = 2 * (sin h * sin h)) by (rewrite cos_2a_sin; ring).
  rewrite C1, cos_2a. generalize (sin h) (cos h). intros s c. destruct k as [k1 k2 k3], x as [x y z]. cbn [vx vy vz] in K.
  assert (K3 : k3 * k3 = 1 - k1 * k1 - k2 * k2) by lra.
  unfold vdot, turn, vpart, qm, lift, rev4. apply vec_eq; cbn [vx vy vz l0 l1 l2 l3 vadd vscale vcross vdot].
  - transitivity (c * c * x - s * s * x * (k1 * k1 + k2 * k2 + k3 * k3) + 2 * s * c * (k3 * y - k2 * z) + 2 * s * s * k1 * (k1 * x + k2 * y + k3 * z)); [ring|]. rewrite K. ring.
  - transitivity (c * c * y - s * s * y * (k1 * k1 + k2 * k2 + k3 * k3) + 2 * s * c * (k1 * z - k3 * x) + 2 * s * s * k2 * (k1 * x + k2 * y + k3 * z)); [ring|]. rewrite K. ring.
  - transitivity (c * c * z - s * s * z * (k1 * k1 + k2 * k2 + k3 * k3) + 2 * s * c * (k2 * x - k1 * y) + 2 * s * s * k3 * (k1 * x + k2 * y + k3 * z)); [ring|]. rewrite K. ring.
Qed.
(** ** The product of a rotor and a translator *)
Definition low2 (m : mv) : m128 R := mk4 (m (Bl true true true true)) (m (Bl true true false false)) (m (Bl true false true false)) (m (Bl true false false true)).
Definition rt (p t : m128 R) : m128 R := low2 (gp (mv_rotor (mkrotor p)) (mv_translator (mktranslator t))).
Definition tr (t p : m128 R) : m128 R := low2 (gp (mv_translator (mktranslator t)) (mv_rotor (mkrotor p))).
Lemma image_rt p t x : l0 t = 0 -> motor_image p (rt p t) 1 x = turn p (vsub x (vscale 2 (vpart t))).
Proof.
  destruct p as [a b c d], t as [e f g h], x as [x y z]. cbn [l0]. intros ->. unfold motor_image, turn, vpart, qm, lift, rev4, vsub, vscale. cbn [l0 l1 l2 l3 vx vy vz].
  apply vec_eq; cbv -[Rplus Rmult Ropp Rminus IZR]; ring.
Qed.
Lemma image_tr p t x : l0 t = 0 -> motor_image p (tr t p) 1 x = vsub (turn p x) (vscale (2 * q4 p p) (vpart t)).
Proof.
  destruct p as [a b c d], t as [e f g h], x as [x y z]. cbn [l0]. intros ->. unfold motor_image, turn, vpart, qm, lift, rev4, vsub, vscale, q4. cbn [l0 l1 l2 l3 vx vy vz].
  apply vec_eq; cbv -[Rplus Rmult Ropp Rminus IZR]; ring.
Qed.
Lemma rt_mass p t i : l0 t = 0 -> In i [Bl true true true true; Bl true true false false; Bl true false true false; Bl true false false true] ->
  gp_mass (mv_rotor (mkrotor p)) (mv_translator (mktranslator t)) i <= n4 p * n4 t /\
  gp_mass (mv_translator (mktranslator t)) (mv_rotor (mkrotor p)) i <= n4 p * n4 t.
Proof.
  destruct p as [a0 a1 a2 a3], t as [b0 b1 b2 b3]. cbn [l0]. intros -> Hi.
  destruct (n4_perm 0 b1 b2 b3) as (P1 & P2 & P3).
  pose proof (mass_bound a0 a1 a2 a3 0 b1 b2 b3) as M0. pose proof (mass_bound a0 a1 a2 a3 b1 0 b3 b2) as M1.
  pose proof (mass_bound a0 a1 a2 a3 b2 b3 0 b1) as M2. pose proof (mass_bound a0 a1 a2 a3 b3 b2 b1 0) as M3.
  rewrite P1 in M1. rewrite P2 in M2. rewrite P3 in M3. rewrite !Rabs_R0 in *.
  assert (Z : 0 <= n4 (mk4 a0 a1 a2 a3) * n4 (mk4 0 b1 b2 b3)) by (apply Rmult_le_pos; apply n4_pos).
  set (m := _ * _) in Z. fold m in M0, M1, M2, M3 |- *. clearbody m.
  destruct Hi as [<-|[<-|[<-|[<-|[]]]]]; cbv -[Rplus Rmult Ropp Rminus Rabs IZR Rle]; rewrite ?Rabs_Ropp, ?Rabs_R0, ?Rabs_R1, ?Rplus_0_l, ?Rabs_R0; split; lra.
Qed.
Lemma image_low p1 c c' x : vlen (vsub (motor_image p1 c 1 x) (motor_image p1 c' 1 x)) <= 2 * (n4 p1 * n4 (sub4 c c')).
Proof.
  rewrite !image_turn. set (a := vpart (qm p1 c)). set (b := vpart (qm p1 c')).
  assert (E : vlen (vsub (vsub (turn p1 x) (vscale 2 a)) (vsub (turn p1 x) (vscale 2 b))) = 2 * vlen (vsub a b)).
  { rewrite vlen_sym. replace (2 * vlen (vsub a b)) with (Rabs 2 * vlen (vsub a b)) by (rewrite Rabs_pos_eq; lra). rewrite <- vlen_scale.
    f_equal. unfold vsub, vscale. apply vec_eq; cbn [vx vy vz]; ring. }
  rewrite E. apply Rmult_le_compat_l; [lra|]. unfold a, b. rewrite <- vpart_sub. eapply Rle_trans; [apply vpart_le|]. rewrite qm_sub_r, qm_n4. lra.
Qed.

(** ** The stored translator *)
Definition dirv (x y z : f32) : vec := V (val x) (val y) (val z).
Lemma axis_len x y z : n4 (axis x y z) = vlen (dirv x y z).
Proof. rewrite vlen_n4. reflexivity. Qed.
Lemma mul_zero a b : fin a -> fin b -> val b = 0 -> fin (fmul a b) /\ val (fmul a b) = 0.
Proof.
  intros Fa Fb Z. destruct (mul_ok a b Fa Fb) as [F V]; [rewrite Z, Rmult_0_r, Rabs_R0; apply bpow_ge_0|].
  split; [exact F|]. rewrite V, Z, Rmult_0_r. apply round_0. typeclasses eauto.
Qed.
Lemma mul_zero_l a b : fin a -> fin b -> val a = 0 -> fin (fmul a b) /\ val (fmul a b) = 0.
Proof.
  intros Fa Fb Z. destruct (mul_ok a b Fa Fb) as [F V]; [rewrite Z, Rmult_0_l, Rabs_R0; apply bpow_ge_0|].
  split; [exact F|]. rewrite V, Z, Rmult_0_l. apply round_0. typeclasses eauto.
Qed.
Lemma translator_lane0 M d x y z : let FL := Flo_f32 M in fin d -> Rabs (val d) <= 2 ^ 20 -> val (l0 (translator_p2 (translator_ctor d x y z))) = 0.
Proof.
  intros FL Fd Ld. assert (Vh : val (fopp (f32_of 1 (-1))) = - / 2) by (vm_compute; lra).
  change (val (fmul (fmul (fmul (fopp (f32_of 1 (-1))) d) (f32_of 0 0)) (f32_of 0 0)) = 0).
  assert (F0 : fin (f32_of 0 0)) by reflexivity. assert (V0 : val (f32_of 0 0) = 0) by reflexivity.
  assert (Fh : fin (fopp (f32_of 1 (-1)))) by reflexivity.
  destruct (mul_ok (fopp (f32_of 1 (-1))) d Fh Fd) as [Fm _].
  { rewrite Vh, Rabs_mult, Rabs_Ropp, (Rabs_pos_eq (/ 2)) by lra. apply Rle_trans with (bpow radix2 20); [|apply bpow_le; lia].
    assert (P : bpow radix2 20 = 2 ^ 20) by (cbn; ring). rewrite P. pose proof (Rabs_pos (val d)). lra. }
  set (h := fmul (fopp (f32_of 1 (-1))) d) in *. clearbody h.
  destruct (mul_zero h _ Fm F0 V0) as [F1 _]. exact (proj2 (mul_zero _ _ F1 F0 V0)).
Qed.
Lemma exact_translator_len d a : 0 < n4 a -> n4 (exact_translator d a) = Rabs d / 2.
Proof.
  intro P. unfold exact_translator. rewrite n4_scale_abs. unfold Rdiv. rewrite !Rabs_mult, Rabs_Ropp, (Rabs_pos_eq (/ 2)) by lra.
  rewrite (Rabs_pos_eq (/ n4 a)) by (apply Rlt_le, Rinv_0_lt_compat, P). field. lra.
Qed.
Lemma translator_shift d x y z p : vsub p (vscale 2 (vpart (exact_translator d (axis x y z)))) = vadd p (vscale d (vunit (dirv x y z))).
Proof.
  unfold vunit. rewrite <- axis_len. unfold exact_translator. set (n := n4 _). unfold vsub, vadd, vscale, vpart, scale4, axis, dirv, map4. cbn [l0 l1 l2 l3 vx vy vz].
  unfold Rdiv. generalize (/ n). intro i. apply vec_eq; cbn [vx vy vz]; field.
Qed.
Lemma tv_bounded (t : translator f32) hi : (0 <= hi)%Z -> Forall fin (reg_list (translator_p2 t)) -> n4 (tv t) <= bpow radix2 hi -> Forall (bounded hi) (coefs (k := KTranslator) t).
Proof. intros H F N. exact (rv_bounded (mkrotor (translator_p2 t)) hi H F N). Qed.
(** everything needed about the stored translator *)
Lemma translator_facts M d x y z : let FL := Flo_f32 M in fin d -> Rabs (val d) <= 2 ^ 20 -> fin x -> fin y -> fin z -> / 2 ^ 20 <= vlen (dirv x y z) <= 2 ^ 20 ->
  let t := translator_ctor d x y z in
  Forall (bounded 20) (coefs (k := KTranslator) t) /\ l0 (tv t) = 0 /\
  n4 (sub4 (tv t) (exact_translator (val d) (axis x y z))) <= 7 / 2 * u * Rabs (val d) + bpow radix2 (-100) /\
  n4 (tv t) <= (1 + 7 * u) * (Rabs (val d) / 2) + bpow radix2 (-100).
Proof.
  intros FL Fd Ld Fx Fy Fz L t. rewrite <- axis_len in L.
  assert (P0 : 0 < / 2 ^ 20) by (apply Rinv_0_lt_compat, pow_lt; lra). assert (Pn : 0 < n4 (axis x y z)) by lra.
  assert (L40 : Rabs (val d) <= 2 ^ 40) by (eapply Rle_trans; [exact Ld|]; apply Rle_pow; [lra|lia]).
  destruct (C73_translator M d x y z Fd L40 Fx Fy Fz L) as [F E]. fold FL in F, E. fold t in F, E. rewrite u_pow in E.
  assert (P100 : bpow radix2 (-100) = / 2 ^ 100) by (cbn; f_equal; ring). rewrite <- P100 in E. pose proof (bpow_gt_0 radix2 (-100)) as B0.
  pose proof (Rabs_pos (val d)) as D0. pose proof u_small as U.
  assert (N : n4 (tv t) <= (1 + 7 * u) * (Rabs (val d) / 2) + bpow radix2 (-100)).
  { eapply Rle_trans; [apply (n4_tri _ (exact_translator (val d) (axis x y z)))|]. rewrite exact_translator_len by exact Pn. lra. }
  split; [|split; [|split]].
  - apply tv_bounded; [lia|exact F|]. eapply Rle_trans; [exact N|].
    assert (P : bpow radix2 20 = 1048576) by (cbn; ring). rewrite P. assert (bpow radix2 (-100) <= bpow radix2 0) by (apply bpow_le; lia). change (bpow radix2 0) with 1 in *.
    assert (Q : 2 ^ 20 = 1048576) by ring. rewrite Q in Ld. nra.
  - exact (translator_lane0 M d x y z Fd Ld).
  - lra.
  - exact N.
Qed.
Lemma rotor_facts M : libm M -> let FL := Flo_f32 M in forall ang x y z : f32,
  fin ang -> Rabs (val ang) <= 2 ^ 20 -> fin x -> fin y -> fin z -> / 2 ^ 20 <= vlen (dirv x y z) <= 2 ^ 20 ->
  let r := rotor_ctor ang x y z in let e := exact_rotor (val ang) (axis x y z) in
  near_unit r /\ n4 e = 1 /\ n4 (sub4 (rv r) e) <= 10 * u /\ (forall v, turn e v = rodrigues (vunit (dirv x y z)) (- val ang) v) /\
  (forall v, vlen (vsub (turn (rv r) v) (rodrigues (vunit (dirv x y z)) (- val ang) v)) <= 201 / 10 * u * vlen v).
Proof.
  intros LM FL ang x y z Fa La Fx Fy Fz L r e. rewrite <- axis_len in L. pose proof u_small as U.
  assert (P0 : 0 < / 2 ^ 20) by (apply Rinv_0_lt_compat, pow_lt; lra). assert (Pn : 0 < n4 (axis x y z)) by lra.
  destruct (C73_rotor M LM ang x y z Fa La Fx Fy Fz L) as [E N]. fold FL in E, N. fold r in E, N. fold e in E. rewrite u_pow in E.
  assert (NE : n4 e = 1) by (apply exact_rotor_unit; [reflexivity|exact Pn]).
  assert (T : forall v, turn e v = rodrigues (vunit (dirv x y z)) (- val ang) v) by (intro v; apply (exact_turn (val ang) (axis x y z) v eq_refl Pn)).
  repeat split; try assumption; try apply N. intro v. rewrite <- T. eapply Rle_trans; [apply turn_diff|]. rewrite NE.
  destruct (near_n4 r N) as [_ Nr]. pose proof (vlen_pos v) as V0. apply Rmult_le_compat_r; [exact V0|]. pose proof (n4_pos (sub4 (rv r) e)) as S0.
  apply Rle_trans with (10 * u * (2 + 13 * u)); [apply Rmult_le_compat; try lra; pose proof (n4_pos (rv r)); lra|]. nra.
Qed.
(** ** The weight of the moved point *)
Definition wt (p : point f32) : R := val (l0 (point_p3 p)).
Lemma weight_exact p1 p2 w x : sandwich (mv_motor (mkmotor p1 p2)) (mv_point (mkpoint (mk4 w (vx x) (vy x) (vz x)))) (Bl false true true true) = q4 p1 p1 * w.
Proof. destruct p1 as [a b c d], p2 as [e f g h], x as [x y z]. unfold q4. cbv -[Rplus Rmult Ropp Rminus IZR]. ring. Qed.
Lemma weight_mass p1 p2 w x : sandwich_mass (mv_motor (mkmotor p1 p2)) (mv_point (mkpoint (mk4 w (vx x) (vy x) (vz x)))) (Bl false true true true) = q4 p1 p1 * Rabs w.
Proof.
  destruct p1 as [a b c d], p2 as [e f g h], x as [x y z]. cbn [vx vy vz].
  assert (Q : forall x, x * x = Rabs x * Rabs x) by (intro t; rewrite <- Rabs_mult, Rabs_pos_eq by apply Rle_0_sqr; reflexivity).
  assert (N : q4 (mk4 a b c d) (mk4 a b c d) = Rabs a * Rabs a + Rabs b * Rabs b + Rabs c * Rabs c + Rabs d * Rabs d) by (unfold q4; cbn [l0 l1 l2 l3]; rewrite <- !Q; reflexivity).
  rewrite N. clear N. cbv -[Rplus Rmult Ropp Rminus Rabs IZR]. rewrite ?Rplus_0_l, ?Rplus_0_r, ?Rabs_Ropp, ?Rabs_R0. ring.
Qed.
Lemma weights (B : Build) : 
  (forall (r : rotor f32) (p : point f32), near_unit r -> Forall (bounded 20) (coefs (k := KPoint) p) -> Rabs (wt (rotor_on_point r p) - wt p) <= 43 * u * Rabs (wt p) + bpow radix2 (-122)) /\
  (forall (t : translator f32) (p : point f32), l0 (tv t) = 0 -> Forall (bounded 20) (coefs (k := KTranslator) t) -> Forall (bounded 20) (coefs (k := KPoint) p) ->
    Rabs (wt (translator_on_point t p) - wt p) <= 4 * u * Rabs (wt p) + bpow radix2 (-122)) /\
  (forall (m : motor f32) (p : point f32), near_unit (mkrotor (motor_p1 m)) -> Forall (bounded 20) (coefs (k := KMotor) m) -> Forall (bounded 20) (coefs (k := KPoint) p) ->
    Rabs (wt (motor_on_point m p) - wt p) <= 32 * u * Rabs (wt p) + bpow radix2 (-122)).
Proof.
  pose proof u_small as U.
  assert (G : forall c k q w y, 0 <= k <= 20 -> Rabs (q - 1) <= c * u -> 0 <= c <= 24 -> Rabs (y - q * w) <= k * (1 + / 100000) * u * (q * Rabs w) + bpow radix2 (-122) -> Rabs (y - w) <= (c + k + 1) * u * Rabs w + bpow radix2 (-122)).
  { intros c k q w y K Q C E. replace (y - w) with ((y - q * w) + (q - 1) * w) by ring. eapply Rle_trans; [apply Rabs_triang|]. rewrite (Rabs_mult (q - 1)).
    pose proof (Rabs_pos w) as W. assert (Rabs (q - 1) * Rabs w <= c * u * Rabs w) by (apply Rmult_le_compat_r; lra).
    assert (k * (1 + / 100000) * u * (q * Rabs w) <= (k + 1) * u * Rabs w); [|lra]. rewrite <- Rmult_assoc. apply Rmult_le_compat_r; [exact W|].
    apply Rabs_le_inv in Q. assert (q <= 1 + 24 * u) by nra. assert (q <= 1001 / 1000) by lra.
    apply Rle_trans with (k * (1 + / 100000) * u * (1001 / 1000)); [apply Rmult_le_compat_l; [|lra]; repeat apply Rmult_le_pos; lra|]. nra. }
  split; [|split].
  - intros r p N Hp. destruct (near_n4 r N) as [_ Nr]. destruct N as [Fr Q].
    assert (Hr : Forall (bounded 20) (coefs (k := KRotor) r)) by (apply rv_bounded; [lia|exact Fr|]; eapply Rle_trans; [exact Nr|]; cbn; lra).
    destruct (C41_any_sandwich_20 B) as (_ & _ & _ & A & _). destruct (A r p Hr Hp I I) as [_ E]. clear A.
    specialize (E (Bl false true true true)). set (Y := rotor_on_point r p) in *. clearbody Y. destruct Y as [[y0 y1 y2 y3]]. rewrite u_pow in *.
    set (P := mv_point (mkpoint (mk4 (wt p) (vx (pos p)) (vy (pos p)) (vz (pos p))))). set (p1 := rv r) in *.
    assert (Q1 : forall i, mv_rotor (mkrotor p1) i = mv_motor (mkmotor p1 zero4) i) by apply rotor_as_motor.
    assert (Q2 : forall i, sandwich (mv_rotor (mkrotor p1)) P i = sandwich (mv_motor (mkmotor p1 zero4)) P i).
    { intro i. unfold sandwich, gp, rev. apply sum16_ext. intro j. rewrite Q1. do 2 f_equal. apply sum16_ext. intro l. rewrite Q1. reflexivity. }
    assert (Q3 : forall i, sandwich_mass (mv_rotor (mkrotor p1)) P i = sandwich_mass (mv_motor (mkmotor p1 zero4)) P i).
    { intro i. unfold sandwich_mass, mass, absmv. apply sum16_ext. intro j. rewrite Q1. do 2 f_equal. apply sum16_ext. intro l. rewrite Q1. reflexivity. }
    assert (E' : Rabs (wt (mkpoint (mk4 y0 y1 y2 y3)) - sandwich (mv_rotor (mkrotor p1)) P (Bl false true true true)) <=
      18 * (1 + / 100000) * u * sandwich_mass (mv_rotor (mkrotor p1)) P (Bl false true true true) + bpow radix2 (-122)) by exact E.
    rewrite Q2, Q3 in E'. unfold P in E'. rewrite weight_exact, weight_mass in E'. replace 43 with (24 + 18 + 1) by lra. eapply G; [lra|exact Q|lra|exact E'].
  - intros t p Z Ht Hp. destruct (C41_any_sandwich_20 B) as (_ & _ & _ & _ & _ & _ & A & _). destruct (A t p Ht Hp Z I) as [_ E]. clear A.
    specialize (E (Bl false true true true)). set (Y := translator_on_point t p) in *. clearbody Y. destruct Y as [[y0 y1 y2 y3]]. rewrite u_pow in *.
    set (p1 := mk4 1 0 0 0). set (P := mv_point (mkpoint (mk4 (wt p) (vx (pos p)) (vy (pos p)) (vz (pos p))))).
    assert (E' : Rabs (wt (mkpoint (mk4 y0 y1 y2 y3)) - sandwich (mv_motor (mkmotor p1 (tv t))) P (Bl false true true true)) <=
      3 * (1 + / 100000) * u * sandwich_mass (mv_motor (mkmotor p1 (tv t))) P (Bl false true true true) + bpow radix2 (-122)) by exact E.
    unfold P in E'. rewrite weight_exact, weight_mass in E'. replace 4 with (0 + 3 + 1) by lra. eapply G; [lra| |lra|exact E'].
    unfold p1, q4. cbn [l0 l1 l2 l3]. replace (_ - 1) with 0 by ring. rewrite Rabs_R0. lra.
  - intros m p [_ Q] Hm Hp. destruct (C41_any_sandwich_20 B) as (_ & _ & _ & _ & _ & _ & _ & _ & _ & A & _). destruct (A m p Hm Hp I I) as [_ E]. clear A.
    specialize (E (Bl false true true true)). set (Y := motor_on_point m p) in *. clearbody Y. destruct Y as [[y0 y1 y2 y3]]. rewrite u_pow in *.
    change (rv (mkrotor (motor_p1 m))) with (map4 val (motor_p1 m)) in Q. set (p1 := map4 val (motor_p1 m)) in *. set (p2 := map4 val (motor_p2 m)) in *. set (P := mv_point (mkpoint (mk4 (wt p) (vx (pos p)) (vy (pos p)) (vz (pos p))))).
    assert (E' : Rabs (wt (mkpoint (mk4 y0 y1 y2 y3)) - sandwich (mv_motor (mkmotor p1 p2)) P (Bl false true true true)) <=
      7 * (1 + / 100000) * u * sandwich_mass (mv_motor (mkmotor p1 p2)) P (Bl false true true true) + bpow radix2 (-122)) by exact E.
    unfold P in E'. rewrite weight_exact, weight_mass in E'. replace 32 with (24 + 7 + 1) by lra. eapply G; [lra|exact Q|lra|exact E'].
Qed.
(** ** The stored product of a rotor and a translator *)
Lemma rt_len p t : l0 t = 0 -> n4 (rt p t) = n4 p * n4 t /\ n4 (tr t p) = n4 p * n4 t.
Proof.
  intro Z. unfold n4. rewrite <- !sqrt_mult by apply q4_pos.
  destruct p as [a b c d], t as [e f g h]. cbn [l0] in Z. subst e. split; f_equal; cbv -[Rplus Rmult Ropp Rminus IZR]; ring.
Qed.
Lemma low2_le (m : m128 R) s t k b : 0 <= b -> (forall i, In i [Bl true true true true; Bl true true false false; Bl true false true false; Bl true false false true] ->
   Rabs (mv_motor (mkmotor k m) i - s i) <= b) -> t = low2 s -> n4 (sub4 m t) <= 2 * b.
Proof.
  intros B0 H ->.
  apply n4_all; [exact B0| | | |]; unfold sub4, low2; cbn [l0 l1 l2 l3].
  - eapply Rle_trans; [|apply (H (Bl true true true true)); cbn; tauto]. apply Req_le. f_equal. destruct k, m. cbv -[Rplus Rmult Ropp Rminus IZR]. ring.
  - eapply Rle_trans; [|apply (H (Bl true true false false)); cbn; tauto]. apply Req_le. f_equal. destruct k, m. cbv -[Rplus Rmult Ropp Rminus IZR]. ring.
  - eapply Rle_trans; [|apply (H (Bl true false true false)); cbn; tauto]. apply Req_le. f_equal. destruct k, m. cbv -[Rplus Rmult Ropp Rminus IZR]. ring.
  - eapply Rle_trans; [|apply (H (Bl true false false true)); cbn; tauto]. apply Req_le. f_equal. destruct k, m. cbv -[Rplus Rmult Ropp Rminus IZR]. ring.
Qed.
Lemma product_stored (B : Build) (r : rotor f32) (t : translator f32) : near_unit r -> Forall (bounded 20) (coefs (k := KTranslator) t) -> l0 (tv t) = 0 -> n4 (tv t) <= 2 ^ 19 * (11 / 10) ->
  (let m := rotor_mul_translator r t in Forall (bounded 20) (coefs (k := KMotor) m) /\ motor_p1 m = rotor_p1 r /\
     n4 (sub4 (map4 val (motor_p2 m)) (rt (rv r) (tv t))) <= 601 / 100 * u * n4 (tv t) + bpow radix2 (-143)) /\
  (let m := translator_mul_rotor t r in Forall (bounded 20) (coefs (k := KMotor) m) /\ motor_p1 m = rotor_p1 r /\
     n4 (sub4 (map4 val (motor_p2 m)) (tr (tv t) (rv r))) <= 601 / 100 * u * n4 (tv t) + bpow radix2 (-143)).
Proof.
  intros N Ht Z Lt. pose proof u_small as U. destruct (near_n4 r N) as [_ Nr]. destruct N as [Fr _].
  assert (Hr : Forall (bounded 20) (coefs (k := KRotor) r)) by (apply rv_bounded; [lia|exact Fr|]; eapply Rle_trans; [exact Nr|]; cbn; lra).
  assert (up : forall x, bounded 20 x -> bounded 60 x) by (intros x [A C]; split; [exact A|]; eapply Rle_trans; [exact C|]; apply bpow_le; lia).
  pose proof (Forall_impl _ up Ht) as Ht'. pose proof (Forall_impl _ up Hr) as Hr'.
  pose proof (n4_pos (tv t)) as T0. pose proof (n4_pos (rv r)) as R0.
  set (q := n4 (rv r) * n4 (tv t)). assert (Q : 0 <= q <= (1 + 13 * u) * n4 (tv t)) by (split; [apply Rmult_le_pos; assumption|apply Rmult_le_compat_r; assumption]).
  set (b := 3 * (1 + / 100000) * u * q + bpow radix2 (-144)). assert (B1 : 0 < bpow radix2 (-144)) by apply bpow_gt_0.
  assert (uq : 0 <= u * q) by (apply Rmult_le_pos; lra). assert (b0 : 0 <= b) by (unfold b; lra).
  assert (b2 : 2 * b <= 601 / 100 * u * n4 (tv t) + bpow radix2 (-143)).
  { unfold b. assert (E : bpow radix2 (-143) = 2 * bpow radix2 (-144)) by (change (-143)%Z with (1 + -144)%Z; rewrite bpow_plus; reflexivity). rewrite E.
    assert (u * q <= u * ((1 + 13 * u) * n4 (tv t))) by (apply Rmult_le_compat_l; lra). assert (0 <= u * n4 (tv t)) by (apply Rmult_le_pos; lra). nra. }
  assert (G : forall m : motor f32, Forall fin (coefs (k := KMotor) m) -> motor_p1 m = rotor_p1 r -> forall s, n4 s = q -> n4 (sub4 (map4 val (motor_p2 m)) s) <= 2 * b -> Forall (bounded 20) (coefs (k := KMotor) m)).
  { intros m F E s Es Hs. apply Forall_app. split.
    - rewrite E. exact Hr.
    - apply (tv_bounded (mktranslator (motor_p2 m))); [lia|apply Forall_app in F; apply F|].
      eapply Rle_trans; [apply (n4_tri _ s)|]. rewrite Es. eapply Rle_trans; [apply Rplus_le_compat_l; exact Hs|].
      assert (P : bpow radix2 20 = 1048576) by (cbn; ring). rewrite P. assert (bpow radix2 (-143) <= bpow radix2 0) by (apply bpow_le; lia). change (bpow radix2 0) with 1 in *. nra. }
  destruct (C41_any_geometric_product_partial B) as (_ & _ & _ & _ & _ & _ & _ & A1 & A2 & _).
  split; cbv zeta.
  - destruct (A1 r t Hr' Ht' I Z) as [F E]. rewrite u_pow in E.
    assert (K : n4 (sub4 (map4 val (motor_p2 (rotor_mul_translator r t))) (rt (rv r) (tv t))) <= 2 * b).
    { apply (low2_le _ (gp (mv_rotor (mkrotor (rv r))) (mv_translator (mktranslator (tv t)))) _ (map4 val (motor_p1 (rotor_mul_translator r t)))); [exact b0| |reflexivity].
      intros i Hi. eapply Rle_trans; [exact (E i)|]. unfold b. apply Rplus_le_compat_r, Rmult_le_compat_l; [lra|]. exact (proj1 (rt_mass (rv r) (tv t) i Z Hi)). }
    split; [|split; [reflexivity|lra]]. apply (G _ F eq_refl (rt (rv r) (tv t))); [apply rt_len, Z|exact K].
  - destruct (A2 t r Ht' Hr' Z I) as [F E]. rewrite u_pow in E.
    assert (K : n4 (sub4 (map4 val (motor_p2 (translator_mul_rotor t r))) (tr (tv t) (rv r))) <= 2 * b).
    { apply (low2_le _ (gp (mv_translator (mktranslator (tv t))) (mv_rotor (mkrotor (rv r)))) _ (map4 val (motor_p1 (translator_mul_rotor t r)))); [exact b0| |reflexivity].
      intros i Hi. eapply Rle_trans; [exact (E i)|]. unfold b. apply Rplus_le_compat_r, Rmult_le_compat_l; [lra|]. exact (proj2 (rt_mass (rv r) (tv t) i Z Hi)). }
    split; [|split; [reflexivity|lra]]. apply (G _ F eq_refl (tr (tv t) (rv r))); [apply rt_len, Z|exact K].
Qed.

(** ** The motions as written by a user *)
Definition turned (ang x y z : f32) : vec -> vec := rodrigues (vunit (dirv x y z)) (- val ang).
Definition shifted (d x y z : f32) (p : vec) : vec := vadd p (vscale (val d) (vunit (dirv x y z))).
(** an angle or a distance, and a direction, that the bounds below are stated for *)
Definition usable (s x y z : f32) : Prop := fin s /\ Rabs (val s) <= 2 ^ 20 /\ fin x /\ fin y /\ fin z /\ / 2 ^ 20 <= vlen (dirv x y z) <= 2 ^ 20.

Lemma near_of (r : rotor f32) : near_unit r -> Rabs (q4 (rv r) (rv r) - 1) <= 24 * u.
Proof. intros [_ H]. rewrite u_pow in H. exact H. Qed.
Theorem C75_rotate : forall (B : Build) (M : machine), libm M -> let FL := Flo_f32 M in forall (ang x y z : f32) (p : point f32),
  usable ang x y z -> Forall (bounded 20) (coefs (k := KPoint) p) ->
  let q := rotor_on_point (rotor_ctor ang x y z) p in
  vlen (vsub (pos q) (turned ang x y z (pos p))) <= 76 * / 2 ^ 24 * vlen (pos p) + / 2 ^ 120 /\
  Rabs (wt q - wt p) <= 43 * / 2 ^ 24 * Rabs (wt p) + / 2 ^ 120.
Proof.
  intros B M LM FL ang x y z p (Fa & La & Fx & Fy & Fz & L) Hp q. pose proof u_small as U. rewrite u_pow.
  destruct (rotor_facts M LM ang x y z Fa La Fx Fy Fz L) as (N & _ & _ & _ & T). fold FL in N, T.
  set (r := rotor_ctor ang x y z) in *. clearbody r.
  assert (P120 : bpow radix2 (-120) = / 2 ^ 120) by (cbn; f_equal; ring). rewrite <- P120.
  assert (B121 : bpow radix2 (-121) <= bpow radix2 (-120)) by (apply bpow_le; lia). assert (B122 : bpow radix2 (-122) <= bpow radix2 (-120)) by (apply bpow_le; lia).
  destruct (near_n4 r N) as [_ Nr]. assert (Hr : Forall (bounded 20) (coefs (k := KRotor) r)) by (apply rv_bounded; [lia|apply N|]; eapply Rle_trans; [exact Nr|]; cbn; lra).
  split.
  - pose proof (rotor_moves B r p Hr Hp) as E. change (mk4 0 0 0 0) with zero4 in E. rewrite image_rotor in E. fold q in E.
    eapply Rle_trans; [apply (vlen_via _ (turn (rv r) (pos p)))|]. specialize (T (pos p)). fold (turned ang x y z (pos p)) in T.
    pose proof (near_of r N) as Q. apply Rabs_le_inv in Q. pose proof (vlen_pos (pos p)) as V.
    assert (q4 (rv r) (rv r) * vlen (pos p) <= (1 + 24 * u) * vlen (pos p)) by (apply Rmult_le_compat_r; lra).
    assert (0 <= u * vlen (pos p)) by (apply Rmult_le_pos; lra). assert (u * (q4 (rv r) (rv r) * vlen (pos p)) <= u * ((1 + 24 * u) * vlen (pos p))) by (apply Rmult_le_compat_l; lra).
    assert (u * (u * vlen (pos p)) <= / 1000000 * (u * vlen (pos p))) by (apply Rmult_le_compat_r; lra). lra.
  - destruct (weights B) as (W & _). specialize (W r p N Hp). fold q in W. lra.
Qed.
Lemma image_shift t x : motor_image (mk4 1 0 0 0) t 1 x = vsub x (vscale 2 (vpart t)).
Proof.
  rewrite image_turn. destruct t as [e f g h], x as [x y z]. unfold turn, vpart, qm, lift, rev4, vsub, vscale. cbn [l0 l1 l2 l3 vx vy vz].
  apply vec_eq; cbn [vx vy vz]; ring.
Qed.
Lemma shift_diff t e x : vlen (vsub (vsub x (vscale 2 (vpart t))) (vsub x (vscale 2 (vpart e)))) <= 2 * n4 (sub4 t e).
Proof.
  eapply Rle_trans; [|apply Rmult_le_compat_l; [lra|apply vpart_le]]. rewrite vpart_sub, vlen_sym.
  replace (2 * vlen (vsub (vpart t) (vpart e))) with (Rabs 2 * vlen (vsub (vpart t) (vpart e))) by (rewrite Rabs_pos_eq; lra). rewrite <- vlen_scale. apply Req_le. f_equal.
  unfold vsub, vscale. apply vec_eq; cbn [vx vy vz]; ring.
Qed.
Theorem C75_translate : forall (B : Build) (M : machine), let FL := Flo_f32 M in forall (d x y z : f32) (p : point f32),
  usable d x y z -> Forall (bounded 20) (coefs (k := KPoint) p) -> wt p = 1 ->
  let q := translator_on_point (translator_ctor d x y z) p in
  vlen (vsub (pos q) (shifted d x y z (pos p))) <= / 2 ^ 24 * (10 * vlen (pos p) + 13 * Rabs (val d)) + / 2 ^ 98 /\
  Rabs (wt q - 1) <= 5 * / 2 ^ 24.
Proof.
  intros B M FL d x y z p (Fd & Ld & Fx & Fy & Fz & L) Hp Hw q. pose proof u_small as U. rewrite u_pow.
  destruct (translator_facts M d x y z Fd Ld Fx Fy Fz L) as (Ht & Z & D & N). fold FL in Ht, Z, D, N.
  set (t := translator_ctor d x y z) in *. clearbody t.
  assert (P98 : bpow radix2 (-98) = / 2 ^ 98) by (cbn; f_equal; ring). rewrite <- P98.
  assert (E98 : bpow radix2 (-98) = 4 * bpow radix2 (-100)) by (change (-98)%Z with (2 + -100)%Z; rewrite bpow_plus; reflexivity). rewrite E98.
  assert (B121 : bpow radix2 (-121) <= bpow radix2 (-100)) by (apply bpow_le; lia). pose proof (bpow_gt_0 radix2 (-100)) as B0.
  split.
  - pose proof (translator_moves B t p Ht Z Hp Hw) as E. cbv zeta in E. rewrite image_shift in E. fold q in E. fold (tv t) in E.
    unfold shifted. rewrite <- translator_shift. set (e := exact_translator (val d) (axis x y z)) in *.
    eapply Rle_trans; [apply (vlen_via _ (vsub (pos p) (vscale 2 (vpart (tv t)))))|]. pose proof (shift_diff (tv t) e (pos p)) as S.
    pose proof (Rabs_pos (val d)) as D0. pose proof (vlen_pos (pos p)) as V. pose proof (n4_pos (tv t)) as T0.
    assert (u * n4 (tv t) <= u * ((1 + 7 * u) * (Rabs (val d) / 2) + bpow radix2 (-100))) by (apply Rmult_le_compat_l; lra).
    assert (0 <= u * Rabs (val d)) by (apply Rmult_le_pos; lra). assert (u * (u * Rabs (val d)) <= / 1000000 * (u * Rabs (val d))) by (apply Rmult_le_compat_r; lra).
    assert (u * bpow radix2 (-100) <= / 1000000 * bpow radix2 (-100)) by (apply Rmult_le_compat_r; lra). lra.
  - destruct (weights B) as (_ & W & _). specialize (W t p Z Ht Hp). fold q in W. rewrite Hw, Rabs_R1 in W.
    assert (bpow radix2 (-122) <= bpow radix2 (-24)) by (apply bpow_le; lia). assert (bpow radix2 (-24) = u) by (unfold u; cbn; f_equal; ring). lra.
Qed.
Lemma placed (B : Build) (m : motor f32) (r : rotor f32) (p : point f32) s T : near_unit r -> motor_p1 m = rotor_p1 r -> Forall (bounded 20) (coefs (k := KMotor) m) ->
  Forall (bounded 20) (coefs (k := KPoint) p) -> wt p = 1 -> 0 <= T -> n4 s = n4 (rv r) * T -> n4 (sub4 (map4 val (motor_p2 m)) s) <= 601 / 100 * u * T + bpow radix2 (-143) ->
  vlen (vsub (pos (motor_on_point m p)) (motor_image (rv r) s 1 (pos p))) <= 2201 / 100 * u * vlen (pos p) + 371 / 10 * u * T + bpow radix2 (-120).
Proof.
  intros N E1 Hm Hp Hw T0 Es D. pose proof u_small as U. pose proof (motor_moves B m p Hm Hp Hw) as E. cbv zeta in E. rewrite E1 in E.
  change (map4 val (rotor_p1 r)) with (rv r) in E. set (p2 := map4 val (motor_p2 m)) in *. destruct (near_n4 r N) as [_ Nr]. pose proof (near_of r N) as Q. apply Rabs_le_inv in Q.
  eapply Rle_trans; [apply (vlen_via _ (motor_image (rv r) p2 1 (pos p)))|]. pose proof (image_low (rv r) p2 s (pos p)) as I2.
  pose proof (vlen_pos (pos p)) as V. pose proof (n4_pos (rv r)) as R0. pose proof (n4_pos p2) as P0. pose proof (n4_pos (sub4 p2 s)) as S0.
  assert (B143 : 64 * bpow radix2 (-143) <= bpow radix2 (-121)) by (change 64 with (bpow radix2 6); rewrite <- bpow_plus; apply bpow_le; lia). pose proof (bpow_gt_0 radix2 (-143)) as B0.
  assert (E120 : bpow radix2 (-120) = 2 * bpow radix2 (-121)) by (change (-120)%Z with (1 + -121)%Z; rewrite bpow_plus; reflexivity). rewrite E120.
  set (b := bpow radix2 (-143)) in *. set (c := bpow radix2 (-121)) in *. set (R := n4 (rv r)) in *. set (X := vlen (pos p)) in *.
  assert (uT : 0 <= u * T) by (apply Rmult_le_pos; lra). assert (uX : 0 <= u * X) by (apply Rmult_le_pos; lra).
  assert (uuT : u * (u * T) <= / 1000000 * (u * T)) by (apply Rmult_le_compat_r; lra). assert (uuX : u * (u * X) <= / 1000000 * (u * X)) by (apply Rmult_le_compat_r; lra).
  assert (A1 : u * (q4 (rv r) (rv r) * X) <= u * ((1 + 24 * u) * X)) by (apply Rmult_le_compat_l; [lra|]; apply Rmult_le_compat_r; lra).
  assert (RT : R * T <= (1 + 13 * u) * T) by (apply Rmult_le_compat_r; lra).
  assert (A2 : n4 p2 <= 10001 / 10000 * T + b).
  { eapply Rle_trans; [apply (n4_tri _ s)|]. rewrite Es. assert (u * T <= / 1000000 * T) by (apply Rmult_le_compat_r; lra). lra. }
  assert (A3 : R * n4 p2 <= 10001 / 10000 * (10001 / 10000 * T + b)) by (apply Rmult_le_compat; lra).
  assert (A4 : u * (R * n4 p2) <= u * (10001 / 10000 * (10001 / 10000 * T + b))) by (apply Rmult_le_compat_l; lra).
  assert (A5 : R * n4 (sub4 p2 s) <= 10001 / 10000 * (601 / 100 * u * T + b)) by (apply Rmult_le_compat; lra).
  assert (ub : u * b <= / 1000000 * b) by (apply Rmult_le_compat_r; lra). lra.
Qed.
(** rotor times translator: the point is shifted first, then turned *)
Theorem C75_motor : forall (B : Build) (M : machine), libm M -> let FL := Flo_f32 M in forall (ang x y z d a b c : f32) (p : point f32),
  usable ang x y z -> usable d a b c -> Forall (bounded 20) (coefs (k := KPoint) p) -> wt p = 1 ->
  let r := rotor_ctor ang x y z in let t := translator_ctor d a b c in
  (let q := motor_on_point (rotor_mul_translator r t) p in
   vlen (vsub (pos q) (turned ang x y z (shifted d a b c (pos p)))) <= / 2 ^ 24 * (43 * vlen (pos p) + 46 * Rabs (val d)) + / 2 ^ 98 /\
   Rabs (wt q - 1) <= 33 * / 2 ^ 24) /\
  (let q := motor_on_point (translator_mul_rotor t r) p in
   vlen (vsub (pos q) (shifted d a b c (turned ang x y z (pos p)))) <= / 2 ^ 24 * (43 * vlen (pos p) + 50 * Rabs (val d)) + / 2 ^ 98 /\
   Rabs (wt q - 1) <= 33 * / 2 ^ 24).
Proof.
  intros B M LM FL ang x y z d a b c p (Fa & La & Fx & Fy & Fz & L) (Fd & Ld & Ga & Gb & Gc & K) Hp Hw r t. pose proof u_small as U. rewrite u_pow.
  destruct (rotor_facts M LM ang x y z Fa La Fx Fy Fz L) as (N & Ne & De & Te & Tr). fold FL in N, De, Tr.
  destruct (translator_facts M d a b c Fd Ld Ga Gb Gc K) as (Ht & Z & D & NT). fold FL in Ht, Z, D, NT.
  fold r in N, De, Tr. fold t in Ht, Z, D, NT. clearbody r t. fold (turned ang x y z) in Tr, Te. set (e := exact_rotor (val ang) (axis x y z)) in *. set (f := exact_translator (val d) (axis a b c)) in *.
  assert (P98 : bpow radix2 (-98) = / 2 ^ 98) by (cbn; f_equal; ring). rewrite <- P98.
  assert (E98 : bpow radix2 (-98) = 4 * bpow radix2 (-100)) by (change (-98)%Z with (2 + -100)%Z; rewrite bpow_plus; reflexivity). rewrite E98.
  assert (B120 : bpow radix2 (-120) <= / 1000 * bpow radix2 (-100)).
  { apply Rle_trans with (bpow radix2 (-10) * bpow radix2 (-100)); [rewrite <- bpow_plus; apply bpow_le; lia|]. apply Rmult_le_compat_r; [apply bpow_ge_0|]. cbn; lra. }
  pose proof (bpow_gt_0 radix2 (-100)) as B0. set (h := bpow radix2 (-100)) in *.
  pose proof (Rabs_pos (val d)) as D0. pose proof (vlen_pos (pos p)) as V. pose proof (n4_pos (tv t)) as T0. set (T := n4 (tv t)) in *. set (dd := Rabs (val d)) in *. set (X := vlen (pos p)) in *.
  assert (h1 : h <= / 1000) by (apply Rle_trans with (bpow radix2 (-10)); [apply bpow_le; lia|cbn; lra]).
  assert (LT : T <= 2 ^ 19 * (11 / 10)) by (assert (2 ^ 20 = 1048576) by ring; assert (2 ^ 19 = 524288) by ring; nra).
  assert (ud : 0 <= u * dd) by (apply Rmult_le_pos; lra). assert (uX : 0 <= u * X) by (apply Rmult_le_pos; lra).
  assert (uud : u * (u * dd) <= / 1000000 * (u * dd)) by (apply Rmult_le_compat_r; lra). assert (uh : u * h <= / 1000000 * h) by (apply Rmult_le_compat_r; lra). assert (uh0 : 0 <= u * h) by (apply Rmult_le_pos; lra).
  assert (uT : u * T <= u * ((1 + 7 * u) * (dd / 2) + h)) by (apply Rmult_le_compat_l; lra).
  assert (uuh : u * (u * h) <= / 1000000 * (u * h)) by (apply Rmult_le_compat_r; lra).
  destruct (product_stored B r t N Ht Z LT) as [(H1 & E1 & D1) (H2 & E2 & D2)]. fold T in D1, D2.
  assert (W : forall m, motor_p1 m = rotor_p1 r -> Forall (bounded 20) (coefs (k := KMotor) m) -> Rabs (wt (motor_on_point m p) - 1) <= 33 * u).
  { intros m Em Hm. destruct (weights B) as (_ & _ & W). assert (Nm : near_unit (mkrotor (motor_p1 m))) by (rewrite Em; destruct r as [r0]; exact N).
    specialize (W m p Nm Hm Hp). rewrite Hw, Rabs_R1 in W.
    assert (bpow radix2 (-122) <= bpow radix2 (-24)) by (apply bpow_le; lia). assert (bpow radix2 (-24) = u) by (unfold u; cbn; f_equal; ring). lra. }
  assert (LS : vlen (vscale 2 (vpart (tv t))) <= 2 * T) by (rewrite vlen_scale, Rabs_pos_eq by lra; apply Rmult_le_compat_l; [lra|apply vpart_le]).
  split; cbv zeta.
  - split; [|apply W; assumption]. set (m := rotor_mul_translator r t) in *. clearbody m.
    pose proof (placed B m r p _ T N E1 H1 Hp Hw T0 (proj1 (rt_len (rv r) (tv t) Z)) D1) as P1. rewrite image_rt in P1 by exact Z. fold X in P1.
    unfold shifted. rewrite <- translator_shift. fold f. set (v := vsub (pos p) (vscale 2 (vpart (tv t)))) in *. set (w := vsub (pos p) (vscale 2 (vpart f))) in *.
    eapply Rle_trans; [apply (vlen_via _ (turn (rv r) v))|]. pose proof (vlen_via (turn (rv r) v) (turned ang x y z v) (turned ang x y z w)) as C1.
    pose proof (Tr v) as C2. assert (C3 : vlen (vsub (turned ang x y z v) (turned ang x y z w)) <= 7 * u * dd + 2 * h).
    { rewrite <- !Te, turn_sub. eapply Rle_trans; [apply turn_len|]. rewrite Ne. pose proof (shift_diff (tv t) f (pos p)) as S. fold v w in S. lra. }
    assert (C4 : vlen v <= X + 2 * T).
    { unfold v. eapply Rle_trans; [|apply Rplus_le_compat_l; exact LS]. replace (vsub (pos p) (vscale 2 (vpart (tv t)))) with (vadd (pos p) (vscale (-1) (vscale 2 (vpart (tv t))))) by (unfold vsub, vadd, vscale; apply vec_eq; cbn [vx vy vz]; ring).
      eapply Rle_trans; [apply vlen_tri|]. rewrite (vlen_scale (-1)). rewrite Rabs_left by lra. fold X. lra. }
    assert (u * vlen v <= u * (X + 2 * T)) by (apply Rmult_le_compat_l; lra). lra.
  - split; [|apply W; assumption]. set (m := translator_mul_rotor t r) in *. clearbody m.
    pose proof (placed B m r p _ T N E2 H2 Hp Hw T0 (proj2 (rt_len (rv r) (tv t) Z)) D2) as P1. rewrite image_tr in P1 by exact Z. fold X in P1.
    unfold shifted. rewrite <- translator_shift. fold f. set (q := q4 (rv r) (rv r)) in *.
    set (v := turn (rv r) (pos p)) in *. set (w := turned ang x y z (pos p)) in *.
    eapply Rle_trans; [apply (vlen_via _ (vsub v (vscale (2 * q) (vpart (tv t)))))|].
    pose proof (Tr (pos p)) as C2. fold v w X in C2.
    pose proof (vlen_via (vsub v (vscale (2 * q) (vpart (tv t)))) (vsub w (vscale 2 (vpart (tv t)))) (vsub w (vscale 2 (vpart f)))) as C1.
    pose proof (shift_diff (tv t) f w) as C3.
    assert (C4 : vlen (vsub (vsub v (vscale (2 * q) (vpart (tv t)))) (vsub w (vscale 2 (vpart (tv t))))) <= vlen (vsub v w) + 48 * u * T).
    { replace (vsub (vsub v (vscale (2 * q) (vpart (tv t)))) (vsub w (vscale 2 (vpart (tv t))))) with (vadd (vsub v w) (vscale (- (q - 1)) (vscale 2 (vpart (tv t))))) by (unfold vsub, vadd, vscale; apply vec_eq; cbn [vx vy vz]; ring).
      eapply Rle_trans; [apply vlen_tri|]. apply Rplus_le_compat_l. rewrite (vlen_scale (- (q - 1))), Rabs_Ropp. pose proof (near_of r N) as Q. fold q in Q.
      eapply Rle_trans; [apply Rmult_le_compat; [apply Rabs_pos|apply vlen_pos|exact Q|exact LS]|]. lra. }
    lra.
Qed.

(** ** The snippet of docs/quickstart.md 50-68
    rotor r{kln::pi * 0.5f, 0.f, 0.f, 1.f}; translator t{1.f, 0.f, 1.f, 1.f}; motor m = r * t; point p1{1, 0, 0}; point p2 = m(p1); *)
Definition f0 : f32 := f32_of 0 0.
Definition f1 : f32 := f32_of 1 0.
Definition half_pi : f32 := fmul (f32_of 13176795 (-22)) (f32_of 1 (-1)).
Lemma half_pi_val : fin half_pi /\ val half_pi = 13176795 / 8388608.
Proof. split; [reflexivity|]. vm_compute. lra. Qed.
Lemma val_f0 : val f0 = 0. Proof. reflexivity. Qed.
Lemma val_f1 : val f1 = 1. Proof. vm_compute. lra. Qed.
Lemma z_axis : dirv f0 f0 f1 = V 0 0 1.
Proof. unfold dirv. rewrite val_f0, val_f1. reflexivity. Qed.
Lemma yz_axis : dirv f0 f1 f1 = V 0 1 1.
Proof. unfold dirv. rewrite val_f0, val_f1. reflexivity. Qed.
Lemma z_len : vlen (V 0 0 1) = 1.
Proof. unfold vlen, vdot. cbn [vx vy vz]. replace (_ + _) with 1 by ring. apply sqrt_1. Qed.
Lemma yz_len : vlen (V 0 1 1) = sqrt 2.
Proof. unfold vlen, vdot. cbn [vx vy vz]. f_equal. ring. Qed.
Lemma sqrt2_range : 14 / 10 < sqrt 2 < 15 / 10.
Proof.
  split.
  - rewrite <- (sqrt_square (14 / 10)) by lra. apply sqrt_lt_1_alt. lra.
  - rewrite <- (sqrt_square (15 / 10)) by lra. apply sqrt_lt_1_alt. lra.
Qed.
Example C75_usable : usable half_pi f0 f0 f1 /\ usable f1 f0 f1 f1.
Proof.
  destruct half_pi_val as [F V]. pose proof sqrt2_range as S. split.
  - repeat split; try reflexivity; try exact F.
    + rewrite V, Rabs_pos_eq by lra. lra.
    + rewrite z_axis, z_len. lra.
    + rewrite z_axis, z_len. lra.
  - repeat split; try reflexivity.
    + rewrite val_f1, Rabs_R1. lra.
    + rewrite yz_axis, yz_len. lra.
    + rewrite yz_axis, yz_len. lra.
Qed.
Theorem C75_quickstart : forall (B : Build) (M : machine), libm M -> let FL := Flo_f32 M in
  let m := rotor_mul_translator (rotor_ctor half_pi f0 f0 f1) (translator_ctor f1 f0 f1 f1) in
  let p2 := motor_on_point m (mkpoint (mk4 f1 f1 f0 f0)) in
  vlen (vsub (pos p2) (V (/ sqrt 2) (-1) (/ sqrt 2))) <= / 100000 /\ Rabs (wt p2 - 1) <= / 100000.
Proof.
  intros B M LM FL m p2. set (p := mkpoint (mk4 f1 f1 f0 f0)) in *. destruct C75_usable as [U1 U2].
  assert (Hp : Forall (bounded 20) (coefs (k := KPoint) p)).
  { assert (b1 : bounded 20 f1) by (split; [reflexivity|]; rewrite val_f1, Rabs_R1; cbn; lra). assert (b0 : bounded 20 f0) by (split; [reflexivity|]; rewrite val_f0, Rabs_R0; apply bpow_ge_0).
    repeat apply Forall_cons; try apply Forall_nil; assumption. }
  assert (Hw : wt p = 1) by (exact val_f1).
  destruct (C75_motor B M LM _ _ _ _ _ _ _ _ p U1 U2 Hp Hw) as [[E W] _]. fold FL in E, W. fold m in E, W. fold p2 in E, W. clearbody p2. split; [|lra].
  assert (Xp : pos p = V 1 0 0) by (unfold pos, p; cbn [point_p3 l1 l2 l3]; rewrite val_f0, val_f1; reflexivity).
  assert (X1 : vlen (V 1 0 0) = 1) by (unfold vlen, vdot; cbn [vx vy vz]; replace (_ + _) with 1 by ring; apply sqrt_1).
  rewrite Xp, X1, val_f1, Rabs_R1 in E. pose proof sqrt2_range as S.
  assert (Es : shifted f1 f0 f1 f1 (V 1 0 0) = V 1 (/ sqrt 2) (/ sqrt 2)).
  { unfold shifted, vunit. rewrite yz_axis, yz_len, val_f1. unfold vadd, vscale. apply vec_eq; cbn [vx vy vz]; ring. }
  rewrite Es in E. set (s := / sqrt 2) in *. assert (s1 : 0 < s <= 1).
  { unfold s. split; [apply Rinv_0_lt_compat; lra|]. rewrite <- Rinv_1. apply Rinv_le_contravar; lra. }
  eapply Rle_trans; [apply (vlen_via _ (turned half_pi f0 f0 f1 (V 1 s s)))|].
  assert (D : vlen (vsub (turned half_pi f0 f0 f1 (V 1 s s)) (V s (-1) s)) <= 7 / 4 * / 1000000).
  { unfold turned, vunit. rewrite z_axis, z_len. destruct half_pi_val as [_ V1]. rewrite V1. set (h := 13176795 / 8388608).
    pose proof PI_bounds as PB. assert (H : Rabs (h - PI / 2) <= / 10000000) by (unfold h; apply Rabs_le; lra).
    pose proof (cos_lip h (PI / 2)) as C. pose proof (sin_lip h (PI / 2)) as N. rewrite cos_PI2, Rminus_0_r in C. rewrite sin_PI2 in N.
    assert (C' := Rle_trans _ _ _ C H). assert (N' := Rle_trans _ _ _ N H). apply Rabs_le_inv in C'. apply Rabs_le_inv in N'.
    unfold rodrigues. rewrite cos_neg, sin_neg. unfold vdot. apply vlen_all; [lra| | |]; cbn [vx vy vz vsub vadd vscale vcross vdot]; apply Rabs_le; nra. }
  lra.
Qed.

Print Assumptions C75_rotate.
Print Assumptions C75_translate.
Print Assumptions C75_motor.
Print Assumptions C75_quickstart.
