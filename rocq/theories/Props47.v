(** Property C95: products of rotors, translators and motors with one another, in binary32. *)
From Coq Require Import ZArith Reals List Bool Lra Lia Psatz FunctionalExtensionality.
From Flocq Require Import Core BinarySingleNaN.
From Verif Require Import AlgTac SpecMass FloatMass Float32 FloatFacts ExprSyntax FloatErr FloatAbs FloatApx FloatNR FloatOps FloatIdeal Props11 SpecGeom Props20 Props21 Props22 Props23 Props24 Props26 Props28 Props30 Props31 Props34 Props36 Props37 Props38 Props42 Props44.
Import ListNotations.
Local Open Scope R_scope.

(** ** A stored motor that is accurate for the product of two real ones *)
Lemma accurate_lanes (c : R) (m a b : motor R) : 0 <= c -> (forall i, Rabs (mv_motor m i - gp (mv_motor a) (mv_motor b) i) <= c * gp_mass (mv_motor a) (mv_motor b) i + bpow radix2 (-144)) ->
  n4 (sub4 (motor_p1 m) (qm (motor_p1 a) (motor_p1 b))) <= 2 * (c * (n4 (motor_p1 a) * n4 (motor_p1 b)) + bpow radix2 (-144)) /\
  n4 (sub4 (motor_p2 m) (mm2 (motor_p1 a) (motor_p2 a) (motor_p1 b) (motor_p2 b))) <= 2 * (c * (n4 (motor_p1 a) * n4 (motor_p2 b) + n4 (motor_p2 a) * n4 (motor_p1 b)) + bpow radix2 (-144)).
Proof.
  intros c0 E. pose proof (bpow_gt_0 radix2 (-144)) as B0.
  assert (E2 : forall i, Rabs (mv_motor m i - mv_motor (mmul a b) i) <= c * (match i with Bl false _ _ _ => n4 (motor_p1 a) * n4 (motor_p1 b) | Bl true _ _ _ => n4 (motor_p1 a) * n4 (motor_p2 b) + n4 (motor_p2 a) * n4 (motor_p1 b) end) + bpow radix2 (-144)).
  { intro i. rewrite (mmul_gp a b i). eapply Rle_trans; [apply E|]. apply Rplus_le_compat_r, Rmult_le_compat_l; [exact c0|]. exact (motor_mass a b i). }
  assert (X : forall v w k, 0 <= k -> Rabs (l0 v - l0 w) <= k -> Rabs (l1 v - l1 w) <= k -> Rabs (l2 v - l2 w) <= k -> Rabs (l3 v - l3 w) <= k -> n4 (sub4 v w) <= 2 * k) by (intros v w k K H0 H1 H2 H3; apply n4_all; assumption).
  pose proof (n4_pos (motor_p1 a)) as a1. pose proof (n4_pos (motor_p2 a)) as a2. pose proof (n4_pos (motor_p1 b)) as b1. pose proof (n4_pos (motor_p2 b)) as b2.
  assert (Y1 : 0 <= n4 (motor_p1 a) * n4 (motor_p1 b)) by (apply Rmult_le_pos; assumption). assert (Y2 : 0 <= n4 (motor_p1 a) * n4 (motor_p2 b) + n4 (motor_p2 a) * n4 (motor_p1 b)) by (apply Rplus_le_le_0_compat; apply Rmult_le_pos; assumption).
  destruct (motor_lanes m) as ((L0 & L1 & L2 & L3) & L4 & L5 & L6 & L7). destruct (motor_lanes (mmul a b)) as ((T0 & T1 & T2 & T3) & T4 & T5 & T6 & T7). split.
  - set (g := n4 (motor_p1 a) * n4 (motor_p1 b)) in *. assert (0 <= c * g) by (apply Rmult_le_pos; assumption).
    pose proof (E2 (Bl false false false false)) as K0. pose proof (E2 (Bl false false true true)) as K1. pose proof (E2 (Bl false true false true)) as K2. pose proof (E2 (Bl false true true false)) as K3.
    rewrite L0, T0 in K0. rewrite L1, T1 in K1. rewrite L2, T2 in K2. rewrite L3, T3 in K3. apply X; [lra|exact K0|exact K1| |exact K3]. rewrite <- Rabs_Ropp. refine (Rle_trans _ _ _ (Req_le _ _ _) K2). f_equal. cbn [motor_p1 mmul]. ring.
  - set (g := n4 (motor_p1 a) * n4 (motor_p2 b) + n4 (motor_p2 a) * n4 (motor_p1 b)) in *. assert (0 <= c * g) by (apply Rmult_le_pos; assumption).
    pose proof (E2 (Bl true true true true)) as K0. pose proof (E2 (Bl true true false false)) as K1. pose proof (E2 (Bl true false true false)) as K2. pose proof (E2 (Bl true false false true)) as K3.
    rewrite L4, T4 in K0. rewrite L5, T5 in K1. rewrite L6, T6 in K2. rewrite L7, T7 in K3. apply X; [lra|exact K0|exact K1|exact K2|exact K3].
Qed.
(** ** Real motors near proper ones *)
Definition near_real (th r : R) (a e : motor R) : Prop := proper e /\ n4 (motor_p2 e) <= r /\ n4 (sub4 (motor_p1 a) (motor_p1 e)) <= th /\ n4 (sub4 (motor_p2 a) (motor_p2 e)) <= th * r.
Definition rd (m : motor f32) : motor R := mkmotor (mv1 m) (mv2 m).
Lemma near_real_motor th r m e : near_motor th r m e -> near_real th r (rd m) e.
Proof. intros (_ & H). exact H. Qed.
Lemma n4_0 : n4 (mk4 0 0 0 0) = 0.
Proof. unfold n4, q4. cbn [l0 l1 l2 l3]. replace (0 * 0 + 0 * 0 + 0 * 0 + 0 * 0) with 0 by ring. apply sqrt_0. Qed.
Lemma sub4_self p : n4 (sub4 p p) = 0.
Proof. destruct p as [a b c d]. unfold sub4. cbn [l0 l1 l2 l3]. replace (a - a) with 0 by ring. replace (b - b) with 0 by ring. replace (c - c) with 0 by ring. replace (d - d) with 0 by ring. exact n4_0. Qed.
Lemma near_real_rotor th (a : rotor f32) e : near_rotor th a e -> near_real th 0 (plain (rv a)) (plain e).
Proof. intros (_ & P & E). split; [apply plain_proper; exact P|]. unfold plain. cbn [motor_p1 motor_p2]. rewrite n4_0, sub4_self. split; [lra|]. split; [exact E|lra]. Qed.
Lemma near_real_translator r (t : translator f32) : val (l0 (translator_p2 t)) = 0 -> n4 (map4 val (translator_p2 t)) <= r -> near_real 0 r (gliding t) (gliding t).
Proof. intros Z H. destruct (gliding_facts t Z) as (P & _). split; [exact P|]. split; [exact H|]. rewrite !sub4_self. lra. Qed.
Lemma product_near (c th th' r r' : R) (m : motor f32) (a b e f : motor R) : near_real th r a e -> near_real th' r' b f -> 1 <= c -> / 2 ^ 60 <= r + r' -> Forall fin (coefs (k := KMotor) m) ->
  (forall i, Rabs (mv_motor (rd m) i - gp (mv_motor a) (mv_motor b) i) <= c * (1 + / 100000) * u * gp_mass (mv_motor a) (mv_motor b) i + bpow radix2 (-144)) ->
  near_motor ((1 + th) * (1 + th') * (1 + (21 / 10 * c) * u) - 1) (r + r') m (mmul e f).
Proof.
  intros (Pa & Ra & E1 & E2) (Pb & Rb & E1' & E2') c1 L F Acc. pose proof u_small as U. assert (c0 : 0 <= c * (1 + / 100000) * u) by (apply Rmult_le_pos; [apply Rmult_le_pos|]; lra).
  destruct (accurate_lanes _ (rd m) a b c0 Acc) as [D1 D2]. cbn [rd motor_p1 motor_p2] in D1, D2. clear Acc.
  split; [exact F|]. split; [apply mmul_proper; assumption|]. destruct Pa as [Ea _]. destruct Pb as [Eb _]. cbn [mmul motor_p1 motor_p2].
  set (a1 := motor_p1 a) in *. set (a2 := motor_p2 a) in *. set (b1 := motor_p1 b) in *. set (b2 := motor_p2 b) in *. set (e1 := motor_p1 e) in *. set (e2 := motor_p2 e) in *. set (f1 := motor_p1 f) in *. set (f2 := motor_p2 f) in *.
  pose proof (n4_pos e2) as Pe2. pose proof (n4_pos f2) as Pf2. pose proof (n4_pos (sub4 a1 e1)) as z1. pose proof (n4_pos (sub4 a2 e2)) as z2. pose proof (n4_pos (sub4 b1 f1)) as z3. pose proof (n4_pos a1) as p1. pose proof (n4_pos a2) as p2. pose proof (n4_pos b1) as p3. pose proof (n4_pos b2) as p4.
  assert (t0 : 0 <= th) by lra. assert (t0' : 0 <= th') by lra. assert (r0 : 0 <= r) by lra. assert (r0' : 0 <= r') by lra.
  assert (A1 : n4 a1 <= 1 + th) by (pose proof (n4_tri a1 e1); lra). assert (A2 : n4 a2 <= (1 + th) * r) by (pose proof (n4_tri a2 e2); lra). assert (B1 : n4 b1 <= 1 + th') by (pose proof (n4_tri b1 f1); lra). assert (B2 : n4 b2 <= (1 + th') * r') by (pose proof (n4_tri b2 f2); lra).
  assert (Bt : 2 * bpow radix2 (-144) <= / 100 * u * (r + r') /\ 2 * bpow radix2 (-144) <= / 100 * u).
  { assert (Q : bpow radix2 (-40) <= / 100 * u) by (unfold u; cbn; lra). replace (2 * bpow radix2 (-144)) with (bpow radix2 (-143)) by (change (-143)%Z with (1 + -144)%Z; rewrite bpow_plus; reflexivity). split; [|eapply Rle_trans; [apply bpow_le|exact Q]; lia].
    apply (Rle_trans _ (bpow radix2 (-40) * bpow radix2 (-60))); [rewrite <- bpow_plus; apply bpow_le; lia|]. apply Rmult_le_compat; try apply bpow_ge_0; [exact Q|]. replace (bpow radix2 (-60)) with (/ 2 ^ 60) by (cbn; f_equal; ring). exact L. }
  destruct Bt as [Bt1 Bt2]. set (k := (1 + th) * (1 + th')). assert (S1 : 1 <= k) by (apply (Rle_trans _ (1 * 1)); [lra|apply Rmult_le_compat; lra]).
  assert (cu : c * (1 + / 100000) * u = c * u + / 100000 * (c * u)) by ring. assert (uc : u <= c * u) by (rewrite <- (Rmult_1_l u) at 1; apply Rmult_le_compat_r; lra).
  split; [eapply Rle_trans; [apply mm2_n4|]; rewrite Ea, Eb; lra|]. split.
  - eapply Rle_trans; [apply (n4_via _ (qm a1 b1))|].
    assert (D : n4 (sub4 (qm a1 b1) (qm e1 f1)) <= k - 1).
    { eapply Rle_trans; [apply (n4_via _ (qm e1 b1))|]. rewrite qm_sub_l, qm_sub_r, !qm_n4, Ea. assert (n4 (sub4 a1 e1) * n4 b1 <= th * (1 + th')) by (apply Rmult_le_compat; assumption). unfold k. lra. }
    assert (AB : n4 a1 * n4 b1 <= k) by (apply Rmult_le_compat; assumption). apply (Rmult_le_compat_l _ _ _ c0) in AB. rewrite cu in *.
    assert (Q : u * 1 <= c * u * k) by (apply (Rle_trans _ (c * u * 1)); [lra|apply Rmult_le_compat_l; lra]). lra.
  - eapply Rle_trans; [apply (n4_via _ (mm2 a1 a2 b1 b2))|]. pose proof (mm2_diff a1 a2 b1 b2 e1 e2 f1 f2) as D. rewrite Ea in D.
    assert (K1 : n4 (sub4 a1 e1) * n4 b2 <= th * ((1 + th') * r')) by (apply Rmult_le_compat; assumption).
    assert (K2 : n4 (sub4 a2 e2) * n4 b1 <= th * r * (1 + th')) by (apply Rmult_le_compat; assumption).
    assert (K3 : n4 e2 * n4 (sub4 b1 f1) <= r * th') by (apply Rmult_le_compat; assumption).
    assert (K4 : n4 a1 * n4 b2 + n4 a2 * n4 b1 <= k * (r + r')).
    { assert (n4 a1 * n4 b2 <= (1 + th) * ((1 + th') * r')) by (apply Rmult_le_compat; assumption). assert (n4 a2 * n4 b1 <= (1 + th) * r * (1 + th')) by (apply Rmult_le_compat; assumption). unfold k. lra. }
    apply (Rmult_le_compat_l _ _ _ c0) in K4. rewrite cu in *. assert (K6 : n4 (sub4 (mm2 a1 a2 b1 b2) (mm2 e1 e2 f1 f2)) <= (k - 1) * (r + r')) by (unfold k; lra). clear D K1 K2 K3.
    assert (K5 : u * (r + r') <= c * u * (k * (r + r'))). { rewrite <- Rmult_assoc. apply Rmult_le_compat_r; [lra|]. apply (Rle_trans _ (c * u * 1)); [lra|apply Rmult_le_compat_l; lra]. }
    replace ((k * (1 + 21 / 10 * c * u) - 1) * (r + r')) with ((k - 1) * (r + r') + 21 / 10 * (c * u * (k * (r + r')))) by ring. assert (K7 : 0 <= u * (r + r')) by (apply Rmult_le_pos; lra). clearbody k. set (X := k * (r + r')) in *. set (G := n4 a1 * n4 b2 + n4 a2 * n4 b1) in *. set (Z := c * u) in *. clearbody X G Z. clear - K7 D2 K4 K5 K6 Bt1 U. lra.
Qed.
Lemma rotor_motor (x : rotor R) : mv_rotor x = mv_motor (plain (rotor_p1 x)).
Proof. apply functional_extensionality. intro i. destruct x as [[a b c d]]. destruct i as [[|] [|] [|] [|]]; cbv -[Rplus Rmult Ropp Rminus IZR]; ring. Qed.
Lemma big_rotor th (a : rotor f32) e : near_rotor th a e -> th <= 1 -> Forall (bounded 60) (coefs (k := KRotor) a).
Proof.
  intros (F & P & E) T. apply rv_bounded; [lia|exact F|]. pose proof (n4_tri (rv a) e). apply (Rle_trans _ (bpow radix2 1)); [change (bpow radix2 1) with 2; lra|apply bpow_le; lia].
Qed.
Lemma big_motor th r (a : motor f32) e : near_motor th r a e -> th <= 1 -> r <= 2 ^ 50 -> Forall (bounded 60) (coefs (k := KMotor) a).
Proof.
  intros N T H. destruct (near_motor_len _ _ _ _ N) as (A1 & A2 & t0 & r0). destruct N as (F & _). assert (P51 : bpow radix2 51 = 2 * 2 ^ 50) by (cbn; ring). assert (1 <= 2 ^ 50) by (apply pow_R1_Rle; lra). assert ((1 + th) * r <= 2 * 2 ^ 50) by (apply Rmult_le_compat; lra).
  apply motor_bounded; [lia|exact F| |]; (apply (Rle_trans _ (bpow radix2 51)); [rewrite P51; lra|apply bpow_le; lia]).
Qed.
Lemma big_translator r (t : translator f32) : Forall fin (reg_list (translator_p2 t)) -> n4 (map4 val (translator_p2 t)) <= r -> r <= 2 ^ 50 -> Forall (bounded 60) (coefs (k := KTranslator) t).
Proof.
  intros F N H. assert (P50 : bpow radix2 50 = 2 ^ 50) by (cbn; ring). assert (L : bpow radix2 50 <= bpow radix2 60) by (apply bpow_le; lia). rewrite P50 in L. exact (rv_bounded (mkrotor (translator_p2 t)) 60 ltac:(lia) F (Rle_trans _ _ _ N (Rle_trans _ _ _ H L))).
Qed.
(** ** The six mixed products *)
Definition good_translator (r : R) (t : translator f32) : Prop := Forall fin (reg_list (translator_p2 t)) /\ val (l0 (translator_p2 t)) = 0 /\ n4 (map4 val (translator_p2 t)) <= r.
Theorem C95_mixed : forall (B : Build) th th' r r' (a : rotor f32) e (t : translator f32) (m : motor f32) f, near_rotor th a e -> near_motor th' r' m f -> good_translator r t -> th <= 1 -> th' <= 1 -> / 2 ^ 60 <= r <= 2 ^ 50 -> / 2 ^ 60 <= r' <= 2 ^ 50 ->
  (near_motor ((1 + th) * (1 + 63 / 10 * / 2 ^ 24) - 1) r (rotor_mul_translator a t) (mmul (plain e) (gliding t)) /\
   near_motor ((1 + th) * (1 + 63 / 10 * / 2 ^ 24) - 1) r (translator_mul_rotor t a) (mmul (gliding t) (plain e))) /\
  (near_motor ((1 + th) * (1 + th') * (1 + 84 / 10 * / 2 ^ 24) - 1) r' (rotor_mul_motor a m) (mmul (plain e) f) /\
   near_motor ((1 + th) * (1 + th') * (1 + 84 / 10 * / 2 ^ 24) - 1) r' (motor_mul_rotor m a) (mmul f (plain e))) /\
  (near_motor ((1 + th') * (1 + 84 / 10 * / 2 ^ 24) - 1) (r + r') (translator_mul_motor t m) (mmul (gliding t) f) /\
   near_motor ((1 + th') * (1 + 84 / 10 * / 2 ^ 24) - 1) (r + r') (motor_mul_translator m t) (mmul f (gliding t))).
Proof.
  intros B th th' r r' a e t m f Na Nm (Ft & Zt & Nt) T T' L L'. pose proof (big_rotor _ _ _ Na T) as Ba. pose proof (big_motor _ _ _ _ Nm T' (proj2 L')) as Bm. pose proof (big_translator r t Ft Nt (proj2 L)) as Bt.
  pose proof (near_real_rotor _ _ _ Na) as Ra. pose proof (near_real_motor _ _ _ _ Nm) as Rm. pose proof (near_real_translator r t Zt Nt) as Rt. assert (p60 : 0 < / 2 ^ 60) by (apply Rinv_0_lt_compat, pow_lt; lra).
  destruct (C41_any_geometric_product_partial B) as (_ & _ & _ & _ & _ & _ & _ & ART & ATR & _ & ARM & AMR & ATM & AMT & _). rewrite u_pow in *.
  destruct (ART a t Ba Bt I Zt) as [F1 E1]. destruct (ATR t a Bt Ba Zt I) as [F2 E2]. destruct (ARM a m Ba Bm I I) as [F3 E3]. destruct (AMR m a Bm Ba I I) as [F4 E4]. destruct (ATM t m Bt Bm Zt I) as [F5 E5]. destruct (AMT m t Bm Bt I Zt) as [F6 E6].
  rewrite u_pow in *. cbn [sem smass] in *.
  pose proof (rotor_motor (mkrotor (rv a))) as RA. cbn [rotor_p1] in RA. change (mv_rotor (mkrotor (rv a))) with (mvof (k := KRotor) (emap (k := KRotor) val a)) in RA. rewrite RA in E1, E2, E3, E4.
  replace (63 / 10 * u) with (21 / 10 * 3 * u) by field. replace (84 / 10 * u) with (21 / 10 * 4 * u) by field.
  split; [split|split; split].
  - pose proof (product_near 3 th 0 0 r (rotor_mul_translator a t) _ _ _ _ Ra Rt ltac:(lra) ltac:(lra) F1 E1) as K. rewrite Rplus_0_r, Rmult_1_r, Rplus_0_l in K. exact K.
  - pose proof (product_near 3 0 th r 0 (translator_mul_rotor t a) _ _ _ _ Rt Ra ltac:(lra) ltac:(lra) F2 E2) as K. rewrite !Rplus_0_r, Rmult_1_l in K. exact K.
  - pose proof (product_near 4 th th' 0 r' (rotor_mul_motor a m) _ _ _ _ Ra Rm ltac:(lra) ltac:(lra) F3 E3) as K. rewrite Rplus_0_l in K. exact K.
  - pose proof (product_near 4 th' th r' 0 (motor_mul_rotor m a) _ _ _ _ Rm Ra ltac:(lra) ltac:(lra) F4 E4) as K. rewrite Rplus_0_r, (Rmult_comm (1 + th')) in K. exact K.
  - pose proof (product_near 4 0 th' r r' (translator_mul_motor t m) _ _ _ _ Rt Rm ltac:(lra) ltac:(lra) F5 E5) as K. rewrite Rplus_0_r, Rmult_1_l in K. exact K.
  - pose proof (product_near 4 th' 0 r' r (motor_mul_translator m t) _ _ _ _ Rm Rt ltac:(lra) ltac:(lra) F6 E6) as K. rewrite Rplus_0_r, Rmult_1_r, (Rplus_comm r' r) in K. exact K.
Qed.
Print Assumptions C95_mixed.
(** what the exact products do to a point *)
Theorem C95_moves : forall e (t : translator f32) f, n4 e = 1 -> val (l0 (translator_p2 t)) = 0 -> proper f -> forall x,
  moved (mmul (plain e) (gliding t)) x = turn e (vadd x (carried t)) /\ moved (mmul (gliding t) (plain e)) x = vadd (turn e x) (carried t) /\
  moved (mmul (plain e) f) x = turn e (moved f x) /\ moved (mmul f (plain e)) x = moved f (turn e x) /\
  moved (mmul (gliding t) f) x = vadd (moved f x) (carried t) /\ moved (mmul f (gliding t)) x = moved f (vadd x (carried t)).
Proof.
  intros e t f P Z Pf x. destruct (gliding_facts t Z) as (Pg & _ & G & _). pose proof (plain_proper e P) as Pe.
  assert (M : forall a b y, proper a -> proper b -> moved (mmul a b) y = moved a (moved b y)) by (intros a b y Ha Hb; unfold moved; apply mmul_image; assumption).
  rewrite !M by assumption. rewrite !G, !plain_moved. repeat split; reflexivity.
Qed.
(** ** Points under a rotor and a translator multiplied in either order *)
Theorem C95_point : forall (B : Build) th r (a : rotor f32) e (t : translator f32) (p : point f32), near_rotor th a e -> good_translator r t -> th <= / 1100 -> / 2 ^ 60 <= r <= 2 ^ 19 -> bound (point_p3 p) -> wt p = 1 -> let x := pos p in
  let gap := (2005 / 1000 * th + 35 * / 2 ^ 24) * vlen x + (4007 / 1000 * th + 51 * / 2 ^ 24) * r + 2 * tiny in
  let q := motor_on_point (rotor_mul_translator a t) p in let q' := motor_on_point (translator_mul_rotor t a) p in
  Forall fin (reg_list (point_p3 q)) /\ Forall fin (reg_list (point_p3 q')) /\ vlen (vsub (pos q) (turn e (vadd x (carried t)))) <= gap /\ vlen (vsub (pos q') (vadd (turn e x) (carried t))) <= gap.
Proof.
  intros B th r a e t p Na Gt T L Hp Hw x gap q q'. assert (t0 : 0 <= th) by (destruct Na as (_ & _ & H); eapply Rle_trans; [apply n4_pos|exact H]). pose proof u_small as U. assert (Y50 : 2 ^ 19 <= 2 ^ 50) by (apply Rle_pow; [lra|lia]).
  assert (Nid : near_motor 0 (/ 2 ^ 60) (mkmotor (mk4 (fz 1) (fz 0) (fz 0) (fz 0)) (mk4 (fz 0) (fz 0) (fz 0) (fz 0))) (plain (mk4 1 0 0 0))).
  { destruct (fz_ok 1 ltac:(lia)) as [F1 V1]. destruct (fz_ok 0 ltac:(lia)) as [F0 V0]. assert (p60 : 0 < / 2 ^ 60) by (apply Rinv_0_lt_compat, pow_lt; lra). split; [repeat (apply Forall_cons; [assumption|]); apply Forall_nil|].
    split; [apply plain_proper; unfold n4, q4; cbn [l0 l1 l2 l3]; replace (1 * 1 + 0 * 0 + 0 * 0 + 0 * 0) with 1 by ring; apply sqrt_1|]. unfold mv1, mv2, map4, plain. cbn [motor_p1 motor_p2 l0 l1 l2 l3]. rewrite V0, V1, !sub4_self, n4_0. lra. }
  destruct (C95_mixed B th 0 r (/ 2 ^ 60) a e t _ _ Na Nid Gt ltac:(lra) ltac:(lra) ltac:(lra) ltac:(split; [lra|apply (Rle_trans _ 1); [rewrite <- Rinv_1; apply Rinv_le_contravar; [lra|apply pow_R1_Rle; lra]|apply pow_R1_Rle; lra]])) as ((N1 & N2) & _).
  destruct (C95_moves e t _ (proj1 (proj2 Na)) (proj1 (proj2 Gt)) (plain_proper e (proj1 (proj2 Na))) x) as (M1 & M2 & _). rewrite u_pow in *. set (T' := (1 + th) * (1 + 63 / 10 * u) - 1) in *.
  assert (TT : T' <= 1001 / 1000 * th + 63 / 10 * u). { unfold T'. assert (th * u <= th * / 100000) by (apply Rmult_le_compat_l; unfold u; lra). lra. } assert (T3 : T' <= / 1000) by (unfold u in *; lra).
  assert (G : forall m f, near_motor T' r m f -> let s := motor_on_point m p in Forall fin (reg_list (point_p3 s)) /\ vlen (vsub (pos s) (moved f x)) <= gap).
  { intros m f N s. destruct (C92_point B T' r m f p N T3 (proj2 L) Hp) as (F & W & E & _). fold s x in F, E. fold x in W. rewrite Hw in W, E. specialize (W R1_neq_R0). rewrite W in E. replace (vscale 1 (moved f (vscale (/ 1) x))) with (moved f x) in E. 2: { rewrite Rinv_1. assert (V1 : forall v, vscale 1 v = v) by (intros [v1 v2 v3]; unfold vscale; apply vec_eq; cbn [vx vy vz]; ring). rewrite !V1. reflexivity. }
    rewrite u_pow, Rabs_R1, Rmult_1_r in E. split; [exact F|]. clear W. clearbody s T'. eapply Rle_trans; [exact E|]. unfold gap. rewrite u_pow. pose proof (vlen_pos x) as x0. assert (r0 : 0 <= r) by (destruct Gt as (_ & _ & H); pose proof (n4_pos (map4 val (translator_p2 t))); lra).
    apply Rplus_le_compat_r, Rplus_le_compat; (apply Rmult_le_compat_r; [assumption|lra]). }
  destruct (G _ _ N1) as [F1 E1]. destruct (G _ _ N2) as [F2 E2]. rewrite M1 in E1. rewrite M2 in E2. split; [exact F1|]. split; [exact F2|]. split; [exact E1|exact E2].
Qed.
Print Assumptions C95_point.
(** ** Sums of many translators *)
Lemma n4_scaled k p q : 0 <= k -> Rabs (l0 p) <= k * Rabs (l0 q) -> Rabs (l1 p) <= k * Rabs (l1 q) -> Rabs (l2 p) <= k * Rabs (l2 q) -> Rabs (l3 p) <= k * Rabs (l3 q) -> n4 p <= k * n4 q.
Proof.
  intros K H0 H1 H2 H3. assert (S : forall x y, Rabs x <= k * Rabs y -> x * x <= k * k * (y * y)).
  { intros x y H. replace (x * x) with (Rabs x * Rabs x) by (rewrite <- Rabs_mult; apply Rabs_pos_eq; nra). replace (k * k * (y * y)) with (k * Rabs y * (k * Rabs y)). 2: { assert (Y : Rabs y * Rabs y = y * y) by (rewrite <- Rabs_mult; apply Rabs_pos_eq; nra). rewrite <- Y. ring. } apply Rmult_le_compat; try apply Rabs_pos; exact H. }
  unfold n4. rewrite <- (sqrt_square k K) at 1. rewrite <- sqrt_mult_alt by nra. apply sqrt_le_1_alt. unfold q4. pose proof (S _ _ H0). pose proof (S _ _ H1). pose proof (S _ _ H2). pose proof (S _ _ H3). lra.
Qed.
Definition tv (t : translator f32) : m128 R := map4 val (translator_p2 t).
Theorem C95_translators : forall (a b : translator f32), Forall fin (reg_list (translator_p2 a)) -> Forall fin (reg_list (translator_p2 b)) -> n4 (tv a) <= 2 ^ 100 -> n4 (tv b) <= 2 ^ 100 -> let s := translator_mul_translator a b in
  Forall fin (reg_list (translator_p2 s)) /\ n4 (sub4 (tv s) (add4 (tv a) (tv b))) <= / 2 ^ 24 * n4 (add4 (tv a) (tv b)) /\ (val (l0 (translator_p2 a)) = 0 -> val (l0 (translator_p2 b)) = 0 -> val (l0 (translator_p2 s)) = 0).
Proof.
  intros a b Fa Fb Na Nb s. rewrite u_pow. pose proof u_small as U. destruct (ap4_lanes _ Fa) as (A0 & A1 & A2 & A3). destruct (ap4_lanes _ Fb) as (B0 & B1 & B2 & B3). destruct (n4_lane (tv a)) as (a0 & a1 & a2 & a3). destruct (n4_lane (tv b)) as (b0 & b1 & b2 & b3).
  assert (X : forall x y, fin x -> fin y -> Rabs (val x) <= n4 (tv a) -> Rabs (val y) <= n4 (tv b) -> fin (fadd x y) /\ Rabs (val (fadd x y) - (val x + val y)) <= u * Rabs (val x + val y)).
  { intros x y Hx Hy Lx Ly. assert (P101 : 2 ^ 100 + 2 ^ 100 = bpow radix2 101) by (replace (2 ^ 100 + 2 ^ 100) with (2 ^ 101) by ring; cbn; ring).
    assert (L : Rabs (val x + val y) <= big) by (eapply Rle_trans; [apply Rabs_triang|]; apply (Rle_trans _ (bpow radix2 101)); [lra|apply bpow_le; lia]). destruct (add_ok x y Hx Hy L) as [F E]. split; [exact F|]. rewrite E. apply rnd_rel, onto_add; apply val_onto. }
  destruct (X _ _ A0 B0 a0 b0) as [F0 E0]. destruct (X _ _ A1 B1 a1 b1) as [F1 E1]. destruct (X _ _ A2 B2 a2 b2) as [F2 E2]. destruct (X _ _ A3 B3 a3 b3) as [F3 E3].
  split; [apply Forall_cons; [exact F0|]; apply Forall_cons; [exact F1|]; apply Forall_cons; [exact F2|]; apply Forall_cons; [exact F3|apply Forall_nil]|]. split.
  - apply n4_scaled; [lra|exact E0|exact E1|exact E2|exact E3].
  - intros Z Z'. change (val (fadd (l0 (translator_p2 a)) (l0 (translator_p2 b))) = 0). rewrite Z, Z', Rplus_0_r, Rminus_0_r, Rabs_R0, Rmult_0_r in E0. destruct (Req_dec (val (fadd (l0 (translator_p2 a)) (l0 (translator_p2 b)))) 0) as [K|K]; [exact K|]. apply Rabs_pos_lt in K. lra.
Qed.
Print Assumptions C95_translators.
Definition tchain (t : translator f32) (ts : list (translator f32)) : translator f32 := fold_left translator_mul_translator ts t.
Definition tsum (x : m128 R) (ts : list (translator f32)) : m128 R := fold_left (fun y t => add4 y (tv t)) ts x.
Definition tlen (ts : list (translator f32)) : R := fold_right (fun t s => n4 (tv t) + s) 0 ts.
Definition fin_t (t : translator f32) : Prop := Forall fin (reg_list (translator_p2 t)).
Lemma tlen_pos ts : 0 <= tlen ts.
Proof. induction ts as [|t ts IH]; cbn [tlen fold_right]; [lra|]. fold (tlen ts). pose proof (n4_pos (tv t)). lra. Qed.
Lemma add4_sub4 a b c : sub4 (add4 a b) (add4 c b) = sub4 a c.
Proof. destruct a as [a0 a1 a2 a3], b as [b0 b1 b2 b3], c as [c0 c1 c2 c3]. unfold add4, sub4. cbn [l0 l1 l2 l3]. f_equal; ring. Qed.
Lemma tchain_step ts : Forall fin_t ts -> forall g W s x, fin_t s -> n4 x <= W -> n4 (sub4 (tv s) x) <= (g - 1) * W -> 1 <= g -> g * (1 + u) ^ length ts <= 2 -> W + tlen ts <= 2 ^ 99 ->
  fin_t (tchain s ts) /\ n4 (sub4 (tv (tchain s ts)) (tsum x ts)) <= (g * (1 + u) ^ length ts - 1) * (W + tlen ts).
Proof.
  pose proof u_small as U. induction 1 as [|t ts Ft H IH]; intros g W s x Fs Nx E g1 G L.
  - cbn [tchain tsum tlen length pow fold_left fold_right]. rewrite Rmult_1_r, Rplus_0_r. split; assumption.
  - cbn [tlen fold_right length pow] in *. fold (tlen ts) in *. pose proof (tlen_pos ts) as l0'. pose proof (n4_pos (tv t)) as w0. pose proof (n4_pos x) as x0. set (w := n4 (tv t)) in *.
    assert (W0 : 0 <= W) by lra. assert (Px : 1 <= (1 + u) ^ length ts) by (apply pow_R1_Rle; lra).
    assert (G1 : g * (1 + u) <= 2). { eapply Rle_trans; [|exact G]. rewrite <- Rmult_assoc. rewrite <- (Rmult_1_r (g * (1 + u))) at 1. apply Rmult_le_compat_l; [apply Rmult_le_pos; lra|exact Px]. }
    assert (gu : 0 <= g * u) by (apply Rmult_le_pos; lra). assert (S1 : n4 (tv s) <= g * W) by (pose proof (n4_tri (tv s) x); lra).
    assert (S2 : g * W <= 2 * 2 ^ 99) by (apply Rmult_le_compat; lra). assert (P100 : 2 ^ 100 = 2 * 2 ^ 99) by ring. assert (P99 : 0 < 2 ^ 99) by (apply pow_lt; lra).
    destruct (C95_translators s t Fs Ft ltac:(lra) ltac:(fold w; lra)) as (F & D & _). cbv zeta in F, D. rewrite u_pow in D. pose proof (n4_add (tv s) (tv t)) as A. fold w in A.
    assert (D2 : n4 (sub4 (tv (translator_mul_translator s t)) (add4 x (tv t))) <= (g * (1 + u) - 1) * (W + w)).
    { eapply Rle_trans; [apply (n4_via _ (add4 (tv s) (tv t)))|]. rewrite add4_sub4. assert (Q1 : u * n4 (add4 (tv s) (tv t)) <= u * (g * W + w)) by (apply Rmult_le_compat_l; lra). assert (Q2 : u * w <= g * u * w) by (apply Rmult_le_compat_r; [exact w0|rewrite <- (Rmult_1_l u) at 1; apply Rmult_le_compat_r; lra]). assert (Q3 : 0 <= (g - 1) * w) by (apply Rmult_le_pos; lra). lra. }
    assert (X2 : n4 (add4 x (tv t)) <= W + w) by (pose proof (n4_add x (tv t)) as A'; fold w in A'; lra). assert (g2 : 1 <= g * (1 + u)) by lra.
    specialize (IH (g * (1 + u)) (W + w) _ _ F X2 D2 g2 ltac:(rewrite Rmult_assoc; exact G) ltac:(lra)). rewrite Rmult_assoc, Rplus_assoc in IH. exact IH.
Qed.
Theorem C95_translator_chain : forall t ts, Forall fin_t (t :: ts) -> let n := INR (length ts) in n * / 2 ^ 24 <= / 100 -> tlen (t :: ts) <= 2 ^ 99 -> let s := tchain t ts in
  fin_t s /\ n4 (sub4 (tv s) (tsum (tv t) ts)) <= 102 / 100 * n * / 2 ^ 24 * tlen (t :: ts).
Proof.
  intros t ts H n S L s. inversion_clear H as [|t0 ts0 Ft H']. rewrite u_pow in *. pose proof u_small as U. pose proof (pos_INR (length ts)) as n0. fold n in n0.
  assert (P : (1 + u) ^ length ts <= 1 + 102 / 100 * (n * u)). { eapply Rle_trans; [apply pow_up; [lra|fold n; lra]|]. fold n. assert (0 <= n * u) by (apply Rmult_le_pos; lra). assert (n * u * (n * u) <= n * u * / 100) by (apply Rmult_le_compat_l; assumption). lra. }
  cbn [tlen fold_right] in *. fold (tlen ts) in *. destruct (tchain_step ts H' 1 (n4 (tv t)) t (tv t) Ft (Rle_refl _) ltac:(rewrite sub4_self; lra) (Rle_refl _) ltac:(lra) L) as [F E]. split; [exact F|]. eapply Rle_trans; [exact E|].
  pose proof (tlen_pos ts). pose proof (n4_pos (tv t)). apply Rmult_le_compat_r; lra.
Qed.
Print Assumptions C95_translator_chain.
(** the sum of the lanes carries every point as the translators do one after the other *)
Theorem C95_carried : forall ts t, vscale (-2) (vpart (tsum (tv t) ts)) = fold_left (fun v s => vadd v (carried s)) ts (carried t).
Proof.
  intros ts t. change (carried t) with (vscale (-2) (vpart (tv t))). generalize (tv t). induction ts as [|s ts IH]; intro y; [reflexivity|]. cbn [tsum fold_left]. fold (tsum (add4 y (tv s)) ts). rewrite IH. f_equal.
  destruct y as [y0 y1 y2 y3]. unfold carried, tv, vscale, vadd, vpart, vval, add4, map4. cbn [l0 l1 l2 l3 vx vy vz]. apply vec_eq; cbn [vx vy vz]; ring.
Qed.
(** The rounded rotor (3/5, 4/5, 0, 0), the translator (1, -2, 3), their product in one order as the motor, and a long list of translators. *)
Example C95_ex : forall B : Build, let a := mkrotor (mk4 (f32_of 10066330 (-24)) (f32_of 13421773 (-24)) (fz 0) (fz 0)) in let e := mk4 (3 / 5) (4 / 5) 0 0 in let t := mktranslator (mk4 (fz 0) (fz 1) (fz (-2)) (fz 3)) in let p := ipoint 7 (-3) 2 in
  near_rotor (/ 2 ^ 24) a e /\ good_translator 4 t /\ (exists th, th <= / 1000 /\ near_motor th 4 (rotor_mul_translator a t) (mmul (plain e) (gliding t))) /\ bound (point_p3 p) /\ wt p = 1 /\ turn e (vadd (pos p) (carried t)) <> vadd (turn e (pos p)) (carried t) /\
  let ts := repeat t 1000 in Forall fin_t (t :: ts) /\ INR (length ts) * / 2 ^ 24 <= / 100 /\ tlen (t :: ts) <= 2 ^ 99.
Proof.
  intros B a e t p. destruct C90_ex as (N & _ & _ & Z & _ & Bp & Wp & _). fold a e in N. fold t in Z. fold p in Bp, Wp. assert (Zv : forall k, (Z.abs k <= 2 ^ 20)%Z -> val (fz k) = IZR k) by (intros k Hk; apply fz_ok; lia).
  assert (Ft : fin_t t) by (repeat (apply Forall_cons; [apply fz_ok; lia|]); apply Forall_nil).
  assert (N4 : n4 (tv t) <= 4). { unfold n4. rewrite <- (sqrt_square 4) by lra. apply sqrt_le_1_alt. unfold q4, tv, t, map4. cbn [translator_p2 l0 l1 l2 l3]. rewrite !Zv by lia. lra. }
  assert (Gt : good_translator 4 t) by (split; [exact Ft|split; [exact Z|exact N4]]).
  split; [exact N|]. split; [exact Gt|]. pose proof u_small as U. assert (p60 : 0 < / 2 ^ 60 <= 1). { split; [apply Rinv_0_lt_compat, pow_lt; lra|]. rewrite <- Rinv_1. apply Rinv_le_contravar; [lra|apply pow_R1_Rle; lra]. } assert (P19 : 4 <= 2 ^ 50) by (replace (2 ^ 50) with (4 * 2 ^ 48) by ring; assert (1 <= 2 ^ 48) by (apply pow_R1_Rle; lra); lra).
  split; [|split; [exact Bp|split; [exact Wp|split]]].
  - exists ((1 + / 2 ^ 24) * (1 + 63 / 10 * / 2 ^ 24) - 1). split; [rewrite u_pow; unfold u; lra|].
    destruct (C41_any_geometric_product_partial B) as (_ & _ & _ & _ & _ & _ & _ & ART & _). destruct (ART a t (big_rotor _ _ _ N ltac:(rewrite u_pow; lra)) (big_translator 4 t Ft N4 P19) I Z) as [F1 E1]. rewrite u_pow in *. cbn [sem smass] in *.
    pose proof (rotor_motor (mkrotor (rv a))) as RA. cbn [rotor_p1] in RA. change (mv_rotor (mkrotor (rv a))) with (mvof (k := KRotor) (emap (k := KRotor) val a)) in RA. rewrite RA in E1.
    pose proof (product_near 3 u 0 0 4 (rotor_mul_translator a t) _ _ _ _ (near_real_rotor _ _ _ N) (near_real_translator 4 t Z N4) ltac:(lra) ltac:(lra) F1 E1) as K. rewrite Rplus_0_r, Rmult_1_r, Rplus_0_l in K. replace (63 / 10 * u) with (21 / 10 * 3 * u) by field. exact K.
  - destruct (ipoint_ok 7 (-3) 2) as (_ & _ & P3); try lia. fold p in P3. rewrite P3. unfold turn, carried, vval, t, e, vadd, vscale, vpart, qm, lift, rev4. cbn [translator_p2 l0 l1 l2 l3 vx vy vz]. rewrite !Zv by lia. intro K. apply (f_equal vy) in K. cbn [vy] in K. lra.
  - intro ts. assert (LE : INR (length ts) = 1000) by (unfold ts; rewrite repeat_length, INR_IZR_INZ; reflexivity). split; [apply Forall_cons; [exact Ft|]; apply Forall_forall; intros k Hk; apply repeat_spec in Hk; rewrite Hk; exact Ft|]. split; [rewrite LE, u_pow; unfold u; lra|].
    assert (TL : forall n, tlen (repeat t n) <= 4 * INR n). { induction n as [|n IH]; [cbn; lra|]. rewrite S_INR. cbn [repeat tlen fold_right]. fold (tlen (repeat t n)). lra. }
    cbn [tlen fold_right]. fold (tlen ts). specialize (TL 1000%nat). fold ts in TL. replace (INR 1000) with 1000 in TL by (rewrite INR_IZR_INZ; reflexivity). replace (2 ^ 99) with (2 ^ 13 * 2 ^ 86) by ring. assert (1 <= 2 ^ 86) by (apply pow_R1_Rle; lra). lra.
Qed.
