(** Property C42, the operations that divide: point * point and a translator applied to a plane. *)
From Coq Require Import ZArith Znumtheory Reals List Bool Lra Lia Psatz.
From Flocq Require Import Core BinarySingleNaN.
From Verif Require Import AlgTac Float32 FloatFacts ExprSyntax FloatErr FloatMass FloatApx FloatNR FloatNorm FloatDegenerate FloatIdeal Props11 Props20 Props21.
Import ListNotations.
Local Open Scope R_scope.

Definition is_int (x : f32) (k : Z) : Prop := fin x /\ val x = IZR k.
Lemma big_int k : (Z.abs k <= 2 ^ 24)%Z -> Rabs (IZR k) <= big.
Proof. intro H. rewrite <- abs_IZR. apply (Rle_trans _ (IZR (2 ^ 24))); [apply IZR_le; exact H|]. change (IZR (2 ^ 24)) with (bpow radix2 24). unfold big. apply bpow_le. lia. Qed.
Lemma int_add x y a b : is_int x a -> is_int y b -> (Z.abs (a + b) <= 2 ^ 24)%Z -> is_int (fadd x y) (a + b).
Proof. intros [Fx Vx] [Fy Vy] H. destruct (add_ok x y Fx Fy) as [F V]; rewrite Vx, Vy, <- plus_IZR in *; [apply big_int; exact H|]. split; [exact F|]. rewrite V. apply rnd_Z. exact H. Qed.
Lemma int_mul x y a b : is_int x a -> is_int y b -> (Z.abs (a * b) <= 2 ^ 24)%Z -> is_int (fmul x y) (a * b).
Proof. intros [Fx Vx] [Fy Vy] H. destruct (mul_ok x y Fx Fy) as [F V]; rewrite Vx, Vy, <- mult_IZR in *; [apply big_int; exact H|]. split; [exact F|]. rewrite V. apply rnd_Z. exact H. Qed.
Lemma int_fz k : (Z.abs k <= 2 ^ 24)%Z -> is_int (fz k) k. Proof. intro H. apply fz_ok. exact H. Qed.
Lemma is_one x : is_int x 1 -> x = one.
Proof.
  intros [F V]. destruct val_one as [F1 V1]. apply B2R_Bsign_inj; [exact F|exact F1|change (val x = val one); rewrite V, V1; reflexivity|].
  destruct x as [s|s| |s m e W]; try discriminate F; [cbn in V; change (0 = 1) in V; lra|]. destruct s; [|reflexivity]. exfalso.
  assert (N : val (B754_finite true m e W) < 0) by (apply F2R_lt_0; cbn; lia). rewrite V in N. lra.
Qed.
Lemma four (P : f32 -> Prop) a b c d : Forall P [a; b; c; d] -> P a /\ P b /\ P c /\ P d.
Proof. rewrite Forall_forall. intro H. repeat split; apply H; cbn; auto. Qed.
Definition minus_one : f32 := fz (-1).
Lemma is_minus_one x : is_int x (-1) -> x = minus_one.
Proof.
  intros [F V]. destruct (fz_ok (-1) ltac:(lia)) as [F1 V1]. apply B2R_Bsign_inj; [exact F|exact F1|change (val x = val minus_one); unfold minus_one; rewrite V, V1; reflexivity|].
  destruct x as [s|s| |s m e W]; try discriminate F; [cbn in V; change (0 = -1) in V; lra|]. destruct s; [reflexivity|]. exfalso.
  assert (N : 0 < val (B754_finite false m e W)) by (apply F2R_gt_0; cbn; lia). rewrite V in N. lra.
Qed.
(** point * point between points of weight 1 with integer coordinates up to 2^23, and the translation of a plane, with
    integer coefficients up to 1448: exact on every machine whose Newton step from the estimate of 1 (of -1) is 1 (-1). *)
Lemma point_point_int M a0 ai b0 bi k l : rcp_step (H := Flo_f32 M) minus_one = minus_one -> is_int a0 1 -> is_int b0 1 -> is_int ai k -> is_int bi l -> (Z.abs k <= 2 ^ 23)%Z -> (Z.abs l <= 2 ^ 23)%Z ->
  is_int (fmul (fadd (fmul (fmul a0 bi) (fz (-1))) (fmul ai b0)) (rcp_step (H := Flo_f32 M) (fadd (fmul (fmul a0 b0) (fz (-2))) (fmul a0 b0)))) (l - k).
Proof.
  intros H A0 B0 Ai Bi Hk Hl. pose proof (int_mul _ _ _ _ A0 B0 ltac:(lia)) as Q.
  pose proof (int_add _ _ _ _ (int_mul _ _ _ _ Q (int_fz (-2) ltac:(lia)) ltac:(lia)) Q ltac:(lia)) as Q2. apply is_minus_one in Q2.
  change (rcp_step (H := Flo_f32 M) (fadd (fmul (fmul a0 b0) (fz (-2))) (fmul a0 b0))) with (rcp_step (H := Flo_f32 M) (@fadd f32 Arith_f32 (fmul (fmul a0 b0) (fz (-2))) (fmul a0 b0))).
  rewrite Q2, H.
  pose proof (int_mul _ _ _ _ (int_mul _ _ _ _ A0 Bi ltac:(lia)) (int_fz (-1) ltac:(lia)) ltac:(lia)) as R1. pose proof (int_mul _ _ _ _ Ai B0 ltac:(lia)) as R2.
  pose proof (int_add _ _ _ _ R1 R2 ltac:(lia)) as R3. pose proof (int_mul _ _ _ _ R3 (int_fz (-1) ltac:(lia)) ltac:(lia)) as R4. replace (l - k)%Z with ((1 * l * -1 + k * 1) * -1)%Z by ring. exact R4.
Qed.
Theorem C42_point_mul_point : forall (B : Build) (M : machine), rcp_step (H := Flo_f32 M) minus_one = minus_one -> forall a b : point f32,
  Forall (integer (2 ^ 23)) (coefs (k := KPoint) a) -> Forall (integer (2 ^ 23)) (coefs (k := KPoint) b) ->
  let pa := point_p3 a in let pb := point_p3 b in val (l0 pa) = 1 -> val (l0 pb) = 1 ->
  let r := translator_p2 (point_mul_point (FL := Flo_f32 M) a b) in (fin (l0 r) /\ val (l0 r) = 0) /\ forall i, In i upper -> fin (i r) /\ val (i r) = val (i pb) - val (i pa).
Proof.
  intros B M H [[a0 a1 a2 a3]] [[b0 b1 b2 b3]] Sa Sb. change (Forall (integer (2 ^ 23)) [a0; a1; a2; a3]) in Sa. change (Forall (integer (2 ^ 23)) [b0; b1; b2; b3]) in Sb. cbn [point_p3 l0]. intros Wa Wb. cbv zeta.
  apply four in Sa. apply four in Sb.
  destruct Sa as ((A0 & _) & (A1 & k1 & E1 & L1) & (A2 & k2 & E2 & L2) & (A3 & k3 & E3 & L3)), Sb as ((B0 & _) & (B1 & j1 & G1 & M1) & (B2 & j2 & G2 & M2) & (B3 & j3 & G3 & M3)). split.
  - destruct B as [[|]]; split; reflexivity.
  - assert (T : forall ai bi k l, fin ai -> val ai = IZR k -> fin bi -> val bi = IZR l -> (Z.abs k <= 2 ^ 23)%Z -> (Z.abs l <= 2 ^ 23)%Z ->
      let z := fmul (fadd (fmul (fmul a0 bi) (fz (-1))) (fmul ai b0)) (rcp_step (H := Flo_f32 M) (fadd (fmul (fmul a0 b0) (fz (-2))) (fmul a0 b0))) in fin z /\ val z = val bi - val ai).
    { intros ai bi k kb Fa Va Fb Vb Hk Hl z. rewrite Va, Vb, <- minus_IZR. exact (point_point_int M a0 ai b0 bi k kb H (conj A0 Wa) (conj B0 Wb) (conj Fa Va) (conj Fb Vb) Hk Hl). }
    destruct B as [[|]]; apply upper_cases.
    + exact (T a1 b1 k1 j1 A1 E1 B1 G1 L1 M1).
    + exact (T a2 b2 k2 j2 A2 E2 B2 G2 L2 M2).
    + exact (T a3 b3 k3 j3 A3 E3 B3 G3 L3 M3).
    + exact (T a1 b1 k1 j1 A1 E1 B1 G1 L1 M1).
    + exact (T a2 b2 k2 j2 A2 E2 B2 G2 L2 M2).
    + exact (T a3 b3 k3 j3 A3 E3 B3 G3 L3 M3).
Qed.
Lemma dp_int (B : Build) p0 p1 p2 p3 t0 t1 t2 t3 a b c d e f : is_int p1 a -> is_int p2 b -> is_int p3 c -> is_int t1 d -> is_int t2 e -> is_int t3 f ->
  (Z.abs a <= 1448)%Z -> (Z.abs b <= 1448)%Z -> (Z.abs c <= 1448)%Z -> (Z.abs d <= 1448)%Z -> (Z.abs e <= 1448)%Z -> (Z.abs f <= 1448)%Z ->
  is_int (l0 (hi_dp (F := f32) (mk4 p0 p1 p2 p3) (mk4 t0 t1 t2 t3))) (a * d + b * e + c * f).
Proof.
  intros A1 A2 A3 B1 B2 B3 H1 H2 H3 H4 H5 H6.
  assert (N : forall x y, (Z.abs x <= 1448)%Z -> (Z.abs y <= 1448)%Z -> (Z.abs (x * y) <= 2096704)%Z) by (intros; rewrite Z.abs_mul; nia).
  pose proof (N _ _ H1 H4) as N1. pose proof (N _ _ H2 H5) as N2. pose proof (N _ _ H3 H6) as N3.
  pose proof (int_mul _ _ _ _ A1 B1 ltac:(lia)) as Q1. pose proof (int_mul _ _ _ _ A2 B2 ltac:(lia)) as Q2. pose proof (int_mul _ _ _ _ A3 B3 ltac:(lia)) as Q3.
  destruct B as [[|]].
  - pose proof (int_add _ _ _ _ (int_add _ _ _ _ (int_fz 0 ltac:(lia)) Q1 ltac:(lia)) (int_add _ _ _ _ Q2 Q3 ltac:(lia)) ltac:(lia)) as Q. replace (a * d + b * e + c * f)%Z with (0 + a * d + (b * e + c * f))%Z by ring. exact Q.
  - pose proof (int_add _ _ _ _ (int_add _ _ _ _ Q3 Q2 ltac:(lia)) Q1 ltac:(lia)) as Q. replace (a * d + b * e + c * f)%Z with (c * f + b * e + a * d)%Z by ring. exact Q.
Qed.
Lemma translate_int M d n r k m : rcp_step (H := Flo_f32 M) one = one -> is_int d k -> is_int n m -> is_int r 1 -> (Z.abs k <= 1448)%Z -> (Z.abs m <= 6290112)%Z ->
  is_int (fadd d (fmul n (fadd (rcp_step (H := Flo_f32 M) r) (rcp_step (H := Flo_f32 M) r)))) (k + m * 2).
Proof.
  intros H D N R Hk Hm. apply is_one in R. subst r. rewrite H. assert (O : is_int one 1) by exact val_one.
  exact (int_add _ _ _ _ D (int_mul _ _ _ _ N (int_add _ _ _ _ O O ltac:(lia)) ltac:(lia)) ltac:(lia)).
Qed.
Print Assumptions C42_point_mul_point.
Theorem C42_translator_on_plane : forall (B : Build) (M : machine), rcp_step (H := Flo_f32 M) one = one -> forall (t : translator f32) (p : plane f32),
  Forall (integer 1448) (coefs (k := KTranslator) t) -> Forall (integer 1448) (coefs (k := KPlane) p) -> val (l0 (translator_p2 t)) = 0 ->
  let n := plane_p0 p in let v := translator_p2 t in let r := plane_p0 (translator_on_plane (FL := Flo_f32 M) t p) in
  (fin (l0 r) /\ val (l0 r) = val (l0 n) + 2 * d3 n v) /\ forall i, In i upper -> fin (i r) /\ val (i r) = val (i n).
Proof.
  intros B M H [[t0 t1 t2 t3]] [[p0 p1 p2 p3]] St Sp. change (Forall (integer 1448) [t0; t1; t2; t3]) in St. change (Forall (integer 1448) [p0; p1; p2; p3]) in Sp.
  cbn [translator_p2 plane_p0 l0]. intro Zt. cbv zeta. apply four in St. apply four in Sp.
  destruct St as ((T0 & _) & (T1 & k1 & E1 & L1) & (T2 & k2 & E2 & L2) & (T3 & k3 & E3 & L3)), Sp as ((P0 & j0 & G0 & M0) & (P1 & j1 & G1 & M1) & (P2 & j2 & G2 & M2) & (P3 & j3 & G3 & M3)).
  assert (Z0 : is_int (fz 0) 0) by (apply int_fz; lia). assert (I0 : is_int t0 0) by exact (conj T0 Zt).
  assert (N : (Z.abs (j1 * k1 + j2 * k2 + j3 * k3) <= 6290112)%Z).
  { assert (N : forall x y, (Z.abs x <= 1448)%Z -> (Z.abs y <= 1448)%Z -> (Z.abs (x * y) <= 2096704)%Z) by (intros; rewrite Z.abs_mul; nia).
    pose proof (N _ _ M1 L1). pose proof (N _ _ M2 L2). pose proof (N _ _ M3 L3). lia. }
  assert (E : forall x, is_int x (j0 + (j1 * k1 + j2 * k2 + j3 * k3) * 2) -> fin x /\ val x = val p0 + 2 * d3 (mk4 p0 p1 p2 p3) (mk4 t0 t1 t2 t3)).
  { intros x [F V]. split; [exact F|]. rewrite V. unfold d3. cbn [l1 l2 l3]. rewrite G0, G1, G2, G3, E1, E2, E3, <- !mult_IZR, <- !plus_IZR, <- mult_IZR, <- plus_IZR. f_equal. ring. }
  assert (K : forall x k, is_int x k -> (Z.abs k <= 1448)%Z -> is_int (fadd x (fz 0)) k).
  { intros x k X Hk. pose proof (int_add _ _ _ _ X Z0 ltac:(lia)) as Q. rewrite Z.add_0_r in Q. exact Q. }
  assert (K2 : forall x k, fin x -> val x = IZR k -> (Z.abs k <= 1448)%Z -> fin (fadd x (fz 0)) /\ val (fadd x (fz 0)) = val x).
  { intros x k F V Hk. destruct (K x k (conj F V) Hk) as [F2 V2]. split; [exact F2|]. rewrite V2, V. reflexivity. }
  split.
  - apply E. destruct B as [[|]].
    + exact (translate_int M p0 _ (fz 1) j0 _ H (conj P0 G0) (dp_int (mkBuild true) p0 p1 p2 p3 t0 t1 t2 t3 j1 j2 j3 k1 k2 k3 (conj P1 G1) (conj P2 G2) (conj P3 G3) (conj T1 E1) (conj T2 E2) (conj T3 E3) M1 M2 M3 L1 L2 L3) (int_fz 1 ltac:(lia)) M0 N).
    + refine (translate_int M p0 _ (fadd t0 (fz 1)) j0 _ H (conj P0 G0) (dp_int (mkBuild false) p0 p1 p2 p3 (fadd t0 (fz 1)) (fadd t1 (fz 0)) (fadd t2 (fz 0)) (fadd t3 (fz 0)) j1 j2 j3 k1 k2 k3 (conj P1 G1) (conj P2 G2) (conj P3 G3) (K _ _ (conj T1 E1) L1) (K _ _ (conj T2 E2) L2) (K _ _ (conj T3 E3) L3) M1 M2 M3 L1 L2 L3) _ M0 N).
      exact (int_add _ _ _ _ I0 (int_fz 1 ltac:(lia)) ltac:(lia)).
  - destruct B as [[|]]; apply upper_cases.
    + exact (K2 p1 j1 P1 G1 M1).
    + exact (K2 p2 j2 P2 G2 M2).
    + exact (K2 p3 j3 P3 G3 M3).
    + exact (K2 p1 j1 P1 G1 M1).
    + exact (K2 p2 j2 P2 G2 M2).
    + exact (K2 p3 j3 P3 G3 M3).
Qed.
Print Assumptions C42_translator_on_plane.

(** On other conforming hardware they are not exact, even between points of weight 1. *)
Definition low_both : machine := mkmachine
  (fun x => if Beqb x one then low else if Beqb x minus_one then Bopp low else m_rcp ideal_machine x)
  (m_rsqrt ideal_machine) (m_sin ideal_machine) (m_cos ideal_machine) (m_asin ideal_machine) (m_acos ideal_machine) (m_atan2 ideal_machine).
Lemma low_both_rcp : rcp_estimate low_both.
Proof.
  intros x R. cbn [m_rcp low_both]. destruct (Beqb x one) eqn:E.
  - rewrite (eqb_one x (proj1 R) E). destruct val_low as [F V]. split; [exact F|]. rewrite V. apply Rabs_le. lra.
  - destruct (Beqb x minus_one) eqn:E2; [|exact (ideal_rcp x R)].
    assert (V1 : val x = -1).
    { rewrite Beqb_correct in E2 by (apply R || reflexivity). fold (val x) (val minus_one) in E2. unfold minus_one in E2. rewrite (proj2 (fz_ok (-1) ltac:(lia))) in E2.
      revert E2. case Req_bool_spec; intros; [assumption|discriminate]. }
    rewrite V1. destruct val_low as [F V]. split; [exact F|]. unfold val in *. rewrite B2R_Bopp, V. apply Rabs_le. lra.
Qed.
Theorem C42_divide_refuted : exists M, rcp_estimate M /\ rsqrt_estimate M /\ forall B : Build, let FL := Flo_f32 M in
  (let r := translator_p2 (point_mul_point (point_ctor (fz 0) (fz 0) (fz 0)) (point_ctor (fz 1) (fz 2) (fz 3))) in val (l1 r) <> 1) /\
  (let r := plane_p0 (translator_on_plane (mktranslator (mk4 (fz 0) (fz 1) (fz 0) (fz 0))) (plane_ctor (fz 1) (fz 0) (fz 0) (fz 0))) in val (l0 r) <> 2).
Proof.
  exists low_both. split; [exact low_both_rcp|split; [exact ideal_rsqrt|]]. intros B FL. split; destruct B as [[|]]; vm_compute; lra.
Qed.
Print Assumptions C42_divide_refuted.
(** On no machine whatever is point * point exact for all small integers: from the point (0,0,0) of weight 3 to the point
    (1,0,0) of weight 3 the translation is 1/3, which is no binary32 number. *)
Lemma third_no_float (x : f32) : val x <> 1 / 3.
Proof.
  intro H. pose proof (val_format x) as G. rewrite H in G. unfold generic_format, F2R in G. cbn [Fnum Fexp] in G.
  set (k := Ztrunc (scaled_mantissa radix2 fexp32 (1 / 3))) in G. set (e := cexp radix2 fexp32 (1 / 3)) in G. clearbody k e.
  destruct (Z_le_dec 0 e) as [P|P].
  - rewrite <- (IZR_Zpower radix2 e P), <- mult_IZR in G. assert (Q : IZR (3 * (k * radix2 ^ e)) = IZR 1) by (rewrite mult_IZR, <- G; lra). apply eq_IZR in Q. lia.
  - assert (Q : IZR (3 * k) = IZR (radix2 ^ (- e))).
    { rewrite mult_IZR, IZR_Zpower by lia. assert (W : bpow radix2 e * bpow radix2 (- e) = 1) by (rewrite <- bpow_plus, Z.add_opp_diag_r; reflexivity).
      replace (IZR k) with (1 / 3 * bpow radix2 (- e)); [lra|]. rewrite G, Rmult_assoc, W. ring. }
    apply eq_IZR in Q. assert (D : (3 | radix2 ^ (- e))%Z) by (exists k; lia). assert (Hn : (0 <= - e)%Z) by lia. revert D Hn. change (radix_val radix2) with 2%Z.
    generalize (- e)%Z. intros n D Hn. revert D.
    pattern n. apply natlike_ind; [intros [z Hz]; cbn in Hz; lia| |exact Hn]. intros m Hm IH D. rewrite Z.pow_succ_r in D by exact Hm.
      apply prime_mult in D; [|exact prime_3]. destruct D as [[z D]|D]; [lia|exact (IH D)].
Qed.
Theorem C42_weights_refuted : forall M (B : Build), let pt x := mkpoint (mk4 (fz 3) x (fz 0) (fz 0)) in
  let r := translator_p2 (point_mul_point (FL := Flo_f32 M) (pt (fz 0)) (pt (fz 1))) in val (l1 r) <> 1 / 3.
Proof. intros M B pt r. apply third_no_float. Qed.
Print Assumptions C42_weights_refuted.
Example C42_divide_ex : rcp_step (H := Flo_f32 ideal_machine) one = one /\ rcp_step (H := Flo_f32 ideal_machine) minus_one = minus_one /\
  Forall (integer (2 ^ 23)) (coefs (k := KPoint) (point_ctor (fz 1) (fz (-2)) (fz 8388608))) /\ Forall (integer 1448) (coefs (k := KPlane) (plane_ctor (fz 1448) (fz (-3)) (fz 7) (fz 5))).
Proof.
  assert (I : forall N k, (Z.abs k <= N)%Z -> (Z.abs k <= 2 ^ 24)%Z -> integer N (fz k)) by (intros N k A C; destruct (fz_ok k C) as [F V]; split; [exact F|]; exists k; auto).
  split; [exact (proj1 C71_ex)|split; [apply is_minus_one; split; [vm_compute; reflexivity|vm_compute; lra]|split]].
  - change (Forall (integer (2 ^ 23)) [fz 1; fz 1; fz (-2); fz 8388608]). repeat (apply Forall_cons; [apply I; lia|]). apply Forall_nil.
  - change (Forall (integer 1448) [fz 5; fz 1448; fz (-3); fz 7]). repeat (apply Forall_cons; [apply I; lia|]). apply Forall_nil.
Qed.
