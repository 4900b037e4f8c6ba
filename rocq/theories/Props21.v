(** Properties C41 and C42, continued: line*line, and the operations that divide by an
    estimate, in binary32. *)
From Coq Require Import ZArith Reals List Bool Lra Lia.
From Flocq Require Import Core BinarySingleNaN Mult_error.
From Verif Require Import AlgTac AlgGP SpecMass Float32 FloatFacts ExprSyntax FloatErr FloatMass FloatOps FloatNR FloatNorm FloatIdeal FloatDegenerate FloatApx FloR Closed SpecGeom Vec Geom AlgNorm Motion Props04 Props11.
Import ListNotations.
Local Open Scope R_scope.

(** ** line*line with its two exchanged coefficients put back *)
Definition put_back {F} (m : motor F) : motor F :=
  let p := motor_p1 m in mkmotor (mk4 (l0 p) (l3 p) (l2 p) (l1 p)) (motor_p2 m).
Definition o_line_line (B : Build) : op2 KLine KLine KMotor :=
  fun F A (a : ent KLine F) (b : ent KLine F) => (put_back (line_mul_line a b) : ent KMotor F).
Lemma o_line_line_natural B : natural (o_line_line B).
Proof. intros F A x. destruct B as [[|]]; reflexivity. Qed.
Lemma o_line_line_correct B : correct (o_line_line B) SGp.
Proof. intros a b Wa Wb. exact (line_mul_line_swapped B a b Wa Wb). Qed.

(** The geometric product of two lines, up to the exchange of e12 and e23 that
    [C01_line_mul_line_refuted] shows, is computed to within 6*2^-24 of its mass,
    and exactly on small integers. *)
Theorem C41_line_mul_line : forall B : Build,
  accurate (k1 := KLine) (k2 := KLine) (k3 := KMotor) (-51) 60 6 (fun a b => put_back (line_mul_line a b)) SGp.
Proof.
  intro B. apply (op_accurate (o_line_line B) SGp (-51) 60 6 (o_line_line_natural B) (o_line_line_correct B));
  try (split; discriminate); try discriminate; destruct B as [[|]]; vm_compute; reflexivity.
Qed.
Print Assumptions C41_line_mul_line.
Theorem C42_line_mul_line : forall B : Build,
  exact_on_integers (k1 := KLine) (k2 := KLine) (k3 := KMotor) 1448 (fun a b => put_back (line_mul_line a b)) SGp.
Proof.
  intro B. refine (op_integers (o_line_line B) SGp 1448 (o_line_line_natural B) (o_line_line_correct B) _ _);
  try discriminate; destruct B as [[|]]; vm_compute; reflexivity.
Qed.
Print Assumptions C42_line_mul_line.

(** ** Operations that divide
    [within c y v m]: the float [y] is finite and off [v] by at most [c]*2^-24*[m]. *)
Definition within (c : R) (y : f32) (v m : R) : Prop := fin y /\ Rabs (val y - v) <= c * / 2 ^ 24 * m.
Lemma within_of lo hi k c y v m v' m' : apx lo hi k y v m -> (Z.of_nat k < c)%Z -> (c <= 64)%Z -> v = v' -> m = m' -> within (IZR c) y v' m'.
Proof.
  intros A K C <- <-. destruct (apx_use _ _ _ _ _ _ (IZR c) A) as [F E]; [lia| |].
  - assert (INR k <= IZR c - 1) by (rewrite <- minus_IZR; apply INR_le_Z; lia). pose proof (pos_INR k). apply IZR_le in C. lra.
  - split; [exact F|]. unfold u in E. replace (/ 2 ^ 24) with (/ 16777216) by lra. exact E.
Qed.
Lemma rcp_nr1_bc M n : rcp_nr1 (FL := Flo_f32 M) (mk4 n n n n) = let r := rcp_step (H := Flo_f32 M) n in mk4 r r r r.
Proof. reflexivity. Qed.
Lemma rsqrt_nr1_bc M n : rsqrt_nr1 (FL := Flo_f32 M) (mk4 n n n n) = let r := rsqrt_step (H := Flo_f32 M) n in mk4 r r r r.
Proof. reflexivity. Qed.
(** -2p + p is -p, exactly *)
Lemma minus_two (p : f32) : fin p -> Rabs (val p) <= bpow radix2 126 ->
  fin (fadd (fmul p (fz (-2))) p) /\ val (fadd (fmul p (fz (-2))) p) = - val p.
Proof.
  intros F H. destruct (fz_ok (-2)) as [Fz Vz]; [lia|].
  assert (G2 : generic_format radix2 fexp32 (val p * IZR (-2))).
  { replace (val p * IZR (-2)) with (- (val p * bpow radix2 1)) by (change (bpow radix2 1) with 2; lra).
    apply generic_format_opp. apply (mult_bpow_pos_exact_FLT radix2 (-149) 24); [apply val_format|lia]. }
  destruct (mul_ok p (fz (-2)) F Fz) as [F1 V1].
  { rewrite Vz, Rabs_mult. replace (Rabs (IZR (-2))) with 2 by (rewrite Rabs_left; lra). unfold big.
    replace (bpow radix2 127) with (2 * bpow radix2 126) by (change 127%Z with (1 + 126)%Z; rewrite bpow_plus; reflexivity). lra. }
  rewrite Vz in V1. change (val (fmul p (fz (-2))) = rnd (val p * IZR (-2))) in V1.
  assert (V1' : val (fmul p (fz (-2))) = val p * IZR (-2)) by (rewrite V1; apply round_generic; [typeclasses eauto|exact G2]).
  destruct (add_ok (fmul p (fz (-2))) p F1 F) as [F2 V2].
  { rewrite V1'. replace (val p * IZR (-2) + val p) with (- val p) by lra. rewrite Rabs_Ropp. eapply Rle_trans; [exact H|].
    unfold big. apply bpow_le. lia. }
  split; [exact F2|]. rewrite V2, V1'. replace (val p * IZR (-2) + val p) with (- val p) by lra.
  apply round_generic; [typeclasses eauto|]. apply generic_format_opp. apply val_format.
Qed.

(** the lanes other than the low one *)
Definition upper : list (m128 f32 -> f32) := [l1; l2; l3].
Lemma upper_cases (Q : (m128 f32 -> f32) -> Prop) : Q l1 -> Q l2 -> Q l3 -> forall i, In i upper -> Q i.
Proof. intros H1 H2 H3 i [<-|[<-|[<-|[]]]]; assumption. Qed.
Lemma safe_nonzero lo hi x : safe lo hi x -> val x <> 0 -> bpow radix2 lo <= Rabs (val x) <= bpow radix2 hi.
Proof. intros [_ [Z|S]] N; [contradiction|exact S]. Qed.

(** point * point, per coefficient e0i: b_i/b_0 - a_i/a_0 *)
Lemma point_point_lane M a0 ai b0 bi : rcp_estimate M -> safe (-31) 31 a0 -> safe (-31) 31 ai -> safe (-31) 31 b0 -> safe (-31) 31 bi ->
  val a0 <> 0 -> val b0 <> 0 ->
  within 12 (fmul (fadd (fmul (fmul a0 bi) (fz (-1))) (fmul ai b0)) (rcp_step (H := Flo_f32 M) (fadd (fmul (fmul a0 b0) (fz (-2))) (fmul a0 b0))))
    (val bi / val b0 - val ai / val a0) (Rabs (val bi / val b0) + Rabs (val ai / val a0)).
Proof.
  intros HM A0 Ai B0 Bi Na Nb. apply apx_var in A0, Ai, B0, Bi.
  pose proof (apx_mul _ _ _ _ _ _ _ _ _ _ _ _ A0 B0 ltac:(lia) ltac:(lia) ltac:(lia)) as Q.
  set (p := fmul a0 b0) in *. destruct (minus_two p) as [Fs Vs]; [apply Q| |].
  { eapply Rle_trans; [eapply apx_abs; exact Q|]. destruct Q as (_ & _ & _ & Q).
    assert (Rabs (val a0) * Rabs (val b0) <= bpow radix2 (31 + 31)).
    { destruct Q as [Q|[_ Q]]; [rewrite Q; apply bpow_ge_0|exact Q]. }
    pose proof (P_64 (S (0 + 0)) ltac:(lia)) as [_ P1]. apply Rle_trans with (2 * bpow radix2 (31 + 31)).
    - apply Rmult_le_compat; try assumption; [pose proof (P_pos (S (0 + 0))); lra|apply Rmult_le_pos; apply Rabs_pos|unfold u in *; lra].
    - change 2 with (bpow radix2 1). rewrite <- bpow_plus. apply bpow_le. lia. }
  set (ss := fadd (fmul p (fz (-2))) p) in *.
  assert (AS : apx (-31 + -31) (31 + 31) (S (0 + 0)) ss (- (val a0 * val b0)) (Rabs (val a0) * Rabs (val b0))).
  { destruct Q as (_ & E & G & S). split; [exact Fs|]. rewrite Vs. split; [|split; [rewrite Rabs_Ropp; exact G|exact S]].
    replace (- val p - - (val a0 * val b0)) with (- (val p - val a0 * val b0)) by ring. rewrite Rabs_Ropp. exact E. }
  assert (N : val a0 * val b0 <> 0) by (apply Rmult_integral_contrapositive; split; assumption).
  pose proof (apx_rcp M _ _ _ _ _ _ HM AS ltac:(rewrite Rabs_Ropp, Rabs_mult; reflexivity) ltac:(lra) ltac:(lia) ltac:(lia) ltac:(lia)) as AR.
  pose proof (apx_mul _ _ _ _ _ _ _ _ _ _ _ _ A0 Bi ltac:(lia) ltac:(lia) ltac:(lia)) as Q1.
  pose proof (apx_mul _ _ _ _ _ _ _ _ _ _ _ _ Ai B0 ltac:(lia) ltac:(lia) ltac:(lia)) as Q2.
  assert (M1 : apx 0 1 0 (fz (-1)) (-1) 1).
  { destruct (fz_ok (-1)) as [Fz Vz]; [lia|]. split; [exact Fz|]. rewrite Vz. split; [unfold Rminus; rewrite Rplus_opp_r, Rabs_R0; cbn; unfold P; cbn; lra|].
    split; [rewrite Rabs_left; lra|]. right. cbn. lra. }
  pose proof (apx_mul _ _ _ _ _ _ _ _ _ _ _ _ Q1 M1 ltac:(lia) ltac:(lia) ltac:(lia)) as Q3.
  pose proof (apx_add _ _ _ _ _ _ _ _ _ _ _ _ Q3 Q2 ltac:(lia) ltac:(lia)) as Q4.
  pose proof (apx_mul _ _ _ _ _ _ _ _ _ _ _ _ Q4 AR ltac:(lia) ltac:(lia) ltac:(lia)) as Q5.
  eapply within_of; [exact Q5|lia|lia| |].
  - field. split; assumption.
  - unfold Rdiv. rewrite !Rabs_inv, Rabs_Ropp, !Rabs_mult, !Rabs_inv. field. split; apply Rabs_no_R0; assumption.
Qed.
Theorem C41_point_mul_point : forall (B : Build) M, rcp_estimate M -> forall a b : point f32,
  Forall (safe (-31) 31) (coefs (k := KPoint) a) -> Forall (safe (-31) 31) (coefs (k := KPoint) b) ->
  let pa := point_p3 a in let pb := point_p3 b in let a0 := val (l0 pa) in let b0 := val (l0 pb) in a0 <> 0 -> b0 <> 0 ->
  let r := translator_p2 (point_mul_point (FL := Flo_f32 M) a b) in
  (fin (l0 r) /\ val (l0 r) = 0) /\
  forall i, In i upper -> within 12 (i r) (val (i pb) / b0 - val (i pa) / a0) (Rabs (val (i pb) / b0) + Rabs (val (i pa) / a0)).
Proof.
  intros B M HM [[a0 a1 a2 a3]] [[b0 b1 b2 b3]] Sa Sb. apply all_safe_lanes in Sa. apply all_safe_lanes in Sb. cbn in Sa, Sb |- *.
  destruct Sa as (A0 & A1 & A2 & A3), Sb as (B0 & B1 & B2 & B3). intros Na Nb. split.
  - destruct B as [[|]]; split; reflexivity.
  - destruct B as [[|]]; apply upper_cases.
    + exact (point_point_lane M a0 a1 b0 b1 HM A0 A1 B0 B1 Na Nb).
    + exact (point_point_lane M a0 a2 b0 b2 HM A0 A2 B0 B2 Na Nb).
    + exact (point_point_lane M a0 a3 b0 b3 HM A0 A3 B0 B3 Na Nb).
    + exact (point_point_lane M a0 a1 b0 b1 HM A0 A1 B0 B1 Na Nb).
    + exact (point_point_lane M a0 a2 b0 b2 HM A0 A2 B0 B2 Na Nb).
    + exact (point_point_lane M a0 a3 b0 b3 HM A0 A3 B0 B3 Na Nb).
Qed.
Print Assumptions C41_point_mul_point.

(** a translator on a plane: e0 becomes d + 2 (n . t), the other coefficients stay *)
Lemma add_nothing (x z : f32) : safe (-31) 31 x -> fin z -> val z = 0 -> fin (fadd x z) /\ val (fadd x z) = val x.
Proof.
  intros [Fx S] Fz Vz. destruct (add_ok x z Fx Fz) as [F V].
  { rewrite Vz, Rplus_0_r. destruct S as [-> |[_ S]]; [rewrite Rabs_R0; apply bpow_ge_0|]. eapply Rle_trans; [exact S|]. apply bpow_le. lia. }
  split; [exact F|]. rewrite V, Vz, Rplus_0_r. apply round_generic; [typeclasses eauto|apply val_format].
Qed.
Lemma apx_one y : fin y -> val y = 1 -> apx 0 0 0 y 1 1.
Proof.
  intros F V. split; [exact F|]. rewrite V. unfold P. cbn. rewrite Rminus_diag_eq, Rabs_R0, Rabs_R1 by reflexivity.
  repeat split; try lra.
Qed.
Lemma translate_lane M n d dot mass b : rcp_estimate M -> safe (-31) 31 d -> apx (-62) 64 4 n dot mass -> fin b -> val b = 1 ->
  within 14 (fadd d (fmul n (fadd (rcp_step (H := Flo_f32 M) b) (rcp_step (H := Flo_f32 M) b)))) (val d + 2 * dot) (Rabs (val d) + 2 * mass).
Proof.
  intros HM D A Fb Vb. apply apx_var in D.
  pose proof (apx_rcp M _ _ _ _ _ _ HM (apx_one b Fb Vb) ltac:(rewrite Rabs_R1; reflexivity) ltac:(lra) ltac:(lia) ltac:(lia) ltac:(lia)) as Q.
  pose proof (apx_add _ _ _ _ _ _ _ _ _ _ _ _ Q Q ltac:(lia) ltac:(lia)) as Q1.
  pose proof (apx_mul _ _ _ _ _ _ _ _ _ _ _ _ A Q1 ltac:(lia) ltac:(lia) ltac:(lia)) as Q2.
  pose proof (apx_add _ _ _ _ _ _ _ _ _ _ _ _ D Q2 ltac:(lia) ltac:(lia)) as Q3.
  eapply within_of; [exact Q3|lia|lia| |]; rewrite Rinv_1; [|rewrite Rabs_R1]; ring.
Qed.
Theorem C41_translator_on_plane : forall (B : Build) M, rcp_estimate M -> forall (t : translator f32) (p : plane f32),
  Forall (safe (-31) 31) (coefs (k := KTranslator) t) -> Forall (safe (-31) 31) (coefs (k := KPlane) p) ->
  val (l0 (translator_p2 t)) = 0 ->
  let n := plane_p0 p in let v := translator_p2 t in
  let r := plane_p0 (translator_on_plane (FL := Flo_f32 M) t p) in
  within 14 (l0 r) (val (l0 n) + 2 * d3 n v) (Rabs (val (l0 n)) + 2 * a3 n v) /\
  forall i, In i upper -> fin (i r) /\ val (i r) = val (i n).
Proof.
  intros B M HM [[t0 t1 t2 t3]] [[p0 p1 p2 p3]] St Sp Zt. 
  pose proof (all_safe_lanes _ _ _ St) as (T0 & T1 & T2 & T3). pose proof (all_safe_lanes _ _ _ Sp) as (P0 & P1 & P2 & P3).
  cbn [l0 l1 l2 l3 translator_p2 plane_p0] in *.
  assert (One : fin (fz 1) /\ val (fz 1) = 1) by (apply (fz_ok 1); lia).
  assert (O3 : fin (fadd t0 (fz 1)) /\ val (fadd t0 (fz 1)) = 1).
  { destruct (add_ok t0 (fz 1) (proj1 T0) (proj1 One)) as [F V]; rewrite Zt, (proj2 One), Rplus_0_l in *; [rewrite Rabs_R1; change 1 with (bpow radix2 0); apply bpow_le; lia|].
    split; [exact F|]. rewrite V. apply (rnd_Z 1). lia. }
  split.
  - destruct B as [[|]].
    + exact (translate_lane M _ p0 _ _ _ HM P0 (hi_dp_apx (mkBuild true) (-31) 31 _ _ ltac:(lia) ltac:(lia) Sp St) (proj1 One) (proj2 One)).
    + assert (Z : fin (fz 0) /\ val (fz 0) = 0) by (apply (fz_ok 0); lia).
      assert (K : forall x, safe (-31) 31 x -> safe (-31) 31 (fadd x (fz 0)) /\ val (fadd x (fz 0)) = val x).
      { intros x X. destruct (add_nothing x (fz 0) X (proj1 Z) (proj2 Z)) as [F V]. split; [|exact V]. split; [exact F|]. rewrite V. apply X. }
      destruct (K t1 T1) as [S1 V1], (K t2 T2) as [S2 V2], (K t3 T3) as [S3 V3].
      set (w := mk4 (fadd t0 (fz 1)) (fadd t1 (fz 0)) (fadd t2 (fz 0)) (fadd t3 (fz 0))).
      assert (Sw : all_safe (-31) 31 w).
      { assert (S0 : safe (-31) 31 (fadd t0 (fz 1))).
        { split; [apply O3|]. right. rewrite (proj2 O3), Rabs_R1.
          split; [apply (bpow_le radix2 (-31) 0); lia|apply (bpow_le radix2 0 31); lia]. }
        unfold all_safe, reg_list, w. auto using Forall_cons, Forall_nil. }
      pose proof (translate_lane M _ p0 _ _ _ HM P0 (hi_dp_apx (mkBuild false) (-31) 31 _ _ ltac:(lia) ltac:(lia) Sp Sw) (proj1 O3) (proj2 O3)) as Q.
      cbn [plane_p0] in Q.
      replace (d3 (mk4 p0 p1 p2 p3) w) with (d3 (mk4 p0 p1 p2 p3) (mk4 t0 t1 t2 t3)) in Q by (unfold d3, w; cbn [l1 l2 l3]; rewrite V1, V2, V3; reflexivity).
      replace (a3 (mk4 p0 p1 p2 p3) w) with (a3 (mk4 p0 p1 p2 p3) (mk4 t0 t1 t2 t3)) in Q by (unfold a3, w; cbn [l1 l2 l3]; rewrite V1, V2, V3; reflexivity).
      exact Q.
  - destruct B as [[|]]; apply upper_cases; apply (add_nothing _ (fz 0)); try assumption; try reflexivity; apply (fz_ok 0); lia.
Qed.
Print Assumptions C41_translator_on_plane.

(** ** Inverses *)
Lemma inverse_norms M lo hi n N : rsqrt_estimate M -> rcp_estimate M -> (-31 <= lo <= 0)%Z -> (0 <= hi <= 31)%Z ->
  apx (2 * lo) (2 + 2 * hi) 4 n N N -> 0 < N ->
  apx (- (1 + hi)) (- lo) 9 (rsqrt_step (H := Flo_f32 M) n) (/ sqrt N) (/ sqrt N) /\
  apx (- (2 + 2 * hi)) (- (2 * lo)) 10 (rcp_step (H := Flo_f32 M) n) (/ N) (/ N).
Proof.
  intros HS HR Hlo Hhi A NP. split.
  - refine (apx_rsqrt M lo (1 + hi) 4 n N N HS _ eq_refl NP _ _ _); try lia. replace (2 * (1 + hi))%Z with (2 + 2 * hi)%Z by ring. exact A.
  - pose proof (apx_rcp M _ _ _ _ _ _ HR A ltac:(rewrite Rabs_pos_eq; lra) ltac:(lra) ltac:(lia) ltac:(lia) ltac:(lia)) as Q.
    rewrite Rabs_pos_eq in Q; [exact Q|]. apply Rlt_le, Rinv_0_lt_compat. exact NP.
Qed.
Lemma twice_scaled s N x : apx (-32) 31 9 s (/ sqrt N) (/ sqrt N) -> 0 < N -> safe (-31) 31 x ->
  (forall y, y = fmul s (fmul s x) -> within 21 y (val x / N) (Rabs (val x) / N)) /\
  (forall y, y = fmul (fmul x s) s -> within 21 y (val x / N) (Rabs (val x) / N)) /\
  (forall y, y = fopp (fmul (fmul x s) s) -> within 21 y (- (val x / N)) (Rabs (val x) / N)).
Proof.
  intros A NP X. apply apx_var in X.
  assert (Q : forall z, z * / sqrt N * / sqrt N = z / N).
  { intro z. unfold Rdiv. rewrite Rmult_assoc, <- Rinv_mult. rewrite sqrt_sqrt by lra. reflexivity. }
  split; [|split]; intros y ->.
  - eapply within_of; [exact (apx_mul _ _ _ _ _ _ _ _ _ _ _ _ A (apx_mul _ _ _ _ _ _ _ _ _ _ _ _ A X ltac:(lia) ltac:(lia) ltac:(lia)) ltac:(lia) ltac:(lia) ltac:(lia))|lia|lia| |]; rewrite <- Q; ring.
  - eapply within_of; [exact (apx_mul _ _ _ _ _ _ _ _ _ _ _ _ (apx_mul _ _ _ _ _ _ _ _ _ _ _ _ X A ltac:(lia) ltac:(lia) ltac:(lia)) A ltac:(lia) ltac:(lia) ltac:(lia))|lia|lia| |]; rewrite <- Q; ring.
  - eapply within_of; [exact (apx_opp _ _ _ _ _ _ (apx_mul _ _ _ _ _ _ _ _ _ _ _ _ (apx_mul _ _ _ _ _ _ _ _ _ _ _ _ X A ltac:(lia) ltac:(lia) ltac:(lia)) A ltac:(lia) ltac:(lia) ltac:(lia)))|lia|lia| |]; rewrite <- Q; ring.
Qed.

Lemma norm3 (B : Build) M lo hi v : rsqrt_estimate M -> rcp_estimate M -> (-31 <= lo <= 0)%Z -> (0 <= hi <= 31)%Z -> all_safe lo hi v -> 0 < d3 v v ->
  exists n, @hi_dp_bc f32 (@flo_arith f32 (Flo_f32 M)) B v v = mk4 n n n n /\
    apx (- (1 + hi)) (- lo) 9 (rsqrt_step (H := Flo_f32 M) n) (/ sqrt (d3 v v)) (/ sqrt (d3 v v)) /\
    apx (- (2 + 2 * hi)) (- (2 * lo)) 10 (rcp_step (H := Flo_f32 M) n) (/ d3 v v) (/ d3 v v).
Proof.
  intros HS HR L H S NP. destruct (hi_dp_bc_apx B lo hi v v ltac:(lia) ltac:(lia) S S) as (m & Em & Am).
  rewrite a3_same in Am. exists m. split; [exact Em|]. apply inverse_norms; assumption.
Qed.
Lemma norm4 (B : Build) M lo hi v : rsqrt_estimate M -> rcp_estimate M -> (-31 <= lo <= 0)%Z -> (0 <= hi <= 31)%Z -> all_safe lo hi v -> 0 < d4 v v ->
  exists n, @dp_bc f32 (@flo_arith f32 (Flo_f32 M)) B v v = mk4 n n n n /\
    apx (- (1 + hi)) (- lo) 9 (rsqrt_step (H := Flo_f32 M) n) (/ sqrt (d4 v v)) (/ sqrt (d4 v v)) /\
    apx (- (2 + 2 * hi)) (- (2 * lo)) 10 (rcp_step (H := Flo_f32 M) n) (/ d4 v v) (/ d4 v v).
Proof.
  intros HS HR L H S NP. destruct (dp_bc_apx B lo hi v v ltac:(lia) ltac:(lia) S S) as (m & Em & Am).
  rewrite a4_same in Am. exists m. split; [exact Em|]. apply inverse_norms; assumption.
Qed.
Lemma rcp_twice s w x : apx (-31) 31 6 s (/ val w) (Rabs (/ val w)) -> val w <> 0 -> safe (-31) 31 x ->
  within 15 (fmul s (fmul s x)) (val x / (val w * val w)) (Rabs (val x) / (val w * val w)).
Proof.
  intros A N X. apply apx_var in X.
  eapply within_of; [exact (apx_mul _ _ _ _ _ _ _ _ _ _ _ _ A (apx_mul _ _ _ _ _ _ _ _ _ _ _ _ A X ltac:(lia) ltac:(lia) ltac:(lia)) ltac:(lia) ltac:(lia) ltac:(lia))|lia|lia| |].
  - field. exact N.
  - replace (Rabs (/ val w) * (Rabs (/ val w) * Rabs (val x))) with (Rabs (/ val w * / val w) * Rabs (val x)) by (rewrite Rabs_mult; ring).
    rewrite <- Rinv_mult. rewrite Rabs_pos_eq; [unfold Rdiv; ring|]. apply Rlt_le, Rinv_0_lt_compat.
    assert (0 <= val w * val w) by apply Rle_0_sqr. assert (val w * val w <> 0) by (apply Rmult_integral_contrapositive; split; exact N). lra.
Qed.

(** The inverse of each class that scales twice by an estimate.  For a rotor the
    divisor is the sum over e23, e31, e12 only ([C17_rotor_inverse_refuted]). *)
Theorem C41_inverse : forall (B : Build) M, rsqrt_estimate M -> rcp_estimate M ->
  (forall p : plane f32, Forall (safe (-31) 31) (coefs (k := KPlane) p) -> let n := plane_p0 p in 0 < d3 n n ->
     let r := plane_p0 (plane_inverse (FL := Flo_f32 M) p) in
     forall i, In i (l0 :: upper) -> within 21 (i r) (val (i n) / d3 n n) (Rabs (val (i n)) / d3 n n)) /\
  (forall p : point f32, Forall (safe (-31) 31) (coefs (k := KPoint) p) -> let x := point_p3 p in let w := val (l0 x) in w <> 0 ->
     let r := point_p3 (point_inverse (FL := Flo_f32 M) p) in
     forall i, In i (l0 :: upper) -> within 15 (i r) (val (i x) / (w * w)) (Rabs (val (i x)) / (w * w))) /\
  (forall b : branch f32, Forall (safe (-31) 31) (coefs (k := KBranch) b) -> let n := branch_p1 b in 0 < d3 n n ->
     let r := branch_p1 (branch_inverse (FL := Flo_f32 M) b) in
     within 21 (l0 r) (val (l0 n) / d3 n n) (Rabs (val (l0 n)) / d3 n n) /\
     forall i, In i upper -> within 21 (i r) (- (val (i n) / d3 n n)) (Rabs (val (i n)) / d3 n n)) /\
  (forall q : rotor f32, Forall (safe (-31) 31) (coefs (k := KRotor) q) -> let n := rotor_p1 q in 0 < d3 n n ->
     let r := rotor_p1 (rotor_inverse (FL := Flo_f32 M) q) in
     within 21 (l0 r) (val (l0 n) / d3 n n) (Rabs (val (l0 n)) / d3 n n) /\
     forall i, In i upper -> within 21 (i r) (- (val (i n) / d3 n n)) (Rabs (val (i n)) / d3 n n)).
Proof.
  intros B M HS HR. split; [|split; [|split]].
  - intros [v] S n NP r. cbn [plane_p0] in n. subst n. destruct (norm3 B M (-31) 31 v HS HR ltac:(lia) ltac:(lia) S NP) as (m & Em & AS & _).
    destruct (all_safe_lanes _ _ _ S) as (S0 & S1 & S2 & S3). unfold r, plane_inverse. cbn [plane_p0]. rewrite Em, rsqrt_nr1_bc.
    intros i [<-|[<-|[<-|[<-|[]]]]]; [exact (proj1 (twice_scaled _ _ _ AS NP S0) _ eq_refl)|exact (proj1 (twice_scaled _ _ _ AS NP S1) _ eq_refl)|exact (proj1 (twice_scaled _ _ _ AS NP S2) _ eq_refl)|exact (proj1 (twice_scaled _ _ _ AS NP S3) _ eq_refl)].
  - intros [[x0 x1 x2 x3]] S x w N r. cbn in x, w. subst w x. destruct (all_safe_lanes _ _ _ S) as (S0 & S1 & S2 & S3). cbn in S0, S1, S2, S3, N.
    pose proof (apx_rcp M _ _ _ _ _ _ HR (apx_var _ _ _ S0) eq_refl N ltac:(lia) ltac:(lia) ltac:(lia)) as AS.
    intros i [<-|[<-|[<-|[<-|[]]]]]; [exact (rcp_twice _ x0 x0 AS N S0)|exact (rcp_twice _ x0 x1 AS N S1)|exact (rcp_twice _ x0 x2 AS N S2)|exact (rcp_twice _ x0 x3 AS N S3)].
  - intros [v] S n NP r. cbn [branch_p1] in n. subst n. destruct (norm3 B M (-31) 31 v HS HR ltac:(lia) ltac:(lia) S NP) as (m & Em & AS & _).
    destruct (all_safe_lanes _ _ _ S) as (S0 & S1 & S2 & S3). unfold r, branch_inverse. cbn [branch_p1]. rewrite Em, rsqrt_nr1_bc. split.
    + exact (proj1 (proj2 (twice_scaled _ _ _ AS NP S0)) _ eq_refl).
    + intros i [<-|[<-|[<-|[]]]]; [exact (proj2 (proj2 (twice_scaled _ _ _ AS NP S1)) _ eq_refl)|exact (proj2 (proj2 (twice_scaled _ _ _ AS NP S2)) _ eq_refl)|exact (proj2 (proj2 (twice_scaled _ _ _ AS NP S3)) _ eq_refl)].
  - intros [v] S n NP r. cbn [rotor_p1] in n. subst n. destruct (norm3 B M (-31) 31 v HS HR ltac:(lia) ltac:(lia) S NP) as (m & Em & AS & _).
    destruct (all_safe_lanes _ _ _ S) as (S0 & S1 & S2 & S3). unfold r, rotor_inverse. cbn [rotor_p1]. rewrite Em, rsqrt_nr1_bc. split.
    + exact (proj1 (proj2 (twice_scaled _ _ _ AS NP S0)) _ eq_refl).
    + intros i [<-|[<-|[<-|[]]]]; [exact (proj2 (proj2 (twice_scaled _ _ _ AS NP S1)) _ eq_refl)|exact (proj2 (proj2 (twice_scaled _ _ _ AS NP S2)) _ eq_refl)|exact (proj2 (proj2 (twice_scaled _ _ _ AS NP S3)) _ eq_refl)].
Qed.
Print Assumptions C41_inverse.

(** ** Normalizing and inverting lines and motors
    [b] and [c] stand for the lanes of [p1] and [p2], [N] for the squared norm, [dot]
    for the scalar e0123 coefficient divided out, [mass] for its sum of absolute values. *)
Definition aligned (N dot b c : R) : R := c / sqrt N - b * dot / (N * sqrt N).
Definition aligned_mass (N mass b c : R) : R := Rabs c / sqrt N + Rabs b * mass / (N * sqrt N).
Definition inverted (N dot b c : R) : R := c / N - 2 * b * dot / (N * N).
Definition inverted_mass (N mass b c : R) : R := Rabs c / N + 2 * Rabs b * mass / (N * N).
Section Study.
Context (s r d : f32) (N dot mass : R) (NP : 0 < N).
Lemma study_normal (x y : f32) :
  apx (-21) 20 9 s (/ sqrt N) (/ sqrt N) -> apx (-42) 40 10 r (/ N) (/ N) -> apx (-40) 42 4 d dot mass ->
  safe (-20) 20 x -> safe (-20) 20 y ->
  let t := fmul (fmul d r) s in
  within 11 (fmul x s) (val x / sqrt N) (Rabs (val x) / sqrt N) /\
  within 28 (fsub (fmul y s) (fmul x t)) (aligned N dot (val x) (val y)) (aligned_mass N mass (val x) (val y)) /\
  within 28 (fsub (fmul y s) (fopp (fmul x t))) (aligned N (- dot) (val x) (val y)) (aligned_mass N mass (val x) (val y)).
Proof.
  intros AS AR AD X Y t. apply apx_var in X, Y. assert (SP : 0 < sqrt N) by (apply sqrt_lt_R0; exact NP).
  pose proof (apx_mul _ _ _ _ _ _ _ _ _ _ _ _ AD AR ltac:(lia) ltac:(lia) ltac:(lia)) as Q1.
  pose proof (apx_mul _ _ _ _ _ _ _ _ _ _ _ _ Q1 AS ltac:(lia) ltac:(lia) ltac:(lia)) as Q2. fold t in Q2.
  pose proof (apx_mul _ _ _ _ _ _ _ _ _ _ _ _ X Q2 ltac:(lia) ltac:(lia) ltac:(lia)) as Q3.
  pose proof (apx_mul _ _ _ _ _ _ _ _ _ _ _ _ Y AS ltac:(lia) ltac:(lia) ltac:(lia)) as Q4.
  pose proof (apx_mul _ _ _ _ _ _ _ _ _ _ _ _ X AS ltac:(lia) ltac:(lia) ltac:(lia)) as Q5.
  split; [|split].
  - eapply within_of; [exact Q5|lia|lia| |]; unfold Rdiv; ring.
  - eapply within_of; [exact (apx_sub _ _ _ _ _ _ _ _ _ _ _ _ Q4 Q3 ltac:(lia) ltac:(lia))|lia|lia| |]; unfold aligned, aligned_mass; field; lra.
  - eapply within_of; [exact (apx_sub _ _ _ _ _ _ _ _ _ _ _ _ Q4 (apx_opp _ _ _ _ _ _ Q3) ltac:(lia) ltac:(lia))|lia|lia| |]; unfold aligned, aligned_mass; field; lra.
Qed.
Lemma study_inverse (x y : f32) :
  apx (-18) 17 9 s (/ sqrt N) (/ sqrt N) -> apx (-36) 34 10 r (/ N) (/ N) -> apx (-34) 36 4 d dot mass ->
  safe (-17) 17 x -> safe (-17) 17 y ->
  let t := fmul (fmul d r) s in let st := fmul x (fmul s t) in
  within 12 (fmul x r) (val x / N) (Rabs (val x) / N) /\ within 12 (fopp (fmul x r)) (- (val x / N)) (Rabs (val x) / N) /\
  within 39 (fsub (fmul y r) (fadd st st)) (inverted N dot (val x) (val y)) (inverted_mass N mass (val x) (val y)) /\
  within 39 (fopp (fsub (fmul y r) (fadd st st))) (- inverted N dot (val x) (val y)) (inverted_mass N mass (val x) (val y)) /\
  within 39 (fsub (fmul y r) (fopp (fadd st st))) (inverted N (- dot) (val x) (val y)) (inverted_mass N mass (val x) (val y)).
Proof.
  intros AS AR AD X Y t st. apply apx_var in X, Y. assert (SP : 0 < sqrt N) by (apply sqrt_lt_R0; exact NP).
  assert (SS : sqrt N * sqrt N = N) by (apply sqrt_sqrt; lra).
  pose proof (apx_mul _ _ _ _ _ _ _ _ _ _ _ _ AD AR ltac:(lia) ltac:(lia) ltac:(lia)) as Q1.
  pose proof (apx_mul _ _ _ _ _ _ _ _ _ _ _ _ Q1 AS ltac:(lia) ltac:(lia) ltac:(lia)) as Q2. fold t in Q2.
  pose proof (apx_mul _ _ _ _ _ _ _ _ _ _ _ _ AS Q2 ltac:(lia) ltac:(lia) ltac:(lia)) as Q6.
  pose proof (apx_mul _ _ _ _ _ _ _ _ _ _ _ _ X Q6 ltac:(lia) ltac:(lia) ltac:(lia)) as Q3. fold st in Q3.
  pose proof (apx_add _ _ _ _ _ _ _ _ _ _ _ _ Q3 Q3 ltac:(lia) ltac:(lia)) as Q7.
  pose proof (apx_mul _ _ _ _ _ _ _ _ _ _ _ _ Y AR ltac:(lia) ltac:(lia) ltac:(lia)) as Q4.
  pose proof (apx_mul _ _ _ _ _ _ _ _ _ _ _ _ X AR ltac:(lia) ltac:(lia) ltac:(lia)) as Q5.
  pose proof (apx_sub _ _ _ _ _ _ _ _ _ _ _ _ Q4 Q7 ltac:(lia) ltac:(lia)) as Q8.
  assert (E : / sqrt N * / sqrt N = / N) by (rewrite <- Rinv_mult, SS; reflexivity).
  assert (V : forall z, val x * (/ sqrt N * (z * / N * / sqrt N)) = val x * z / (N * N)).
  { intro z. replace (val x * (/ sqrt N * (z * / N * / sqrt N))) with (val x * z * / N * (/ sqrt N * / sqrt N)) by ring. rewrite E. field. lra. }
  assert (V' : Rabs (val x) * (/ sqrt N * (mass * / N * / sqrt N)) = Rabs (val x) * mass / (N * N)).
  { replace (Rabs (val x) * (/ sqrt N * (mass * / N * / sqrt N))) with (Rabs (val x) * mass * / N * (/ sqrt N * / sqrt N)) by ring. rewrite E. field. lra. }
  split; [|split; [|split; [|split]]].
  - eapply within_of; [exact Q5|lia|lia| |]; unfold Rdiv; ring.
  - eapply within_of; [exact (apx_opp _ _ _ _ _ _ Q5)|lia|lia| |]; unfold Rdiv; ring.
  - eapply within_of; [exact Q8|lia|lia| |]; unfold inverted, inverted_mass; rewrite ?V, ?V'; field; lra.
  - eapply within_of; [exact (apx_opp _ _ _ _ _ _ Q8)|lia|lia| |]; unfold inverted, inverted_mass; rewrite ?V, ?V'; field; lra.
  - eapply within_of; [exact (apx_sub _ _ _ _ _ _ _ _ _ _ _ _ Q4 (apx_opp _ _ _ _ _ _ Q7) ltac:(lia) ltac:(lia))|lia|lia| |]; unfold inverted, inverted_mass; rewrite ?V, ?V'; field; lra.
Qed.
End Study.
Theorem C41_line_normalize : forall (B : Build) M, rsqrt_estimate M -> rcp_estimate M -> forall l : line f32,
  Forall (safe (-20) 20) (coefs (k := KLine) l) -> let b := line_p1 l in let c := line_p2 l in 0 < d3 b b ->
  let r := line_normalized (FL := Flo_f32 M) l in
  forall i, In i upper ->
    within 11 (i (line_p1 r)) (val (i b) / sqrt (d3 b b)) (Rabs (val (i b)) / sqrt (d3 b b)) /\
    within 28 (i (line_p2 r)) (aligned (d3 b b) (d3 b c) (val (i b)) (val (i c))) (aligned_mass (d3 b b) (a3 b c) (val (i b)) (val (i c))).
Proof.
  intros B M HS HR [p q] S b c NP r. cbn [line_p1 line_p2] in b, c. subst b c. apply Forall_app in S. destruct S as [Sp Sq].
  destruct (norm3 B M (-20) 20 p HS HR ltac:(lia) ltac:(lia) Sp NP) as (n & En & AS & AR).
  destruct (hi_dp_bc_apx B (-20) 20 p q ltac:(lia) ltac:(lia) Sp Sq) as (d & Ed & AD).
  destruct (all_safe_lanes _ _ _ Sp) as (P0 & P1 & P2 & P3), (all_safe_lanes _ _ _ Sq) as (Q0 & Q1 & Q2 & Q3).
  change (@hi_dp_bc f32 (@flo_arith f32 (Flo_f32 M)) B p q = mk4 d d d d) in Ed.
  unfold r, line_normalized. cbn [line_p1 line_p2]. rewrite En, Ed, rsqrt_nr1_bc, rcp_nr1_bc.
  intros i [<-|[<-|[<-|[]]]].
  - destruct (study_normal _ _ _ _ _ _ NP _ _ AS AR AD P1 Q1) as (H1 & H2 & _). exact (conj H1 H2).
  - destruct (study_normal _ _ _ _ _ _ NP _ _ AS AR AD P2 Q2) as (H1 & H2 & _). exact (conj H1 H2).
  - destruct (study_normal _ _ _ _ _ _ NP _ _ AS AR AD P3 Q3) as (H1 & H2 & _). exact (conj H1 H2).
Qed.
Print Assumptions C41_line_normalize.

Theorem C41_line_inverse : forall (B : Build) M, rsqrt_estimate M -> rcp_estimate M -> forall l : line f32,
  Forall (safe (-17) 17) (coefs (k := KLine) l) -> let b := line_p1 l in let c := line_p2 l in 0 < d3 b b ->
  let r := line_inverse (FL := Flo_f32 M) l in
  forall i, In i upper ->
    within 12 (i (line_p1 r)) (- (val (i b) / d3 b b)) (Rabs (val (i b)) / d3 b b) /\
    within 39 (i (line_p2 r)) (- inverted (d3 b b) (d3 b c) (val (i b)) (val (i c))) (inverted_mass (d3 b b) (a3 b c) (val (i b)) (val (i c))).
Proof.
  intros B M HS HR [p q] S b c NP r. cbn [line_p1 line_p2] in b, c. subst b c. apply Forall_app in S. destruct S as [Sp Sq].
  destruct (norm3 B M (-17) 17 p HS HR ltac:(lia) ltac:(lia) Sp NP) as (n & En & AS & AR).
  destruct (hi_dp_bc_apx B (-17) 17 p q ltac:(lia) ltac:(lia) Sp Sq) as (d & Ed & AD).
  destruct (all_safe_lanes _ _ _ Sp) as (P0 & P1 & P2 & P3), (all_safe_lanes _ _ _ Sq) as (Q0 & Q1 & Q2 & Q3).
  change (@hi_dp_bc f32 (@flo_arith f32 (Flo_f32 M)) B p q = mk4 d d d d) in Ed.
  unfold r, line_inverse. cbn [line_p1 line_p2]. rewrite En, Ed, rsqrt_nr1_bc, rcp_nr1_bc.
  intros i [<-|[<-|[<-|[]]]].
  - destruct (study_inverse _ _ _ _ _ _ NP _ _ AS AR AD P1 Q1) as (_ & H1 & _ & H2 & _). exact (conj H1 H2).
  - destruct (study_inverse _ _ _ _ _ _ NP _ _ AS AR AD P2 Q2) as (_ & H1 & _ & H2 & _). exact (conj H1 H2).
  - destruct (study_inverse _ _ _ _ _ _ NP _ _ AS AR AD P3 Q3) as (_ & H1 & _ & H2 & _). exact (conj H1 H2).
Qed.
Print Assumptions C41_line_inverse.

(** b.c - s q, the e0123 coefficient of m ~m up to a factor *)
Definition dm (p q : m128 f32) : R := d3 p q - val (l0 p) * val (l0 q).
Lemma safe_opp lo hi x : safe lo hi x -> safe lo hi (fopp x).
Proof. intros [F S]. destruct (opp_ok x F) as [F' V]. split; [exact F'|]. rewrite V, Rabs_Ropp. destruct S as [-> |S]; [left; lra|right; exact S]. Qed.
Lemma study_dot (B : Build) M lo hi p q : (-51 <= lo <= 0)%Z -> (0 <= hi <= 60)%Z -> all_safe lo hi p -> all_safe lo hi q ->
  exists d, @dp_bc f32 (@flo_arith f32 (Flo_f32 M)) B (@_mm_xor_ps f32 (@flo_arith f32 (Flo_f32 M)) sgn_ss p) q = mk4 d d d d /\ apx (2 * lo) (2 + 2 * hi) 4 d (dm p q) (a4 p q).
Proof.
  intros L H Sp Sq. destruct p as [p0 p1 p2 p3]. destruct (all_safe_lanes _ _ _ Sp) as (P0 & P1 & P2 & P3). cbn in P0, P1, P2, P3.
  assert (S' : all_safe lo hi (mk4 (fopp p0) p1 p2 p3)).
  { unfold all_safe, reg_list. cbn [l0 l1 l2 l3]. auto using Forall_cons, Forall_nil, safe_opp. }
  destruct (dp_bc_apx B lo hi _ q L H S' Sq) as (d & Ed & AD). exists d. split; [exact Ed|].
  destruct (opp_ok p0 (proj1 P0)) as [_ V].
  eapply apx_eq; [exact AD| |]; unfold d4, a4, dm, d3, a3; cbn [l0 l1 l2 l3]; rewrite V; [ring|rewrite Rabs_Ropp; reflexivity].
Qed.
Theorem C41_motor_normalize : forall (B : Build) M, rsqrt_estimate M -> rcp_estimate M -> forall m : motor f32,
  Forall (safe (-20) 20) (coefs (k := KMotor) m) -> let p := motor_p1 m in let q := motor_p2 m in 0 < d4 p p ->
  let r := motor_normalized (FL := Flo_f32 M) m in
  (forall i, In i (l0 :: upper) -> within 11 (i (motor_p1 r)) (val (i p) / sqrt (d4 p p)) (Rabs (val (i p)) / sqrt (d4 p p))) /\
  within 28 (l0 (motor_p2 r)) (aligned (d4 p p) (- dm p q) (val (l0 p)) (val (l0 q))) (aligned_mass (d4 p p) (a4 p q) (val (l0 p)) (val (l0 q))) /\
  forall i, In i upper ->
    within 28 (i (motor_p2 r)) (aligned (d4 p p) (dm p q) (val (i p)) (val (i q))) (aligned_mass (d4 p p) (a4 p q) (val (i p)) (val (i q))).
Proof.
  intros B M HS HR [p q] S b c NP r. cbn [motor_p1 motor_p2] in b, c. subst b c. apply Forall_app in S. destruct S as [Sp Sq].
  destruct (norm4 B M (-20) 20 p HS HR ltac:(lia) ltac:(lia) Sp NP) as (n & En & AS & AR).
  destruct (study_dot B M (-20) 20 p q ltac:(lia) ltac:(lia) Sp Sq) as (d & Ed & AD).
  destruct (all_safe_lanes _ _ _ Sp) as (P0 & P1 & P2 & P3), (all_safe_lanes _ _ _ Sq) as (Q0 & Q1 & Q2 & Q3).
  unfold r, motor_normalized. cbn [motor_p1 motor_p2]. rewrite En, Ed, rsqrt_nr1_bc, rcp_nr1_bc.
  destruct (study_normal _ _ _ _ _ _ NP _ _ AS AR AD P0 Q0) as (H00 & _ & H01).
  destruct (study_normal _ _ _ _ _ _ NP _ _ AS AR AD P1 Q1) as (H10 & H11 & _).
  destruct (study_normal _ _ _ _ _ _ NP _ _ AS AR AD P2 Q2) as (H20 & H21 & _).
  destruct (study_normal _ _ _ _ _ _ NP _ _ AS AR AD P3 Q3) as (H30 & H31 & _).
  split; [|split].
  - intros i [<-|[<-|[<-|[<-|[]]]]]; [exact H00|exact H10|exact H20|exact H30].
  - exact H01.
  - intros i [<-|[<-|[<-|[]]]]; [exact H11|exact H21|exact H31].
Qed.
Print Assumptions C41_motor_normalize.
Theorem C41_motor_inverse : forall (B : Build) M, rsqrt_estimate M -> rcp_estimate M -> forall m : motor f32,
  Forall (safe (-17) 17) (coefs (k := KMotor) m) -> let p := motor_p1 m in let q := motor_p2 m in 0 < d4 p p ->
  let r := motor_inverse (FL := Flo_f32 M) m in
  within 12 (l0 (motor_p1 r)) (val (l0 p) / d4 p p) (Rabs (val (l0 p)) / d4 p p) /\
  within 39 (l0 (motor_p2 r)) (inverted (d4 p p) (- dm p q) (val (l0 p)) (val (l0 q))) (inverted_mass (d4 p p) (a4 p q) (val (l0 p)) (val (l0 q))) /\
  forall i, In i upper ->
    within 12 (i (motor_p1 r)) (- (val (i p) / d4 p p)) (Rabs (val (i p)) / d4 p p) /\
    within 39 (i (motor_p2 r)) (- inverted (d4 p p) (dm p q) (val (i p)) (val (i q))) (inverted_mass (d4 p p) (a4 p q) (val (i p)) (val (i q))).
Proof.
  intros B M HS HR [p q] S b c NP r. cbn [motor_p1 motor_p2] in b, c. subst b c. apply Forall_app in S. destruct S as [Sp Sq].
  destruct (norm4 B M (-17) 17 p HS HR ltac:(lia) ltac:(lia) Sp NP) as (n & En & AS & AR).
  destruct (study_dot B M (-17) 17 p q ltac:(lia) ltac:(lia) Sp Sq) as (d & Ed & AD).
  destruct (all_safe_lanes _ _ _ Sp) as (P0 & P1 & P2 & P3), (all_safe_lanes _ _ _ Sq) as (Q0 & Q1 & Q2 & Q3).
  unfold r, motor_inverse. cbn [motor_p1 motor_p2]. rewrite En, Ed, rsqrt_nr1_bc, rcp_nr1_bc.
  destruct (study_inverse _ _ _ _ _ _ NP _ _ AS AR AD P0 Q0) as (H00 & _ & _ & _ & H01).
  destruct (study_inverse _ _ _ _ _ _ NP _ _ AS AR AD P1 Q1) as (_ & H10 & _ & H11 & _).
  destruct (study_inverse _ _ _ _ _ _ NP _ _ AS AR AD P2 Q2) as (_ & H20 & _ & H21 & _).
  destruct (study_inverse _ _ _ _ _ _ NP _ _ AS AR AD P3 Q3) as (_ & H30 & _ & H31 & _).
  split; [exact H00|]. split; [exact H01|].
  intros i [<-|[<-|[<-|[]]]]; split; assumption.
Qed.
Print Assumptions C41_motor_inverse.

(** The numbers the results are compared with are those of exact arithmetic; C15, C16
    and C17 say what these are. *)
Theorem C41_targets : forall (B : Build) rcp rsqrt sz, exact_rcp rcp -> exact_rsqrt rsqrt ->
  (forall l : line f32, let b := line_p1 l in let c := line_p2 l in 0 < d3 b b ->
     let L : line R := emap (k := KLine) val l in
     line_normalized (FL := Flo_R rcp rsqrt sz) L =
       mkline (map4 (fun x => x / sqrt (d3 b b)) (line_p1 L)) (map4_2 (aligned (d3 b b) (d3 b c)) (line_p1 L) (line_p2 L)) /\
     line_inverse (FL := Flo_R rcp rsqrt sz) L =
       mkline (conj4 (map4 (fun x => x / d3 b b) (line_p1 L))) (conj4 (map4_2 (inverted (d3 b b) (d3 b c)) (line_p1 L) (line_p2 L)))) /\
  (forall m : motor f32, let p := motor_p1 m in let q := motor_p2 m in 0 < d4 p p ->
     let L : motor R := emap (k := KMotor) val m in
     let low (f : R -> R -> R) v := mk4 (f (l0 (motor_p1 L)) (l0 (motor_p2 L))) (l1 v) (l2 v) (l3 v) in
     motor_normalized (FL := Flo_R rcp rsqrt sz) L =
       mkmotor (map4 (fun x => x / sqrt (d4 p p)) (motor_p1 L))
         (low (aligned (d4 p p) (- dm p q)) (map4_2 (aligned (d4 p p) (dm p q)) (motor_p1 L) (motor_p2 L))) /\
     motor_inverse (FL := Flo_R rcp rsqrt sz) L =
       mkmotor (conj4 (map4 (fun x => x / d4 p p) (motor_p1 L)))
         (conj4 (low (inverted (d4 p p) (- dm p q)) (map4_2 (inverted (d4 p p) (dm p q)) (motor_p1 L) (motor_p2 L))))).
Proof.
  intros B rcp rsqrt sz HR HS. split.
  - intros [[b0 b1 b2 b3] [c0 c1 c2 c3]] b c NP L. cbn [line_p1 line_p2] in b, c. subst b c.
    assert (E : dot3 (line_p1 L) (line_p1 L) = d3 (mk4 b0 b1 b2 b3) (mk4 b0 b1 b2 b3)) by (unfold d3, dot3; cbn; ring).
    assert (E' : dot3 (line_p1 L) (line_p2 L) = d3 (mk4 b0 b1 b2 b3) (mk4 c0 c1 c2 c3)) by (unfold d3, dot3; cbn; ring).
    assert (SP := sqrt_lt_R0 _ NP).
    pose proof (line_normalized_R rcp rsqrt sz HR HS B L ltac:(rewrite E; exact NP)) as K1. pose proof (line_inverse_R rcp rsqrt sz HR HS B L ltac:(rewrite E; exact NP)) as K2.
    unfold FLc in K1, K2. rewrite K1, K2. clear K1 K2. cbv zeta. rewrite E, E'. clear E E'.
    revert NP SP. generalize (d3 (mk4 b0 b1 b2 b3) (mk4 b0 b1 b2 b3)). generalize (d3 (mk4 b0 b1 b2 b3) (mk4 c0 c1 c2 c3)). intros D N NP SP.
    split; unfold aligned, inverted; subst L; f_equal; unfold conj4, scale4, sub4, map4, map4_2; cbn; f_equal; field; repeat split; lra.
  - intros [[b0 b1 b2 b3] [c0 c1 c2 c3]] b c NP L low. cbn [motor_p1 motor_p2] in b, c. subst b c.
    assert (E : dot4 (motor_p1 L) (motor_p1 L) = d4 (mk4 b0 b1 b2 b3) (mk4 b0 b1 b2 b3)) by (unfold d4, d3, dot4; cbn; ring).
    assert (E' : study (motor_p1 L) (motor_p2 L) = dm (mk4 b0 b1 b2 b3) (mk4 c0 c1 c2 c3)) by (unfold dm, d3, study, dot4; cbn; ring).
    assert (SP := sqrt_lt_R0 _ NP).
    pose proof (motor_normalized_R rcp rsqrt sz HR HS B L ltac:(rewrite E; exact NP)) as K1. pose proof (motor_inverse_R rcp rsqrt sz HR HS B L ltac:(rewrite E; exact NP)) as K2.
    unfold FLc in K1, K2. rewrite K1, K2. clear K1 K2. cbv zeta. rewrite E, E'. clear E E'.
    revert NP SP. generalize (d4 (mk4 b0 b1 b2 b3) (mk4 b0 b1 b2 b3)). generalize (dm (mk4 b0 b1 b2 b3) (mk4 c0 c1 c2 c3)). intros D N NP SP.
    split; unfold aligned, inverted, low; subst L; f_equal; unfold conj4, neg0, scale4, sub4, map4, map4_2; cbn; f_equal; field; repeat split; lra.
Qed.
Print Assumptions C41_targets.

(** operands meeting the hypotheses *)
Definition f3 (m1 e1 m2 e2 m3 e3 : Z) : m128 f32 := mk4 (f32_of 0 0) (f32_of m1 e1) (f32_of m2 e2) (f32_of m3 e3).
Lemma safe_small (x : f32) lo hi : fin x -> (lo <= -3)%Z -> (5 <= hi)%Z -> val x = 0 \/ / 8 <= Rabs (val x) <= 32 -> safe lo hi x.
Proof.
  intros F L H [Z|[A C]]; (split; [exact F|]); [left; exact Z|right].
  split; [eapply Rle_trans; [apply (bpow_le radix2 lo (-3)); exact L|cbn; lra]|eapply Rle_trans; [exact C|]; apply (bpow_le radix2 5 hi); exact H].
Qed.
Example C41_divide_operands :
  (rcp_estimate ideal_machine /\ rsqrt_estimate ideal_machine) /\
  let b := mk4 (f32_of 3 0) (f32_of 1 0) (f32_of (-7) (-2)) (f32_of 5 1) in let c := f3 5 0 1 (-3) (-13) 1 in
  all_safe (-17) 17 b /\ all_safe (-17) 17 c /\ 0 < d3 b b /\ 0 < d4 b b /\ val (l0 b) <> 0 /\ val (l0 c) = 0.
Proof.
  split; [exact (conj ideal_rcp ideal_rsqrt)|]. cbv zeta.
  assert (V0 : val (f32_of 3 0) = 3) by (vm_compute; lra). assert (V1 : val (f32_of 1 0) = 1) by (vm_compute; lra).
  assert (V2 : val (f32_of (-7) (-2)) = - (7 / 4)) by (vm_compute; lra). assert (V3 : val (f32_of 5 1) = 10) by (vm_compute; lra).
  assert (W0 : val (f32_of 0 0) = 0) by (vm_compute; lra). assert (W1 : val (f32_of 5 0) = 5) by (vm_compute; lra).
  assert (W2 : val (f32_of 1 (-3)) = / 8) by (vm_compute; lra). assert (W3 : val (f32_of (-13) 1) = - 26) by (vm_compute; lra).
  unfold d4, d3, f3, all_safe, reg_list; cbn [l0 l1 l2 l3]. rewrite V0, V1, V2, V3, W0.
  assert (K : forall x y, fin x -> val x = y -> y = 0 \/ / 8 <= y <= 32 \/ / 8 <= - y <= 32 -> safe (-17) 17 x).
  { intros x y F E H. apply safe_small; [exact F|lia|lia|]. rewrite E. destruct H as [H|[H|H]]; [left; exact H| |]; right.
    - rewrite Rabs_pos_eq; lra.
    - rewrite <- Rabs_Ropp, Rabs_pos_eq; lra. }
  split; [|split; [|repeat split; lra]]; repeat apply Forall_cons; try apply Forall_nil; (eapply K; [reflexivity|eassumption|lra]).
Qed.

(** ** C37, the missing cases.  In binary32, for a point on the line, point & line is
    the zero plane and its norm is not a number: all points and lines with integer
    coefficients up to 1448. *)
Theorem C37_point_on_line_refuted : forall (B : Build) (M : machine), ieee_specials M ->
  forall (p : point f32) (l : line f32), Forall (integer 1448) (coefs (k := KPoint) p) -> Forall (integer 1448) (coefs (k := KLine) l) ->
  let P : point R := emap (k := KPoint) val p in let L : line R := emap (k := KLine) val l in
  point_w P = 1 -> wf_line L -> line_has L (pos P) ->
  nonfinite (plane_norm (FL := Flo_f32 M) (point_join_line p l)).
Proof.
  intros B M SP p l Ip Il P L W Wl On.
  destruct (op_exact (o_point_join_line B) 1448 (o_point_join_line_natural B) ltac:(lia) ltac:(destruct B as [[|]]; vm_compute; reflexivity) p l Ip Il) as [F E].
  cbn [o_point_join_line] in F, E. fold P L in E.
  assert (N : plane_n (point_join_line P L) = vzero).
  { rewrite (join_pl_n B P L Wl), W. unfold line_has, on_line in On. rewrite (pos_unit P W) in On.
    rewrite On. destruct (line_m L). vring. }
  change (o_point_join_line B f32 Arith_f32 p l) with (point_join_line p l) in F, E.
  change (o_point_join_line B R Arith_R P L) with (point_join_line P L) in E.
  destruct (point_join_line p l) as [[w x y z]]. cbn in F. unfold reg_list in F. cbn in F.
  repeat match goal with H : Forall _ (_ :: _) |- _ => inversion_clear H end.
  rewrite <- E in N. apply vec_inj in N. cbn in N. destruct N as (Nx & Ny & Nz).
  assert (T : forall v, fin v -> val v = 0 -> tiny v) by (intros v Fv Vv; split; [exact Fv|]; rewrite Vv, Rabs_R0; apply bpow_ge_0).
  apply (C46_tiny_norms_refuted B M SP); apply T; assumption.
Qed.
Print Assumptions C37_point_on_line_refuted.
Example C37_point_on_line_ex : let p := mkpoint (mk4 (f32_of 1 0) (f32_of 0 0) (f32_of 9 0) (f32_of 3 0)) in
  let l := mkline (mk4 (f32_of 0 0) (f32_of 0 0) (f32_of 1 0) (f32_of 0 0)) (mk4 (f32_of 0 0) (f32_of (-3) 0) (f32_of 0 0) (f32_of 0 0)) in
  Forall (integer 1448) (coefs (k := KPoint) p) /\ Forall (integer 1448) (coefs (k := KLine) l) /\
  let P : point R := emap (k := KPoint) val p in let L : line R := emap (k := KLine) val l in
  point_w P = 1 /\ wf_line L /\ unit (mv_line L) /\ line_has L (pos P).
Proof.
  cbv zeta.
  assert (I : forall z, (Z.abs z <= 1448)%Z -> integer 1448 (f32_of z 0)).
  { intros z H. destruct (fz_ok z) as [F V]; [lia|]. split; [exact F|]. exists z. split; [exact V|exact H]. }
  split; [repeat apply Forall_cons; try apply Forall_nil; apply I; lia|].
  split; [repeat apply Forall_cons; try apply Forall_nil; apply I; lia|].
  assert (V : forall z, (Z.abs z <= 1448)%Z -> val (f32_of z 0) = IZR z) by (intros z H; apply (fz_ok z); lia).
  cbn [emap point_p3 line_p1 line_p2 map4 l0 l1 l2 l3]. unfold map4. cbn [l0 l1 l2 l3]. rewrite !V by lia.
  assert (Wl : wf_line (mkline (mk4 0 0 1 0) (mk4 0 (-3) 0 0))) by (split; reflexivity).
  split; [reflexivity|]. split; [exact Wl|]. split; [apply unit_line_iff; [exact Wl|]; unfold dot3; cbn; lra|].
  unfold line_has, on_line. apply vec_eq; cbn; field.
Qed.

(** Parallel lines: both sides are zero. *)
Theorem C37_parallel_lines : forall (B : Build) l1 l2, wf_line l1 -> wf_line l2 -> unit (mv_line l1) -> unit (mv_line l2) ->
  vcross (line_u l1) (line_u l2) = vzero ->
  dual_q (line_ext_line l1 l2) = 0 /\ sin (angle (line_u l1) (line_u l2)) = 0.
Proof.
  intros B l1 l2 W1 W2 U1 U2 C. apply unit_line_geo in U1; [|exact W1]. apply unit_line_geo in U2; [|exact W2].
  destruct U1 as [U1 P1], U2 as [U2 P2]. 
  assert (N1 : line_u l1 <> vzero) by (intro E; rewrite E in U1; unfold vdot in U1; cbn in U1; lra).
  assert (N2 : line_u l2 <> vzero) by (intro E; rewrite E in U2; unfold vdot in U2; cbn in U2; lra).
  split.
  - rewrite (meet_ll B) by assumption. cbn [dual_q]. destruct (cross_zero_par (line_u l2) (line_u l1) N2 C) as [t T].
    assert (T2 : t * t = 1).
    { rewrite T in U1. replace (vdot (vscale t (line_u l2)) (vscale t (line_u l2))) with (t * t * vdot (line_u l2) (line_u l2)) in U1 by (destruct (line_u l2); unfold vdot; cbn; ring).
      rewrite U2 in U1. lra. }
    assert (Q : vdot (line_u l2) (line_m l1) = 0).
    { rewrite T in P1. replace (vdot (vscale t (line_u l2)) (line_m l1)) with (t * vdot (line_u l2) (line_m l1)) in P1 by (destruct (line_u l2), (line_m l1); unfold vdot; cbn; ring).
      apply Rmult_integral in P1. destruct P1 as [-> |P1]; [lra|exact P1]. }
    rewrite T. replace (vdot (vscale t (line_u l2)) (line_m l2)) with (t * vdot (line_u l2) (line_m l2)) by (destruct (line_u l2), (line_m l2); unfold vdot; cbn; ring).
    rewrite P2, Q. lra.
  - pose proof (sin_angle _ _ N1 N2) as S. rewrite C, (vlen_one _ U1), (vlen_one _ U2) in S.
    replace (vlen vzero) with 0 in S; [lra|]. unfold vlen. replace (vdot vzero vzero) with 0 by (unfold vdot; cbn; ring). symmetry. apply sqrt_0.
Qed.
Print Assumptions C37_parallel_lines.
Example C37_parallel_ex : let l1 := line_ctor 0 0 0 1 0 0 in let l2 := line_ctor 0 (-3) 2 (-1) 0 0 in
  wf_line l1 /\ wf_line l2 /\ unit (mv_line l1) /\ unit (mv_line l2) /\ vcross (line_u l1) (line_u l2) = vzero.
Proof.
  cbv zeta. assert (W1 : wf_line (line_ctor 0 0 0 1 0 0)) by (split; reflexivity).
  assert (W2 : wf_line (line_ctor 0 (-3) 2 (-1) 0 0)) by (split; reflexivity).
  split; [exact W1|]. split; [exact W2|].
  split; [apply unit_line_iff; [exact W1|]; unfold dot3; cbn; lra|].
  split; [apply unit_line_iff; [exact W2|]; unfold dot3; cbn; lra|].
  apply vec_eq; cbn; ring.
Qed.
