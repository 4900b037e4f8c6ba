(** Properties C64-C66: the code of the documentation (DocCode.v).  Exact real
    arithmetic, ideal hardware estimates. *)
From Coq Require Import Reals ZArith Lra Lia Setoid Morphisms.
From Verif Require Import AlgTac SpecGeom FloR Closed Geom AlgGP AlgSW AlgNorm Motion Ctors ExpLog ExpSeries LogExp LogExp2 KernelExpLog Wf Batch Props05 Props06 DocCode KernelSW.
Local Open Scope R_scope.

Section P.
Context (rcp rsqrt : R -> R) (sz : bool) (Hrcp : exact_rcp rcp) (Hrsq : exact_rsqrt rsqrt).
Local Instance FLx : Flo R := Flo_R rcp rsqrt sz.

(** ** Lemmas *)
Lemma line_exp_unit (B : Build) l : wf_line l -> unit (mv_motor (line_exp l)).
Proof.
  intro W. apply unit_motor_geo. destruct (Req_dec (dot3 (line_p1 l) (line_p1 l)) 0) as [Z|Z].
  - destruct l as [a b], W as [W1 W2]. unfold line_exp. cbn [line_p1 line_p2] in *.
    assert (E := exp_kernel_zero rcp rsqrt sz B a b W1 Z). change (FLe rcp rsqrt sz) with FLx in E. rewrite E.
    destruct b as [b0 b1 b2 b3]. cbn in W2. subst b0. split; gcbv; ring.
  - assert (P : 0 < dot3 (line_p1 l) (line_p1 l)) by (assert (D := dot3_nonneg (line_p1 l)); lra).
    destruct (group_coords rcp rsqrt sz Hrcp Hrsq B l W P) as (C1 & C2 & C3 & C4).
    change (FLg rcp rsqrt sz) with FLx in C1, C2, C3, C4.
    set (s := sqrt (dot3 (line_p1 l) (line_p1 l))) in *. set (m := line_exp l) in *.
    assert (Q := sin2_cos2 s). unfold Rsqr in Q. clearbody s m.
    destruct m as [[p0 a1 a2 a3] [q0 b1 b2 b3]]. unfold motor_scalar, motor_e0123 in *.
    revert C1 C2 C3 C4. unfold dot3 at 1 2. cbn [motor_p1 motor_p2 l0 l1 l2 l3]. intros C1 C2 C3 C4.
    split; gcbv; rewrite ?C1, ?C4; lra.
Qed.
Lemma gp_rev_l_motor m : unit (mv_motor m) -> gp (rev (mv_motor m)) (mv_motor m) == one.
Proof.
  intro U. assert (H := unit_rev_motor m U). unfold unit in H. rewrite rev_rev in H. exact H.
Qed.
Lemma step_unit (B : Build) a b : unit (mv_motor a) -> unit (mv_motor b) ->
  unit (mv_motor (motor_mul_motor b (motor_rev a))).
Proof.
  intros Ua Ub. apply (unit_proper (gp (mv_motor b) (rev (mv_motor a)))).
  - rewrite (motor_mul_motor_gp B), motor_rev_rev. reflexivity.
  - apply unit_gp; [exact Ub|apply unit_rev_motor; exact Ua].
Qed.
Lemma step_back (B : Build) a b : unit (mv_motor a) ->
  motor_mul_motor (motor_mul_motor b (motor_rev a)) a = b.
Proof.
  intro U. apply mv_motor_inj. rewrite !(motor_mul_motor_gp B), motor_rev_rev, gp_assoc, (gp_rev_l_motor a U).
  apply gp_one_r.
Qed.
Lemma motor_mul_assoc (B : Build) (a b c : motor R) :
  motor_mul_motor (motor_mul_motor a b) c = motor_mul_motor a (motor_mul_motor b c).
Proof. apply mv_motor_inj. rewrite !(motor_mul_motor_gp B). apply gp_assoc. Qed.
Lemma motor_mul_on_point (B : Build) (a b : motor R) x :
  motor_on_point (motor_mul_motor a b) x = motor_on_point a (motor_on_point b x).
Proof.
  apply mv_point_inj. rewrite !(motor_on_point_sw B), (motor_mul_motor_gp B). apply sandwich_gp.
Qed.
Lemma motor_neg_mul (B : Build) (a b : motor R) :
  motor_mul_motor (motor_neg a) b = motor_neg (motor_mul_motor a b).
Proof.
  apply mv_motor_inj. rewrite mv_motor_neg, !(motor_mul_motor_gp B), mv_motor_neg. apply gp_scale_l.
Qed.

(** ** C64: [blend_motors] / [slerp].  The step [log (b ~a)] of the blend: *)
Definition step {B : Build} (a b : motor R) : line R := motor_log (motor_mul_motor b (motor_rev a)).
Lemma step_wf (B : Build) a b : unit (mv_motor a) -> unit (mv_motor b) -> wf_line (step a b).
Proof. intros Ua Ub. apply (wf_motor_log rcp rsqrt sz B). apply step_unit; assumption. Qed.
Lemma blend_step (B : Build) a b t :
  blend_motors a b t = motor_mul_motor (line_exp (line_mul_f (step a b) t)) a.
Proof. reflexivity. Qed.
(** every blend of unit motors is a unit motor, the blend starts at [a], and
    advancing the parameter by s multiplies with the fixed motor exp(s step) *)
Theorem C64_blend : forall (B : Build) a b, unit (mv_motor a) -> unit (mv_motor b) ->
  (forall t, unit (mv_motor (blend_motors a b t))) /\
  blend_motors a b 0 = a /\
  (forall s t, blend_motors a b (s + t)
     = motor_mul_motor (line_exp (line_mul_f (motor_log (motor_mul_motor b (motor_rev a))) s)) (blend_motors a b t)).
Proof.
  intros B a b Ua Ub. assert (W := step_wf B a b Ua Ub). repeat match goal with |- _ /\ _ => split end.
  - intro t. rewrite blend_step. apply (unit_proper (gp (mv_motor (line_exp (line_mul_f (step a b) t))) (mv_motor a))); [symmetry; apply (motor_mul_motor_gp B)|].
    apply unit_gp; [|exact Ua]. apply line_exp_unit. apply (wf_line_mul_f B). exact W.
  - rewrite blend_step. assert (E := line_exp_0 rcp rsqrt sz B (step a b) W).
    change (FLg rcp rsqrt sz) with FLx in E. rewrite E. apply mv_motor_inj. rewrite (motor_mul_motor_gp B).
    destruct a as [[? ? ? ?] [? ? ? ?]]. mvring.
  - intros s t. rewrite !blend_step. fold (step a b).
    assert (E := line_exp_add rcp rsqrt sz Hrcp Hrsq B s t (step a b) W).
    change (FLg rcp rsqrt sz) with FLx in E. rewrite <- E. apply (motor_mul_assoc B).
Qed.
(** constant speed: over equal parameter steps [h] a point travels equal
    distances, wherever on the path it is *)
Theorem C64_constant_speed : forall (B : Build) a b, unit (mv_motor a) -> unit (mv_motor b) ->
  forall x, point_w x <> 0 -> forall h t,
  dist (pos (motor_on_point (blend_motors a b (t + h)) x)) (pos (motor_on_point (blend_motors a b t) x))
  = dist (pos (motor_on_point (blend_motors a b h) x)) (pos (motor_on_point a x)).
Proof.
  intros B a b Ua Ub x X h t. destruct (C64_blend B a b Ua Ub) as (U & Z & _).
  assert (W := step_wf B a b Ua Ub).
  set (e r := line_exp (line_mul_f (step a b) r)).
  assert (E : forall r s, motor_mul_motor (e r) (e s) = e (r + s)).
  { intros r s. exact (line_exp_add rcp rsqrt sz Hrcp Hrsq B r s (step a b) W). }
  assert (Ue : forall r, unit (mv_motor (e r))).
  { intro r. apply line_exp_unit, (wf_line_mul_f B), W. }
  rewrite !blend_step. fold (e (t + h)) (e t) (e h).
  rewrite <- E. rewrite !(motor_mul_on_point B).
  set (y := motor_on_point a x).
  assert (Y : point_w y <> 0) by (unfold y; rewrite (motor_point_w B a Ua); exact X).
  assert (Y' : point_w (motor_on_point (e h) y) <> 0) by (rewrite (motor_point_w B (e h) (Ue h)); exact Y).
  rewrite !(motor_point_pos B (e t) (Ue t)) by assumption. apply (motion_dist (e t) (Ue t)).
Qed.
(** Full statement: [blend_motors a b 1 = b] (up to sign) for all unit motors.
    It fails where exp (log (b ~a)) is not b ~a (C20): half-turns without slide
    and translations with scalar part -1; every other pair is covered. *)
Theorem C64_blend_end_partial : forall (B : Build) a b, unit (mv_motor a) -> unit (mv_motor b) ->
  let m := motor_mul_motor b (motor_rev a) in
  (0 < dot3 (motor_p1 m) (motor_p1 m) -> 1 / 1000000 <= Rabs (motor_scalar m) -> blend_motors a b 1 = b) /\
  (Rabs (motor_scalar m) < 1 / 1000000 -> motor_e0123 m <> 0 ->
     (blend_motors a b 1 = b \/ blend_motors a b 1 = motor_neg b) /\ same_motion (blend_motors a b 1) b) /\
  (motor_scalar m = 1 -> blend_motors a b 1 = b).
Proof.
  intros B a b Ua Ub m. assert (Um := step_unit B a b Ua Ub). fold m in Um.
  destruct (C20_exp_log_partial rcp rsqrt sz Hrcp Hrsq B m Um) as (H1 & H2 & H3).
  change (Props05.FLx rcp rsqrt sz) with FLx in H1, H2, H3.
  assert (E1 : line_mul_f (step a b) 1 = step a b).
  { destruct (step a b) as [[? ? ? ?] [? ? ? ?]]. apply (f_equal2 mkline); apply m128_ext; cbn; ring. }
  assert (E : blend_motors a b 1 = motor_mul_motor (line_exp (motor_log m)) a).
  { rewrite blend_step, E1. reflexivity. }
  assert (K := step_back B a b Ua). fold m in K.
  repeat match goal with |- _ /\ _ => split end.
  - intros P C. rewrite E, (H1 P C). exact K.
  - intros C N. destruct (H2 C N) as [[L|L] _]; rewrite E, L.
    + rewrite K. split; [left; reflexivity|repeat split; reflexivity].
    + rewrite (motor_neg_mul B), K. split; [right; reflexivity|apply same_neg].
  - intro C. rewrite E, (H3 C). exact K.
Qed.
(** the short way round: when the scalar part of b ~a is positive (which
    [constrain] arranges) the rotation part of the step is at most pi/2, that
    is, the blend turns by at most pi *)
Theorem C64_short_way : forall (B : Build) a b, unit (mv_motor a) -> unit (mv_motor b) ->
  let m := motor_mul_motor b (motor_rev a) in
  1 / 1000000 <= motor_scalar m ->
  sqrt (dot3 (line_p1 (motor_log m)) (line_p1 (motor_log m))) = acos (motor_scalar m) /\
  sqrt (dot3 (line_p1 (motor_log m)) (line_p1 (motor_log m))) < PI / 2.
Proof.
  intros B a b Ua Ub m C. assert (Um := step_unit B a b Ua Ub). fold m in Um.
  destruct (unit_coords m Um) as [U1 _].
  assert (D := dot3_nonneg (motor_p1 m)). unfold motor_scalar in *. assert (PP := PI_RGT_0).
  assert (RA : sqrt (dot3 (line_p1 (motor_log m)) (line_p1 (motor_log m))) = acos (l0 (motor_p1 m))).
  { unfold motor_log. destruct (Req_dec (dot3 (motor_p1 m) (motor_p1 m)) 0) as [Z|Z].
    - assert (L := log_kernel_zero rcp rsqrt sz B (motor_p1 m) (motor_p2 m) Z).
      change (FLl rcp rsqrt sz) with FLx in L. rewrite L. cbn [line_p1].
      replace (l0 (motor_p1 m)) with 1 by nra. rewrite acos_1.
      replace (dot3 (mk4 0 0 0 0) (mk4 0 0 0 0)) with 0 by (unfold dot3; cbn; ring). apply sqrt_0.
    - assert (P : 0 < dot3 (motor_p1 m) (motor_p1 m)) by lra.
      assert (L := log_kernel_R rcp rsqrt sz Hrcp Hrsq B (motor_p1 m) (motor_p2 m) P). cbv zeta in L.
      change (FLl rcp rsqrt sz) with FLx in L. rewrite L. cbn [line_p1]. clear L.
      set (S := sqrt (dot3 (motor_p1 m) (motor_p1 m))).
      assert (PS : 0 < S) by (apply sqrt_lt_R0; exact P).
      assert (Q : S * S = dot3 (motor_p1 m) (motor_p1 m)) by (apply sqrt_sqrt; lra).
      destruct (log_u_main (motor_p1 m) (motor_p2 m)) as [-> _]; [rewrite Rabs_pos_eq; lra|]. fold S.
      set (u := Ratan2 S (l0 (motor_p1 m))).
      assert (N : l0 (motor_p1 m) * l0 (motor_p1 m) + S * S = 1) by lra.
      destruct (atan2_unit (l0 (motor_p1 m)) S N PS) as (A3 & A1 & A2). fold u in A1, A2, A3.
      replace (dot3 _ _) with (u * u).
      2:{ symmetry. transitivity (u / S * (u / S) * dot3 (motor_p1 m) (motor_p1 m)); [unfold dot3; cbn [l1 l2 l3]; ring|].
          rewrite <- Q. field. lra. }
      rewrite sqrt_square by lra. rewrite <- A1. symmetry. apply acos_cos. lra. }
  split; [exact RA|]. rewrite RA. destruct (Rlt_dec (acos (l0 (motor_p1 m))) (PI / 2)) as [K|K]; [exact K|exfalso].
  assert (AB := acos_bound (l0 (motor_p1 m))).
  assert (LE : cos (acos (l0 (motor_p1 m))) <= 0) by (apply cos_le_0; lra).
  rewrite cos_acos in LE by nra. lra.
Qed.
(** hypotheses are met by a blend between a screw motion and a rotation *)
Definition ex_a : motor R := mkmotor (mk4 (3/5) 0 (4/5) 0) (mk4 4 7 3 9).
Definition ex_b : motor R := mkmotor (mk4 (4/5) (3/5) 0 0) (mk4 0 0 2 1).
Example C64_ex : forall B : Build, unit (mv_motor ex_a) /\ unit (mv_motor ex_b) /\
  motor_scalar (motor_mul_motor ex_b (motor_rev ex_a)) = 12 / 25 /\
  0 < dot3 (motor_p1 (motor_mul_motor ex_b (motor_rev ex_a))) (motor_p1 (motor_mul_motor ex_b (motor_rev ex_a))) /\
  motor_e0123 (motor_mul_motor ex_b (motor_rev ex_a)) <> 0.
Proof.
  intro B. repeat match goal with |- _ /\ _ => split end;
    try (apply unit_motor_geo; split; gcbv; lra); destruct B as [[|]]; unfold dot3; gcbv; lra.
Qed.
Example C64_half_turn_ex : forall B : Build, let b := mkmotor (mk4 0 0 1 0) (mk4 2 7 0 9) in
  unit (mv_motor b) /\ unit (mv_motor id_motor) /\ motor_mul_motor b (motor_rev id_motor) = b /\
  Rabs (motor_scalar b) < 1 / 1000000 /\ motor_e0123 b <> 0.
Proof.
  intros B b. repeat match goal with |- _ /\ _ => split end;
    try (apply unit_motor_geo; split; gcbv; lra).
  - unfold b. destruct B as [[|]]; apply (f_equal2 mkmotor); apply m128_ext; gcbv; lra.
  - unfold motor_scalar. cbn. rewrite Rabs_R0. lra.
  - unfold motor_e0123. cbn. lra.
Qed.

(** ** C65: [nlerp] *)
Lemma lerp_mv a b t : mv_motor (lerp a b t) == mvadd (mvscale (1 - t) (mv_motor a)) (mvscale t (mv_motor b)).
Proof. destruct a as [[? ? ? ?] [? ? ? ?]], b as [[? ? ? ?] [? ? ? ?]]. mvring. Qed.
(** the square of the rotation part of the interpolated motor *)
Lemma lerp_n a b t : unit (mv_motor a) -> unit (mv_motor b) ->
  dot4 (motor_p1 (lerp a b t)) (motor_p1 (lerp a b t))
  = 1 - 2 * t * (1 - t) * (1 - dot4 (motor_p1 a) (motor_p1 b)).
Proof.
  intros Ua Ub. apply unit_motor_iff in Ua, Ub. destruct Ua as [Ua _], Ub as [Ub _].
  transitivity ((1 - t) * (1 - t) * dot4 (motor_p1 a) (motor_p1 a) + t * t * dot4 (motor_p1 b) (motor_p1 b)
     + 2 * t * (1 - t) * dot4 (motor_p1 a) (motor_p1 b)).
  - destruct a as [[? ? ? ?] [? ? ? ?]], b as [[? ? ? ?] [? ? ? ?]]. gcbv. ring.
  - rewrite Ua, Ub. ring.
Qed.
Lemma unit_dot_bound a b : unit (mv_motor a) -> unit (mv_motor b) -> -1 <= dot4 (motor_p1 a) (motor_p1 b) <= 1.
Proof.
  intros Ua Ub. apply unit_motor_iff in Ua, Ub. destruct Ua as [Ua _], Ub as [Ub _].
  destruct a as [[a0 a1 a2 a3] q], b as [[b0 b1 b2 b3] r]. revert Ua Ub. unfold dot4. cbn [motor_p1 l0 l1 l2 l3]. intros.
  assert (0 <= (a0 - b0) * (a0 - b0) + (a1 - b1) * (a1 - b1) + (a2 - b2) * (a2 - b2) + (a3 - b3) * (a3 - b3)) by (generalize (Rle_0_sqr (a0 - b0)) (Rle_0_sqr (a1 - b1)) (Rle_0_sqr (a2 - b2)) (Rle_0_sqr (a3 - b3)); unfold Rsqr; lra).
  assert (0 <= (a0 + b0) * (a0 + b0) + (a1 + b1) * (a1 + b1) + (a2 + b2) * (a2 + b2) + (a3 + b3) * (a3 + b3)) by (generalize (Rle_0_sqr (a0 + b0)) (Rle_0_sqr (a1 + b1)) (Rle_0_sqr (a2 + b2)) (Rle_0_sqr (a3 + b3)); unfold Rsqr; lra).
  lra.
Qed.
(** Full statement: nlerp of unit motors is a unit motor for every t in [0, 1].
    It fails only for opposite rotation parts at t = 1/2 (refuted below). *)
Theorem C65_nlerp_partial : forall (B : Build) a b, unit (mv_motor a) -> unit (mv_motor b) ->
  nlerp a b 0 = a /\ nlerp a b 1 = b /\
  (forall t, t <> 1 / 2 \/ dot4 (motor_p1 a) (motor_p1 b) <> -1 -> 0 <= t <= 1 -> unit (mv_motor (nlerp a b t))).
Proof.
  intros B a b Ua Ub. repeat match goal with |- _ /\ _ => split end.
  - unfold nlerp. replace (lerp a b 0) with a.
    + apply unit_motor_iff in Ua. destruct Ua. apply (motor_normalized_fix rcp rsqrt sz Hrcp Hrsq B); assumption.
    + destruct a as [[? ? ? ?] [? ? ? ?]], b as [[? ? ? ?] [? ? ? ?]]. apply (f_equal2 mkmotor); apply m128_ext; gcbv; ring.
  - unfold nlerp. replace (lerp a b 1) with b.
    + apply unit_motor_iff in Ub. destruct Ub. apply (motor_normalized_fix rcp rsqrt sz Hrcp Hrsq B); assumption.
    + destruct a as [[? ? ? ?] [? ? ? ?]], b as [[? ? ? ?] [? ? ? ?]]. apply (f_equal2 mkmotor); apply m128_ext; gcbv; ring.
  - intros t D T. apply (motor_normalized_unit rcp rsqrt sz Hrcp Hrsq B). change (FLn rcp rsqrt sz) with FLx.
    rewrite (lerp_n a b t Ua Ub). assert (C := unit_dot_bound a b Ua Ub).
    set (c := dot4 (motor_p1 a) (motor_p1 b)) in *. clearbody c.
    assert (T2 : 0 <= t * (1 - t)) by (apply Rmult_le_pos; lra).
    replace (1 - 2 * t * (1 - t) * (1 - c)) with ((2 * t - 1) * (2 * t - 1) + 2 * (t * (1 - t) * (1 + c))) by ring.
    assert (K : 0 <= t * (1 - t) * (1 + c)) by (apply Rmult_le_pos; lra).
    destruct D as [D|D].
    + assert (0 < (2 * t - 1) * (2 * t - 1)) by (apply Rsqr_pos_lt; lra). lra.
    + destruct (Req_dec t (1 / 2)) as [->|D'].
      * assert (0 < 1 / 2 * (1 - 1 / 2) * (1 + c)) by (apply Rmult_lt_0_compat; lra). lra.
      * assert (0 < (2 * t - 1) * (2 * t - 1)) by (apply Rsqr_pos_lt; lra). lra.
Qed.
(** "the norm of a linearly interpolated motor is 1 iff ...": the right-hand
    side is 2, not 1 *)
Theorem C65_lerp_norm : forall a b t, unit (mv_motor a) -> unit (mv_motor b) -> 0 < t < 1 ->
  (unit (mv_motor (lerp a b t)) <->
   mvadd (gp (mv_motor b) (rev (mv_motor a))) (gp (mv_motor a) (rev (mv_motor b))) == scalar_mv 2).
Proof.
  intros a b t Ua Ub T.
  set (X := mvadd _ _).
  assert (E : gp (mv_motor (lerp a b t)) (rev (mv_motor (lerp a b t)))
     == mvadd (scalar_mv ((1 - t) * (1 - t) + t * t)) (mvscale (t * (1 - t)) X)).
  { transitivity (mvadd (mvadd (mvscale ((1 - t) * (1 - t)) (gp (mv_motor a) (rev (mv_motor a))))
       (mvscale (t * t) (gp (mv_motor b) (rev (mv_motor b))))) (mvscale (t * (1 - t)) X)).
    - rewrite lerp_mv. unfold X. generalize (mv_motor a) (mv_motor b). clear. intros x y. mvring.
    - unfold unit in Ua, Ub. intro k. unfold mvadd, mvscale, scalar_mv.
      rewrite (Ua k), (Ub k). unfold mvscale. ring. }
  unfold unit. clearbody X. split.
  - intros H k. specialize (H k). rewrite (E k) in H. revert H. unfold mvadd, mvscale, scalar_mv, mvscale.
    generalize (one k), (X k). intros o x H. apply (Rmult_eq_reg_l (t * (1 - t))); [|nra].
    transitivity (o - ((1 - t) * (1 - t) + t * t) * o); [lra|ring].
  - intros H k. rewrite (E k). unfold mvadd, mvscale. rewrite (H k). unfold scalar_mv, mvscale. ring.
Qed.
(** the condition of the text, "= 1", is neither necessary ... *)
Theorem C65_doc_condition_refuted :
  (exists a b t, unit (mv_motor a) /\ unit (mv_motor b) /\ 0 < t < 1 /\ unit (mv_motor (lerp a b t)) /\
     ~ mvadd (gp (mv_motor b) (rev (mv_motor a))) (gp (mv_motor a) (rev (mv_motor b))) == scalar_mv 1) /\
(** ... nor sufficient *)
  (exists a b t, unit (mv_motor a) /\ unit (mv_motor b) /\ 0 < t < 1 /\ ~ unit (mv_motor (lerp a b t)) /\
     mvadd (gp (mv_motor b) (rev (mv_motor a))) (gp (mv_motor a) (rev (mv_motor b))) == scalar_mv 1).
Proof.
  assert (S3 : exists r, r * r = 3) by (exists (sqrt 3); apply sqrt_sqrt; lra). destruct S3 as [r S3].
  set (b := mkmotor (mk4 (1/2) (r / 2) 0 0) (mk4 0 0 0 0)).
  assert (U1 : unit (mv_motor id_motor)) by (apply unit_motor_geo; split; gcbv; lra).
  assert (U2 : unit (mv_motor b)) by (apply unit_motor_geo; unfold b; split; gcbv; [transitivity (1 / 4 + r * r / 4); [field|rewrite S3; field]|lra]).
  assert (X : mvadd (gp (mv_motor b) (rev (mv_motor id_motor))) (gp (mv_motor id_motor) (rev (mv_motor b))) == scalar_mv 1).
  { unfold b, id_motor. blades; lra. }
  assert (Y : mvadd (gp (mv_motor id_motor) (rev (mv_motor id_motor))) (gp (mv_motor id_motor) (rev (mv_motor id_motor))) == scalar_mv 2).
  { unfold id_motor. mvring. }
  assert (D : ~ scalar_mv 2 == scalar_mv 1).
  { intro H. specialize (H (Bl false false false false)). revert H. mvcbv. lra. }
  split.
  - exists id_motor, id_motor, (1/2). repeat match goal with |- _ /\ _ => split end; try assumption; try lra.
    + apply C65_lerp_norm; try assumption; lra.
    + rewrite Y. exact D.
  - exists id_motor, b, (1/2). repeat match goal with |- _ /\ _ => split end; try assumption; try lra.
    intro H. apply C65_lerp_norm in H; try assumption; try lra. rewrite X in H. apply D. symmetry. exact H.
Qed.
(** two motors of the same motion with opposite sign: half way the sum has no
    rotation part left and nothing can be normalized *)
Theorem C65_opposite_refuted : forall B : Build, forall a, unit (mv_motor a) ->
  unit (mv_motor (motor_neg a)) /\ same_motion (motor_neg a) a /\ ~ unit (mv_motor (nlerp a (motor_neg a) (1 / 2))).
Proof.
  intros B a U. repeat match goal with |- _ /\ _ => split end.
  - apply unit_motor_iff in U. apply unit_motor_iff. destruct a as [[? ? ? ?] [? ? ? ?]]. revert U. gcbv. intros [U1 U2]. split; lra.
  - apply same_neg.
  - intro H. apply unit_motor_iff in H. destruct H as [H _].
    assert (Z : lerp a (motor_neg a) (1 / 2) = mkmotor (mk4 0 0 0 0) (mk4 0 0 0 0)).
    { destruct a as [[? ? ? ?] [? ? ? ?]]. apply (f_equal2 mkmotor); apply m128_ext; gcbv; field. }
    unfold nlerp in H. rewrite Z in H.
    assert (K : motor_p1 (motor_normalized (mkmotor (mk4 0 0 0 0) (mk4 0 0 0 0))) = mk4 0 0 0 0).
    { unfold motor_normalized. cbn [motor_p1 motor_p2]. match goal with |- context [rsqrt_nr1 ?v] => generalize (rsqrt_nr1 v) end.
      intros [? ? ? ?]. apply m128_ext; cbn; ring. }
    rewrite K in H. unfold dot4 in H. cbn in H. lra.
Qed.
Example C65_ex : unit (mv_motor ex_a) /\ unit (mv_motor ex_b) /\ dot4 (motor_p1 ex_a) (motor_p1 ex_b) = 12 / 25.
Proof. repeat match goal with |- _ /\ _ => split end; try (apply unit_motor_geo; split; gcbv; lra). unfold dot4, ex_a, ex_b. cbn. lra. Qed.
End P.

(** ** C64 at the end point: where [exp (log m)] is not [m], the blend from the
    identity to [m] does not arrive.  [Flo_R_at0 a0]: atan2(0, 0) = a0, one of
    the values C99 allows (Props05.v). *)
Section E.
Context (rcp rsqrt : R -> R) (sz : bool) (Hrcp : exact_rcp rcp) (Hrsq : exact_rsqrt rsqrt).
Lemma blend_from_id (B : Build) a0 m :
  @blend_motors R (Flo_R_at0 a0 rcp rsqrt sz) B id_motor m 1
  = @line_exp R (Flo_R_at0 a0 rcp rsqrt sz) B (@motor_log R (Flo_R_at0 a0 rcp rsqrt sz) B m).
Proof.
  unfold blend_motors. cbv zeta.
  assert (E : @motor_mul_motor R Arith_R m (motor_rev id_motor) = m).
  { apply mv_motor_inj. rewrite (motor_mul_motor_gp B). destruct m as [[? ? ? ?] [? ? ? ?]]. unfold id_motor. mvring. }
  change (@flo_arith R (Flo_R_at0 a0 rcp rsqrt sz)) with Arith_R. rewrite E.
  generalize (@motor_log R (Flo_R_at0 a0 rcp rsqrt sz) B m). intro l.
  replace (@line_imul_f R Arith_R l 1) with l
    by (destruct l as [[? ? ? ?] [? ? ? ?]]; apply (f_equal2 mkline); apply m128_ext; cbn; ring).
  generalize (@line_exp R (Flo_R_at0 a0 rcp rsqrt sz) B l). intro e.
  apply mv_motor_inj. rewrite (motor_mul_motor_gp B). destruct e as [[? ? ? ?] [? ? ? ?]]. unfold id_motor. mvring.
Qed.
Theorem C64_blend_end_refuted : forall (B : Build) a0, a0 = 0 \/ a0 = PI \/ a0 = - PI ->
  let FL := Flo_R_at0 a0 rcp rsqrt sz in
  exists a b x, unit (mv_motor a) /\ unit (mv_motor b) /\ point_w x <> 0 /\
  (** the blend ends where it started although b moves x *)
  pos (motor_on_point (blend_motors a b 1) x) = pos (motor_on_point a x) /\
  pos (motor_on_point b x) <> pos (motor_on_point a x).
Proof.
  intros B a0 A FL. destruct (C20_half_turn_refuted rcp rsqrt sz Hrcp Hrsq B a0 A) as (m & x & U & W & I & N).
  exists id_motor, m, x. assert (J := proj1 (proj2 (id_motor_is_identity B)) x).
  repeat match goal with |- _ /\ _ => split end.
  - apply unit_motor_geo; split; gcbv; lra.
  - exact U.
  - exact W.
  - unfold FL. rewrite blend_from_id. rewrite (I x). change (@flo_arith R (Flo_R_at0 a0 rcp rsqrt sz)) with Arith_R. rewrite J. reflexivity.
  - rewrite J. intro H. apply N. rewrite I. symmetry. exact H.
Qed.
End E.

(** ** C27 in the documentation: [animate_keyframe] applies each motor in
    place.  A skeleton in its rest pose (every motor the identity) at the world
    location: every joint should stay at the world location; every joint ends
    as the zero point. *)
Lemma init_positions_at {F} out size w (m : mem F) k : (k < size)%nat ->
  init_positions out size w m (out + k)%nat = point_p3 w.
Proof.
  unfold init_positions. intro K.
  assert (G : forall n i m, (forall j, (i <= j < i + n)%nat -> for_loop (fun i m => st m (out + i) (point_p3 w)) i n m (out + j)%nat = point_p3 w)
    /\ (forall j, (j < i)%nat -> for_loop (fun i m => st m (out + i) (point_p3 w)) i n m (out + j)%nat = m (out + j)%nat)).
  { induction n as [|n IH]; intros i m'; cbn [for_loop].
    - split; intros; [lia|reflexivity].
    - destruct (IH (S i) (st m' (out + i)%nat (point_p3 w))) as [P1 P2]. split.
      + intros j J. destruct (PeanoNat.Nat.eq_dec j i) as [->|D].
        * rewrite P2 by lia. unfold st. rewrite PeanoNat.Nat.eqb_refl. reflexivity.
        * apply P1. lia.
      + intros j J. rewrite P2 by lia. unfold st. destruct (PeanoNat.Nat.eqb_spec (out + j) (out + i)); [lia|reflexivity]. }
  apply G. lia.
Qed.
Lemma inplace_id_points (B : Build) out n (m : mem R) :
  (forall k, (k < n)%nat -> motor_batch_points id_motor out out n m (out + k)%nat = zero4) /\
  (forall x, (forall k, (k < n)%nat -> x <> (out + k)%nat) -> motor_batch_points id_motor out out n m x = m x).
Proof.
  split.
  - intros k K. apply (C27_inplace_erases_refuted B out n m k K).
  - intros x X. apply (proj2 (sw312_motor_inplace_run out (motor_p1 id_motor) (motor_p2 id_motor) n m)).
    intros k K. apply X. lia.
Qed.
Theorem C27_documented_animation_refuted : forall (B : Build) out size
  (group_size : nat -> nat) (world : point R) m, (forall i, (1 <= group_size i)%nat) ->
  forall k, (k < size)%nat ->
  (** the position the pose prescribes *)
  motor_on_point id_motor world = world /\
  (** the position computed *)
  animate_keyframe out size (fun _ => id_motor) group_size world m (out + k)%nat = zero4.
Proof.
  intros B out size gs world m G k K. split; [apply (proj1 (proj2 (id_motor_is_identity B)))|].
  unfold animate_keyframe. generalize (init_positions out size world m). clear m world. cbv zeta.
  assert (L : forall n i m, (forall j, (j < i)%nat -> m (out + j)%nat = zero4) ->
    forall j, (j < i + n)%nat ->
    for_loop (fun i m => motor_batch_points id_motor (out + i) (out + i) (gs i) m) i n m (out + j)%nat = zero4).
  { induction n as [|n IH]; intros i m Z j J; cbn [for_loop].
    - apply Z. lia.
    - apply IH; [|lia]. intros j' J'. destruct (inplace_id_points B (out + i) (gs i) m) as [P1 P2].
      destruct (PeanoNat.Nat.eq_dec j' i) as [->|D].
      + replace (out + i)%nat with (out + i + 0)%nat at 3 by lia. apply P1. specialize (G i). lia.
      + rewrite P2; [apply Z; lia|]. intros. lia. }
  intro m. apply (L size O m); [intros; lia|lia].
Qed.
Example C27_documented_ex : (forall i : nat, (1 <= 3)%nat) /\ (2 < 5)%nat. Proof. split; intros; lia. Qed.

Print Assumptions C64_blend.
Print Assumptions C64_constant_speed.
Print Assumptions C64_blend_end_partial.
Print Assumptions C64_short_way.
Print Assumptions C65_nlerp_partial.
Print Assumptions C65_lerp_norm.
Print Assumptions C65_doc_condition_refuted.
Print Assumptions C65_opposite_refuted.
Print Assumptions C64_blend_end_refuted.
Print Assumptions C27_documented_animation_refuted.
