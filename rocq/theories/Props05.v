(** Properties C19-C22: exponential and logarithm.  Exact real arithmetic,
    ideal hardware estimates.  [is_exp x y]: every coefficient of the partial
    sums of x^k/k! (powers by the geometric product) converges to that of y
    ([ExpSeries.v]). *)
From Coq Require Import Reals ZArith Lra Lia Setoid Morphisms.
From Verif Require Import AlgTac SpecGeom FloR Closed Geom AlgGP AlgSW AlgNorm Motion Ctors ExpLog ExpSeries LogExp LogExp2 KernelExpLog.
Local Open Scope R_scope.

Section P.
Context (rcp rsqrt : R -> R) (sz : bool) (Hrcp : exact_rcp rcp) (Hrsq : exact_rsqrt rsqrt).
Local Instance FLx : Flo R := Flo_R rcp rsqrt sz.

(** ** C19.  Full statement: also for the zero branch; there the code divides
    0 by 0 (Props11.v). *)
Theorem C19_exp_series_partial : forall B : Build,
  (** all bivectors, simple or not, with or without a rotation part *)
  (forall l, wf_line l -> is_exp (mv_line l) (mv_motor (line_exp l))) /\
  (forall l, wf_ideal l -> is_exp (mv_ideal l) (mv_translator (ideal_line_exp l))) /\
  (forall b, wf_branch b -> 0 < dot3 (branch_p1 b) (branch_p1 b) ->
     is_exp (mv_branch b) (mv_rotor (branch_exp b))) /\
  (** the series has no other sum *)
  (forall x y z, is_exp x y -> is_exp x z -> y == z).
Proof.
  intro B. repeat match goal with |- _ /\ _ => split end.
  - exact (line_exp_series rcp rsqrt sz Hrcp Hrsq B).
  - exact ideal_exp_series.
  - exact (branch_exp_series rcp rsqrt sz Hrcp Hrsq B).
  - exact is_exp_unique.
Qed.
Example C19_ex : wf_line (line_ctor 1 2 3 4 5 6) /\ dot3 (line_p1 (line_ctor 1 2 3 4 5 6)) (line_p2 (line_ctor 1 2 3 4 5 6)) = 32.
Proof. repeat split. unfold dot3. cbn. ring. Qed.

(** ** C20.  Two motors perform the same motion: *)
Definition same_motion {B : Build} (m n : motor R) : Prop :=
  (forall x, motor_on_point m x = motor_on_point n x) /\
  (forall x, motor_on_plane m x = motor_on_plane n x) /\
  (forall x, wf_line x -> motor_on_line m x = motor_on_line n x) /\
  (forall x, wf_direction x -> motor_on_direction m x = motor_on_direction n x).
Lemma mv_motor_neg m : mv_motor (motor_neg m) == mvscale (-1) (mv_motor m).
Proof. destruct m as [[? ? ? ?] [? ? ? ?]]. mvring. Qed.
Lemma same_neg {B : Build} m : same_motion (motor_neg m) m.
Proof.
  repeat split; intros.
  - apply mv_point_inj. rewrite !(motor_on_point_sw B), mv_motor_neg. apply neg_sandwich.
  - apply mv_plane_inj. rewrite !(motor_on_plane_sw B), mv_motor_neg. apply neg_sandwich.
  - apply mv_line_inj. rewrite !(motor_on_line_sw B), mv_motor_neg by assumption. apply neg_sandwich.
  - apply mv_direction_inj. rewrite !(motor_on_direction_sw B), mv_motor_neg by assumption. apply neg_sandwich.
Qed.
(** Full statement: same_motion (exp (log m)) m for every unit motor.  It fails
    for half-turns without translation along the axis and for translations
    represented with scalar part -1 (both refuted below); every other unit
    motor is covered here. *)
Theorem C20_exp_log_partial : forall (B : Build) m, unit (mv_motor m) ->
  (** any rotation angle up to |cos(angle/2)| < 1e-6: the same motor *)
  (0 < dot3 (motor_p1 m) (motor_p1 m) -> 1 / 1000000 <= Rabs (motor_scalar m) ->
     line_exp (motor_log m) = m) /\
  (** half-turns that also slide along their axis: the same motor up to sign *)
  (Rabs (motor_scalar m) < 1 / 1000000 -> motor_e0123 m <> 0 ->
     (line_exp (motor_log m) = m \/ line_exp (motor_log m) = motor_neg m) /\
     same_motion (line_exp (motor_log m)) m) /\
  (** translations with scalar 1 *)
  (motor_scalar m = 1 -> line_exp (motor_log m) = m).
Proof.
  intros B m U. repeat match goal with |- _ /\ _ => split end.
  - exact (exp_log_main rcp rsqrt sz Hrcp Hrsq B m U).
  - intros Z N. assert (E := exp_log_half rcp rsqrt sz Hrcp Hrsq B m U Z N).
    change (FLg rcp rsqrt sz) with FLx in E. rewrite E.
    destruct (Rlt_dec 0 (motor_e0123 m)).
    + split; [right; reflexivity|apply same_neg].
    + split; [left; reflexivity|repeat split; reflexivity].
  - intro H. destruct (unit_coords m U) as [U1 U2].
    assert (D : dot3 (motor_p1 m) (motor_p1 m) = 0) by (unfold motor_scalar in H; rewrite H in U1; lra).
    etransitivity; [exact (exp_log_translation rcp rsqrt sz B m U D)|].
    destruct m as [[p0 a1 a2 a3] p2]. unfold motor_scalar in H. cbn in H. subst p0.
    destruct (sq3_zero a1 a2 a3 D) as (-> & -> & ->). reflexivity.
Qed.
Theorem C20_exp_log_rotor : forall (B : Build) r, unit (mv_rotor r) -> -1 < rotor_scalar r < 1 ->
  branch_exp (rotor_log r) = r.
Proof. exact (exp_log_rotor rcp rsqrt sz Hrcp Hrsq). Qed.
Theorem C20_exp_log_translator : forall t : translator R, ideal_line_exp (translator_log t) = t.
Proof. intros [t]. reflexivity. Qed.
Example C20_ex : let m := mkmotor (mk4 (3/5) 0 (4/5) 0) (mk4 4 7 3 9) in
  unit (mv_motor m) /\ 0 < dot3 (motor_p1 m) (motor_p1 m) /\ 1 / 1000000 <= Rabs (motor_scalar m).
Proof.
  cbv zeta. split; [|split].
  - apply unit_motor_geo. split; gcbv; lra.
  - unfold dot3. cbn. lra.
  - unfold motor_scalar. cbn. rewrite Rabs_pos_eq; lra.
Qed.
Example C20_half_turn_ex : let m := mkmotor (mk4 0 0 1 0) (mk4 2 7 0 9) in
  unit (mv_motor m) /\ Rabs (motor_scalar m) < 1 / 1000000 /\ motor_e0123 m <> 0.
Proof.
  cbv zeta. split; [|split].
  - apply unit_motor_geo. split; gcbv; lra.
  - unfold motor_scalar. cbn. rewrite Rabs_R0. lra.
  - unfold motor_e0123. cbn. lra.
Qed.
(** -1 - b is the translation by the opposite amount of -1 + b, yet log keeps
    only b: the result moves every point the wrong way *)
Theorem C20_negative_translation_refuted : forall B : Build, exists m x,
  unit (mv_motor m) /\ point_w x <> 0 /\
  pos (motor_on_point (line_exp (motor_log m)) x) <> pos (motor_on_point m x).
Proof.
  intro B. exists (mkmotor (mk4 (-1) 0 0 0) (mk4 0 1 0 0)), (point_ctor 0 0 0).
  assert (U : unit (mv_motor (mkmotor (mk4 (-1) 0 0 0) (mk4 0 1 0 0)))) by (apply unit_motor_geo; split; gcbv; lra).
  split; [exact U|]. split; [cbn; lra|].
  assert (E := exp_log_translation rcp rsqrt sz B _ U ltac:(unfold dot3; cbn; ring)).
  change (FLg rcp rsqrt sz) with FLx in E. rewrite E. cbn [motor_p2]. intro H. apply (f_equal vx) in H.
  unfold pos, vscale in H. cbn [vx] in H.
  rewrite !(motor_on_point_w B), !(motor_on_point_num B) in H. revert H. gcbv. lra.
Qed.

(** ** C21.  Full statement: every bivector with rotation part of length in
    (0, pi).  It fails next to pi/2 (refuted below). *)
Theorem C21_log_exp_partial : forall (B : Build) l, wf_line l ->
  let s := sqrt (dot3 (line_p1 l) (line_p1 l)) in
  0 < s < PI -> 1 / 1000000 <= Rabs (cos s) \/ dot3 (line_p1 l) (line_p2 l) < 0 ->
  motor_log (line_exp l) = l.
Proof.
  intros B l W s Rs C. destruct (Rlt_dec (Rabs (cos s)) (1 / 1000000)) as [Z|Z].
  - destruct C as [C|C]; [lra|]. exact (log_exp_half rcp rsqrt sz Hrcp Hrsq B l W Rs Z C).
  - apply (log_exp_main rcp rsqrt sz Hrcp Hrsq B l W Rs). fold s. lra.
Qed.
Theorem C21_log_exp_branch : forall (B : Build) b, wf_branch b ->
  0 < sqrt (dot3 (branch_p1 b) (branch_p1 b)) < PI -> rotor_log (branch_exp b) = b.
Proof. exact (log_exp_branch rcp rsqrt sz Hrcp Hrsq). Qed.
Theorem C21_log_exp_ideal : forall l : ideal_line R, translator_log (ideal_line_exp l) = l.
Proof. intros [l]. reflexivity. Qed.
(** lines without rotation part *)
Theorem C21_log_exp_no_rotation : forall (B : Build) l, wf_line l ->
  dot3 (line_p1 l) (line_p1 l) = 0 -> motor_log (line_exp l) = l.
Proof.
  intros B [a b] [W1 W2] Z. cbn [line_p1 line_p2] in *. unfold line_exp. cbn [line_p1 line_p2].
  assert (E := exp_kernel_zero rcp rsqrt sz B a b W1 Z). change (FLe rcp rsqrt sz) with FLx in E. rewrite E.
  unfold motor_log. cbn [motor_p1 motor_p2].
  assert (L := log_kernel_zero rcp rsqrt sz B (mk4 1 0 0 0) b ltac:(unfold dot3; cbn; ring)).
  change (FLl rcp rsqrt sz) with FLx in L. rewrite L.
  destruct a as [a0 a1 a2 a3]. cbn in W1. subst a0. destruct (sq3_zero a1 a2 a3 Z) as (-> & -> & ->). reflexivity.
Qed.
Example C21_ex : let l := line_ctor 4 5 6 0 1 0 in wf_line l /\
  sqrt (dot3 (line_p1 l) (line_p1 l)) = 1 /\ 1 / 1000000 <= Rabs (cos 1) /\ 0 < 1 < PI.
Proof.
  cbv zeta. repeat split; try lra.
  - transitivity (sqrt 1); [f_equal; unfold dot3; cbn; ring|apply sqrt_1].
  - assert (H : 0 < cos 1).
    { apply cos_gt_0; [assert (P := PI_RGT_0); lra|]. assert (P := PI2_1). lra. }
    assert (K : cos (PI / 3) <= cos 1).
    { apply cos_decr_1; try lra; assert (P := PI_RGT_0); assert (Q := PI_4); assert (P1 := PI2_1); try lra.
      assert (P3 : 3 <= PI) by (assert (X := PI2_3_2); unfold PI2 in *; lra). lra. }
    rewrite cos_PI3 in K. rewrite Rabs_pos_eq; lra.
  - assert (P := PI2_1). lra.
Qed.

(** ** C22 *)
Fixpoint motor_pow {B : Build} (m : motor R) (n : nat) : motor R :=
  match n with O => motor_ctor 1 0 0 0 0 0 0 0 | S k => motor_mul_motor m (motor_pow m k) end.
Fixpoint rotor_pow {B : Build} (r : rotor R) (n : nat) : rotor R :=
  match n with O => mkrotor (mk4 1 0 0 0) | S k => rotor_mul_rotor r (rotor_pow r k) end.
Fixpoint translator_pow (t : translator R) (n : nat) : translator R :=
  match n with O => mktranslator (mk4 0 0 0 0) | S k => translator_mul_translator t (translator_pow t k) end.

Lemma line_mul_f_wf l s : wf_line l -> wf_line (line_mul_f l s).
Proof. destruct l as [[a0 ? ? ?] [b0 ? ? ?]]. intros [W1 W2]. cbn in *. subst. split; cbn; ring. Qed.
Lemma line_exp_pow (B : Build) l t n : wf_line l ->
  motor_pow (line_exp (line_mul_f l t)) n = line_exp (line_mul_f l (INR n * t)).
Proof.
  intro W. induction n as [|n IH].
  - cbn [motor_pow INR]. rewrite Rmult_0_l. symmetry. exact (line_exp_0 rcp rsqrt sz B l W).
  - cbn [motor_pow]. rewrite IH. etransitivity; [exact (line_exp_add rcp rsqrt sz Hrcp Hrsq B t (INR n * t) l W)|].
    change (FLg rcp rsqrt sz) with FLx. f_equal. f_equal. rewrite S_INR. ring.
Qed.
Lemma line_div_mul l k : k <> 0 -> line_div_f l k = line_mul_f l (/ k).
Proof.
  intro K. unfold line_div_f, line_mul_f. unfold FLx. rewrite rcp_nr1_R.
  assert (E : map4 (nr_rcp rcp) (@_mm_set1_ps R k) = _mm_set1_ps (/ k)).
  { apply m128_ext; cbn; apply nr_rcp_exact; assumption. }
  rewrite E. reflexivity.
Qed.
Lemma line_mul_1 l : line_mul_f l 1 = l.
Proof. destruct l as [[? ? ? ?] [? ? ? ?]]. apply (f_equal2 mkline); apply m128_ext; cbn; ring. Qed.
Lemma branch_div_mul b k : k <> 0 -> branch_div_f b k = branch_mul_f b (/ k).
Proof.
  intro K. unfold branch_div_f, branch_mul_f. unfold FLx. rewrite rcp_nr1_R.
  assert (E : map4 (nr_rcp rcp) (@_mm_set1_ps R k) = _mm_set1_ps (/ k)).
  { apply m128_ext; cbn; apply nr_rcp_exact; assumption. }
  rewrite E. reflexivity.
Qed.
Lemma branch_mul_1 b : branch_mul_f b 1 = b.
Proof. destruct b as [[? ? ? ?]]. apply (f_equal mkbranch); apply m128_ext; cbn; ring. Qed.
Lemma rotor_mul_1 (B : Build) r : rotor_mul_rotor r (mkrotor (mk4 1 0 0 0)) = r.
Proof.
  apply (mv_rotor_inj). rewrite (rotor_mul_rotor_gp B). destruct r as [[? ? ? ?]]. mvring.
Qed.
Lemma branch_exp_pow (B : Build) b t n : wf_branch b -> 0 < dot3 (branch_p1 b) (branch_p1 b) -> t <> 0 ->
  rotor_pow (branch_exp (branch_mul_f b t)) (S n) = branch_exp (branch_mul_f b (INR (S n) * t)).
Proof.
  intros W P T. induction n as [|n IH].
  - cbn [rotor_pow INR]. rewrite (rotor_mul_1 B), Rmult_1_l. reflexivity.
  - remember (S n) as k eqn:Ek. cbn [rotor_pow]. rewrite IH.
    assert (Pk : 0 < INR k) by (rewrite Ek; apply lt_0_INR; lia).
    etransitivity; [apply (branch_exp_add rcp rsqrt sz Hrcp Hrsq B t (INR k * t) b W P T)|].
    + apply Rmult_integral_contrapositive. split; lra.
    + replace (t + INR k * t) with ((1 + INR k) * t) by ring.
      apply Rmult_integral_contrapositive. split; lra.
    + change (FLg rcp rsqrt sz) with FLx. f_equal. f_equal. rewrite (S_INR k). ring.
Qed.
Lemma ideal_exp_pow l n : wf_ideal l -> 
  translator_pow (ideal_line_exp (ideal_line_div_f l (INR (S n)))) (S n) = ideal_line_exp l.
Proof.
  intro W. destruct l as [[b0 b1 b2 b3]]. unfold wf_ideal in W. cbn in W. subst b0.
  assert (Pk : 0 < INR (S n)) by (apply lt_0_INR; lia).
  assert (G : forall k, translator_pow (ideal_line_exp (ideal_line_div_f (mkideal_line (mk4 0 b1 b2 b3)) (INR (S n)))) k
    = mktranslator (mk4 0 (INR k * (b1 / INR (S n))) (INR k * (b2 / INR (S n))) (INR k * (b3 / INR (S n))))).
  { assert (E : ideal_line_div_f (mkideal_line (mk4 0 b1 b2 b3)) (INR (S n))
      = mkideal_line (mk4 0 (b1 / INR (S n)) (b2 / INR (S n)) (b3 / INR (S n)))).
    { unfold ideal_line_div_f. unfold FLx. rewrite rcp_nr1_R. f_equal.
      assert (N := nr_rcp_exact rcp (INR (S n)) Hrcp ltac:(lra)).
      apply m128_ext; cbn [map4 l0 l1 l2 l3 ideal_line_p2 _mm_mul_ps map4_2 _mm_set1_ps fmul flo_arith Flo_R Arith_R]; rewrite N; unfold Rdiv; ring. }
    rewrite E. generalize (b1 / INR (S n)), (b2 / INR (S n)), (b3 / INR (S n)). intros x y z. induction k as [|k IH].
    - cbn. rewrite !Rmult_0_l. reflexivity.
    - cbn [translator_pow]. rewrite IH, S_INR. apply (f_equal mktranslator). apply m128_ext; cbn; ring. }
  rewrite G. apply (f_equal mktranslator). apply m128_ext; cbn [l0 l1 l2 l3 ideal_line_p2]; field; lra.
Qed.
(** the group law, and its use to divide a motion in n equal steps *)
Theorem C22_group_law : forall B : Build,
  (forall l s t, wf_line l ->
     motor_mul_motor (line_exp (line_mul_f l s)) (line_exp (line_mul_f l t)) = line_exp (line_mul_f l (s + t))) /\
  (forall b s t, wf_branch b -> 0 < dot3 (branch_p1 b) (branch_p1 b) -> s <> 0 -> t <> 0 -> s + t <> 0 ->
     rotor_mul_rotor (branch_exp (branch_mul_f b s)) (branch_exp (branch_mul_f b t)) = branch_exp (branch_mul_f b (s + t))) /\
  (forall l s t, wf_ideal l ->
     translator_mul_translator (ideal_line_exp (ideal_line_mul_f l s)) (ideal_line_exp (ideal_line_mul_f l t))
     = ideal_line_exp (ideal_line_mul_f l (s + t))).
Proof.
  intro B. repeat match goal with |- _ /\ _ => split end.
  - intros l s t. exact (line_exp_add rcp rsqrt sz Hrcp Hrsq B s t l).
  - intros b s t. exact (branch_exp_add rcp rsqrt sz Hrcp Hrsq B s t b).
  - intros [[b0 b1 b2 b3]] s t W. unfold wf_ideal in W. cbn in W. subst b0.
    apply (f_equal mktranslator). apply m128_ext; cbn; ring.
Qed.
Theorem C22_steps : forall (B : Build) (n : nat), (1 <= n)%nat ->
  (forall l, wf_line l -> motor_pow (line_exp (line_div_f l (INR n))) n = line_exp l) /\
  (forall b, wf_branch b -> 0 < dot3 (branch_p1 b) (branch_p1 b) ->
     rotor_pow (branch_exp (branch_div_f b (INR n))) n = branch_exp b) /\
  (forall l, wf_ideal l -> translator_pow (ideal_line_exp (ideal_line_div_f l (INR n))) n = ideal_line_exp l).
Proof.
  intros B n N. assert (Pn : 0 < INR n) by (apply lt_0_INR; lia).
  repeat match goal with |- _ /\ _ => split end.
  - intros l W. rewrite line_div_mul, (line_exp_pow B), Rinv_r, line_mul_1 by (assumption || lra). reflexivity.
  - intros b W P. destruct n as [|n]; [lia|]. rewrite branch_div_mul by lra.
    rewrite (branch_exp_pow B), Rinv_r, branch_mul_1; try assumption; try lra; [reflexivity|]. apply Rinv_neq_0_compat. lra.
  - intros l W. destruct n as [|n]; [lia|]. apply ideal_exp_pow. exact W.
Qed.
(** interpolation as documented: the n-th root exp(log(m)/n) taken n times *)
Theorem C22_nth_root : forall (B : Build) m n, (1 <= n)%nat -> unit (mv_motor m) ->
  0 < dot3 (motor_p1 m) (motor_p1 m) -> 1 / 1000000 <= Rabs (motor_scalar m) ->
  motor_pow (line_exp (line_div_f (motor_log m) (INR n))) n = m.
Proof.
  intros B m n N U P Z. destruct (C22_steps B n N) as [S _]. rewrite S.
  - exact (proj1 (C20_exp_log_partial B m U) P Z).
  - unfold motor_log. assert (E := log_kernel_R rcp rsqrt sz Hrcp Hrsq B _ (motor_p2 m) P). cbv zeta in E.
    change (FLl rcp rsqrt sz) with FLx in E. rewrite E. split; reflexivity.
Qed.
End P.

(** ** C20, half-turns.  atan2(0,0) is a multiple of pi depending on the signs
    of the zeros; whichever it is, a half-turn without translation along its
    axis comes back from exp(log(m)) as the identity. *)
Definition Flo_R_at0 (a0 : R) (rcp rsqrt : R -> R) (sz : bool) : Flo R :=
  mkFlo R Arith_R Rdiv sqrt rcp rsqrt sin cos asin acos
    (fun y x => if Req_EM_T y 0 then if Req_EM_T x 0 then a0 else Ratan2 y x else Ratan2 y x) Rabs
    (fun x => if Rlt_dec x 0 then true else if Req_EM_T x 0 then sz else false)
    Reqb Rltb (fun x => Rltb (Rabs x) (1 / 1000000))
    (1 / 2) (4999 / 10000) (PI / 2).
Section H.
Context (rcp rsqrt : R -> R) (sz : bool) (Hrcp : exact_rcp rcp) (Hrsq : exact_rsqrt rsqrt).
Definition half_turn : motor R := mkmotor (mk4 0 0 0 1) (mk4 0 0 0 0).
Lemma log_half_turn (B : Build) a0 :
  @motor_log R (Flo_R_at0 a0 rcp rsqrt sz) B half_turn = mkline (mk4 0 0 0 a0) (mk4 0 0 0 0).
Proof.
  assert (E : nr_rsqrt rsqrt 1 = 1) by (rewrite nr_rsqrt_exact by (assumption || lra); rewrite sqrt_1; field).
  assert (E' : nr_rcp rcp 1 = 1) by (rewrite nr_rcp_exact by (assumption || lra); field).
  unfold nr_rsqrt in E. unfold nr_rcp in E'.
  unfold motor_log, log_kernel, half_turn. cbn [motor_p1 motor_p2].
  match goal with |- context [all4 ?v] => assert (A : all4 v = false) end.
  { unfold all4. cbn. unfold Reqb. destruct (Req_EM_T (1 * 1) 0); [lra|]. rewrite Bool.andb_false_r. reflexivity. }
  rewrite A. clear A.
  match goal with |- context [@hi_dp_bc ?f ?g ?h ?v ?v] => assert (A : @hi_dp_bc f g h v v = _mm_set1_ps 1) end.
  { destruct B as [[|]]; apply m128_ext; cbn; ring. }
  rewrite A. clear A.
  match goal with |- context [@hi_dp_bc ?f ?g ?h ?v ?w] => assert (A : @hi_dp_bc f g h v w = _mm_set1_ps 0) end.
  { destruct B as [[|]]; apply m128_ext; cbn; ring. }
  rewrite A. clear A.
  match goal with |- context [@rsqrt_nr1 ?f ?g ?v] => assert (A : @rsqrt_nr1 f g v = _mm_set1_ps 1) end.
  { apply m128_ext; cbn; (etransitivity; [|exact E]); field. }
  rewrite A. clear A.
  match goal with |- context [@rcp_nr1 ?f ?g ?v] => assert (A : @rcp_nr1 f g v = _mm_set1_ps 1) end.
  { apply m128_ext; cbn; (etransitivity; [|exact E']); ring. }
  rewrite A. clear A. cbn. 
  replace (Rltb (Rabs 0) (1 / 1000000)) with true.
  2:{ unfold Rltb. rewrite Rabs_R0. destruct (Rlt_dec _ _); [reflexivity|lra]. }
  destruct (Req_EM_T (- 0) 0) as [_|H]; [|lra].
  destruct (Req_EM_T (0 * 1 * -1) 0) as [_|H]; [|lra].
  apply (f_equal2 mkline); apply m128_ext; cbn; field.
Qed.
Theorem C20_half_turn_refuted : forall (B : Build) a0, a0 = 0 \/ a0 = PI \/ a0 = - PI ->
  let FL := Flo_R_at0 a0 rcp rsqrt sz in
  exists m x, unit (mv_motor m) /\ point_w x <> 0 /\
  (forall y, pos (motor_on_point (line_exp (motor_log m)) y) = pos y) /\
  pos (motor_on_point (line_exp (motor_log m)) x) <> pos (motor_on_point m x).
Proof.
  intros B a0 A FL. exists half_turn, (point_ctor 1 0 0).
  assert (E : exists c, c * c = 1 /\ @line_exp R FL B (@motor_log R FL B half_turn) = mkmotor (mk4 c 0 0 0) (mk4 0 0 0 0)).
  { unfold FL. rewrite log_half_turn. unfold line_exp. cbn [line_p1 line_p2].
    match goal with |- context [exp_kernel ?a ?b] =>
      change (@exp_kernel R (Flo_R_at0 a0 rcp rsqrt sz) B a b) with (@exp_kernel R (FLe rcp rsqrt sz) B a b) end.
    destruct (Req_dec a0 0) as [Z|Z].
    - exists 1. split; [ring|]. rewrite Z, (exp_kernel_zero rcp rsqrt sz B); [reflexivity|reflexivity|unfold dot3; cbn; ring].
    - exists (-1). split; [ring|]. rewrite (exp_kernel_R rcp rsqrt sz Hrcp Hrsq B); [|reflexivity|reflexivity|unfold dot3; cbn; nra].
      cbv zeta.
      replace (dot3 (mk4 0 0 0 a0) (mk4 0 0 0 a0)) with (PI * PI).
      2:{ unfold dot3. cbn. destruct A as [A|[A|A]]; [lra| |]; rewrite A; ring. }
      replace (dot3 (mk4 0 0 0 a0) (mk4 0 0 0 0)) with 0 by (unfold dot3; cbn; ring).
      assert (P := PI_RGT_0). rewrite sqrt_square, cos_PI, sin_PI by lra.
      apply (f_equal2 mkmotor); apply m128_ext; cbn [l0 l1 l2 l3]; field; lra. }
  destruct E as (c & C & E).
  split; [apply unit_motor_geo; unfold half_turn; split; gcbv; lra|]. split; [cbn; lra|].
  unfold FL in *. rewrite E.
  assert (I : forall y, pos (motor_on_point (mkmotor (mk4 c 0 0 0) (mk4 0 0 0 0)) y) = pos y).
  { intro y. unfold pos. rewrite (motor_on_point_w B), (motor_on_point_num B). destruct y as [[w x y z]].
    assert (N : motor_n (mkmotor (mk4 c 0 0 0) (mk4 0 0 0 0)) = 1) by (gcbv; nra). rewrite N, Rmult_1_l.
    apply vec_eq; gcbv; rewrite ?C; ring [C]. }
  split; [exact I|]. rewrite I. intro H. apply (f_equal vx) in H. unfold pos in H.
  rewrite (motor_on_point_w B), (motor_on_point_num B) in H. revert H. unfold half_turn. gcbv. lra.
Qed.
(** ** C21 next to pi/2: the logarithm of the exponential of the quarter
    bivector (pi/2) e12 is a multiple 0, pi or -pi of e12 *)
Theorem C21_quarter_refuted : forall (B : Build) a0, a0 = 0 \/ a0 = PI \/ a0 = - PI ->
  let FL := Flo_R_at0 a0 rcp rsqrt sz in
  exists l, wf_line l /\ sqrt (dot3 (line_p1 l) (line_p1 l)) = PI / 2 /\ motor_log (line_exp l) <> l.
Proof.
  intros B a0 A FL. exists (mkline (mk4 0 0 0 (PI / 2)) (mk4 0 0 0 0)). assert (P := PI_RGT_0).
  split; [split; reflexivity|].
  assert (S : sqrt (dot3 (mk4 0 0 0 (PI / 2)) (mk4 0 0 0 (PI / 2))) = PI / 2).
  { transitivity (sqrt (PI / 2 * (PI / 2))); [f_equal; unfold dot3; cbn; ring|apply sqrt_square; lra]. }
  split; [exact S|].
  assert (E : @line_exp R FL B (mkline (mk4 0 0 0 (PI / 2)) (mk4 0 0 0 0)) = half_turn).
  { unfold line_exp. cbn [line_p1 line_p2].
    match goal with |- context [exp_kernel ?a ?b] =>
      change (@exp_kernel R FL B a b) with (@exp_kernel R (FLe rcp rsqrt sz) B a b) end.
    rewrite (exp_kernel_R rcp rsqrt sz Hrcp Hrsq B); [|reflexivity|reflexivity|unfold dot3; cbn; nra].
    cbv zeta. rewrite S, cos_PI2, sin_PI2.
    replace (dot3 (mk4 0 0 0 (PI / 2)) (mk4 0 0 0 0)) with 0 by (unfold dot3; cbn; ring).
    apply (f_equal2 mkmotor); apply m128_ext; cbn [l0 l1 l2 l3]; unfold Rdiv; rewrite ?Rmult_0_l, ?Rmult_0_r; try field; lra. }
  rewrite E. unfold FL. rewrite log_half_turn. intro H. apply (f_equal line_p1) in H. apply (f_equal l3) in H. cbn in H.
  destruct A as [A|[A|A]]; rewrite A in H; lra.
Qed.
End H.
Print Assumptions C19_exp_series_partial.
Print Assumptions C20_exp_log_partial.
Print Assumptions C20_exp_log_rotor.
Print Assumptions C20_exp_log_translator.
Print Assumptions C20_negative_translation_refuted.
Print Assumptions C20_half_turn_refuted.
Print Assumptions C21_log_exp_partial.
Print Assumptions C21_log_exp_branch.
Print Assumptions C21_log_exp_no_rotation.
Print Assumptions C21_quarter_refuted.
Print Assumptions C22_group_law.
Print Assumptions C22_steps.
Print Assumptions C22_nth_root.
