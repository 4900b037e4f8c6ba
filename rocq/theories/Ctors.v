(** C09-C11, C13, C25, C32, C43, C47: constructors and conversions. *)
From Coq Require Import Reals ZArith Lra.
From Verif Require Import AlgTac SpecGeom FloR Closed Geom AlgNorm Motion.
Local Open Scope R_scope.

Lemma vunit_dot v : 0 < vdot v v -> vdot (vunit v) (vunit v) = 1.
Proof.
  intro H. unfold vunit, vlen. assert (S := sqrt_lt_R0 _ H). assert (Q := sqrt_sqrt _ (Rlt_le _ _ H)).
  set (k := sqrt (vdot v v)) in *.
  transitivity (vdot v v / (k * k)).
  - clearbody k. destruct v. vcbn. field. lra.
  - rewrite Q. field. lra.
Qed.
Ltac fcbv := cbv -[Rplus Rmult Ropp Rminus Rdiv Rinv IZR sqrt sin cos PI].

Section C.
Context (rcp rsqrt : R -> R) (sz : bool) (Hrcp : exact_rcp rcp) (Hrsq : exact_rsqrt rsqrt) (B : Build).
Local Instance FLk : Flo R := Flo_R rcp rsqrt sz.

(** ** translator(delta, x, y, z) *)
Lemma translator_ctor_wf delta x y z : wf_translator (translator_ctor delta x y z).
Proof. unfold wf_translator. fcbv. ring. Qed.
Lemma translator_ctor_c delta x y z : 0 < vdot (V x y z) (V x y z) ->
  vscale (-2) (translator_c (translator_ctor delta x y z)) = vscale delta (vunit (V x y z)).
Proof.
  intro H. assert (S := sqrt_lt_R0 _ H). revert S. unfold vunit, vlen. clear H. unfold vdot.
  fcbv. intro S. apply vec_eq; fcbv; field; lra.
Qed.
Lemma translator_ctor_point delta x y z p : 0 < vdot (V x y z) (V x y z) -> point_w p <> 0 ->
  point_w (translator_on_point (translator_ctor delta x y z) p) = point_w p /\
  pos (translator_on_point (translator_ctor delta x y z) p) = vadd (pos p) (vscale delta (vunit (V x y z))).
Proof.
  intros H W. assert (T := translator_ctor_wf delta x y z). split; [apply (translator_on_point_w B); assumption|].
  unfold pos. rewrite (translator_on_point_w B), (translator_on_point_num B) by assumption.
  rewrite <- (translator_ctor_c delta x y z H). generalize (translator_c (translator_ctor delta x y z)), (pnum p).
  intros [] []. apply vec_eq; vcbn; field; assumption.
Qed.

(** ** rotor(ang, x, y, z) *)
Lemma rotor_ctor_s t x y z : rotor_scalar (rotor_ctor t x y z) = cos (t / 2).
Proof. replace (t / 2) with (1 / 2 * t) by field. fcbv. ring. Qed.
Lemma rotor_ctor_b t x y z : 0 < vdot (V x y z) (V x y z) ->
  rotor_b (rotor_ctor t x y z) = vscale (sin (t / 2)) (vunit (V x y z)).
Proof.
  intro H. replace (t / 2) with (1 / 2 * t) by field. assert (S := sqrt_lt_R0 _ H). revert S.
  unfold vunit, vlen. clear H. unfold vdot.
  fcbv. intro S. apply vec_eq; fcbv; field; lra.
Qed.
Lemma rotor_ctor_unit t x y z : 0 < vdot (V x y z) (V x y z) -> unit (mv_rotor (rotor_ctor t x y z)).
Proof.
  intro H. apply unit_rotor_geo. unfold rotor_n, qn. rewrite rotor_ctor_s, rotor_ctor_b by assumption.
  assert (U := vunit_dot _ H). assert (C := sin2_cos2 (t / 2)). unfold Rsqr in C.
  transitivity (cos (t / 2) * cos (t / 2) + sin (t / 2) * sin (t / 2) * vdot (vunit (V x y z)) (vunit (V x y z))).
  - generalize (vunit (V x y z)). intros []. vcbn. ring.
  - rewrite U. lra.
Qed.
Lemma rotor_ctor_rot t x y z v : 0 < vdot (V x y z) (V x y z) ->
  rotor_rot (rotor_ctor t x y z) v = rodrigues (vunit (V x y z)) (- t) v.
Proof.
  intro H. unfold rotor_rot. rewrite rotor_ctor_s, rotor_ctor_b by assumption.
  apply qrot_rodrigues, vunit_dot; assumption.
Qed.
Lemma rotor_ctor_point t x y z p : 0 < vdot (V x y z) (V x y z) -> point_w p <> 0 ->
  point_w (rotor_on_point (rotor_ctor t x y z) p) = point_w p /\
  pos (rotor_on_point (rotor_ctor t x y z) p) = rodrigues (vunit (V x y z)) (- t) (pos p).
Proof.
  intros H W. assert (U := proj1 (unit_rotor_geo _) (rotor_ctor_unit t x y z H)).
  assert (E : point_w (rotor_on_point (rotor_ctor t x y z) p) = point_w p).
  { rewrite (rotor_on_point_w B), U. ring. }
  split; [exact E|]. unfold pos. rewrite E, (rotor_on_point_num B).
  rewrite <- (rotor_ctor_rot t x y z _ H). unfold rotor_rot. rewrite qrot_scale. reflexivity.
Qed.

(** ** rotor(euler_angles) *)
Lemma sincos2 x : cos x * cos x = 1 - sin x * sin x.
Proof. assert (H := sin2_cos2 x). unfold Rsqr in H. lra. Qed.
Lemma rotor_ctor_axis t :
  rotor_ctor t 1 0 0 = mkrotor (mk4 (cos (t / 2)) (sin (t / 2)) 0 0) /\
  rotor_ctor t 0 1 0 = mkrotor (mk4 (cos (t / 2)) 0 (sin (t / 2)) 0) /\
  rotor_ctor t 0 0 1 = mkrotor (mk4 (cos (t / 2)) 0 0 (sin (t / 2))).
Proof.
  replace (t / 2) with (1 / 2 * t) by field.
  repeat split; unfold rotor_ctor; apply (f_equal mkrotor);
  cbn -[sqrt sin cos]; match goal with |- context [sqrt ?e] => replace e with 1 by ring end; rewrite sqrt_1;
  apply m128_ext; cbn -[sin cos]; field.
Qed.
Lemma rotor_of_euler_product r p y :
  rotor_of_euler (mkeuler r p y)
  = rotor_mul_rotor (rotor_mul_rotor (rotor_ctor r 1 0 0) (rotor_ctor p 0 1 0)) (rotor_ctor y 0 0 1).
Proof.
  destruct (rotor_ctor_axis r) as (-> & _ & _), (rotor_ctor_axis p) as (_ & -> & _), (rotor_ctor_axis y) as (_ & _ & ->).
  unfold rotor_of_euler. cbn [roll pitch yaw].
  replace (fmul y fhalf) with (y / 2) by (unfold Rdiv; cbn; lra).
  replace (fmul r fhalf) with (r / 2) by (unfold Rdiv; cbn; lra).
  replace (fmul p fhalf) with (p / 2) by (unfold Rdiv; cbn; lra).
  assert (Hr := sincos2 (r / 2)). assert (Hp := sincos2 (p / 2)). assert (Hy := sincos2 (y / 2)).
  cbn [fcos fsin FLk Flo_R].
  generalize dependent (sin (r / 2)). generalize dependent (sin (p / 2)). generalize dependent (sin (y / 2)).
  generalize dependent (cos (r / 2)). generalize dependent (cos (p / 2)). generalize dependent (cos (y / 2)).
  intros cy cp cr sy Hy sp Hp sr Hr.
  etransitivity; [apply (rotor_normalized_fix rcp rsqrt sz Hrsq B)|].
  - unfold dot4. cbn. ring [Hy Hp Hr].
  - apply (f_equal mkrotor). destruct B as [[|]]; apply m128_ext; cbv -[Rplus Rmult Rminus Ropp]; ring.
Qed.
End C.
