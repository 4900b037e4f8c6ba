(** Property C71: what "normalized" and "divided" mean exactly in binary32. *)
From Coq Require Import ZArith Reals Bool List Lia Lra Psatz.
From Flocq Require Import Core BinarySingleNaN.
From Verif Require Import AlgTac Float32 FloatFacts FloatErr FloatNR FloatNorm FloatDegenerate FloatIdeal Props11.
Import ListNotations.
Local Open Scope R_scope.

(** Multiplying by one changes no float, not even a zero, an infinity or a NaN. *)
Lemma fmul_one x : fmul x one = x.
Proof.
  destruct x as [s|s| |s m e W]; try (destruct s; reflexivity); try reflexivity.
  set (x := B754_finite s m e W). destruct val_one as [F1 V1].
  assert (G : generic_format radix2 fexp32 (val x)) by apply val_format.
  pose proof (Bmult_correct 24 128 _ _ mode_NE x one) as K. rewrite fexp_eq in K. fold (val x) (val one) in K.
  change (round_mode mode_NE) with ZnearestE in K. rewrite V1, Rmult_1_r, round_generic in K by (assumption || apply valid_rnd_N).
  rewrite Rlt_bool_true in K by apply abs_B2R_lt_emax. destruct K as (V & F & S).
  apply B2R_Bsign_inj.
  - change (is_finite (Bmult mode_NE x one) = true). rewrite F. reflexivity.
  - reflexivity.
  - exact V.
  - change (Bsign (Bmult mode_NE x one) = Bsign x). rewrite S.
    + cbn. apply xorb_false_r.
    + destruct (Bmult mode_NE x one); try reflexivity; discriminate F.
Qed.

(** Hardware that gives 1 - 2^-12 for 1, within the documented 1.5 * 2^-12. *)
Definition low : f32 := f32_of 4095 (-12).
Definition low_machine : machine := mkmachine
  (fun x => if Beqb x one then low else m_rcp ideal_machine x)
  (fun x => if Beqb x one then low else m_rsqrt ideal_machine x)
  (m_sin ideal_machine) (m_cos ideal_machine) (m_asin ideal_machine) (m_acos ideal_machine) (m_atan2 ideal_machine).
Lemma val_low : fin low /\ val low = 4095 / 4096. Proof. split; [reflexivity|]. vm_compute. lra. Qed.
Lemma eqb_one x : fin x -> Beqb x one = true -> val x = 1.
Proof.
  intros F E. rewrite Beqb_correct in E by (exact F || reflexivity). destruct val_one as [_ V]. fold (val x) (val one) in E. rewrite V in E.
  revert E. case Req_bool_spec; intros; [assumption|discriminate].
Qed.
Lemma low_rcp : rcp_estimate low_machine.
Proof.
  intros x R. cbn [m_rcp low_machine]. destruct (Beqb x one) eqn:E; [|exact (ideal_rcp x R)].
  rewrite (eqb_one x (proj1 R) E). destruct val_low as [F V]. split; [exact F|]. rewrite V. apply Rabs_le. lra.
Qed.
Lemma low_rsqrt : rsqrt_estimate low_machine.
Proof.
  intros x R P. cbn [m_rsqrt low_machine]. destruct (Beqb x one) eqn:E; [|exact (ideal_rsqrt x R P)].
  rewrite (eqb_one x (proj1 R) E), sqrt_1. destruct val_low as [F V]. split; [exact F|]. rewrite V. apply Rabs_le. lra.
Qed.

(** ** C71.  point.hpp 123, "the homogeneous coordinate w is exactly 1 when normalized".
    On conforming hardware it need not be: normalizing the point (1, 2, 3), which the
    constructor has already given w = 1, leaves w = 1 - 2^-24; dividing by 1 changes a
    plane; and normalizing a unit plane, direction, branch or rotor changes it. *)
Theorem C71_exact_refuted : exists M, rcp_estimate M /\ rsqrt_estimate M /\ forall B : Build, let FL := Flo_f32 M in
  (let a := point_ctor one (fz 2) (fz 3) in l0 (point_p3 a) = one /\ val (l0 (point_p3 (point_normalized a))) = 1 - u) /\
  (let p := plane_ctor one (fz 2) (fz 3) (fz 4) in val (l1 (plane_p0 (plane_div_f p one))) = 1 - u) /\
  (let p := plane_ctor one (fz 0) (fz 0) (fz 5) in val (l1 (plane_p0 (plane_normalized p))) <> 1) /\
  (let d := mkdirection (mk4 (fz 0) one (fz 0) (fz 0)) in val (l1 (direction_p3 (direction_normalized d))) <> 1) /\
  (let b := branch_ctor one (fz 0) (fz 0) in val (l1 (branch_p1 (branch_normalized b))) <> 1) /\
  (let r := mkrotor (mk4 one (fz 0) (fz 0) (fz 0)) in val (l0 (rotor_p1 (rotor_normalized r))) <> 1).
Proof.
  exists low_machine. split; [exact low_rcp|split; [exact low_rsqrt|]]. intros B FL.
  split; [|split; [|split; [|split; [|split]]]]; cbv zeta.
  - split; [reflexivity|]. destruct B as [[|]]; vm_compute; lra.
  - destruct B as [[|]]; vm_compute; lra.
  - destruct B as [[|]]; vm_compute; lra.
  - destruct B as [[|]]; vm_compute; lra.
  - destruct B as [[|]]; vm_compute; lra.
  - destruct B as [[|]]; vm_compute; lra.
Qed.

(** What does hold: on every conforming machine w is within 7 units of the last place
    of 1, from any starting point in range. *)
Theorem C71_point_w : forall (B : Build) (M : machine), let FL := Flo_f32 M in rcp_estimate M ->
  forall a : point f32, Forall (safe (-51) 60) (reg_list (point_p3 a)) -> val (l0 (point_p3 a)) <> 0 ->
  fin (l0 (point_p3 (point_normalized a))) /\ Rabs (val (l0 (point_p3 (point_normalized a))) - 1) <= 7 * u.
Proof.
  intros B M FL HM a S N.
  assert (S0 : safe (-51) 60 (l0 (point_p3 a))) by (unfold reg_list in S; inversion S; assumption).
  pose proof (C40_divide B M HM _ S0 N) as (_ & _ & _ & _ & _ & _ & _ & _ & _ & K).
  specialize (K a S eq_refl). cbn [coefs] in K. unfold reg_list in K. inversion K as [|? ? ? ? [F E] _]. subst.
  unfold Rdiv in E. rewrite Rinv_r, Rabs_R1, Rmult_1_r in E by exact N. split; assumption.
Qed.
(** The direction of the error: the estimate decides, and nothing else does.  Dividing by
    1 leaves every operand of every type alone, NaNs and signed zeros included, exactly
    when one Newton step from the estimate of 1 gives 1. *)
Theorem C71_divide_by_one : forall (B : Build) (M : machine), let FL := Flo_f32 M in
  rcp_step (H := FL) one = one ->
  (forall a, plane_div_f a one = a) /\ (forall a, point_div_f a one = a) /\ (forall a, direction_div_f a one = a) /\
  (forall a, ideal_line_div_f a one = a) /\ (forall a, branch_div_f a one = a) /\ (forall a, line_div_f a one = a) /\
  (forall a, rotor_div_f a one = a) /\ (forall a, translator_div_f a one = a) /\ (forall a, motor_div_f a one = a) /\
  (forall a, l0 (point_p3 a) = one -> point_normalized a = a).
Proof.
  intros B M FL H.
  assert (E : rcp_nr1 (_mm_set1_ps one) = mk4 one one one one).
  { change (rcp_nr1 (_mm_set1_ps one)) with (mk4 (rcp_step (H := FL) one) (rcp_step (H := FL) one) (rcp_step (H := FL) one) (rcp_step (H := FL) one)).
    rewrite H. reflexivity. }
  assert (K : forall v : m128 f32, _mm_mul_ps v (rcp_nr1 (_mm_set1_ps one)) = v).
  { intros [a b c d]. rewrite E. change (mk4 (fmul a one) (fmul b one) (fmul c one) (fmul d one) = mk4 a b c d). rewrite !fmul_one. reflexivity. }
  repeat split.
  - intros [p]. unfold plane_div_f. cbn [plane_p0]. rewrite K. reflexivity.
  - intros [p]. unfold point_div_f. cbn [point_p3]. rewrite K. reflexivity.
  - intros [p]. unfold direction_div_f. cbn [direction_p3]. rewrite K. reflexivity.
  - intros [p]. unfold ideal_line_div_f. cbn [ideal_line_p2]. rewrite K. reflexivity.
  - intros [p]. unfold branch_div_f. cbn [branch_p1]. rewrite K. reflexivity.
  - intros [p q]. unfold line_div_f. cbn [line_p1 line_p2]. rewrite !K. reflexivity.
  - intros [p]. unfold rotor_div_f. cbn [rotor_p1]. rewrite K. reflexivity.
  - intros [p]. unfold translator_div_f. cbn [translator_p2]. rewrite K. reflexivity.
  - intros [p q]. unfold motor_div_f. cbn [motor_p1 motor_p2]. rewrite !K. reflexivity.
  - intros [[a b c d]] W. cbn in W. subst a. unfold point_normalized. cbn [point_p3].
    change (KLN_SWIZZLE (mk4 one b c d) 0 0 0 0) with (_mm_set1_ps one). rewrite K. reflexivity.
Qed.
Theorem C71_divide_by_one_only : forall (B : Build) (M : machine), let FL := Flo_f32 M in
  (forall a, plane_div_f a one = a) -> rcp_step (H := FL) one = one.
Proof.
  intros B M FL H. specialize (H (mkplane (mk4 one one one one))). apply (f_equal (fun p => l0 (plane_p0 p))) in H.
  cbn [plane_p0 l0] in H. rewrite <- H at 2. unfold plane_div_f. cbn [plane_p0].
  change (rcp_step one = fmul one (rcp_step (H := FL) one)).
  rewrite ExprSyntax.mul_comm_f32, fmul_one. reflexivity.
Qed.
Example C71_ex : rcp_step (H := Flo_f32 ideal_machine) one = one /\ rcp_step (H := Flo_f32 low_machine) one <> one.
Proof.
  split; [apply B2SF_inj; vm_compute; reflexivity|]. intro H. apply (f_equal val) in H. vm_compute in H. lra.
Qed.

Print Assumptions C71_exact_refuted.
Print Assumptions C71_point_w.
Print Assumptions C71_divide_by_one.
Print Assumptions C71_divide_by_one_only.
