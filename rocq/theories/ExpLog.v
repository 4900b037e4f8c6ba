(** exp, log, screw constructor at the reals. *)
From Coq Require Import Reals ZArith Lra.
From Verif Require Import AlgTac SpecGeom FloR Closed Geom AlgNorm Motion Ctors KernelExpLog KernelGP.
Local Open Scope R_scope.

Lemma Reqb_true x y : Reqb x y = true <-> x = y.
Proof. unfold Reqb. destruct (Req_EM_T x y); split; congruence. Qed.
Lemma sq3_zero x y z : x * x + y * y + z * z = 0 -> x = 0 /\ y = 0 /\ z = 0.
Proof. intro H. repeat split; nra. Qed.
Lemma dot3_nonneg a : 0 <= dot3 a a.
Proof. unfold dot3. nra. Qed.

Section EL.
Context (rcp rsqrt : R -> R) (sz : bool) (Hrcp : exact_rcp rcp) (Hrsq : exact_rsqrt rsqrt) (B : Build).
Local Instance FLe : Flo R := Flo_R rcp rsqrt sz.
Let nr_rsqrt_x x (H : 0 < x) := nr_rsqrt_exact rsqrt x Hrsq H.
Let nr_rcp_x x (H : x <> 0) := nr_rcp_exact rcp x Hrcp H.

Lemma zero_test a : l0 a = 0 -> (all4 (_mm_cmpeq_ps a (@_mm_setzero_ps R (@flo_arith R FLe))) = true <-> dot3 a a = 0).
Proof.
  destruct a as [a0 a1 a2 a3]. cbn [l0]. intros ->. unfold all4, _mm_cmpeq_ps, dot3. cbn.
  rewrite !Bool.andb_true_iff, !Reqb_true. split; [intros [[[_ ->] ->] ->]; ring|].
  intro H. destruct (sq3_zero _ _ _ H) as (-> & -> & ->). repeat split; reflexivity.
Qed.
Lemma exp_kernel_zero a b : l0 a = 0 -> dot3 a a = 0 -> exp_kernel a b = (mk4 1 0 0 0, b).
Proof. intros H K. unfold exp_kernel. rewrite (proj2 (zero_test a H) K). reflexivity. Qed.
(** s = |a|, g = a.b *)
Lemma exp_kernel_R a b : l0 a = 0 -> l0 b = 0 -> 0 < dot3 a a ->
  let n := dot3 a a in let s := sqrt n in let g := dot3 a b in
  exp_kernel a b =
   (mk4 (cos s) (sin s / s * l1 a) (sin s / s * l2 a) (sin s / s * l3 a),
    let k := sin s / s in let h := g / n * (cos s - k) in
    mk4 (k * g) (k * l1 b + h * l1 a) (k * l2 b + h * l2 a) (k * l3 b + h * l3 a)).
Proof.
  intros Ha Hb Hn n s g. unfold exp_kernel.
  destruct (all4 _) eqn:Z; [apply zero_test in Z; [lra|assumption]|clear Z].
  unfold FLe. rewrite !hi_dp_bc_R, !rsqrt_nr1_R, !rcp_nr1_R. fold n. fold g.
  assert (S := sqrt_lt_R0 _ Hn). fold n in S. fold s in S.
  assert (Q := sqrt_sqrt _ (Rlt_le _ _ Hn)). fold n in Q. fold s in Q.
  assert (E : nr_rsqrt rsqrt n = / s) by (apply nr_rsqrt_x; exact Hn).
  assert (E' : nr_rcp rcp n = / n) by (apply nr_rcp_x; unfold n; lra).
  assert (Hn' : 0 < n) by exact Hn.
  destruct a as [a0 a1 a2 a3], b as [b0 b1 b2 b3]. cbn [l0] in Ha, Hb. subst a0 b0.
  clearbody n g s.
  cbv -[Rplus Rmult Rminus Ropp Rdiv Rinv IZR sin cos nr_rsqrt nr_rcp]. rewrite E, E'.
  replace (n * / s) with s by (rewrite <- Q; field; lra).
  clear - Q S. subst n.
  apply (f_equal2 pair); apply m128_ext; cbn [l0 l1 l2 l3]; field; lra.
Qed.
Lemma sinc_even t u : sin (sqrt (t * t)) / sqrt (t * t) * u = sin t / t * u.
Proof.
  rewrite sqrt_Rsqr_abs || (change (t * t) with (Rsqr t); rewrite sqrt_Rsqr_abs).
  unfold Rabs. destruct (Rcase_abs t); [|reflexivity]. rewrite sin_neg. field. lra.
Qed.
Lemma cos_even t : cos (sqrt (t * t)) = cos t.
Proof.
  change (t * t) with (Rsqr t). rewrite sqrt_Rsqr_abs.
  unfold Rabs. destruct (Rcase_abs t); [apply cos_neg|reflexivity].
Qed.

(** ** motor(ang, d, line), motor.hpp 98-104 *)
Lemma motor_screw_R t d l : wf_line l -> unit (mv_line l) ->
  motor_screw t d l =
  mkmotor (mk4 (cos (t / 2)) (- sin (t / 2) * line_e23 l) (- sin (t / 2) * line_e31 l) (- sin (t / 2) * line_e12 l))
   (mk4 (d / 2 * sin (t / 2))
     (- sin (t / 2) * line_e01 l - d / 2 * cos (t / 2) * line_e23 l)
     (- sin (t / 2) * line_e02 l - d / 2 * cos (t / 2) * line_e31 l)
     (- sin (t / 2) * line_e03 l - d / 2 * cos (t / 2) * line_e12 l)).
Proof.
  intros W U. apply unit_line_geo in U; [|assumption].
  destruct l as [[a0 a1 a2 a3] [b0 b1 b2 b3]]. destruct W as [W1 W2]. cbn in W1, W2. subst a0 b0.
  revert U. unfold vdot, line_u, line_m, line_e23, line_e31, line_e12, line_e01, line_e02, line_e03.
  cbn [line_p1 line_p2 vx vy vz l1 l2 l3]. intros [U1 U2].
  unfold motor_screw. cbn [line_p1 line_p2].
  set (h := t / 2).
  match goal with |- context [gpDL ?u ?v ?x ?y] => replace (gpDL u v x y) with
    (mk4 0 (- h * a1) (- h * a2) (- h * a3),
     mk4 0 (- h * b1 - d / 2 * a1) (- h * b2 - d / 2 * a2) (- h * b3 - d / 2 * a3))
    by (unfold h; apply (f_equal2 pair); apply m128_ext; cbn; field) end.
  assert (N : dot3 (mk4 0 (- h * a1) (- h * a2) (- h * a3)) (mk4 0 (- h * a1) (- h * a2) (- h * a3)) = h * h).
  { unfold dot3. cbn. transitivity (h * h * (a1 * a1 + a2 * a2 + a3 * a3)); [ring|rewrite U1; ring]. }
  assert (G : dot3 (mk4 0 (- h * a1) (- h * a2) (- h * a3))
     (mk4 0 (- h * b1 - d / 2 * a1) (- h * b2 - d / 2 * a2) (- h * b3 - d / 2 * a3)) = d / 2 * h).
  { unfold dot3. cbn. transitivity (d / 2 * h * (a1 * a1 + a2 * a2 + a3 * a3) + h * h * (a1 * b1 + a2 * b2 + a3 * b3)); [ring|rewrite U1, U2; ring]. }
  destruct (Req_dec h 0) as [Z|Z].
  - rewrite exp_kernel_zero; [|reflexivity|rewrite N, Z; ring].
    apply (f_equal2 mkmotor); apply m128_ext; cbn [l0 l1 l2 l3]; rewrite Z, ?cos_0, ?sin_0; field.
  - rewrite exp_kernel_R; [|reflexivity|reflexivity|rewrite N; nra].
    rewrite N, G. cbv zeta. cbn [l0 l1 l2 l3].
    assert (K : forall u, sin (sqrt (h * h)) / sqrt (h * h) * u = sin h / h * u) by (intro; apply sinc_even).
    apply (f_equal2 mkmotor); apply m128_ext; cbn [l0 l1 l2 l3]; rewrite ?K, ?cos_even.
    all: try (replace (sin (sqrt (h * h)) / sqrt (h * h)) with (sin h / h) by (rewrite <- (Rmult_1_r (sin (sqrt _) / _)), K; ring)).
    all: field; assumption.
Qed.
Lemma motor_screw_unit t d l : wf_line l -> unit (mv_line l) -> unit (mv_motor (motor_screw t d l)).
Proof.
  intros W U. rewrite motor_screw_R by assumption. apply unit_motor_geo. apply unit_line_geo in U; [|assumption].
  assert (C := sincos2 (t / 2)). generalize dependent (sin (t / 2)). generalize dependent (cos (t / 2)). intros K S C.
  clear W. destruct l as [[a0 a1 a2 a3] [b0 b1 b2 b3]]. revert U. gcbv. intros [U1 U2].
  assert (E1 : a3 * a3 = 1 - a1 * a1 - a2 * a2) by lra.
  assert (E2 : a3 * b3 = - a1 * b1 - a2 * b2) by lra.
  split; [ring [C E1]|].
  transitivity (- S * S * (a1 * b1 + a2 * b2 + a3 * b3) + (d / 2) * K * S * (1 - (a1 * a1 + a2 * a2 + a3 * a3))).
  - field.
  - rewrite U1, U2. ring.
Qed.
(** the screw motion about the line: rotation by the angle about any point of
    the line, then translation by d along it *)
Lemma motor_screw_motion t d l p x : wf_line l -> unit (mv_line l) -> line_has l p ->
  motion (motor_screw t d l) x
  = vadd (vadd p (rodrigues (line_u l) t (vsub x p))) (vscale d (line_u l)).
Proof.
  intros W U L. rewrite motor_screw_R by assumption. apply unit_line_geo in U; [|assumption].
  unfold rodrigues. rewrite (half_cos t), (half_sin t).
  assert (C := sincos2 (t / 2)). generalize dependent (sin (t / 2)). generalize dependent (cos (t / 2)). intros K S C.
  clear W. destruct l as [[a0 a1 a2 a3] [b0 b1 b2 b3]], x as [x1 x2 x3], p as [p1 p2 p3]. revert U L. unfold line_has, on_line.
  gcbv. intros [U1 U2] E. injection E as E1 E2 E3. clear U2. subst b1 b2 b3.
  assert (A : a3 * a3 = 1 - a1 * a1 - a2 * a2) by lra.
  apply vec_eq; gcbv; field_simplify; ring [C A].
Qed.
End EL.
