(** Closed forms, in exact arithmetic with ideal hardware estimates, of the
    operations that use reciprocals, for either build.  Each premise is the
    non-vanishing of the quantity the code divides by. *)
From Coq Require Import Reals ZArith Lra.
From Verif Require Import Scalar SSE KernelGP KernelEI KernelSW KernelExpLog FloR.
From Verif Require Import ApiTypes ApiLin Api.
Local Open Scope R_scope.

Definition scale4 (k : R) (v : m128 R) : m128 R := map4 (Rmult k) v.
(** sign flips: lanes 1-3, lane 0 *)
Definition conj4 (v : m128 R) : m128 R := mk4 (l0 v) (- l1 v) (- l2 v) (- l3 v).
Definition neg0 (v : m128 R) : m128 R := mk4 (- l0 v) (l1 v) (l2 v) (l3 v).
Definition add4 (v w : m128 R) : m128 R := map4_2 Rplus v w.
Definition sub4 (v w : m128 R) : m128 R := map4_2 Rminus v w.
(** p1 . p2 with the sign that makes it the pseudoscalar of m ~m, halved *)
Definition study (p1 p2 : m128 R) : R := dot4 (neg0 p1) p2.

Lemma m128_ext {F} (v w : m128 F) :
  l0 v = l0 w -> l1 v = l1 w -> l2 v = l2 w -> l3 v = l3 w -> v = w.
Proof. destruct v, w; cbn; intros; subst; reflexivity. Qed.

Ltac lanes := apply m128_ext; cbn [l0 l1 l2 l3 map4 map4_2 scale4 conj4 neg0 add4 sub4].
Ltac rcbv := cbv -[Rplus Rmult Ropp Rminus Rdiv Rinv IZR sqrt nr_rcp nr_rsqrt dot3 dot4 sin cos acos asin atan PI].

Section Closed.
Context (rcp rsqrt : R -> R) (sz : bool) (Hrcp : exact_rcp rcp) (Hrsq : exact_rsqrt rsqrt).
Context (B : Build).
Local Instance FLc : Flo R := Flo_R rcp rsqrt sz.

Lemma nr_rcp_x x : x <> 0 -> nr_rcp rcp x = / x.
Proof. intro. apply nr_rcp_exact; assumption. Qed.
Lemma nr_rsqrt_x x : 0 < x -> nr_rsqrt rsqrt x = / sqrt x.
Proof. intro. apply nr_rsqrt_exact; assumption. Qed.
Lemma rsqrt2 x : 0 < x -> / sqrt x * / sqrt x = / x.
Proof.
  intro H. assert (S := sqrt_lt_R0 x H). rewrite <- Rinv_mult.
  rewrite sqrt_sqrt by lra. reflexivity.
Qed.
Lemma sqrt_nz x : 0 < x -> sqrt x <> 0.
Proof. intro H. assert (S := sqrt_lt_R0 x H). lra. Qed.

Ltac nrw := unfold FLc in *; rewrite ?rcp_nr1_R, ?rsqrt_nr1_R, ?sqrt_nr1_R, ?hi_dp_bc_R, ?dp_bc_R.

Lemma plane_inverse_R p : 0 < dot3 (plane_p0 p) (plane_p0 p) ->
  plane_inverse p = mkplane (scale4 (/ dot3 (plane_p0 p) (plane_p0 p)) (plane_p0 p)).
Proof.
  intro H. unfold plane_inverse. nrw. f_equal. rewrite <- (rsqrt2 _ H).
  lanes; rcbv; rewrite nr_rsqrt_x by exact H; ring.
Qed.
Lemma plane_normalized_R p : 0 < dot3 (plane_p0 p) (plane_p0 p) ->
  plane_normalized p =
    let k := / sqrt (dot3 (plane_p0 p) (plane_p0 p)) in let v := plane_p0 p in
    mkplane (mk4 (if sse41 then l0 v else (k + 1) * l0 v) (k * l1 v) (k * l2 v) (k * l3 v)).
Proof.
  intro H. unfold plane_normalized. nrw. cbv zeta. f_equal.
  destruct B as [[|]]; lanes; rcbv; rewrite ?nr_rsqrt_x by exact H; ring.
Qed.
Lemma point_normalized_R p : point_w p <> 0 ->
  point_normalized p = mkpoint (scale4 (/ point_w p) (point_p3 p)).
Proof.
  intro H. unfold point_normalized. nrw. f_equal.
  lanes; rcbv; unfold point_w in H; rewrite nr_rcp_x by exact H; ring.
Qed.
Lemma point_inverse_R p : point_w p <> 0 ->
  point_inverse p = mkpoint (scale4 (/ point_w p * / point_w p) (point_p3 p)).
Proof.
  intro H. unfold point_inverse. nrw. f_equal.
  lanes; rcbv; unfold point_w in H; rewrite nr_rcp_x by exact H; ring.
Qed.
Lemma direction_normalized_R p : 0 < dot3 (direction_p3 p) (direction_p3 p) ->
  direction_normalized p =
    mkdirection (scale4 (/ sqrt (dot3 (direction_p3 p) (direction_p3 p))) (direction_p3 p)).
Proof.
  intro H. unfold direction_normalized. nrw. f_equal.
  lanes; rcbv; rewrite nr_rsqrt_x by exact H; ring.
Qed.
Lemma branch_normalized_R b : 0 < dot3 (branch_p1 b) (branch_p1 b) ->
  branch_normalized b =
    mkbranch (scale4 (/ sqrt (dot3 (branch_p1 b) (branch_p1 b))) (branch_p1 b)).
Proof.
  intro H. unfold branch_normalized. nrw. f_equal.
  lanes; rcbv; rewrite nr_rsqrt_x by exact H; ring.
Qed.
Lemma branch_inverse_R b : 0 < dot3 (branch_p1 b) (branch_p1 b) ->
  branch_inverse b =
    mkbranch (conj4 (scale4 (/ dot3 (branch_p1 b) (branch_p1 b)) (branch_p1 b))).
Proof.
  intro H. unfold branch_inverse. nrw. f_equal. rewrite <- (rsqrt2 _ H).
  lanes; rcbv; rewrite nr_rsqrt_x by exact H; ring.
Qed.
Lemma rotor_normalized_R r : 0 < dot4 (rotor_p1 r) (rotor_p1 r) ->
  rotor_normalized r =
    mkrotor (scale4 (/ sqrt (dot4 (rotor_p1 r) (rotor_p1 r))) (rotor_p1 r)).
Proof.
  intro H. unfold rotor_normalized. nrw. f_equal.
  lanes; rcbv; rewrite nr_rsqrt_x by exact H; ring.
Qed.
(** the squared norm the code divides by leaves the scalar part out *)
Lemma rotor_inverse_R r : 0 < dot3 (rotor_p1 r) (rotor_p1 r) ->
  rotor_inverse r =
    mkrotor (conj4 (scale4 (/ dot3 (rotor_p1 r) (rotor_p1 r)) (rotor_p1 r))).
Proof.
  intro H. unfold rotor_inverse. nrw. f_equal. rewrite <- (rsqrt2 _ H).
  lanes; rcbv; rewrite nr_rsqrt_x by exact H; ring.
Qed.
Lemma line_normalized_R l : 0 < dot3 (line_p1 l) (line_p1 l) ->
  line_normalized l =
    let n := dot3 (line_p1 l) (line_p1 l) in let d := dot3 (line_p1 l) (line_p2 l) in
    mkline (scale4 (/ sqrt n) (line_p1 l))
           (scale4 (/ sqrt n) (sub4 (line_p2 l) (scale4 (d / n) (line_p1 l)))).
Proof.
  destruct l as [p1 p2]. cbn [line_p1 line_p2]. intro H. unfold line_normalized. nrw. cbn [line_p1 line_p2]. cbv zeta.
  generalize dependent (dot3 p1 p1). intros n H. generalize (dot3 p1 p2). intro d. destruct p1, p2.
  assert (S0 := sqrt_lt_R0 _ H).
  f_equal; lanes; rcbv; rewrite ?nr_rsqrt_x, ?nr_rcp_x by lra; field; repeat split; lra.
Qed.
Lemma line_inverse_R l : 0 < dot3 (line_p1 l) (line_p1 l) ->
  line_inverse l =
    let n := dot3 (line_p1 l) (line_p1 l) in let d := dot3 (line_p1 l) (line_p2 l) in
    mkline (conj4 (scale4 (/ n) (line_p1 l)))
           (conj4 (scale4 (/ n) (sub4 (line_p2 l) (scale4 (2 * d / n) (line_p1 l))))).
Proof.
  destruct l as [p1 p2]. cbn [line_p1 line_p2]. intro H. unfold line_inverse. nrw. cbn [line_p1 line_p2]. cbv zeta.
  generalize dependent (dot3 p1 p1). intros n H. generalize (dot3 p1 p2). intro d. destruct p1, p2.
  assert (S := rsqrt2 _ H).
  f_equal; lanes; rcbv; rewrite ?nr_rsqrt_x, ?nr_rcp_x by lra;
    unfold Rdiv; rewrite <- ?S; ring.
Qed.
Lemma motor_normalized_R m : 0 < dot4 (motor_p1 m) (motor_p1 m) ->
  motor_normalized m =
    let n := dot4 (motor_p1 m) (motor_p1 m) in let d := study (motor_p1 m) (motor_p2 m) in
    mkmotor (scale4 (/ sqrt n) (motor_p1 m))
            (scale4 (/ sqrt n) (sub4 (motor_p2 m) (neg0 (scale4 (d / n) (motor_p1 m))))).
Proof.
  destruct m as [p1 p2]. cbn [motor_p1 motor_p2]. intro H. unfold motor_normalized. nrw. cbn [motor_p1 motor_p2]. cbv zeta.
  generalize dependent (dot4 p1 p1). intros n H. change (dot4 (_mm_xor_ps sgn_ss p1) p2) with (study p1 p2).
  generalize (study p1 p2). intro d. destruct p1, p2.
  assert (S0 := sqrt_lt_R0 _ H).
  f_equal; lanes; rcbv; rewrite ?nr_rsqrt_x, ?nr_rcp_x by lra; field; repeat split; lra.
Qed.
Lemma motor_inverse_R m : 0 < dot4 (motor_p1 m) (motor_p1 m) ->
  motor_inverse m =
    let n := dot4 (motor_p1 m) (motor_p1 m) in let d := study (motor_p1 m) (motor_p2 m) in
    mkmotor (conj4 (scale4 (/ n) (motor_p1 m)))
            (conj4 (scale4 (/ n) (sub4 (motor_p2 m) (neg0 (scale4 (2 * d / n) (motor_p1 m)))))).
Proof.
  destruct m as [p1 p2]. cbn [motor_p1 motor_p2]. intro H. unfold motor_inverse. nrw. cbn [motor_p1 motor_p2]. cbv zeta.
  generalize dependent (dot4 p1 p1). intros n H. change (dot4 (_mm_xor_ps sgn_ss p1) p2) with (study p1 p2).
  generalize (study p1 p2). intro d. destruct p1, p2.
  assert (S := rsqrt2 _ H).
  f_equal; lanes; rcbv; rewrite ?nr_rsqrt_x, ?nr_rcp_x by lra;
    unfold Rdiv; rewrite <- ?S; ring.
Qed.
Lemma point_mul_point_R a b : point_w a <> 0 -> point_w b <> 0 ->
  point_mul_point a b =
    mktranslator (mk4 0 (point_x b / point_w b - point_x a / point_w a)
                        (point_y b / point_w b - point_y a / point_w a)
                        (point_z b / point_w b - point_z a / point_w a)).
Proof.
  intros Ha Hb. unfold point_mul_point, gp33. nrw. f_equal.
  unfold point_w in Ha, Hb.
  assert (K : l0 (point_p3 a) * l0 (point_p3 b) * -2 + l0 (point_p3 a) * l0 (point_p3 b) <> 0).
  { replace (_ + _) with (- (l0 (point_p3 a) * l0 (point_p3 b))) by ring.
    apply Ropp_neq_0_compat, Rmult_integral_contrapositive; auto. }
  destruct B as [[|]]; lanes; rcbv; try reflexivity;
    rewrite nr_rcp_x by exact K; field; auto.
Qed.
(** translator.hpp 95-105: only the offset of the plane changes *)
Lemma translator_on_plane_R t p : l0 (translator_p2 t) = 0 ->
  translator_on_plane t p =
    mkplane (mk4 (plane_d p + 2 * dot3 (plane_p0 p) (translator_p2 t))
                 (plane_x p) (plane_y p) (plane_z p)).
Proof.
  intro W. unfold translator_on_plane, sw02. nrw.
  destruct t as [[t0 t1 t2 t3]], p as [[p0 p1 p2 p3]]. cbn in W. subst t0. f_equal.
  destruct B as [[|]]; lanes; rcbv; rewrite ?nr_rcp_x by lra; unfold dot3; cbn [l0 l1 l2 l3]; field.
Qed.
End Closed.
