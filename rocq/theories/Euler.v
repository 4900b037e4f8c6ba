(** C12: Euler angles of a rotor. *)
From Coq Require Import Reals ZArith Lra Lia.
From Verif Require Import AlgTac SpecGeom FloR Closed Geom AlgNorm Motion Ctors.
Local Open Scope R_scope.

(** ** atan2 *)
Lemma sqrt_ratio x y : x <> 0 -> sqrt (1 + Rsqr (y / x)) = sqrt (x * x + y * y) / Rabs x.
Proof.
  intro H. replace (1 + Rsqr (y / x)) with ((x * x + y * y) / Rsqr x) by (unfold Rsqr; field; assumption).
  assert (0 < Rsqr x) by (apply Rlt_0_sqr; assumption).
  rewrite sqrt_div_alt by assumption. rewrite sqrt_Rsqr_abs. reflexivity.
Qed.
Lemma atan2_polar y x : 0 < x * x + y * y ->
  sqrt (x * x + y * y) * cos (Ratan2 y x) = x /\ sqrt (x * x + y * y) * sin (Ratan2 y x) = y.
Proof.
  intro H. assert (S := sqrt_lt_R0 _ H). unfold Ratan2.
  destruct (Rlt_dec 0 x) as [P|P]; [|destruct (Rlt_dec x 0) as [Q|Q]].
  - rewrite cos_atan, sin_atan, sqrt_ratio by lra. rewrite (Rabs_right x) by lra.
    split; field; lra.
  - assert (E : sqrt (x * x + y * y) * cos (atan (y / x)) = - x /\ sqrt (x * x + y * y) * sin (atan (y / x)) = - y).
    { rewrite cos_atan, sin_atan, sqrt_ratio by lra. rewrite (Rabs_left x) by lra. split; field; lra. }
    destruct E as [E1 E2]. destruct (Rle_dec 0 y).
    + rewrite neg_cos, neg_sin. split; lra.
    + replace (atan (y / x) - PI) with (- (PI - atan (y / x))) by ring.
      rewrite cos_neg, sin_neg. rewrite Rtrigo_facts.cos_pi_minus, Rtrigo_facts.sin_pi_minus. split; lra.
  - assert (x = 0) by lra. subst x. destruct (Rlt_dec 0 y); [|destruct (Rlt_dec y 0)].
    + rewrite cos_PI2, sin_PI2. replace (0 * 0 + y * y) with (Rsqr y) by (unfold Rsqr; ring).
      rewrite sqrt_Rsqr by lra. lra.
    + rewrite cos_neg, sin_neg, cos_PI2, sin_PI2. replace (0 * 0 + y * y) with (Rsqr (- y)) by (unfold Rsqr; ring).
      rewrite sqrt_Rsqr by lra. lra.
    + assert (y = 0) by lra. subst y. lra.
Qed.

(** ** a unit quadruple is determined up to sign by the five expressions that
    as_euler_angles reads *)
Record q4 := Q4 { q0 : R; q1 : R; q2 : R; q3 : R }.
Definition nrm x := q0 x * q0 x + q1 x * q1 x + q2 x * q2 x + q3 x * q3 x.
Definition i31 x := 2 * (q0 x * q2 x - q1 x * q3 x).
Definition i32 x := 2 * (q0 x * q1 x + q2 x * q3 x).
Definition i33 x := 1 - 2 * (q1 x * q1 x + q2 x * q2 x).
Definition i21 x := 2 * (q0 x * q3 x + q1 x * q2 x).
Definition i11 x := 1 - 2 * (q2 x * q2 x + q3 x * q3 x).
Ltac qn H := match type of H with nrm ?x = 1 => destruct x as [a b c d]; unfold nrm in H; cbn [q0 q1 q2 q3] in H;
  let A := fresh "A" in assert (A : d * d = 1 - a * a - b * b - c * c) by lra;
  unfold i31, i32, i33, i21, i11; cbn [q0 q1 q2 q3]; ring [A] end.
Lemma row32 x : nrm x = 1 -> i32 x * i32 x + i33 x * i33 x = 1 - i31 x * i31 x.
Proof. intro H. qn H. Qed.
Lemma col21 x : nrm x = 1 -> i21 x * i21 x + i11 x * i11 x = 1 - i31 x * i31 x.
Proof. intro H. qn H. Qed.
Lemma m12 x : nrm x = 1 -> (1 - i31 x * i31 x) * (2 * (q1 x * q2 x - q0 x * q3 x)) = i11 x * i31 x * i32 x - i21 x * i33 x.
Proof. intro H. qn H. Qed.
Lemma m13 x : nrm x = 1 -> (1 - i31 x * i31 x) * (2 * (q1 x * q3 x + q0 x * q2 x)) = i11 x * i31 x * i33 x + i21 x * i32 x.
Proof. intro H. qn H. Qed.
Lemma m22 x : nrm x = 1 -> (1 - i31 x * i31 x) * (1 - 2 * (q1 x * q1 x + q3 x * q3 x)) = i21 x * i31 x * i32 x + i11 x * i33 x.
Proof. intro H. qn H. Qed.
Lemma m23 x : nrm x = 1 -> (1 - i31 x * i31 x) * (2 * (q2 x * q3 x - q0 x * q1 x)) = i21 x * i31 x * i33 x - i11 x * i32 x.
Proof. intro H. qn H. Qed.
Lemma mul_cancel k x y : k <> 0 -> k * x = k * y -> x = y.
Proof. intros H E. apply (Rmult_eq_reg_l k); assumption. Qed.
Definition qopp x := Q4 (- q0 x) (- q1 x) (- q2 x) (- q3 x).
(** equal pairwise products: equal up to sign *)
Lemma products_sign e b : nrm e = 1 -> nrm b = 1 ->
  q0 e * q0 e = q0 b * q0 b -> q1 e * q1 e = q1 b * q1 b -> q2 e * q2 e = q2 b * q2 b -> q3 e * q3 e = q3 b * q3 b ->
  q0 e * q1 e = q0 b * q1 b -> q0 e * q2 e = q0 b * q2 b -> q0 e * q3 e = q0 b * q3 b ->
  q1 e * q2 e = q1 b * q2 b -> q1 e * q3 e = q1 b * q3 b -> q2 e * q3 e = q2 b * q3 b ->
  e = b \/ e = qopp b.
Proof.
  destruct e as [e0 e1 e2 e3], b as [b0 b1 b2 b3]. unfold nrm, qopp. cbn [q0 q1 q2 q3].
  intros Ne Nb H00 H11 H22 H33 H01 H02 H03 H12 H13 H23.
  assert (SQ : forall x y, x * x = y * y -> x = y \/ x = - y).
  { intros x y H. assert ((x - y) * (x + y) = 0) by lra. apply Rmult_integral in H0. destruct H0; lra. }
  assert (D : forall x y z, y <> 0 -> x * y = z * y -> x = z).
  { intros x y z H E. apply (Rmult_eq_reg_r y); assumption. }
  assert (N : forall x y, y <> 0 -> x = y \/ x = - y -> x <> 0) by (intros; lra).
  destruct (Req_dec b0 0) as [Z0|Z0].
  2:{ destruct (SQ _ _ H00) as [E|E]; subst e0; [left|right]; f_equal;
      apply (mul_cancel b0); try assumption; lra. }
  destruct (Req_dec b1 0) as [Z1|Z1].
  2:{ destruct (SQ _ _ H11) as [E|E]; subst e1; [left|right]; f_equal;
      apply (mul_cancel b1); try assumption; lra. }
  destruct (Req_dec b2 0) as [Z2|Z2].
  2:{ destruct (SQ _ _ H22) as [E|E]; subst e2; [left|right]; f_equal;
      apply (mul_cancel b2); try assumption; lra. }
  destruct (Req_dec b3 0) as [Z3|Z3].
  2:{ destruct (SQ _ _ H33) as [E|E]; subst e3; [left|right]; f_equal;
      apply (mul_cancel b3); try assumption; lra. }
  subst. lra.
Qed.
Lemma readings_sign e b : nrm e = 1 -> nrm b = 1 -> i31 b * i31 b <> 1 ->
  i31 e = i31 b -> i32 e = i32 b -> i33 e = i33 b -> i21 e = i21 b -> i11 e = i11 b ->
  e = b \/ e = qopp b.
Proof.
  intros Ne Nb C E31 E32 E33 E21 E11.
  assert (C' : 1 - i31 b * i31 b <> 0) by lra.
  assert (A12 := m12 e Ne). rewrite E31, E32, E33, E21, E11, <- (m12 b Nb) in A12. apply mul_cancel in A12; [|exact C'].
  assert (A13 := m13 e Ne). rewrite E31, E32, E33, E21, E11, <- (m13 b Nb) in A13. apply mul_cancel in A13; [|exact C'].
  assert (A22 := m22 e Ne). rewrite E31, E32, E33, E21, E11, <- (m22 b Nb) in A22. apply mul_cancel in A22; [|exact C'].
  assert (A23 := m23 e Ne). rewrite E31, E32, E33, E21, E11, <- (m23 b Nb) in A23. apply mul_cancel in A23; [|exact C'].
  unfold i31, i32, i33, i21, i11 in *. unfold nrm in *.
  apply products_sign; unfold nrm; lra.
Qed.

Definition q_of (r : rotor R) := Q4 (rotor_scalar r) (rotor_e23 r) (rotor_e31 r) (rotor_e12 r).
Lemma nrm_q_of r : nrm (q_of r) = rotor_n r.
Proof. destruct r as [[? ? ? ?]]. unfold nrm, rotor_n, qn, vdot. cbn. ring. Qed.
Lemma q_of_inj r r' : q_of r = q_of r' -> r = r'.
Proof. destruct r as [[? ? ? ?]], r' as [[? ? ? ?]]. cbv. congruence. Qed.

Section E.
Context (rcp rsqrt : R -> R) (sz : bool) (Hrsq : exact_rsqrt rsqrt) (B : Build).
Local Instance FLu : Flo R := Flo_R rcp rsqrt sz.

Lemma euler_readings r p y : let e := q_of (rotor_of_euler (mkeuler r p y)) in
  nrm e = 1 /\ i31 e = sin p /\ i32 e = cos p * sin r /\ i33 e = cos p * cos r
  /\ i21 e = cos p * sin y /\ i11 e = cos p * cos y.
Proof.
  assert (E := rotor_of_euler_product rcp rsqrt sz Hrsq B r p y). change (FLk rcp rsqrt sz) with FLu in E.
  rewrite E. clear E.
  destruct (rotor_ctor_axis rcp rsqrt sz r) as (E1 & _ & _), (rotor_ctor_axis rcp rsqrt sz p) as (_ & E2 & _), (rotor_ctor_axis rcp rsqrt sz y) as (_ & _ & E3).
  change (FLk rcp rsqrt sz) with FLu in E1, E2, E3. rewrite E1, E2, E3. clear E1 E2 E3.
  rewrite (half_sin r), (half_cos r), (half_sin p), (half_cos p), (half_sin y), (half_cos y).
  assert (Hr := sincos2 (r / 2)). assert (Hp := sincos2 (p / 2)). assert (Hy := sincos2 (y / 2)).
  generalize dependent (sin (r / 2)). generalize dependent (sin (p / 2)). generalize dependent (sin (y / 2)).
  generalize dependent (cos (r / 2)). generalize dependent (cos (p / 2)). generalize dependent (cos (y / 2)).
  intros cy cp cr sy Hy sp Hp sr Hr. unfold nrm, i31, i32, i33, i21, i11.
  destruct B as [[|]]; cbv -[Rplus Rmult Rminus Ropp IZR]; repeat split; ring [Hy Hp Hr].
Qed.

(** outside the (wrong) gimbal test, and away from the real singularity *)
Lemma euler_round_trip r : rotor_n r = 1 ->
  Rabs (rotor_e23 r * rotor_e31 r + rotor_e12 r * rotor_scalar r) <= 4999 / 10000 ->
  i31 (q_of r) * i31 (q_of r) <> 1 ->
  rotor_of_euler (rotor_as_euler_angles r) = r \/ rotor_of_euler (rotor_as_euler_angles r) = rotor_neg r.
Proof.
  intros N T C. rewrite <- nrm_q_of in N.
  set (q := q_of r) in *.
  assert (L : -1 < i31 q < 1).
  { assert (H := row32 q N). assert (0 <= 1 - i31 q * i31 q).
    { rewrite <- H. nra. } split; nra. }
  assert (E : rotor_as_euler_angles r = mkeuler (Ratan2 (i32 q) (i33 q)) (asin (i31 q)) (Ratan2 (i21 q) (i11 q))).
  { destruct r as [[a b c d]]. unfold rotor_as_euler_angles, q, q_of, i31, i32, i33, i21, i11 in *.
    cbv [rotor_p1 rotor_scalar rotor_e23 rotor_e31 rotor_e12 l0 l1 l2 l3 q0 q1 q2 q3] in *.
    cbn [fadd fmul fsub fz fltb f04999 fopp fatan2 fasin fabs fsign fpi_2 FLu Flo_R flo_arith Arith_R].
    unfold Rltb.
    assert (T1 : - (4999 / 10000) <= b * c + d * a <= 4999 / 10000)
      by (revert T; unfold Rabs; destruct (Rcase_abs _); lra).
    destruct (Rlt_dec _ (b * c + d * a)); [exfalso; lra|].
    destruct (Rlt_dec (b * c + d * a) _); [exfalso; lra|].
    destruct (Rlt_dec 1 _) as [X|_]; [exfalso; revert X; unfold Rabs; destruct (Rcase_abs _); lra|].
    reflexivity. }
  rewrite E. destruct (euler_readings (Ratan2 (i32 q) (i33 q)) (asin (i31 q)) (Ratan2 (i21 q) (i11 q))) as (Ne & R31 & R32 & R33 & R21 & R11).
  rewrite sin_asin in R31 by lra.
  assert (P : cos (asin (i31 q)) = sqrt (1 - i31 q * i31 q)).
  { rewrite cos_asin by lra. reflexivity. }
  assert (P32 : sqrt (i33 q * i33 q + i32 q * i32 q) = sqrt (1 - i31 q * i31 q)).
  { f_equal. rewrite <- (row32 q N). ring. }
  assert (P21 : sqrt (i11 q * i11 q + i21 q * i21 q) = sqrt (1 - i31 q * i31 q)).
  { f_equal. rewrite <- (col21 q N). ring. }
  assert (K : 0 < 1 - i31 q * i31 q) by nra.
  destruct (atan2_polar (i32 q) (i33 q)) as [X1 X2]; [rewrite Rplus_comm, (row32 q N); exact K|].
  destruct (atan2_polar (i21 q) (i11 q)) as [Y1 Y2]; [rewrite Rplus_comm, (col21 q N); exact K|].
  rewrite P32 in X1, X2. rewrite P21 in Y1, Y2. rewrite P in R32, R33, R21, R11.
  rewrite X1 in R33. rewrite X2 in R32. rewrite Y1 in R11. rewrite Y2 in R21.
  destruct (readings_sign _ q Ne N C R31 R32 R33 R21 R11) as [H|H]; [left|right]; apply q_of_inj; rewrite H.
  - reflexivity.
  - unfold q. destruct r as [[? ? ? ?]]. reflexivity.
Qed.
End E.
