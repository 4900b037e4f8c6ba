(** Relative errors through multiplication, square root and reciprocal in binary32;
    what is assumed of [std::sin] and [std::cos]. *)
From Coq Require Import ZArith Reals Bool List Lia Lra Psatz.
From Flocq Require Import Core BinarySingleNaN.
From Verif Require Import AlgTac Float32 FloatFacts ExprSyntax FloatErr FloatNR FloatNorm FloatIdeal FloatAbs FloatApx.
Local Open Scope R_scope.

(** The C standard leaves the accuracy of the library functions to the
    implementation; an absolute error of one unit in the last place of 1 is assumed, for
    arguments up to 2^20. *)
Definition libm (M : machine) : Prop := forall x : f32, fin x -> Rabs (val x) <= 2 ^ 20 ->
  fin (m_sin M x) /\ Rabs (val (m_sin M x) - sin (val x)) <= 2 * / 2 ^ 24 /\
  fin (m_cos M x) /\ Rabs (val (m_cos M x) - cos (val x)) <= 2 * / 2 ^ 24.

Definition rel (k : R) (y : f32) (v : R) : Prop := fin y /\ exists e, val y = v * (1 + e) /\ Rabs e <= k * u.
Lemma rel_of_err k y v : 0 < v -> fin y -> Rabs (val y - v) <= k * u * v -> rel k y v.
Proof.
  intros V F E. split; [exact F|]. exists ((val y - v) / v). split; [field; lra|].
  unfold Rdiv. rewrite Rabs_mult, Rabs_inv, (Rabs_pos_eq v) by lra. apply Rmult_le_reg_r with v; [exact V|]. rewrite Rmult_assoc, Rinv_l by lra. lra.
Qed.
Lemma rel_sqrt k y v : rel k y v -> 0 <= k <= 20 -> bpow radix2 (-100) <= v <= bpow radix2 100 ->
  rel (k / 2 + 101 / 100) (Bsqrt mode_NE y) (sqrt v).
Proof.
  intros (F & e & V & E) K [L H]. assert (U : 0 < u < / 1000000) by (unfold u; lra).
  pose proof (bpow_gt_0 radix2 (-100)) as B0. assert (v0 : 0 < v) by lra.
  assert (Ke : k * u <= 20 * u) by (apply Rmult_le_compat_r; lra). assert (Kp : 0 <= k * u) by (apply Rmult_le_pos; lra).
  apply Rabs_le_inv in E.
  generalize (Bsqrt_correct 24 128 _ _ mode_NE y). rewrite fexp_eq. change (round_mode mode_NE) with ZnearestE. fold (val y).
  intros (R & G & _). fold (val (Bsqrt mode_NE y)) in R.
  assert (Y0 : 0 < val y) by (rewrite V; apply Rmult_lt_0_compat; lra).
  split.
  - unfold fin. rewrite G. destruct y as [s|s| |s m ex b]; try reflexivity; try discriminate F. destruct s; [|reflexivity].
    exfalso. unfold val, B2R in Y0. assert (F2R (Float radix2 (cond_Zopp true (Z.pos m)) ex) < 0) by (apply F2R_lt_0; cbn; lia). lra.
  - assert (S : sqrt (val y) = sqrt v * sqrt (1 + e)) by (rewrite V; apply sqrt_mult; lra).
    set (w := sqrt (1 + e)) in *. assert (W : w * w = 1 + e) by (apply sqrt_sqrt; lra). assert (W0 : 0 <= w) by apply sqrt_pos.
    assert (W1 : 1 - (k / 2 * u + 1 / 1000 * u) <= w <= 1 + (k / 2 * u)).
    { set (z := k * u) in *. replace (k / 2 * u) with (z / 2) by (unfold z; field). clearbody z. split.
      - destruct (Rle_or_lt (1 - (z / 2 + 1 / 1000 * u)) w) as [T|T]; [exact T|exfalso].
        assert (w * w <= (1 - (z / 2 + 1 / 1000 * u)) * (1 - (z / 2 + 1 / 1000 * u))) by (apply Rmult_le_compat; lra).
        assert (z * z <= 20 * u * (20 * u)) by (apply Rmult_le_compat; lra). assert (uu : u * u <= / 1000000 * u) by (apply Rmult_le_compat_r; lra). nra.
      - destruct (Rle_or_lt w (1 + z / 2)) as [T|T]; [exact T|exfalso].
        assert ((1 + z / 2) * (1 + z / 2) <= w * w) by (apply Rmult_le_compat; lra). nra. }
    assert (SL : bpow radix2 (-50) <= sqrt v).
    { rewrite <- (sqrt_square (bpow radix2 (-50))) by apply bpow_ge_0. apply sqrt_le_1_alt. rewrite <- bpow_plus. exact L. }
    pose proof (bpow_gt_0 radix2 (-50)) as B1.
    destruct (rnd_ex (sqrt (val y))) as (d & D & Rd).
    { rewrite Rabs_pos_eq by apply sqrt_pos. rewrite S. apply (Rle_trans _ (bpow radix2 (-50) * / 2)).
      - change (/ 2) with (bpow radix2 (-1)). rewrite <- bpow_plus. apply bpow_le. lia.
      - apply Rmult_le_compat; lra. }
    apply Rabs_le_inv in D.
    exists (w * (1 + d) - 1). split; [rewrite R, Rd, S; ring|]. apply Rabs_le.
    replace ((k / 2 + 101 / 100) * u) with (k / 2 * u + 101 / 100 * u) by ring. set (z := k / 2 * u) in *.
    assert (Z : 0 <= z <= 10 * u) by (unfold z; lra). split.
    + assert ((1 - (z + 1 / 1000 * u)) * (1 - u) <= w * (1 + d)) by (apply Rmult_le_compat; lra). nra.
    + assert (w * (1 + d) <= (1 + z) * (1 + u)) by (apply Rmult_le_compat; lra). nra.
Qed.
Lemma rel_inv k y v : rel k y v -> 0 <= k <= 20 -> bpow radix2 (-100) <= v <= bpow radix2 100 ->
  rel (k + 101 / 100) (Bdiv mode_NE one y) (/ v).
Proof.
  intros (F & e & V & E) K [L H]. assert (U : 0 < u < / 1000000) by (unfold u; lra).
  pose proof (bpow_gt_0 radix2 (-100)) as B0. assert (v0 : 0 < v) by lra.
  assert (Ke : k * u <= 20 * u) by (apply Rmult_le_compat_r; lra). assert (Kp : 0 <= k * u) by (apply Rmult_le_pos; lra).
  apply Rabs_le_inv in E. assert (Y0 : 0 < val y) by (rewrite V; apply Rmult_lt_0_compat; lra).
  destruct val_one as [F1 V1].
  assert (Q : 1 / val y = / v * (/ (1 + e))) by (rewrite V; field; lra).
  assert (I : 1 - (k * u + / 1000 * u) <= / (1 + e) <= 1 + (k * u + / 1000 * u)).
  { set (z := k * u) in *. clearbody z. assert (zz : z * z <= 20 * u * (20 * u)) by (apply Rmult_le_compat; lra).
    assert (uu : u * u <= / 1000000 * u) by (apply Rmult_le_compat_r; lra).
    split; (apply Rmult_le_reg_r with (1 + e); [lra|]); rewrite Rinv_l by lra; nra. }
  assert (IV : bpow radix2 (-100) <= / v <= bpow radix2 100).
  { change (bpow radix2 (-100)) with (/ bpow radix2 100). replace (bpow radix2 100) with (/ bpow radix2 (-100)) at 2.
    - split; apply Rinv_le_contravar; assumption.
    - rewrite <- bpow_opp. reflexivity. }
  assert (I2 : 0 < / v) by lra.
  destruct (div_ok one y F1) as [Fd Vd]; [lra| |].
  { rewrite V1, Q, Rabs_pos_eq by (apply Rmult_le_pos; lra). apply (Rle_trans _ (bpow radix2 100 * 2)); [apply Rmult_le_compat; lra|].
    change 2 with (bpow radix2 1). rewrite <- bpow_plus. apply bpow_le. lia. }
  split; [exact Fd|]. rewrite V1 in Vd.
  destruct (rnd_ex (1 / val y)) as (d & D & Rd).
  { rewrite Q, Rabs_pos_eq by (apply Rmult_le_pos; lra). apply (Rle_trans _ (bpow radix2 (-100) * / 2)).
    - change (/ 2) with (bpow radix2 (-1)). rewrite <- bpow_plus. apply bpow_le. lia.
    - apply Rmult_le_compat; lra. }
  apply Rabs_le_inv in D. exists (/ (1 + e) * (1 + d) - 1). split; [rewrite Vd, Rd, Q; ring|].
  set (i := / (1 + e)) in *. clearbody i. replace ((k + 101 / 100) * u) with (k * u + 101 / 100 * u) by ring. set (z := k * u) in *. clearbody z.
  apply Rabs_le. split.
  - assert ((1 - (z + / 1000 * u)) * (1 - u) <= i * (1 + d)) by (apply Rmult_le_compat; lra). nra.
  - assert (i * (1 + d) <= (1 + (z + / 1000 * u)) * (1 + u)) by (apply Rmult_le_compat; lra). nra.
Qed.
(** multiplication by one half is exact except for the last bit of subnormal numbers *)
Lemma mul_any x y : fin x -> fin y -> Rabs (val x * val y) <= big -> fin (fmul x y) /\ Rabs (val (fmul x y) - val x * val y) <= u * Rabs (val x * val y) + eta.
Proof. intros Fx Fy H. destruct (mul_ok x y Fx Fy H) as [F V]. split; [exact F|]. rewrite V. apply rnd_any. Qed.

(** a library meeting the assumption exists *)
Lemma grid_ok m : (Z.abs m <= 2 ^ 24)%Z -> fin (f32_of m (-24)) /\ val (f32_of m (-24)) = IZR m * / 2 ^ 24.
Proof.
  intro H. generalize (binary_normalize_correct 24 128 _ _ mode_NE m (-24) false). cbv zeta.
  rewrite fexp_eq. change (round_mode mode_NE) with ZnearestE.
  assert (L1 : Rabs (IZR m) <= bpow radix2 24) by (rewrite <- abs_IZR; change (bpow radix2 24) with (IZR (2 ^ 24)); apply IZR_le; exact H).
  assert (B : bpow radix2 (-24) = / 2 ^ 24) by (cbn; f_equal; ring).
  assert (X : F2R (Float radix2 m (-24)) = IZR m * bpow radix2 (-24)) by reflexivity.
  assert (L : Rabs (F2R (Float radix2 m (-24))) <= big).
  { rewrite X, Rabs_mult, (Rabs_pos_eq (bpow radix2 (-24))) by apply bpow_ge_0.
    apply (Rle_trans _ (bpow radix2 24 * bpow radix2 (-24))); [apply Rmult_le_compat_r; [apply bpow_ge_0|exact L1]|].
    rewrite <- bpow_plus. apply bpow_le. lia. }
  rewrite (no_overflow _ L). intros (E & K & _). split; [exact K|]. rewrite <- B, <- X. fold (f32_of m (-24)) in E. unfold val. rewrite E.
  apply round_generic; [typeclasses eauto|]. destruct (Z.eq_dec (Z.abs m) (2 ^ 24)) as [E'|N].
  - assert (D : F2R (Float radix2 m (-24)) = 1 \/ F2R (Float radix2 m (-24)) = - 1).
    { rewrite X, B. assert (m = 2 ^ 24 \/ m = - 2 ^ 24)%Z as [-> | ->] by lia; cbn -[pow]; [left|right]; lra. }
    assert (G : generic_format radix2 fexp32 (bpow radix2 0)) by (apply generic_format_bpow; unfold FLT_exp; lia).
    destruct D as [-> | ->]; [exact G|]. apply generic_format_opp. exact G.
  - apply generic_format_FLT. exists (Float radix2 m (-24)); [reflexivity| |]; cbn; lia.
Qed.
Lemma libm_exists : exists M, libm M /\ rcp_estimate M /\ rsqrt_estimate M.
Proof.
  set (g := fun x : R => f32_of (ZnearestE (x * 2 ^ 24)) (-24)).
  assert (G : forall x, -1 <= x <= 1 -> fin (g x) /\ Rabs (val (g x) - x) <= 2 * / 2 ^ 24).
  { intros x [L H]. pose proof (Znearest_half (fun n => negb (Z.even n)) (x * 2 ^ 24)) as Hf. apply Rabs_le_inv in Hf.
    assert (P24 : 2 ^ 24 = IZR (2 ^ 24)) by (rewrite pow_IZR; reflexivity).
    assert (Z : (Z.abs (ZnearestE (x * 2 ^ 24)) <= 2 ^ 24)%Z).
    { apply Z.abs_le. split.
      - rewrite <- (Zrnd_IZR ZnearestE (- 2 ^ 24)). apply Zrnd_le; [typeclasses eauto|]. rewrite opp_IZR, <- P24. lra.
      - rewrite <- (Zrnd_IZR ZnearestE (2 ^ 24)). apply Zrnd_le; [typeclasses eauto|]. rewrite <- P24. lra. }
    destruct (grid_ok _ Z) as [F V]. split; [exact F|]. unfold g. rewrite V. set (m := IZR (ZnearestE (x * 2 ^ 24))) in *.
    apply Rabs_le. lra. }
  exists (mkmachine (m_rcp ideal_machine) (m_rsqrt ideal_machine) (fun x => g (sin (val x))) (fun x => g (cos (val x))) (fun x => x) (fun x => x) (fun x _ => x)).
  split; [|split; [exact ideal_rcp|exact ideal_rsqrt]].
  intros x _ _. cbn [m_sin m_cos]. destruct (G _ (SIN_bound (val x))) as [F1 E1]. destruct (G _ (COS_bound (val x))) as [F2 E2]. tauto.
Qed.
