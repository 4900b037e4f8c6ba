(** One Newton step in binary32: the error of [rcp_nr1] and [rsqrt_nr1] for any
    hardware estimate within the documented bound. *)
From Coq Require Import ZArith Reals Bool Lia Lra Psatz.
From Flocq Require Import Core BinarySingleNaN Relative.
From Verif Require Import Scalar SSE Float32 FloatFacts.
Local Open Scope R_scope.

#[local] Instance valid32' : Valid_exp fexp32. Proof. apply FLT_exp_valid. reflexivity. Qed.
(** Intel SDM, RCPPS and RSQRTPS: relative error at most 1.5 * 2^-12, for arguments
    whose result is in the normal range *)
Definition nr_range (x : f32) : Prop := fin x /\ bpow radix2 (-125) <= Rabs (val x) <= bpow radix2 125.
Definition rcp_estimate (M : machine) : Prop := forall x, nr_range x ->
  fin (m_rcp M x) /\ Rabs (val x * val (m_rcp M x) - 1) <= 15 / 10 / 4096.
Definition rsqrt_estimate (M : machine) : Prop := forall x, nr_range x -> 0 < val x ->
  fin (m_rsqrt M x) /\ Rabs (sqrt (val x) * val (m_rsqrt M x) - 1) <= 15 / 10 / 4096.

Lemma rnd_ex x : bpow radix2 (-126) <= Rabs x -> exists d, Rabs d <= u /\ rnd x = x * (1 + d).
Proof.
  intro H. destruct (relative_error_N_FLT_ex radix2 (-149) 24 eq_refl (fun n => negb (Z.even n)) x) as (d & D & E); [exact H|].
  exists d. split; [|exact E]. eapply Rle_trans; [exact D|]. unfold u. cbn. lra.
Qed.
Lemma shift_format x e : generic_format radix2 fexp32 x -> x <> 0 ->
  (-125 <= mag radix2 x)%Z -> (-125 <= mag radix2 x + e)%Z -> generic_format radix2 fexp32 (x * bpow radix2 e).
Proof.
  intros G N L1 L2. apply (onto_format (cexp radix2 fexp32 x + e)).
  - rewrite G at 2. unfold F2R. cbn [Fnum Fexp]. rewrite Rmult_assoc, <- bpow_plus. eexists. reflexivity.
  - unfold cexp. rewrite mag_mult_bpow by exact N. unfold FLT_exp. lia.
Qed.
Lemma val_two : fin (fz 2 : f32) /\ val (fz 2 : f32) = 2. Proof. apply (fz_ok 2). lia. Qed.
Lemma val_three : fin (fz 3 : f32) /\ val (fz 3 : f32) = 3. Proof. apply (fz_ok 3). lia. Qed.
Lemma val_half : fin (f32_of 1 (-1)) /\ val (f32_of 1 (-1)) = / 2. Proof. split; [reflexivity|]. vm_compute. lra. Qed.

Lemma bpow_big_ge x : Rabs x <= 4 -> Rabs x <= big.
Proof. intro H. eapply Rle_trans; [exact H|]. change 4 with (bpow radix2 2). apply bpow_le. lia. Qed.
Lemma normal_ge x : / 4 <= Rabs x -> bpow radix2 (-126) <= Rabs x.
Proof. intro H. eapply Rle_trans; [|exact H]. change (/ 4) with (bpow radix2 (-2)). apply bpow_le. lia. Qed.

Definition rcp_step {F} `{Flo F} (a : F) : F := let xn := frcp a in fmul xn (fsub (fz 2) (fmul a xn)).
Definition rsqrt_step {F} `{Flo F} (a : F) : F :=
  let xn := frsqrt a in fmul (fmul fhalf xn) (fsub (fz 3) (fmul a (fmul xn xn))).

Lemma prod_range a b l1 h1 l2 h2 : 0 <= l1 -> 0 <= l2 -> l1 <= a <= h1 -> l2 <= b <= h2 -> l1 * l2 <= a * b <= h1 * h2.
Proof. intros P Q A B. split; apply Rmult_le_compat; lra. Qed.
Lemma grow x d l h : l <= x <= h -> - u <= d <= u -> 0 <= l -> l * (1 - u) <= x * (1 + d) <= h * (1 + u).
Proof. intros X D L. apply prod_range; try lra. unfold u in *. lra. Qed.
Lemma prod_small d g : Rabs d <= u -> 0 <= g <= 1001/1000 -> - (1001/1000 * u) <= d * g <= 1001/1000 * u.
Proof.
  intros D G. apply Rabs_le_inv. rewrite Rabs_mult, (Rabs_pos_eq g) by lra. rewrite Rmult_comm. apply Rmult_le_compat; try lra. apply Rabs_pos.
Qed.

Lemma rcp_step_error M a : rcp_estimate M -> nr_range a ->
  fin (rcp_step (H := Flo_f32 M) a) /\ Rabs (val a * val (rcp_step (H := Flo_f32 M) a) - 1) <= 11 / 2 * u.
Proof.
  intros HM HR. destruct (HM a HR) as [Fx Ex]. destruct HR as [Fa [La Ua]]. unfold rcp_step.
  change (frcp a) with (m_rcp M a). set (xn := m_rcp M a) in *.
  set (e := val a * val xn - 1) in *.
  assert (A0 : val a <> 0). { intro Z. rewrite Z, Rabs_R0 in La. pose proof (bpow_gt_0 radix2 (-125)). lra. }
  assert (A1 : 0 < Rabs (val a)) by (apply Rabs_pos_lt; exact A0).
  assert (AX : val a * val xn = 1 + e) by (unfold e; ring).
  assert (E1 : -15/40960 <= e <= 15/40960) by (apply Rabs_le_inv in Ex; lra).
  assert (AX' : Rabs (val a * val xn) = 1 + e) by (rewrite AX; apply Rabs_pos_eq; lra).
  destruct (mul_ok a xn Fa Fx) as [F1 V1]. { apply bpow_big_ge. rewrite AX'. lra. }
  destruct (rnd_ex (val a * val xn)) as (d1 & D1 & R1). { apply normal_ge. rewrite AX'. lra. }
  rewrite R1, AX in V1. assert (U1 : - u <= d1 <= u) by (apply Rabs_le_inv; exact D1).
  assert (S1 : 9/10 <= 2 - (1 + e) * (1 + d1) <= 11/10). { unfold u in U1. nra. }
  destruct val_two as [F2 V2].
  destruct (sub_ok (fz 2) (fmul a xn) F2 F1) as [F3 V3]. { rewrite V1, V2. apply bpow_big_ge. rewrite Rabs_pos_eq; lra. }
  rewrite V1, V2 in V3.
  destruct (rnd_ex (2 - (1 + e) * (1 + d1))) as (d2 & D2 & R2). { apply normal_ge. rewrite Rabs_pos_eq; lra. }
  rewrite R2 in V3. assert (U2 : - u <= d2 <= u) by (apply Rabs_le_inv; exact D2).
  set (t := (2 - (1 + e) * (1 + d1)) * (1 + d2)) in *.
  assert (T : 8/10 <= t <= 12/10). { unfold t. unfold u in *. nra. }
  (* the estimate itself *)
  assert (XN : Rabs (val xn) = (1 + e) / Rabs (val a)). { rewrite <- AX', Rabs_mult. field. lra. }
  assert (X1 : bpow radix2 (-126) * 2 * (1 + e) <= Rabs (val xn)).
  { rewrite XN. change (bpow radix2 (-126) * 2) with (bpow radix2 (-126) * bpow radix2 1). rewrite <- bpow_plus.
    apply Rmult_le_reg_r with (Rabs (val a)); [exact A1|].
    replace ((1 + e) / Rabs (val a) * Rabs (val a)) with (1 + e) by (field; lra).
    assert (bpow radix2 (-126 + 1) * Rabs (val a) <= 1).
    { replace 1 with (bpow radix2 (-126 + 1) * bpow radix2 125) by (rewrite <- bpow_plus; reflexivity).
      apply Rmult_le_compat_l; [apply bpow_ge_0|exact Ua]. }
    assert (0 < bpow radix2 (-126 + 1)) by apply bpow_gt_0. nra. }
  assert (X2 : Rabs (val xn) <= bpow radix2 125 * (1 + e)).
  { rewrite XN. apply Rmult_le_reg_r with (Rabs (val a)); [exact A1|].
    replace ((1 + e) / Rabs (val a) * Rabs (val a)) with (1 + e) by (field; lra).
    assert (1 <= bpow radix2 125 * Rabs (val a)).
    { replace 1 with (bpow radix2 125 * bpow radix2 (-125)) by (rewrite <- bpow_plus; reflexivity).
      apply Rmult_le_compat_l; [apply bpow_ge_0|exact La]. }
    nra. }
  destruct (mul_ok xn (fsub (fz 2) (fmul a xn)) Fx F3) as [F4 V4].
  { rewrite V3, Rabs_mult, (Rabs_pos_eq t) by lra. unfold big. replace 127%Z with (125 + 2)%Z by reflexivity. rewrite bpow_plus.
    change (bpow radix2 2) with 4. pose proof (bpow_gt_0 radix2 125). pose proof (Rabs_pos (val xn)). nra. }
  split; [exact F4|]. rewrite V3 in V4.
  destruct (rnd_ex (val xn * t)) as (d3 & D3 & R3).
  { rewrite Rabs_mult, (Rabs_pos_eq t) by lra. pose proof (bpow_gt_0 radix2 (-126)) as B0. set (b := bpow radix2 (-126)) in *.
    apply Rle_trans with (Rabs (val xn) * (8/10)); [|apply Rmult_le_compat_l; [apply Rabs_pos|lra]].
    assert (0 <= b * (e + 15/40960)) by (apply Rmult_le_pos; lra). lra. }
  assert (U3 : - u <= d3 <= u) by (apply Rabs_le_inv; exact D3).
  change (Rabs (val a * val (fmul xn (fsub (fz 2) (fmul a xn))) - 1) <= 11 / 2 * u).
  rewrite V4, R3. unfold t.
  replace (val a * (val xn * ((2 - (1 + e) * (1 + d1)) * (1 + d2)) * (1 + d3)) - 1)
    with ((val a * val xn) * (2 - (1 + e) * (1 + d1)) * (1 + d2) * (1 + d3) - 1) by ring.
  rewrite AX.
  replace ((1 + e) * (2 - (1 + e) * (1 + d1)) * (1 + d2) * (1 + d3) - 1)
    with ((1 - e * e - d1 * ((1 + e) * (1 + e))) * (1 + d2) * (1 + d3) - 1) by ring.
  clear - E1 U1 U2 U3 D1.
  assert (0 <= e * e <= 225/1677721600) by nra. set (q := e * e) in *.
  assert (G : 0 <= (1 + e) * (1 + e) <= 1001/1000) by nra.
  pose proof (prod_small d1 _ D1 G) as D. set (g := (1 + e) * (1 + e)) in *. unfold u in *.
  assert (P0 : 1 - 225/1677721600 - 1001/1000 * / 16777216 <= 1 - q - d1 * g <= 1 + 1001/1000 * / 16777216) by lra.
  pose proof (grow _ d2 _ _ P0 U2 ltac:(lra)) as P1. unfold u in P1. pose proof (grow _ d3 _ _ P1 U3 ltac:(lra)) as P2. unfold u in P2.
  apply Rabs_le. lra.
Qed.

Lemma rsqrt_step_error M a : rsqrt_estimate M -> nr_range a -> 0 < val a ->
  fin (rsqrt_step (H := Flo_f32 M) a) /\ 0 < val (rsqrt_step (H := Flo_f32 M) a) /\
  Rabs (sqrt (val a) * val (rsqrt_step (H := Flo_f32 M) a) - 1) <= 13 / 2 * u.
Proof.
  intros HM HR Pa. destruct (HM a HR Pa) as [Fx Ex]. destruct HR as [Fa [La Ua]]. unfold rsqrt_step.
  change (frsqrt a) with (m_rsqrt M a). set (xn := m_rsqrt M a) in *.
  rewrite (Rabs_pos_eq (val a)) in La, Ua by lra.
  set (s := sqrt (val a)) in *. assert (S0 : 0 < s) by (apply sqrt_lt_R0; exact Pa).
  assert (SS : s * s = val a) by (apply sqrt_sqrt; lra).
  set (e := s * val xn - 1) in *.
  assert (SX : s * val xn = 1 + e) by (unfold e; ring).
  assert (E1 : -15/40960 <= e <= 15/40960) by (apply Rabs_le_inv in Ex; lra).
  assert (XN : val xn = (1 + e) / s) by (rewrite <- SX; field; lra).
  assert (X0 : 0 < val xn) by (rewrite XN; apply Rdiv_lt_0_compat; lra).
  assert (AX : val a * (val xn * val xn) = (1 + e) * (1 + e)) by (rewrite <- SS, <- SX; ring).
  (* bounds of the square of the estimate *)
  assert (Q1 : val xn * val xn = (1 + e) * (1 + e) / val a) by (rewrite <- AX; field; lra).
  assert (G1 : 999/1000 <= (1 + e) * (1 + e) <= 1001/1000) by nra.
  assert (I1 : bpow radix2 (-125) <= / val a).
  { replace (bpow radix2 (-125)) with (/ bpow radix2 125) by (rewrite <- bpow_opp; reflexivity). apply Rinv_le_contravar; assumption. }
  assert (I2 : / val a <= bpow radix2 125).
  { replace (bpow radix2 125) with (/ bpow radix2 (-125)) by (rewrite <- bpow_opp; reflexivity).
    apply Rinv_le_contravar; [apply bpow_gt_0|assumption]. }
  assert (J1 : bpow radix2 (-126) <= val xn * val xn).
  { rewrite Q1. unfold Rdiv. replace (bpow radix2 (-126)) with (/ 2 * bpow radix2 (-125))
      by (change (/ 2) with (bpow radix2 (-1)); rewrite <- bpow_plus; reflexivity).
    apply Rmult_le_compat; [lra|apply bpow_ge_0|lra|exact I1]. }
  assert (J2 : val xn * val xn <= big).
  { rewrite Q1. unfold Rdiv, big. replace (bpow radix2 127) with (4 * bpow radix2 125)
      by (change 4 with (bpow radix2 2); rewrite <- bpow_plus; reflexivity).
    apply Rmult_le_compat; [lra|left; apply Rinv_0_lt_compat; exact Pa|lra|exact I2]. }
  assert (P2 : 0 <= val xn * val xn) by nra.
  destruct (mul_ok xn xn Fx Fx) as [F1 V1]; [rewrite Rabs_pos_eq; assumption|].
  destruct (rnd_ex (val xn * val xn)) as (d1 & D1 & R1); [rewrite Rabs_pos_eq; assumption|].
  rewrite R1 in V1. assert (U1 : - u <= d1 <= u) by (apply Rabs_le_inv; exact D1).
  assert (W : val a * (val xn * val xn * (1 + d1)) = (1 + e) * (1 + e) * (1 + d1)) by (rewrite <- AX; ring).
  assert (W1 : 99/100 <= (1 + e) * (1 + e) * (1 + d1) <= 101/100) by (unfold u in U1; nra).
  destruct (mul_ok a (fmul xn xn) Fa F1) as [F2 V2]. { rewrite V1, W. apply bpow_big_ge. rewrite Rabs_pos_eq; lra. }
  rewrite V1, W in V2.
  destruct (rnd_ex ((1 + e) * (1 + e) * (1 + d1))) as (d2 & D2 & R2). { apply normal_ge. rewrite Rabs_pos_eq; lra. }
  rewrite R2 in V2. assert (U2 : - u <= d2 <= u) by (apply Rabs_le_inv; exact D2).
  set (g := (1 + e) * (1 + e)) in *.
  assert (W2 : 98/100 <= g * (1 + d1) * (1 + d2) <= 102/100) by (unfold u in U2; nra).
  destruct val_three as [Ft Vt].
  destruct (sub_ok (fz 3) (fmul a (fmul xn xn)) Ft F2) as [F3 V3]. { rewrite V2, Vt. apply bpow_big_ge. rewrite Rabs_pos_eq; lra. }
  rewrite V2, Vt in V3.
  destruct (rnd_ex (3 - g * (1 + d1) * (1 + d2))) as (d3 & D3 & R3). { apply normal_ge. rewrite Rabs_pos_eq; lra. }
  rewrite R3 in V3. assert (U3 : - u <= d3 <= u) by (apply Rabs_le_inv; exact D3).
  set (t := (3 - g * (1 + d1) * (1 + d2)) * (1 + d3)) in *.
  assert (T : 19/10 <= t <= 21/10) by (unfold t; unfold u in *; nra).
  (* half the estimate is exact: the estimate is between 2^-64 and 2^64 *)
  assert (Y1 : bpow radix2 (-64) <= val xn).
  { apply Rnot_lt_le. intro L. assert (val xn * val xn <= bpow radix2 (-64) * bpow radix2 (-64)) by (apply Rmult_le_compat; lra).
    rewrite <- bpow_plus in H. assert (bpow radix2 (-64 + -64) < bpow radix2 (-126)) by (apply bpow_lt; lia). lra. }
  assert (Y2 : val xn <= bpow radix2 64).
  { apply Rnot_lt_le. intro L. pose proof (bpow_gt_0 radix2 64).
    assert (bpow radix2 64 * bpow radix2 64 <= val xn * val xn) by (apply Rmult_le_compat; lra).
    rewrite <- bpow_plus in H0. assert (big < bpow radix2 (64 + 64)) by (apply bpow_lt; lia). lra. }
  destruct val_half as [Fh Vh].
  destruct (mul_ok (f32_of 1 (-1)) xn Fh Fx) as [F4 V4].
  { rewrite Vh, Rabs_pos_eq by lra. eapply Rle_trans with (bpow radix2 64); [lra|]. apply bpow_le. lia. }
  assert (H4 : rnd (/ 2 * val xn) = / 2 * val xn).
  { apply round_generic; [typeclasses eauto|]. change (/ 2) with (bpow radix2 (-1)). rewrite Rmult_comm.
    assert (K : (-63 <= mag radix2 (val xn))%Z) by (apply mag_ge_bpow; rewrite Rabs_pos_eq by lra; exact Y1).
    apply shift_format; [exact (val_format xn)|lra|lia|lia]. }
  rewrite Vh, H4 in V4.
  destruct (mul_ok (fmul (f32_of 1 (-1)) xn) (fsub (fz 3) (fmul a (fmul xn xn))) F4 F3) as [F5 V5].
  { rewrite V4, V3, Rabs_pos_eq by (apply Rmult_le_pos; lra).
    apply Rle_trans with (bpow radix2 64 * 4); [apply Rmult_le_compat; lra|]. change 4 with (bpow radix2 2). rewrite <- bpow_plus. apply bpow_le. lia. }
  rewrite V4, V3 in V5.
  destruct (rnd_ex (/ 2 * val xn * t)) as (d4 & D4 & R4).
  { rewrite Rabs_pos_eq by (apply Rmult_le_pos; lra). apply Rle_trans with (/ 2 * bpow radix2 (-64) * 1).
    - rewrite Rmult_1_r. change (/ 2) with (bpow radix2 (-1)). rewrite <- bpow_plus. apply bpow_le. lia.
    - apply Rmult_le_compat; try lra. pose proof (bpow_gt_0 radix2 (-64)). lra. }
  assert (U4 : - u <= d4 <= u) by (apply Rabs_le_inv; exact D4).
  rewrite R4 in V5.
  split; [exact F5|]. change (fhalf (Flo := Flo_f32 M)) with (f32_of 1 (-1)). split.
  { change (0 < val (fmul (fmul (f32_of 1 (-1)) xn) (fsub (fz 3) (fmul a (fmul xn xn))))). rewrite V5.
    apply Rmult_lt_0_compat; [|unfold u in U4; lra]. apply Rmult_lt_0_compat; lra. }
  change (Rabs (s * val (fmul (fmul (f32_of 1 (-1)) xn) (fsub (fz 3) (fmul a (fmul xn xn)))) - 1) <= 13 / 2 * u).
  rewrite V5. unfold t.
  replace (s * (/ 2 * val xn * ((3 - g * (1 + d1) * (1 + d2)) * (1 + d3)) * (1 + d4)) - 1)
    with ((s * val xn) * / 2 * (3 - g * (1 + d1) * (1 + d2)) * (1 + d3) * (1 + d4) - 1) by ring.
  rewrite SX. unfold g.
  replace ((1 + e) * / 2 * (3 - (1 + e) * (1 + e) * (1 + d1) * (1 + d2)) * (1 + d3) * (1 + d4) - 1)
    with ((1 - e * e * (3 / 2 + e / 2) - / 2 * ((1 + e) * ((1 + e) * (1 + e))) * (d1 + d2 + d1 * d2)) * (1 + d3) * (1 + d4) - 1) by field.
  clear - E1 U1 U2 U3 U4 D1 D2.
  assert (0 <= e * e <= 225/1677721600) by nra. set (q := e * e) in *.
  assert (G : 0 <= (1 + e) * ((1 + e) * (1 + e)) <= 1002/1000) by nra. set (g := (1 + e) * ((1 + e) * (1 + e))) in *.
  assert (K : - (2001/1000 * u) <= d1 + d2 + d1 * d2 <= 2001/1000 * u).
  { assert (- (u * / 1000) <= d1 * d2 <= u * / 1000); [|lra]. apply Rabs_le_inv. rewrite Rabs_mult.
    apply Rmult_le_compat; try apply Rabs_pos; [exact D1|]. eapply Rle_trans; [exact D2|]. unfold u. lra. }
  set (k := d1 + d2 + d1 * d2) in *.
  assert (GK : - (1003/1000 * u) <= / 2 * g * k <= 1003/1000 * u).
  { apply Rabs_le_inv. apply Rabs_le in K. rewrite Rabs_mult, (Rabs_pos_eq (/ 2 * g)) by lra.
    apply Rle_trans with (501/1000 * (2001/1000 * u)); [apply Rmult_le_compat; try lra; apply Rabs_pos|unfold u; lra]. }
  assert (Q : 0 <= q * (3 / 2 + e / 2) <= 225/1677721600 * (1501/1000)) by (split; [apply Rmult_le_pos|apply Rmult_le_compat]; lra).
  set (h := / 2 * g * k) in *. set (r := q * (3 / 2 + e / 2)) in *. unfold u in *.
  assert (P0 : 1 - 225/1677721600 * (1501/1000) - 1003/1000 * / 16777216 <= 1 - r - h <= 1 + 1003/1000 * / 16777216) by lra.
  pose proof (grow _ d3 _ _ P0 U3 ltac:(lra)) as P1. unfold u in P1. pose proof (grow _ d4 _ _ P1 U4 ltac:(lra)) as P2. unfold u in P2.
  apply Rabs_le. lra.
Qed.
