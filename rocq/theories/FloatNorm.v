(** Normalization in binary32, for any conforming hardware estimate. *)
From Coq Require Import ZArith Reals Bool List Lia Lra Psatz.
From Flocq Require Import Core BinarySingleNaN Relative.
From Verif Require Import AlgTac Float32 FloatFacts ExprSyntax FloatErr FloatNR.
Import ListNotations.
Local Open Scope R_scope.

(** a sum of squares: no cancellation *)
Definition lanes4 (v : m128 f32) (n : nat) : f32 := nth n [l0 v; l1 v; l2 v; l3 v] (B754_zero false).
Definition sq3 (v : m128 f32) : R := val (l1 v) * val (l1 v) + val (l2 v) * val (l2 v) + val (l3 v) * val (l3 v).
Definition sq4 (v : m128 f32) : R := val (l0 v) * val (l0 v) + sq3 v.
Definition safe4 (v : m128 f32) : Prop := Forall (safe (-51) 60) (reg_list v).

Lemma lanes4_safe v n : safe4 v -> safe (-51) 60 (lanes4 v n).
Proof.
  intro H. unfold lanes4. destruct (nth_in_or_default n [l0 v; l1 v; l2 v; l3 v] (B754_zero false)) as [I|E].
  - unfold safe4, reg_list in H. rewrite Forall_forall in H. apply H. exact I.
  - rewrite E. apply safe_zero.
Qed.
Lemma sum_error (v : m128 f32) (e : expr) (N : R) : safe4 v ->
  forallb (fits (-51) 60) [e] = true -> (dep e <= 4)%nat ->
  eval (A := Arith_R) (fun n => val (lanes4 v n)) e = N -> absv (fun n => val (lanes4 v n)) e = N ->
  fin (eval (lanes4 v) e) /\ Rabs (val (eval (lanes4 v) e) - N) <= 41 / 10 * u * N.
Proof.
  intros S C D E A. cbn [forallb] in C. rewrite andb_true_r in C. unfold fits in C.
  apply andb_prop in C. destruct C as [C C3]. apply andb_prop in C. destruct C as [C1 C2].
  apply Z.leb_le in C1. apply Nat.leb_le in C3.
  destruct (rounding_error (lanes4 v) (23 - -51) (2 ^ 60) e ltac:(lia) ltac:(lia)) as (F & _ & K); try assumption.
  { intro n. pose proof (lanes4_safe v n S) as T. split; [apply T|]. split.
    - rewrite (IZR_Zpower radix2) by lia. destruct T as [_ [-> | [_ T]]]; [rewrite Rabs_R0; apply bpow_ge_0|exact T].
    - apply (safe_onto (-51) 60); [lia|exact T]. }
  split; [exact F|]. rewrite E, A in K. eapply Rle_trans; [exact K|].
  apply Rmult_le_compat_r; [rewrite <- A; apply absv_nonneg|].
  eapply Rle_trans; [apply P_lin; exact C3|].
  assert (INR (dep e) <= 4) by (replace 4 with (INR 4) by (cbn; lra); apply le_INR; exact D).
  pose proof (pos_INR (dep e)). unfold u. lra.
Qed.
Lemma hi_dp_bc_error (B : Build) v : safe4 v -> exists n,
  hi_dp_bc v v = mk4 n n n n /\ fin n /\ Rabs (val n - sq3 v) <= 41 / 10 * u * sq3 v.
Proof.
  intro S. exists (eval (lanes4 v) (l0 (hi_dp_bc (vreg 0) (vreg 0)))). split; [destruct B as [[|]]; reflexivity|].
  assert (A : forall x : R, Rabs x * Rabs x = x * x) by (intro x; rewrite <- Rabs_mult; apply Rabs_pos_eq; nra).
  apply sum_error; [exact S|destruct B as [[|]]; vm_compute; reflexivity|destruct B as [[|]]; vm_compute; lia| |];
    destruct B as [[|]]; cbn; rewrite ?A; unfold sq3; ring.
Qed.
Lemma dp_bc_error (B : Build) v : safe4 v -> exists n,
  dp_bc v v = mk4 n n n n /\ fin n /\ Rabs (val n - sq4 v) <= 41 / 10 * u * sq4 v.
Proof.
  intro S. exists (eval (lanes4 v) (l0 (dp_bc (vreg 0) (vreg 0)))). split; [destruct B as [[|]]; reflexivity|].
  assert (A : forall x : R, Rabs x * Rabs x = x * x) by (intro x; rewrite <- Rabs_mult; apply Rabs_pos_eq; nra).
  apply sum_error; [exact S|destruct B as [[|]]; vm_compute; reflexivity|destruct B as [[|]]; vm_compute; lia| |];
    destruct B as [[|]]; cbn; rewrite ?A; unfold sq4, sq3; ring.
Qed.
(** size of a sum of squares of safe values *)
Lemma sq_safe x : safe (-51) 60 x -> val x * val x = 0 \/ bpow radix2 (-102) <= val x * val x.
Proof.
  intros [_ [-> | [L _]]]; [left; ring|right]. replace (-102)%Z with (-51 + -51)%Z by reflexivity. rewrite bpow_plus.
  replace (val x * val x) with (Rabs (val x) * Rabs (val x)) by (rewrite <- Rabs_mult; apply Rabs_pos_eq; nra).
  apply Rmult_le_compat; try apply bpow_ge_0; exact L.
Qed.
Lemma sq_safe_le x : safe (-51) 60 x -> 0 <= val x * val x <= bpow radix2 120.
Proof.
  intros [_ [-> | [_ U]]]; [pose proof (bpow_ge_0 radix2 120); lra|]. split; [nra|].
  replace 120%Z with (60 + 60)%Z by reflexivity. rewrite bpow_plus.
  replace (val x * val x) with (Rabs (val x) * Rabs (val x)) by (rewrite <- Rabs_mult; apply Rabs_pos_eq; nra).
  apply Rmult_le_compat; try apply Rabs_pos; exact U.
Qed.
Lemma sq_range v : safe4 v -> (0 < sq3 v -> bpow radix2 (-102) <= sq3 v) /\ (0 < sq4 v -> bpow radix2 (-102) <= sq4 v) /\
  0 <= sq3 v <= 4 * bpow radix2 120 /\ 0 <= sq4 v <= 4 * bpow radix2 120.
Proof.
  intro S. unfold safe4, reg_list in S.
  assert (S0 : safe (-51) 60 (l0 v)) by (rewrite Forall_forall in S; apply S; cbn; tauto).
  assert (S1 : safe (-51) 60 (l1 v)) by (rewrite Forall_forall in S; apply S; cbn; tauto).
  assert (S2 : safe (-51) 60 (l2 v)) by (rewrite Forall_forall in S; apply S; cbn; tauto).
  assert (S3 : safe (-51) 60 (l3 v)) by (rewrite Forall_forall in S; apply S; cbn; tauto).
  pose proof (sq_safe _ S0). pose proof (sq_safe _ S1). pose proof (sq_safe _ S2). pose proof (sq_safe _ S3).
  pose proof (sq_safe_le _ S0). pose proof (sq_safe_le _ S1). pose proof (sq_safe_le _ S2). pose proof (sq_safe_le _ S3).
  unfold sq4, sq3. repeat split; try lra; intros; lra.
Qed.

(** one coefficient divided by the norm *)
Definition scaled (c : R) (y x : f32) (norm : R) : Prop :=
  fin y /\ Rabs (val y - val x / norm) <= c * u * Rabs (val x / norm).
Lemma scale_lane M n N x y : rsqrt_estimate M -> fin n -> Rabs (val n - N) <= 41 / 10 * u * N ->
  bpow radix2 (-102) <= N <= 4 * bpow radix2 120 -> safe (-51) 60 x ->
  y = fmul x (rsqrt_step (H := Flo_f32 M) n) -> scaled 10 y x (sqrt N).
Proof.
  intros HM Fn En [LN UN] Sx ->.
  assert (PN : 0 < N) by (pose proof (bpow_gt_0 radix2 (-102)); lra).
  set (en := (val n - N) / N). assert (Vn : val n = N * (1 + en)) by (unfold en; field; lra).
  assert (Ue : -(41/10 * u) <= en <= 41/10 * u).
  { apply Rabs_le_inv. unfold en, Rdiv. rewrite Rabs_mult, Rabs_inv, (Rabs_pos_eq N) by lra.
    apply Rmult_le_reg_r with N; [exact PN|]. rewrite Rmult_assoc, Rinv_l by lra. lra. }
  assert (U0 : 0 < u < 1 / 1000000) by (unfold u; lra).
  assert (Pn : 0 < val n) by (rewrite Vn; apply Rmult_lt_0_compat; [exact PN|lra]).
  assert (Rn : nr_range n).
  { split; [exact Fn|]. rewrite Rabs_pos_eq by lra. rewrite Vn. split.
    - apply Rle_trans with (bpow radix2 (-102) * / 2).
      + change (/ 2) with (bpow radix2 (-1)). rewrite <- bpow_plus. apply bpow_le. lia.
      + apply Rmult_le_compat; try lra. apply bpow_ge_0.
    - apply Rle_trans with (4 * bpow radix2 120 * 2); [apply Rmult_le_compat; lra|].
      replace (4 * bpow radix2 120 * 2) with (bpow radix2 3 * bpow radix2 120) by (change (bpow radix2 3) with 8; ring).
      rewrite <- bpow_plus. apply bpow_le. lia. }
  destruct (rsqrt_step_error M n HM Rn Pn) as (Fr & Pr & Er). set (r := rsqrt_step n) in *.
  set (s := sqrt N). assert (S0 : 0 < s) by (apply sqrt_lt_R0; exact PN).
  assert (Sn : sqrt (val n) = s * sqrt (1 + en)) by (rewrite Vn; apply sqrt_mult; lra).
  set (w := sqrt (1 + en)) in *. assert (W0 : 999/1000 <= w <= 1001/1000).
  { split; [apply Rsqr_incr_0_var; [|apply sqrt_pos]|apply Rsqr_incr_0_var; [|lra]]; unfold Rsqr, w; rewrite sqrt_sqrt by lra; lra. }
  rewrite Sn in Er. set (er := s * w * val r - 1) in *.
  assert (Uer : -(13/2 * u) <= er <= 13/2 * u) by (apply Rabs_le_inv; exact Er).
  assert (Vr : val r = (1 + er) / (s * w)) by (unfold er; field; split; lra).
  (* s is between 2^-51 and 2^61 *)
  assert (L1 : bpow radix2 (-51) <= s).
  { apply Rsqr_incr_0_var; [|lra]. unfold Rsqr, s. rewrite sqrt_sqrt, <- bpow_plus by lra. exact LN. }
  assert (L2 : s <= bpow radix2 61).
  { apply Rsqr_incr_0_var; [|apply bpow_ge_0]. unfold Rsqr, s. rewrite sqrt_sqrt, <- bpow_plus by lra.
    replace (bpow radix2 (61 + 61)) with (4 * bpow radix2 120) by (change 4 with (bpow radix2 2); rewrite <- bpow_plus; reflexivity). exact UN. }
  assert (XR : val x * val r = val x / s * ((1 + er) / w)) by (rewrite Vr; field; split; lra).
  assert (C : 9/10 <= (1 + er) / w <= 11/10).
  { split; [apply Rmult_le_reg_r with w; [lra|]|apply Rmult_le_reg_r with w; [lra|]];
      replace ((1 + er) / w * w) with (1 + er) by (field; lra); lra. }
  destruct Sx as [Fx [Zx | [Lx Ux]]].
  - (* zero *)
    destruct (mul_ok x r Fx Fr) as [F V]. { rewrite Zx, Rmult_0_l, Rabs_R0. apply bpow_ge_0. }
    split; [exact F|]. rewrite V, Zx. unfold Rdiv. rewrite !Rmult_0_l, (rnd_Z 0) by lia. rewrite Rminus_0_r, Rabs_R0. lra.
  - assert (A1 : Rabs (val x / s) = Rabs (val x) / s) by (unfold Rdiv; rewrite Rabs_mult, Rabs_inv, (Rabs_pos_eq s) by lra; reflexivity).
    assert (A2 : bpow radix2 (-112) <= Rabs (val x / s)).
    { rewrite A1. apply Rmult_le_reg_r with s; [exact S0|]. unfold Rdiv. rewrite Rmult_assoc, Rinv_l, Rmult_1_r by lra.
      eapply Rle_trans; [|exact Lx]. replace (bpow radix2 (-51)) with (bpow radix2 (-112) * bpow radix2 61) by (rewrite <- bpow_plus; reflexivity).
      apply Rmult_le_compat_l; [apply bpow_ge_0|exact L2]. }
    assert (A3 : Rabs (val x / s) <= bpow radix2 111).
    { rewrite A1. apply Rmult_le_reg_r with s; [exact S0|]. unfold Rdiv. rewrite Rmult_assoc, Rinv_l, Rmult_1_r by lra.
      eapply Rle_trans; [exact Ux|]. replace (bpow radix2 60) with (bpow radix2 111 * bpow radix2 (-51)) by (rewrite <- bpow_plus; reflexivity).
      apply Rmult_le_compat_l; [apply bpow_ge_0|exact L1]. }
    assert (A4 : Rabs (val x * val r) = Rabs (val x / s) * ((1 + er) / w)).
    { rewrite XR, Rabs_mult. rewrite (Rabs_pos_eq ((1 + er) / w)) by lra. reflexivity. }
    pose proof (Rabs_pos (val x / s)) as A0.
    destruct (mul_ok x r Fx Fr) as [F V].
    { rewrite A4. apply Rle_trans with (bpow radix2 111 * 2); [apply Rmult_le_compat; lra|].
      change 2 with (bpow radix2 1). rewrite <- bpow_plus. apply bpow_le. lia. }
    destruct (rnd_ex (val x * val r)) as (d & D & R).
    { rewrite A4. apply Rle_trans with (bpow radix2 (-112) * / 2).
      - change (/ 2) with (bpow radix2 (-1)). rewrite <- bpow_plus. apply bpow_le. lia.
      - apply Rmult_le_compat; try lra. apply bpow_ge_0. }
    assert (Ud : - u <= d <= u) by (apply Rabs_le_inv; exact D).
    split; [exact F|]. rewrite V, R, XR.
    replace (val x / s * ((1 + er) / w) * (1 + d) - val x / s) with (val x / s * ((1 + er) / w * (1 + d) - 1)) by ring.
    rewrite Rabs_mult, Rmult_comm. apply Rmult_le_compat_r; [exact A0|].
    clear - Uer Ud Ue W0 U0 C. assert (WW : w * w = 1 + en) by (apply sqrt_sqrt; lra).
    assert (W1 : 1 - 42/20 * u <= w <= 1 + 42/20 * u).
    { assert (WD : (w - 1) * (w + 1) = en) by (replace ((w - 1) * (w + 1)) with (w * w - 1) by ring; lra).
      assert (w - 1 = en / (w + 1)) by (rewrite <- WD; field; lra).
      assert (- (42/20 * u) <= en / (w + 1) <= 42/20 * u); [|lra].
      split; apply Rmult_le_reg_r with (w + 1); try lra; replace (en / (w + 1) * (w + 1)) with en by (field; lra); nra. }
    assert (C1 : 1 - 87/10 * u <= (1 + er) / w <= 1 + 87/10 * u).
    { split; apply Rmult_le_reg_r with w; try lra; replace ((1 + er) / w * w) with (1 + er) by (field; lra); nra. }
    pose proof (grow _ d _ _ C1 Ud ltac:(lra)) as P.
    apply Rabs_le. unfold u in *. lra.
Qed.
(** scaling by a refined reciprocal *)
Lemma scale_rcp M w x y : rcp_estimate M -> safe (-51) 60 w -> val w <> 0 -> safe (-51) 60 x ->
  y = fmul x (rcp_step (H := Flo_f32 M) w) -> scaled 7 y x (val w).
Proof.
  intros HM [Fw [Zw | [Lw Uw]]] Nw [Fx Sx] ->; [contradiction|].
  assert (Rw : nr_range w).
  { split; [exact Fw|]. split; [eapply Rle_trans; [|exact Lw]|eapply Rle_trans; [exact Uw|]]; apply bpow_le; lia. }
  destruct (rcp_step_error M w HM Rw) as [Fr Er]. set (r := rcp_step w) in *. set (er := val w * val r - 1) in *.
  assert (U0 : 0 < u < 1 / 1000000) by (unfold u; lra).
  assert (Uer : -(11/2 * u) <= er <= 11/2 * u) by (apply Rabs_le_inv; exact Er).
  assert (XR : val x * val r = val x / val w * (1 + er)) by (unfold er; field; exact Nw).
  assert (W0 : 0 < Rabs (val w)) by (apply Rabs_pos_lt; exact Nw).
  assert (A1 : Rabs (val x / val w) = Rabs (val x) / Rabs (val w)) by (unfold Rdiv; rewrite Rabs_mult, Rabs_inv; reflexivity).
  destruct Sx as [Zx | [Lx Ux]].
  - destruct (mul_ok x r Fx Fr) as [F V]. { rewrite Zx, Rmult_0_l, Rabs_R0. apply bpow_ge_0. }
    split; [exact F|]. rewrite V, Zx. unfold Rdiv. rewrite !Rmult_0_l, (rnd_Z 0) by lia. rewrite Rminus_0_r, Rabs_R0. lra.
  - assert (A2 : bpow radix2 (-111) <= Rabs (val x / val w)).
    { rewrite A1. apply Rmult_le_reg_r with (Rabs (val w)); [exact W0|].
      replace (Rabs (val x) / Rabs (val w) * Rabs (val w)) with (Rabs (val x)) by (field; lra).
      eapply Rle_trans; [|exact Lx]. replace (bpow radix2 (-51)) with (bpow radix2 (-111) * bpow radix2 60) by (rewrite <- bpow_plus; reflexivity).
      apply Rmult_le_compat_l; [apply bpow_ge_0|exact Uw]. }
    assert (A3 : Rabs (val x / val w) <= bpow radix2 111).
    { rewrite A1. apply Rmult_le_reg_r with (Rabs (val w)); [exact W0|].
      replace (Rabs (val x) / Rabs (val w) * Rabs (val w)) with (Rabs (val x)) by (field; lra).
      eapply Rle_trans; [exact Ux|]. replace (bpow radix2 60) with (bpow radix2 111 * bpow radix2 (-51)) by (rewrite <- bpow_plus; reflexivity).
      apply Rmult_le_compat_l; [apply bpow_ge_0|exact Lw]. }
    pose proof (Rabs_pos (val x / val w)) as A0.
    assert (A4 : Rabs (val x * val r) = Rabs (val x / val w) * (1 + er)).
    { rewrite XR, Rabs_mult. rewrite (Rabs_pos_eq (1 + er)) by lra. reflexivity. }
    destruct (mul_ok x r Fx Fr) as [F V].
    { rewrite A4. apply Rle_trans with (bpow radix2 111 * 2); [apply Rmult_le_compat; lra|].
      change 2 with (bpow radix2 1). rewrite <- bpow_plus. apply bpow_le. lia. }
    destruct (rnd_ex (val x * val r)) as (d & D & R).
    { rewrite A4. apply Rle_trans with (bpow radix2 (-111) * / 2).
      - change (/ 2) with (bpow radix2 (-1)). rewrite <- bpow_plus. apply bpow_le. lia.
      - apply Rmult_le_compat; try lra. apply bpow_ge_0. }
    assert (Ud : - u <= d <= u) by (apply Rabs_le_inv; exact D).
    split; [exact F|]. rewrite V, R, XR.
    replace (val x / val w * (1 + er) * (1 + d) - val x / val w) with (val x / val w * ((1 + er) * (1 + d) - 1)) by ring.
    rewrite Rabs_mult, Rmult_comm. apply Rmult_le_compat_r; [exact A0|].
    assert (C1 : 1 - 11/2 * u <= 1 + er <= 1 + 11/2 * u) by lra.
    pose proof (grow _ d _ _ C1 Ud ltac:(lra)) as P. apply Rabs_le. unfold u in *. lra.
Qed.
