(** A calculus of binary32 errors that covers division and square roots: a computed
    value [y], the exact value [v] and a bound [m] on what is added up on the way. *)
From Coq Require Import ZArith Reals Bool List Lia Lra Psatz.
From Flocq Require Import Core BinarySingleNaN Relative.
From Verif Require Import AlgTac Float32 FloatFacts ExprSyntax FloatErr FloatNR.
Import ListNotations.
Local Open Scope R_scope.

Definition apx (lo hi : Z) (k : nat) (y : f32) (v m : R) : Prop :=
  fin y /\ Rabs (val y - v) <= (P k - 1) * m /\ Rabs v <= m /\ (m = 0 \/ bpow radix2 lo <= m <= bpow radix2 hi).

Lemma P_ge k : 1 + INR k * u <= P k.
Proof. apply poly. unfold u. lra. Qed.
Lemma INR_le_Z k (n : Z) : (Z.of_nat k <= n)%Z -> INR k <= IZR n.
Proof. intro H. rewrite INR_IZR_INZ. apply IZR_le. exact H. Qed.
Lemma P_64 k : (k <= 64)%nat -> 1 <= P k <= 1 + 65 * u.
Proof.
  intro H. split; [apply P_pos|]. pose proof (P_lin k H). pose proof (INR_le_Z k 64 ltac:(lia)). pose proof (pos_INR k).
  assert (INR k * (u * (1 + / 100000)) <= 64 * (u * (1 + / 100000))) by (apply Rmult_le_compat_r; [unfold u; lra|assumption]).
  unfold u in *. lra.
Qed.
Lemma rnd_err x b : bpow radix2 (-126) <= b -> Rabs x <= b -> Rabs (rnd x - x) <= u * b.
Proof.
  intros B X. destruct (Rle_lt_dec (bpow radix2 (-126)) (Rabs x)) as [L|L].
  - destruct (rnd_ex x L) as (d & D & ->). replace (x * (1 + d) - x) with (d * x) by ring. rewrite Rabs_mult.
    apply Rmult_le_compat; try apply Rabs_pos; assumption.
  - assert (E := error_le_half_ulp radix2 fexp32 (fun n => negb (Z.even n)) x).
    rewrite (ulp_FLT_small radix2 (-149) 24 x) in E by (eapply Rlt_trans; [exact L|apply bpow_lt; lia]).
    eapply Rle_trans; [exact E|]. apply Rle_trans with (u * bpow radix2 (-126)); [|apply Rmult_le_compat_l; [unfold u; lra|exact B]].
    rewrite <- bpow_m24, <- bpow_plus. change (/ 2) with (bpow radix2 (-1)). rewrite <- bpow_plus. apply bpow_le. lia.
Qed.
Lemma val_onto (x : f32) : onto (-149) (val x).
Proof.
  pose proof (val_format x) as K. unfold generic_format in K.
  apply (onto_weaken (cexp radix2 fexp32 (val x))).
  - unfold cexp, FLT_exp. lia.
  - rewrite K at 2. unfold F2R. cbn. eexists. reflexivity.
Qed.

Section Rules.
Lemma apx_m lo hi k y v m : apx lo hi k y v m -> 0 <= m.
Proof. intros (_ & _ & A & _). pose proof (Rabs_pos v). lra. Qed.
Lemma apx_abs lo hi k y v m : apx lo hi k y v m -> Rabs (val y) <= P k * m.
Proof.
  intros (_ & E & A & _). replace (val y) with ((val y - v) + v) by ring. eapply Rle_trans; [apply Rabs_triang|]. lra.
Qed.
Lemma apx_var lo hi x : safe lo hi x -> apx lo hi 0 x (val x) (Rabs (val x)).
Proof.
  intros [F S]. split; [exact F|]. rewrite Rminus_diag_eq, Rabs_R0 by reflexivity. split; [unfold P; cbn; lra|].
  split; [lra|]. destruct S as [-> |S]; [left; apply Rabs_R0|right; exact S].
Qed.
Lemma apx_int z : (Z.abs z <= 2 ^ 24)%Z -> z <> 0%Z -> apx 0 24 0 (fz z) (IZR z) (IZR (Z.abs z)).
Proof.
  intros H N. destruct (fz_ok z H) as [F V]. split; [exact F|]. rewrite V, Rminus_diag_eq, Rabs_R0 by reflexivity.
  split; [unfold P; cbn; lra|]. rewrite <- abs_IZR. split; [lra|]. right. split.
  - change (bpow radix2 0) with (IZR 1). apply IZR_le. lia.
  - change (bpow radix2 24) with (IZR (2 ^ 24)). apply IZR_le. exact H.
Qed.
Lemma apx_zero y lo hi : fin y -> val y = 0 -> apx lo hi 0 y 0 0.
Proof. intros F V. split; [exact F|]. rewrite V, Rminus_0_r, Rabs_R0. split; [lra|]. split; [lra|left; reflexivity]. Qed.
Lemma apx_weaken lo hi k y v m lo' hi' k' : apx lo hi k y v m -> (lo' <= lo)%Z -> (hi <= hi')%Z -> (k <= k')%nat -> apx lo' hi' k' y v m.
Proof.
  intros A L H K. pose proof (apx_m _ _ _ _ _ _ A) as M0. destruct A as (F & E & A & S). split; [exact F|]. split.
  - eapply Rle_trans; [exact E|]. apply Rmult_le_compat_r; [exact M0|]. pose proof (P_mono k k' K). lra.
  - split; [exact A|]. destruct S as [S|[S T]]; [left; exact S|right].
    split; [eapply Rle_trans; [|exact S]|eapply Rle_trans; [exact T|]]; apply bpow_le; assumption.
Qed.
Lemma apx_eq lo hi k y v m v' m' : apx lo hi k y v m -> v = v' -> m = m' -> apx lo hi k y v' m'.
Proof. intros A <- <-. exact A. Qed.
Lemma apx_opp lo hi k y v m : apx lo hi k y v m -> apx lo hi k (fopp y) (- v) m.
Proof.
  intros (F & E & A & S). destruct (opp_ok y F) as [F' V]. split; [exact F'|]. rewrite V.
  replace (- val y - - v) with (- (val y - v)) by ring. rewrite !Rabs_Ropp. auto.
Qed.
Lemma big_bound k m : (k <= 64)%nat -> 0 <= m -> m <= bpow radix2 126 -> P k * m <= big.
Proof.
  intros K M0 M. pose proof (P_64 k K). apply Rle_trans with (2 * bpow radix2 126).
  - apply Rmult_le_compat; try lra. unfold u in *. lra.
  - change 2 with (bpow radix2 1). unfold big. rewrite <- bpow_plus. apply bpow_le. lia.
Qed.
Lemma range_hi lo hi m h : (m = 0 \/ bpow radix2 lo <= m <= bpow radix2 hi) -> (hi <= h)%Z -> m <= bpow radix2 h.
Proof. intros [-> |[_ T]] H; [apply bpow_ge_0|]. eapply Rle_trans; [exact T|apply bpow_le; exact H]. Qed.
Lemma range_add lo1 hi1 m1 lo2 hi2 m2 : 0 <= m1 -> 0 <= m2 ->
  (m1 = 0 \/ bpow radix2 lo1 <= m1 <= bpow radix2 hi1) -> (m2 = 0 \/ bpow radix2 lo2 <= m2 <= bpow radix2 hi2) ->
  m1 + m2 = 0 \/ bpow radix2 (Z.min lo1 lo2) <= m1 + m2 <= bpow radix2 (1 + Z.max hi1 hi2).
Proof.
  intros P1 P2 H1 H2.
  assert (T : m1 <= bpow radix2 (Z.max hi1 hi2)) by (eapply range_hi; [exact H1|lia]).
  assert (T' : m2 <= bpow radix2 (Z.max hi1 hi2)) by (eapply range_hi; [exact H2|lia]).
  assert (D : bpow radix2 (1 + Z.max hi1 hi2) = 2 * bpow radix2 (Z.max hi1 hi2)) by (rewrite bpow_plus; reflexivity).
  assert (L1 : bpow radix2 (Z.min lo1 lo2) <= bpow radix2 lo1) by (apply bpow_le; lia).
  assert (L2 : bpow radix2 (Z.min lo1 lo2) <= bpow radix2 lo2) by (apply bpow_le; lia).
  destruct H1 as [Z1|[S1 _]], H2 as [Z2|[S2 _]]; try (right; rewrite D; lra). left. lra.
Qed.
Lemma apx_add lo1 hi1 k1 y1 v1 m1 lo2 hi2 k2 y2 v2 m2 :
  apx lo1 hi1 k1 y1 v1 m1 -> apx lo2 hi2 k2 y2 v2 m2 -> (Z.max hi1 hi2 <= 125)%Z -> (Nat.max k1 k2 <= 64)%nat ->
  apx (Z.min lo1 lo2) (1 + Z.max hi1 hi2) (S (Nat.max k1 k2)) (fadd y1 y2) (v1 + v2) (m1 + m2).
Proof.
  intros A1 A2 H K. pose proof (apx_m _ _ _ _ _ _ A1) as M1. pose proof (apx_m _ _ _ _ _ _ A2) as M2.
  pose proof (apx_weaken _ _ _ _ _ _ lo1 hi1 (Nat.max k1 k2) A1 ltac:(lia) ltac:(lia) ltac:(lia)) as B1.
  pose proof (apx_weaken _ _ _ _ _ _ lo2 hi2 (Nat.max k1 k2) A2 ltac:(lia) ltac:(lia) ltac:(lia)) as B2.
  pose proof (apx_abs _ _ _ _ _ _ B1) as Q1. pose proof (apx_abs _ _ _ _ _ _ B2) as Q2.
  clear A1 A2. set (k := Nat.max k1 k2) in *. destruct B1 as (F1 & E1 & G1 & S1), B2 as (F2 & E2 & G2 & S2).
  pose proof (range_add _ _ _ _ _ _ M1 M2 S1 S2) as S.
  assert (Q : Rabs (val y1 + val y2) <= P k * (m1 + m2)) by (eapply Rle_trans; [apply Rabs_triang|lra]).
  destruct (add_ok y1 y2 F1 F2) as [F V].
  { eapply Rle_trans; [exact Q|]. apply big_bound; [exact K|lra|]. apply (range_hi _ _ _ _ S). lia. }
  split; [exact F|]. split; [|split; [eapply Rle_trans; [apply Rabs_triang|lra]|exact S]].
  rewrite V. assert (E : Rabs (rnd (val y1 + val y2) - (val y1 + val y2)) <= u * Rabs (val y1 + val y2))
    by (apply rnd_rel; apply onto_add; apply val_onto).
  replace (rnd (val y1 + val y2) - (v1 + v2)) with ((rnd (val y1 + val y2) - (val y1 + val y2)) + ((val y1 - v1) + (val y2 - v2))) by ring.
  eapply Rle_trans; [apply Rabs_triang|]. pose proof (Rabs_triang (val y1 - v1) (val y2 - v2)). rewrite P_S.
  assert (u * Rabs (val y1 + val y2) <= u * (P k * (m1 + m2))) by (apply Rmult_le_compat_l; [unfold u; lra|exact Q]). lra.
Qed.
Lemma fsub_opp (x y : f32) : fin x -> fin y -> Rabs (val x - val y) <= big ->
  fin (fsub x y) /\ val (fsub x y) = val (fadd x (fopp y)).
Proof.
  intros Fx Fy L. destruct (opp_ok y Fy) as [Fo Vo]. destruct (sub_ok x y Fx Fy L) as [F V].
  destruct (add_ok x (fopp y) Fx Fo) as [_ V']. { rewrite Vo. exact L. }
  split; [exact F|]. rewrite V, V', Vo. reflexivity.
Qed.
Lemma apx_sub lo1 hi1 k1 y1 v1 m1 lo2 hi2 k2 y2 v2 m2 :
  apx lo1 hi1 k1 y1 v1 m1 -> apx lo2 hi2 k2 y2 v2 m2 -> (Z.max hi1 hi2 <= 125)%Z -> (Nat.max k1 k2 <= 64)%nat ->
  apx (Z.min lo1 lo2) (1 + Z.max hi1 hi2) (S (Nat.max k1 k2)) (fsub y1 y2) (v1 - v2) (m1 + m2).
Proof.
  intros A1 A2 H K. pose proof (apx_add _ _ _ _ _ _ _ _ _ _ _ _ A1 (apx_opp _ _ _ _ _ _ A2) H K) as (F & E & G & S).
  destruct (fsub_opp y1 y2 (proj1 A1) (proj1 A2)) as [F' V'].
  { pose proof (apx_m _ _ _ _ _ _ A1) as M1. pose proof (apx_m _ _ _ _ _ _ A2) as M2.
    pose proof (apx_abs _ _ _ _ _ _ A1) as Q1. pose proof (apx_abs _ _ _ _ _ _ A2) as Q2.
    eapply Rle_trans; [apply Rabs_triang|]. rewrite Rabs_Ropp.
    apply Rle_trans with (P (Nat.max k1 k2) * (m1 + m2)).
    - assert (P k1 * m1 <= P (Nat.max k1 k2) * m1) by (apply Rmult_le_compat_r; [exact M1|apply P_mono; lia]).
      assert (P k2 * m2 <= P (Nat.max k1 k2) * m2) by (apply Rmult_le_compat_r; [exact M2|apply P_mono; lia]). lra.
    - apply big_bound; [exact K|lra|]. apply (range_hi _ _ _ _ S). lia. }
  split; [exact F'|]. rewrite V'. split; [exact E|]. split; [exact G|exact S].
Qed.
Lemma range_mul lo1 hi1 m1 lo2 hi2 m2 : 0 <= m1 -> 0 <= m2 ->
  (m1 = 0 \/ bpow radix2 lo1 <= m1 <= bpow radix2 hi1) -> (m2 = 0 \/ bpow radix2 lo2 <= m2 <= bpow radix2 hi2) ->
  m1 * m2 = 0 \/ bpow radix2 (lo1 + lo2) <= m1 * m2 <= bpow radix2 (hi1 + hi2).
Proof.
  intros P1 P2 [-> |[S1 T1]] [-> |[S2 T2]]; try (left; ring). right. rewrite !bpow_plus.
  split; apply Rmult_le_compat; try assumption; apply bpow_ge_0.
Qed.
Lemma apx_mul lo1 hi1 k1 y1 v1 m1 lo2 hi2 k2 y2 v2 m2 :
  apx lo1 hi1 k1 y1 v1 m1 -> apx lo2 hi2 k2 y2 v2 m2 -> (-126 <= lo1 + lo2)%Z -> (hi1 + hi2 <= 126)%Z -> (k1 + k2 <= 64)%nat ->
  apx (lo1 + lo2) (hi1 + hi2) (S (k1 + k2)) (fmul y1 y2) (v1 * v2) (m1 * m2).
Proof.
  intros A1 A2 L H K. pose proof (apx_m _ _ _ _ _ _ A1) as M1. pose proof (apx_m _ _ _ _ _ _ A2) as M2.
  pose proof (apx_abs _ _ _ _ _ _ A1) as Q1. pose proof (apx_abs _ _ _ _ _ _ A2) as Q2.
  destruct A1 as (F1 & E1 & G1 & S1), A2 as (F2 & E2 & G2 & S2).
  pose proof (range_mul _ _ _ _ _ _ M1 M2 S1 S2) as S. pose proof (P_pos k1) as P1. pose proof (P_pos k2) as P2.
  assert (M : 0 <= m1 * m2) by (apply Rmult_le_pos; assumption).
  assert (Q : Rabs (val y1 * val y2) <= P (k1 + k2) * (m1 * m2)).
  { rewrite Rabs_mult, P_add. replace (P k1 * P k2 * (m1 * m2)) with ((P k1 * m1) * (P k2 * m2)) by ring.
    apply Rmult_le_compat; try apply Rabs_pos; assumption. }
  assert (D : Rabs (val y1 * val y2 - v1 * v2) <= (P (k1 + k2) - 1) * (m1 * m2)).
  { replace (val y1 * val y2 - v1 * v2) with ((val y1 - v1) * val y2 + v1 * (val y2 - v2)) by ring.
    eapply Rle_trans; [apply Rabs_triang|]. rewrite !Rabs_mult, P_add.
    assert (Rabs (val y1 - v1) * Rabs (val y2) <= ((P k1 - 1) * m1) * (P k2 * m2)) by (apply Rmult_le_compat; try assumption; apply Rabs_pos).
    assert (Rabs v1 * Rabs (val y2 - v2) <= m1 * ((P k2 - 1) * m2)) by (apply Rmult_le_compat; try assumption; apply Rabs_pos). lra. }
  destruct (mul_ok y1 y2 F1 F2) as [F V].
  { eapply Rle_trans; [exact Q|]. apply big_bound; [exact K|exact M|]. apply (range_hi _ _ _ _ S). lia. }
  split; [exact F|]. split; [|split; [rewrite Rabs_mult; apply Rmult_le_compat; try apply Rabs_pos; assumption|exact S]].
  rewrite V, P_S.
  assert (E : Rabs (rnd (val y1 * val y2) - val y1 * val y2) <= u * (P (k1 + k2) * (m1 * m2))).
  { destruct S as [Z|[Z _]].
    - rewrite Z, Rmult_0_r in Q |- *. rewrite Rmult_0_r. assert (val y1 * val y2 = 0) as ->.
      { pose proof (Rabs_pos (val y1 * val y2)). destruct (Req_dec (val y1 * val y2) 0) as [W|W]; [exact W|].
        apply Rabs_pos_lt in W. lra. }
      rewrite (rnd_Z 0) by lia. rewrite Rminus_0_r, Rabs_R0. lra.
    - apply rnd_err; [|exact Q]. pose proof (P_pos (k1 + k2)).
      apply Rle_trans with (m1 * m2); [eapply Rle_trans; [|exact Z]; apply bpow_le; exact L|].
      assert (0 <= (P (k1 + k2) - 1) * (m1 * m2)) by (apply Rmult_le_pos; lra). lra. }
  replace (rnd (val y1 * val y2) - v1 * v2) with ((rnd (val y1 * val y2) - val y1 * val y2) + (val y1 * val y2 - v1 * v2)) by ring.
  eapply Rle_trans; [apply Rabs_triang|]. lra.
Qed.
(** relative error *)
Lemma apx_rel lo hi k y v m : apx lo hi k y v m -> m = Rabs v -> v <> 0 -> exists e, val y = v * (1 + e) /\ Rabs e <= P k - 1.
Proof.
  intros (_ & E & _ & _) -> N. exists ((val y - v) / v). split; [field; exact N|].
  unfold Rdiv. rewrite Rabs_mult, Rabs_inv. assert (0 < Rabs v) by (apply Rabs_pos_lt; exact N).
  apply Rmult_le_reg_r with (Rabs v); [assumption|]. rewrite Rmult_assoc, Rinv_l by lra. lra.
Qed.
Lemma of_rel lo hi k y v : fin y -> v <> 0 -> (bpow radix2 lo <= Rabs v <= bpow radix2 hi) -> Rabs (val y / v - 1) <= P k - 1 ->
  apx lo hi k y v (Rabs v).
Proof.
  intros F N S E. split; [exact F|]. split; [|split; [lra|right; exact S]].
  replace (val y - v) with ((val y / v - 1) * v) by (field; exact N). rewrite Rabs_mult.
  apply Rmult_le_compat_r; [apply Rabs_pos|exact E].
Qed.
Lemma inv_range lo hi v : v <> 0 -> bpow radix2 lo <= Rabs v <= bpow radix2 hi -> bpow radix2 (- hi) <= Rabs (/ v) <= bpow radix2 (- lo).
Proof.
  intros N [L H]. rewrite Rabs_inv, !bpow_opp. pose proof (bpow_gt_0 radix2 lo). split; apply Rinv_le_contravar; lra.
Qed.
Lemma apx_nr_range lo hi k y v m : apx lo hi k y v m -> m = Rabs v -> v <> 0 -> (-124 <= lo)%Z -> (hi <= 124)%Z -> (k <= 64)%nat -> nr_range y.
Proof.
  intros A E N L H K. destruct (apx_rel _ _ _ _ _ _ A E N) as (e & V & B). destruct A as (F & _ & _ & S).
  split; [exact F|]. pose proof (P_64 k K) as [_ P1]. apply Rabs_le_inv in B. unfold u in P1.
  assert (N' : 0 < Rabs v) by (apply Rabs_pos_lt; exact N). rewrite E in S. destruct S as [S|[S1 S2]]; [lra|].
  rewrite V, Rabs_mult, (Rabs_pos_eq (1 + e)) by lra. split.
  - apply Rle_trans with (bpow radix2 (-124) * / 2); [change (/ 2) with (bpow radix2 (-1)); rewrite <- bpow_plus; apply bpow_le; lia|].
    apply Rmult_le_compat; try lra; try apply bpow_ge_0. eapply Rle_trans; [|exact S1]. apply bpow_le. exact L.
  - apply Rle_trans with (bpow radix2 124 * 2); [|change 2 with (bpow radix2 1); rewrite <- bpow_plus; apply bpow_le; lia].
    apply Rmult_le_compat; try lra. eapply Rle_trans; [exact S2|]. apply bpow_le. exact H.
Qed.
Lemma apx_rcp M lo hi k y v m : rcp_estimate M -> apx lo hi k y v m -> m = Rabs v -> v <> 0 ->
  (-124 <= lo)%Z -> (hi <= 124)%Z -> (k <= 58)%nat ->
  apx (- hi) (- lo) (6 + k) (rcp_step (H := Flo_f32 M) y) (/ v) (Rabs (/ v)).
Proof.
  intros HM A Em N L H K. pose proof (apx_nr_range _ _ _ _ _ _ A Em N L H ltac:(lia)) as R.
  destruct (rcp_step_error M y HM R) as [F E]. set (r := rcp_step y) in *.
  destruct (apx_rel _ _ _ _ _ _ A Em N) as (e & V & B). rewrite V in E. destruct A as (_ & _ & _ & S).
  assert (S' : bpow radix2 lo <= Rabs v <= bpow radix2 hi).
  { rewrite <- Em. destruct S as [S|S]; [|exact S]. exfalso. assert (0 < Rabs v) by (apply Rabs_pos_lt; exact N). lra. }
  apply of_rel; [exact F|apply Rinv_neq_0_compat; exact N|apply inv_range; assumption|].
  replace (val r / / v - 1) with (v * val r - 1) by (field; exact N).
  pose proof (P_lin k ltac:(lia)) as PL. pose proof (P_ge (6 + k)) as PG.
  assert (IK : INR (6 + k) = 6 + INR k) by (rewrite plus_INR; cbn; ring). rewrite IK in PG.
  pose proof (INR_le_Z k 58 ltac:(lia)) as I1. pose proof (pos_INR k) as I0.
  assert (B' : Rabs e <= INR k * u * (1 + / 100000)) by lra. clear B PL.
  set (q := v * (1 + e) * val r - 1) in *. assert (W : v * val r = (1 + q) / (1 + e)).
  { unfold q. field. apply Rabs_le_inv in B'. unfold u in B'. lra. }
  rewrite W. set (t := INR k) in *. apply Rabs_le_inv in B'. apply Rabs_le_inv in E. clearbody q t r. clear - B' E I0 I1 PG.
  apply Rle_trans with ((6 + t) * u); [|lra].
  assert (0 <= t * u <= 58 * u) by (unfold u; lra).
  replace ((1 + q) / (1 + e) - 1) with ((q - e) / (1 + e)) by (field; unfold u in *; lra).
  assert (T : 0 < 1 + e) by (unfold u in *; lra).
  apply Rabs_le. split; (apply Rmult_le_reg_r with (1 + e); [exact T|]);
  replace ((q - e) / (1 + e) * (1 + e)) with (q - e) by (field; lra); unfold u in *; nra.
Qed.
Lemma apx_rsqrt M lo hi k y v m : rsqrt_estimate M -> apx (2 * lo) (2 * hi) k y v m -> m = v -> 0 < v ->
  (-62 <= lo)%Z -> (hi <= 62)%Z -> (k <= 64)%nat ->
  apx (- hi) (- lo) (7 + Nat.div2 (S k)) (rsqrt_step (H := Flo_f32 M) y) (/ sqrt v) (/ sqrt v).
Proof.
  intros HM A Em P0 L H K.
  assert (Em' : m = Rabs v) by (rewrite Rabs_pos_eq; lra). assert (N : v <> 0) by lra.
  pose proof (apx_nr_range _ _ _ _ _ _ A Em' N ltac:(lia) ltac:(lia) ltac:(lia)) as R.
  destruct (apx_rel _ _ _ _ _ _ A Em' N) as (e & V & B). pose proof (P_lin k ltac:(lia)) as PL.
  pose proof (INR_le_Z k 64 ltac:(lia)) as I1. pose proof (pos_INR k) as I0.
  assert (B' : Rabs e <= INR k * u * (1 + / 100000)) by lra. clear B PL.
  assert (Be : - (1/100000) <= e <= 1/100000).
  { apply Rabs_le_inv. eapply Rle_trans; [exact B'|]. unfold u. lra. }
  destruct (rsqrt_step_error M y HM R ltac:(rewrite V; apply Rmult_lt_0_compat; lra)) as (F & Pr & E).
  set (r := rsqrt_step y) in *. set (s := sqrt v). assert (S0 : 0 < s) by (apply sqrt_lt_R0; exact P0).
  assert (SS : s * s = v) by (apply sqrt_sqrt; lra).
  assert (S' : bpow radix2 lo <= Rabs s <= bpow radix2 hi).
  { destruct A as (_ & _ & _ & S). destruct S as [S|[S1 S2]]; [lra|]. rewrite Rabs_pos_eq by lra. rewrite Em, <- SS in S1, S2.
    replace (2 * lo)%Z with (lo + lo)%Z in S1 by ring. replace (2 * hi)%Z with (hi + hi)%Z in S2 by ring. rewrite bpow_plus in S1, S2.
    pose proof (bpow_gt_0 radix2 lo). pose proof (bpow_gt_0 radix2 hi). split; apply Rsqr_incr_0_var; unfold Rsqr; lra. }
  rewrite <- (Rabs_pos_eq (/ s)) at 2 by (left; apply Rinv_0_lt_compat; exact S0).
  apply of_rel; [exact F|apply Rinv_neq_0_compat; lra|apply inv_range; [lra|exact S']|].
  replace (val r / / s - 1) with (s * val r - 1) by (field; lra).
  rewrite V, sqrt_mult in E by lra. fold s in E. set (w := sqrt (1 + e)) in *.
  assert (WW : w * w = 1 + e) by (apply sqrt_sqrt; lra).
  assert (W0 : 0 < w) by (apply sqrt_lt_R0; lra).
  assert (W1 : 99999/100000 <= w <= 100001/100000) by (split; apply Rsqr_incr_0_var; unfold Rsqr; nra).
  pose proof (P_ge (7 + Nat.div2 (S k))) as PG.
  assert (IK : 7 + INR k / 2 <= INR (7 + Nat.div2 (S k))).
  { rewrite plus_INR. change (INR 7) with (INR (S (S (S (S (S (S (S O)))))))). assert (INR 7 = 7) by (cbn; lra).
    assert (INR k / 2 <= INR (Nat.div2 (S k))).
    { assert (k <= 2 * Nat.div2 (S k))%nat by (pose proof (Nat.div2_odd (S k)) as D; destruct (Nat.odd (S k)); cbn in D |- *; lia).
      apply le_INR in H1. rewrite mult_INR in H1. cbn [INR] in H1. lra. }
    lra. }
  set (q := s * w * val r - 1) in *. assert (W : s * val r = (1 + q) / w) by (unfold q; field; lra).
  rewrite W. set (t := INR k) in *. apply Rabs_le_inv in B'. apply Rabs_le_inv in E.
  assert (PG' : (7 + t / 2) * u <= P (7 + Nat.div2 (S k)) - 1).
  { assert ((7 + t / 2) * u <= INR (7 + Nat.div2 (S k)) * u) by (apply Rmult_le_compat_r; [unfold u; lra|exact IK]). lra. }
  eapply Rle_trans; [|exact PG']. clearbody q t r w. clear - B' E I0 I1 WW W1 Be.
  assert (WE : w - 1 = e / (1 + w)) by (replace e with (w * w - 1) by lra; field; lra).
  assert (T0 : 0 <= t * u) by (unfold u; lra). assert (T1 : t * u <= 64 * u) by (unfold u; lra).
  assert (We : - (t * u * (1/2 + 1/10000)) <= w - 1 <= t * u * (1/2 + 1/10000)).
  { rewrite WE. split; apply Rmult_le_reg_r with (1 + w); try lra; replace (e / (1 + w) * (1 + w)) with e by (field; lra); nra. }
  replace ((1 + q) / w - 1) with ((q - (w - 1)) / w) by (field; lra).
  set (z := w - 1) in *. assert (Wz : w = 1 + z) by (unfold z; ring).
  apply Rabs_le. split; (apply Rmult_le_reg_r with w; [lra|]);
  replace ((q - z) / w * w) with (q - z) by (field; lra); rewrite Wz; unfold u in *; nra.
Qed.
(** using a bound *)
Lemma apx_use lo hi k y v m c : apx lo hi k y v m -> (k <= 64)%nat -> INR k * (1 + / 100000) <= c ->
  fin y /\ Rabs (val y - v) <= c * u * m.
Proof.
  intros A K C. pose proof (apx_m _ _ _ _ _ _ A) as M0. destruct A as (F & E & _). split; [exact F|].
  eapply Rle_trans; [exact E|]. apply Rmult_le_compat_r; [exact M0|]. pose proof (P_lin k K).
  assert (INR k * (1 + / 100000) * u <= c * u) by (apply Rmult_le_compat_r; [unfold u; lra|exact C]). lra.
Qed.
End Rules.

(** ** Dot products of registers *)
Definition lanes8 (v w : m128 f32) (n : nat) : f32 := nth n [l0 v; l1 v; l2 v; l3 v; l0 w; l1 w; l2 w; l3 w] (B754_zero false).
Definition all_safe (lo hi : Z) (v : m128 f32) : Prop := Forall (safe lo hi) (reg_list v).
Definition d3 (v w : m128 f32) : R := val (l1 v) * val (l1 w) + val (l2 v) * val (l2 w) + val (l3 v) * val (l3 w).
Definition a3 (v w : m128 f32) : R :=
  Rabs (val (l1 v)) * Rabs (val (l1 w)) + Rabs (val (l2 v)) * Rabs (val (l2 w)) + Rabs (val (l3 v)) * Rabs (val (l3 w)).
Definition d4 (v w : m128 f32) : R := val (l0 v) * val (l0 w) + d3 v w.
Definition a4 (v w : m128 f32) : R := Rabs (val (l0 v)) * Rabs (val (l0 w)) + a3 v w.
Lemma safe_range lo hi x : safe lo hi x -> Rabs (val x) = 0 \/ bpow radix2 lo <= Rabs (val x) <= bpow radix2 hi.
Proof. intros [_ [-> |S]]; [left; apply Rabs_R0|right; exact S]. Qed.
Lemma all_safe_lanes lo hi v : all_safe lo hi v -> safe lo hi (l0 v) /\ safe lo hi (l1 v) /\ safe lo hi (l2 v) /\ safe lo hi (l3 v).
Proof. intro H. unfold all_safe, reg_list in H. repeat match goal with H : Forall _ (_ :: _) |- _ => inversion_clear H end. tauto. Qed.
Lemma sum4_range lo hi m0 m1 m2 m3 : 0 <= m0 -> 0 <= m1 -> 0 <= m2 -> 0 <= m3 ->
  (m0 = 0 \/ bpow radix2 lo <= m0 <= bpow radix2 hi) -> (m1 = 0 \/ bpow radix2 lo <= m1 <= bpow radix2 hi) ->
  (m2 = 0 \/ bpow radix2 lo <= m2 <= bpow radix2 hi) -> (m3 = 0 \/ bpow radix2 lo <= m3 <= bpow radix2 hi) ->
  m0 + (m1 + m2 + m3) = 0 \/ bpow radix2 lo <= m0 + (m1 + m2 + m3) <= bpow radix2 (2 + hi).
Proof.
  intros P0 P1 P2 P3 H0 H1 H2 H3. assert (D : bpow radix2 (2 + hi) = 4 * bpow radix2 hi) by (rewrite bpow_plus; reflexivity).
  pose proof (bpow_gt_0 radix2 hi). rewrite D.
  destruct H0 as [H0|H0], H1 as [H1|H1], H2 as [H2|H2], H3 as [H3|H3]; try (right; lra). left. lra.
Qed.
Lemma prod_safe lo hi x y : safe lo hi x -> safe lo hi y ->
  Rabs (val x) * Rabs (val y) = 0 \/ bpow radix2 (2 * lo) <= Rabs (val x) * Rabs (val y) <= bpow radix2 (2 * hi).
Proof.
  intros X Y. replace (2 * lo)%Z with (lo + lo)%Z by ring. replace (2 * hi)%Z with (hi + hi)%Z by ring.
  apply range_mul; try apply Rabs_pos; apply safe_range; assumption.
Qed.
Lemma dot_apx lo hi v w e (V M : R) : (-51 <= lo <= 0)%Z -> (0 <= hi <= 60)%Z -> all_safe lo hi v -> all_safe lo hi w ->
  forallb (fits (-51) 60) [e] = true -> (dep e <= 4)%nat ->
  eval (A := Arith_R) (fun n => val (lanes8 v w n)) e = V -> absv (fun n => val (lanes8 v w n)) e = M -> Rabs V <= M ->
  (M = 0 \/ bpow radix2 (2 * lo) <= M <= bpow radix2 (2 + 2 * hi)) ->
  apx (2 * lo) (2 + 2 * hi) 4 (eval (lanes8 v w) e) V M.
Proof.
  intros Hlo Hhi Sv Sw C D E A VM R. cbn [forallb] in C. rewrite andb_true_r in C. unfold fits in C.
  apply andb_prop in C. destruct C as [C C3]. apply andb_prop in C. destruct C as [C1 C2].
  apply Z.leb_le in C1. apply Nat.leb_le in C3.
  assert (SL : forall n, safe (-51) 60 (lanes8 v w n)).
  { intro n. assert (S : safe lo hi (lanes8 v w n)).
    { unfold lanes8. destruct (nth_in_or_default n [l0 v; l1 v; l2 v; l3 v; l0 w; l1 w; l2 w; l3 w] (B754_zero false)) as [I|I].
      - assert (FA : Forall (safe lo hi) ([l0 v; l1 v; l2 v; l3 v] ++ [l0 w; l1 w; l2 w; l3 w])) by (apply Forall_app; split; assumption).
        rewrite Forall_forall in FA. apply FA. exact I.
      - rewrite I. apply safe_zero. }
    destruct S as [F [Z|[L H]]]; (split; [exact F|]); [left; exact Z|right].
    split; [eapply Rle_trans; [|exact L]|eapply Rle_trans; [exact H|]]; apply bpow_le; lia. }
  destruct (rounding_error (lanes8 v w) (23 - -51) (2 ^ 60) e ltac:(lia) ltac:(lia)) as (F & _ & K); try assumption.
  { intro n. pose proof (SL n) as T. split; [apply T|]. split.
    - rewrite (IZR_Zpower radix2) by lia. destruct T as [_ [-> | [_ T]]]; [rewrite Rabs_R0; apply bpow_ge_0|exact T].
    - apply (safe_onto (-51) 60); [lia|exact T]. }
  split; [exact F|]. rewrite E, A in K. split; [|split; assumption].
  eapply Rle_trans; [exact K|]. apply Rmult_le_compat_r; [pose proof (Rabs_pos V); lra|]. pose proof (P_mono (dep e) 4 D). lra.
Qed.
Lemma abs_d3 v w : Rabs (d3 v w) <= a3 v w.
Proof. unfold d3, a3. do 2 (eapply Rle_trans; [apply Rabs_triang|]; apply Rplus_le_compat; [|rewrite Rabs_mult; lra]). rewrite Rabs_mult. lra. Qed.
Lemma abs_d4 v w : Rabs (d4 v w) <= a4 v w.
Proof. unfold d4, a4. eapply Rle_trans; [apply Rabs_triang|]. pose proof (abs_d3 v w). rewrite Rabs_mult. lra. Qed.
Lemma a3_range lo hi v w : all_safe lo hi v -> all_safe lo hi w ->
  a3 v w = 0 \/ bpow radix2 (2 * lo) <= a3 v w <= bpow radix2 (2 + 2 * hi).
Proof.
  intros V W. destruct (all_safe_lanes _ _ _ V) as (V0 & V1 & V2 & V3), (all_safe_lanes _ _ _ W) as (W0 & W1 & W2 & W3).
  pose proof (sum4_range (2 * lo) (2 * hi) 0 (Rabs (val (l1 v)) * Rabs (val (l1 w))) (Rabs (val (l2 v)) * Rabs (val (l2 w))) (Rabs (val (l3 v)) * Rabs (val (l3 w)))) as K.
  rewrite Rplus_0_l in K. apply K; try lra; try (left; reflexivity); try (apply Rmult_le_pos; apply Rabs_pos); apply prod_safe; assumption.
Qed.
Lemma a4_range lo hi v w : all_safe lo hi v -> all_safe lo hi w ->
  a4 v w = 0 \/ bpow radix2 (2 * lo) <= a4 v w <= bpow radix2 (2 + 2 * hi).
Proof.
  intros V W. destruct (all_safe_lanes _ _ _ V) as (V0 & V1 & V2 & V3), (all_safe_lanes _ _ _ W) as (W0 & W1 & W2 & W3).
  apply sum4_range; try lra; try (apply Rmult_le_pos; apply Rabs_pos); apply prod_safe; assumption.
Qed.
Ltac dot8 := first [exact (eq_refl) | unfold d4, a4, d3, a3; cbn; rewrite ?Rabs_R0; ring].
Lemma hi_dp_bc_apx (B : Build) lo hi v w : (-51 <= lo <= 0)%Z -> (0 <= hi <= 60)%Z -> all_safe lo hi v -> all_safe lo hi w ->
  exists n, hi_dp_bc v w = mk4 n n n n /\ apx (2 * lo) (2 + 2 * hi) 4 n (d3 v w) (a3 v w).
Proof.
  intros Hlo Hhi V W. exists (eval (lanes8 v w) (l0 (hi_dp_bc (vreg 0) (vreg 4)))). split; [destruct B as [[|]]; reflexivity|].
  apply dot_apx; try assumption; try (destruct B as [[|]]; vm_compute; (reflexivity || lia)).
  - destruct B as [[|]]; dot8.
  - destruct B as [[|]]; dot8.
  - apply abs_d3.
  - apply a3_range; assumption.
Qed.
Lemma dp_bc_apx (B : Build) lo hi v w : (-51 <= lo <= 0)%Z -> (0 <= hi <= 60)%Z -> all_safe lo hi v -> all_safe lo hi w ->
  exists n, dp_bc v w = mk4 n n n n /\ apx (2 * lo) (2 + 2 * hi) 4 n (d4 v w) (a4 v w).
Proof.
  intros Hlo Hhi V W. exists (eval (lanes8 v w) (l0 (dp_bc (vreg 0) (vreg 4)))). split; [destruct B as [[|]]; reflexivity|].
  apply dot_apx; try assumption; try (destruct B as [[|]]; vm_compute; (reflexivity || lia)).
  - destruct B as [[|]]; dot8.
  - destruct B as [[|]]; dot8.
  - apply abs_d4.
  - apply a4_range; assumption.
Qed.
Lemma hi_dp_apx (B : Build) lo hi v w : (-51 <= lo <= 0)%Z -> (0 <= hi <= 60)%Z -> all_safe lo hi v -> all_safe lo hi w ->
  apx (2 * lo) (2 + 2 * hi) 4 (l0 (hi_dp v w)) (d3 v w) (a3 v w).
Proof.
  intros Hlo Hhi V W. replace (l0 (hi_dp v w)) with (eval (lanes8 v w) (l0 (hi_dp (vreg 0) (vreg 4)))) by (destruct B as [[|]]; reflexivity).
  apply dot_apx; try assumption; try (destruct B as [[|]]; vm_compute; (reflexivity || lia)).
  - destruct B as [[|]]; dot8.
  - destruct B as [[|]]; dot8.
  - apply abs_d3.
  - apply a3_range; assumption.
Qed.
(** squares add without cancellation *)
Lemma a3_same v : a3 v v = d3 v v. Proof. unfold a3, d3. rewrite <- !Rabs_mult, !Rabs_pos_eq by apply Rle_0_sqr. reflexivity. Qed.
Lemma a4_same v : a4 v v = d4 v v. Proof. unfold a4, d4. rewrite a3_same, <- !Rabs_mult, !Rabs_pos_eq by apply Rle_0_sqr. reflexivity. Qed.

(** ** Division and square root *)
Lemma apx_div lo1 hi1 k1 y1 v1 m1 lo2 hi2 k2 y2 v2 m2 :
  apx lo1 hi1 k1 y1 v1 m1 -> apx lo2 hi2 k2 y2 v2 m2 -> m2 = Rabs v2 -> v2 <> 0 ->
  (-126 <= lo1 - hi2)%Z -> (hi1 - lo2 <= 126)%Z -> (-124 <= lo2)%Z -> (hi2 <= 124)%Z -> (S (k1 + k2) <= 64)%nat ->
  apx (lo1 - hi2) (hi1 - lo2) (2 + (k1 + k2)) (Bdiv mode_NE y1 y2) (v1 / v2) (m1 * Rabs (/ v2)).
Proof.
  intros A1 A2 Em N L H L2 H2 K. pose proof (apx_m _ _ _ _ _ _ A1) as M1.
  destruct (apx_rel _ _ _ _ _ _ A2 Em N) as (e & V2 & B2).
  assert (S2 : bpow radix2 lo2 <= Rabs v2 <= bpow radix2 hi2).
  { rewrite <- Em. destruct A2 as (_ & _ & _ & [S|S]); [|exact S]. exfalso. assert (0 < Rabs v2) by (apply Rabs_pos_lt; exact N). lra. }
  destruct A1 as (F1 & E1 & G1 & S1).
  assert (SR : m1 * Rabs (/ v2) = 0 \/ bpow radix2 (lo1 - hi2) <= m1 * Rabs (/ v2) <= bpow radix2 (hi1 - lo2)).
  { apply (range_mul lo1 hi1 m1 (- hi2) (- lo2)); [exact M1|apply Rabs_pos|exact S1|]. right. apply inv_range; assumption. }
  set (iv := Rabs (/ v2)) in *. assert (I0 : 0 < iv) by (apply Rabs_pos_lt, Rinv_neq_0_compat; exact N).
  assert (K2 : (k2 <= 63)%nat) by lia. pose proof (P_64 k2 ltac:(lia)) as [_ P2]. pose proof (P_lin k2 ltac:(lia)) as PL.
  assert (Be : - (P k2 - 1) <= e <= P k2 - 1) by (apply Rabs_le_inv; exact B2).
  assert (T : 0 < 1 + e) by (unfold u in *; lra).
  assert (PG : / (1 + e) <= P (S k2) /\ Rabs (/ (1 + e) - 1) <= P (S k2) - 1).
  { pose proof (P_ge (S k2)) as PG. rewrite S_INR in PG. pose proof (INR_le_Z k2 64 ltac:(lia)) as I1. pose proof (pos_INR k2) as I2.
    set (t := INR k2) in *. assert (X : P k2 - 1 <= t * u * (1 + / 100000)) by lra.
    assert (Y : - (t * u * (1 + / 100000)) <= e <= t * u * (1 + / 100000)) by lra.
    assert (Z : Rabs (/ (1 + e) - 1) <= (t + 1) * u).
    { replace (/ (1 + e) - 1) with (- e / (1 + e)) by (field; lra).
      assert (0 <= t * u <= 64 * u) by (unfold u; lra).
      clear - T Y I1 I2 H0. apply Rabs_le. split; (apply Rmult_le_reg_r with (1 + e); [exact T|]);
      replace (- e / (1 + e) * (1 + e)) with (- e) by (field; lra); unfold u in *; nra. }
    split; [|lra]. apply Rabs_le_inv in Z. lra. }
  destruct PG as [PG1 PG2].
  assert (VQ : val y1 / val y2 = (val y1 / v2) * / (1 + e)) by (rewrite V2; field; split; lra).
  assert (V2N : val y2 <> 0) by (rewrite V2; apply Rmult_integral_contrapositive; split; lra).
  assert (A1 : Rabs (val y1) <= P k1 * m1).
  { replace (val y1) with ((val y1 - v1) + v1) by ring. eapply Rle_trans; [apply Rabs_triang|]. lra. }
  assert (IT : 0 < / (1 + e)) by (apply Rinv_0_lt_compat; exact T).
  pose proof (P_pos k1) as P1.
  assert (Q : Rabs (val y1 / val y2) <= P (k1 + S k2) * (m1 * iv)).
  { rewrite VQ. unfold Rdiv. rewrite !Rabs_mult. fold iv. rewrite (Rabs_pos_eq (/ (1 + e))) by lra. rewrite P_add.
    replace (P k1 * P (S k2) * (m1 * iv)) with (P k1 * m1 * iv * P (S k2)) by ring.
    apply Rmult_le_compat; try lra; [apply Rmult_le_pos; [apply Rabs_pos|lra]|apply Rmult_le_compat_r; lra]. }
  assert (D : Rabs (val y1 / val y2 - v1 / v2) <= (P (k1 + S k2) - 1) * (m1 * iv)).
  { replace (val y1 / val y2 - v1 / v2) with ((val y1 - v1) * / v2 * / (1 + e) + v1 * / v2 * (/ (1 + e) - 1)) by (rewrite VQ; field; split; lra).
    eapply Rle_trans; [apply Rabs_triang|]. rewrite !Rabs_mult. fold iv. rewrite (Rabs_pos_eq (/ (1 + e))) by lra. rewrite P_add.
    assert (X1 : Rabs (val y1 - v1) * iv * / (1 + e) <= ((P k1 - 1) * m1) * iv * P (S k2)).
    { apply Rmult_le_compat; try lra; [apply Rmult_le_pos; [apply Rabs_pos|lra]|apply Rmult_le_compat_r; lra]. }
    assert (X2 : Rabs v1 * iv * Rabs (/ (1 + e) - 1) <= m1 * iv * (P (S k2) - 1)).
    { apply Rmult_le_compat; try assumption; [apply Rmult_le_pos; [apply Rabs_pos|lra]|apply Rabs_pos|apply Rmult_le_compat_r; lra]. }
    lra. }
  assert (M : 0 <= m1 * iv) by (apply Rmult_le_pos; lra).
  generalize (Bdiv_correct 24 128 _ _ mode_NE y1 y2 V2N). rewrite fexp_eq. change (round_mode mode_NE) with ZnearestE.
  fold (val y1) (val y2). rewrite no_overflow.
  2: { eapply Rle_trans; [exact Q|]. apply big_bound; [lia|exact M|]. apply (range_hi _ _ _ _ SR). lia. }
  intros (V & F & _). split; [unfold fin; rewrite F; exact F1|].
  split; [|split; [unfold Rdiv; rewrite Rabs_mult; fold iv; apply Rmult_le_compat_r; lra|exact SR]].
  replace (2 + (k1 + k2))%nat with (S (k1 + S k2)) by lia. rewrite P_S. fold (val (Bdiv mode_NE y1 y2)) in V. rewrite V.
  assert (E : Rabs (rnd (val y1 / val y2) - val y1 / val y2) <= u * (P (k1 + S k2) * (m1 * iv))).
  { destruct SR as [Z|[Z _]].
    - rewrite Z, Rmult_0_r in Q |- *. rewrite Rmult_0_r. assert (val y1 / val y2 = 0) as ->.
      { pose proof (Rabs_pos (val y1 / val y2)). destruct (Req_dec (val y1 / val y2) 0) as [W|W]; [exact W|]. apply Rabs_pos_lt in W. lra. }
      rewrite (rnd_Z 0) by lia. rewrite Rminus_0_r, Rabs_R0. lra.
    - apply rnd_err; [|exact Q]. pose proof (P_pos (k1 + S k2)).
      apply Rle_trans with (m1 * iv); [eapply Rle_trans; [|exact Z]; apply bpow_le; exact L|].
      assert (0 <= (P (k1 + S k2) - 1) * (m1 * iv)) by (apply Rmult_le_pos; lra). lra. }
  replace (rnd (val y1 / val y2) - v1 / v2) with ((rnd (val y1 / val y2) - val y1 / val y2) + (val y1 / val y2 - v1 / v2)) by ring.
  eapply Rle_trans; [apply Rabs_triang|]. lra.
Qed.
