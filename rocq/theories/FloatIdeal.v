(** A machine that meets the hypotheses on estimates and special values: correctly
    rounded quotients and roots, subnormal sources flushed as the Intel manual has it. *)
From Coq Require Import ZArith Reals Bool List Lia Lra.
From Flocq Require Import Core BinarySingleNaN.
From Verif Require Import AlgTac Float32 FloatFacts FloatNR FloatNorm FloatDegenerate.
Local Open Scope R_scope.

Definition one : f32 := f32_of 1 0.
Definition least_normal : f32 := f32_of 1 (-126).
Definition is_small (x : f32) : bool := Bltb (Babs x) least_normal.
Definition ideal_machine : machine := mkmachine
  (fun x => if is_small x then B754_infinity (Bsign x) else Bdiv mode_NE one x)
  (fun x => if is_small x then B754_infinity (Bsign x) else Bdiv mode_NE one (Bsqrt mode_NE x))
  (fun x => if is_finite x then pzero else nan)
  (fun x => if is_finite x then one else nan)
  (fun x => nan) (fun x => if Beqb x one then pzero else nan)
  (fun x y => nan).

Lemma val_one : fin one /\ val one = 1. Proof. split; [reflexivity|]. vm_compute. lra. Qed.
Lemma least_normal_val : val least_normal = bpow radix2 (-126). Proof. vm_compute. lra. Qed.
Lemma small_spec x : fin x -> is_small x = Rlt_bool (Rabs (val x)) (bpow radix2 (-126)).
Proof.
  intro F. unfold is_small. rewrite (Bltb_correct 24 128 (Babs x) least_normal).
  - rewrite B2R_Babs. fold (val x) (val least_normal). rewrite least_normal_val. reflexivity.
  - rewrite is_finite_Babs. exact F.
  - reflexivity.
Qed.
Lemma div_ok x y : fin x -> val y <> 0 -> Rabs (val x / val y) <= big ->
  fin (Bdiv mode_NE x y) /\ val (Bdiv mode_NE x y) = rnd (val x / val y).
Proof.
  intros F N L. generalize (Bdiv_correct 24 128 _ _ mode_NE x y N). rewrite fexp_eq. change (round_mode mode_NE) with ZnearestE.
  fold (val x) (val y). rewrite no_overflow by exact L. intros (V & G & _). split; [unfold fin; rewrite G; exact F|exact V].
Qed.
Lemma inv_bounds a : bpow radix2 (-125) <= a <= bpow radix2 125 -> bpow radix2 (-125) <= / a <= bpow radix2 125.
Proof.
  intros [L U]. pose proof (bpow_gt_0 radix2 (-125)). split.
  - replace (bpow radix2 (-125)) with (/ bpow radix2 125) by (rewrite <- bpow_opp; reflexivity). apply Rinv_le_contravar; lra.
  - replace (bpow radix2 125) with (/ bpow radix2 (-125)) by (rewrite <- bpow_opp; reflexivity). apply Rinv_le_contravar; lra.
Qed.
Lemma not_small x : nr_range x -> is_small x = false.
Proof.
  intros [F [L _]]. rewrite small_spec by exact F. apply Rlt_bool_false. eapply Rle_trans; [|exact L]. apply bpow_le. lia.
Qed.
Lemma ideal_rcp : rcp_estimate ideal_machine.
Proof.
  intros x R. cbn [m_rcp ideal_machine]. rewrite (not_small x R). destruct R as [F [L U]]. destruct val_one as [F1 V1].
  assert (N : val x <> 0). { intro Z. rewrite Z, Rabs_R0 in L. pose proof (bpow_gt_0 radix2 (-125)). lra. }
  assert (Q : Rabs (1 / val x) = / Rabs (val x)) by (unfold Rdiv; rewrite Rmult_1_l; apply Rabs_inv).
  destruct (inv_bounds _ (conj L U)) as [L' U'].
  destruct (div_ok one x F1 N) as [G V]. { rewrite V1, Q. eapply Rle_trans; [exact U'|]. apply bpow_le. lia. }
  split; [exact G|]. rewrite V, V1.
  destruct (rnd_ex (1 / val x)) as (d & D & E). { rewrite Q. eapply Rle_trans; [|exact L']. apply bpow_le. lia. }
  rewrite E. replace (val x * (1 / val x * (1 + d)) - 1) with d by (field; exact N). eapply Rle_trans; [exact D|]. unfold u. lra.
Qed.
Lemma ideal_rsqrt : rsqrt_estimate ideal_machine.
Proof.
  intros x R P. cbn [m_rsqrt ideal_machine]. rewrite (not_small x R). destruct R as [F [L U]]. destruct val_one as [F1 V1].
  rewrite (Rabs_pos_eq (val x)) in L, U by lra.
  assert (S0 : 0 < sqrt (val x)) by (apply sqrt_lt_R0; exact P).
  assert (L1 : bpow radix2 (-63) <= sqrt (val x)).
  { apply Rsqr_incr_0_var; [|lra]. unfold Rsqr. rewrite sqrt_sqrt, <- bpow_plus by lra. eapply Rle_trans; [|exact L]. apply bpow_le. lia. }
  assert (U1 : sqrt (val x) <= bpow radix2 63).
  { apply Rsqr_incr_0_var; [|apply bpow_ge_0]. unfold Rsqr. rewrite sqrt_sqrt, <- bpow_plus by lra. eapply Rle_trans; [exact U|]. apply bpow_le. lia. }
  generalize (Bsqrt_correct 24 128 _ _ mode_NE x). rewrite fexp_eq. change (round_mode mode_NE) with ZnearestE. fold (val x).
  intros (V & G & _). set (s := Bsqrt mode_NE x) in *. fold (val s) in V.
  destruct (rnd_ex (sqrt (val x))) as (d & D & E). { rewrite Rabs_pos_eq by lra. eapply Rle_trans; [|exact L1]. apply bpow_le. lia. }
  rewrite E in V. assert (U0 : 0 < u < 1 / 1000000) by (unfold u; lra).
  assert (UD : - u <= d <= u) by (apply Rabs_le_inv; exact D).
  assert (P1 : 0 < val s) by (rewrite V; apply Rmult_lt_0_compat; lra).
  assert (H1 : bpow radix2 (-64) <= val s).
  { rewrite V. apply Rle_trans with (bpow radix2 (-63) * / 2); [change (/ 2) with (bpow radix2 (-1)); rewrite <- bpow_plus; apply bpow_le; lia|].
    apply Rmult_le_compat; try lra. apply bpow_ge_0. }
  assert (H2 : val s <= bpow radix2 64).
  { rewrite V. apply Rle_trans with (bpow radix2 63 * 2); [apply Rmult_le_compat; lra|].
    replace (bpow radix2 63 * 2) with (bpow radix2 63 * bpow radix2 1) by reflexivity. rewrite <- bpow_plus. apply bpow_le. lia. }
  destruct (inv_bounds (val s)) as [L' U'].
  { split; [eapply Rle_trans; [|exact H1]|eapply Rle_trans; [exact H2|]]; apply bpow_le; lia. }
  assert (Q : Rabs (1 / val s) = / val s) by (unfold Rdiv; rewrite Rmult_1_l; apply Rabs_pos_eq; left; apply Rinv_0_lt_compat; exact P1).
  destruct (div_ok one s F1) as [G' V']; [lra|rewrite V1, Q; eapply Rle_trans; [exact U'|]; apply bpow_le; lia|].
  split; [exact G'|]. rewrite V', V1.
  destruct (rnd_ex (1 / val s)) as (d' & D' & E'). { rewrite Q. eapply Rle_trans; [|exact L']. apply bpow_le. lia. }
  assert (UD' : - u <= d' <= u) by (apply Rabs_le_inv; exact D').
  rewrite E', V. replace (sqrt (val x) * (1 / (sqrt (val x) * (1 + d)) * (1 + d')) - 1) with ((d' - d) / (1 + d)) by (field; split; lra).
  apply Rabs_le. split; (apply Rmult_le_reg_r with (1 + d); [lra|]); replace ((d' - d) / (1 + d) * (1 + d)) with (d' - d) by (field; lra); unfold u in *; lra.
Qed.
Lemma ideal_specials : ieee_specials ideal_machine.
Proof.
  split; try reflexivity; try (split; reflexivity).
  intros x (F & S & L). cbn [m_rsqrt ideal_machine]. rewrite small_spec, S by exact F. rewrite Rlt_bool_true; [reflexivity|].
  assert (0 <= val x) by (destruct x as [s|s| |s m e H]; try discriminate F; cbn in S; subst s; [apply Rle_refl|apply F2R_ge_0; cbn; lia]).
  rewrite Rabs_pos_eq; assumption.
Qed.
