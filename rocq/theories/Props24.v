(** Property C73: the constructors of rotors and translators in binary32. *)
From Coq Require Import ZArith Reals List Bool Lra Lia Psatz.
From Flocq Require Import Core BinarySingleNaN.
From Verif Require Import AlgTac SpecMass SpecGeom Float32 FloatFacts ExprSyntax FloatErr FloatMass FloatAbs FloatApx FloatNR FloatNorm FloatIdeal FloatLibm Props21 Props22 Props23.
Import ListNotations.
Local Open Scope R_scope.

Lemma u_pow : / 2 ^ 24 = u. Proof. unfold u. f_equal. ring. Qed.
Lemma u_small : 0 < u < / 1000000. Proof. unfold u. lra. Qed.
Lemma eta_small : 0 < eta <= / 2 ^ 60 * u.
Proof.
  split; [apply eta_pos|]. unfold eta. apply (Rle_trans _ (bpow radix2 (-60) * bpow radix2 (-24))); [rewrite <- bpow_plus; apply bpow_le; lia|].
  apply Req_le. unfold u. cbn -[IZR]. f_equal; cbn; lra.
Qed.
(** the sum of the squares of three coordinates *)
Definition axis (x y z : f32) : m128 R := mk4 0 (val x) (val y) (val z).
Definition sumsq : expr := EAdd (EAdd (EMul (EVar 1) (EVar 1)) (EMul (EVar 2) (EVar 2))) (EMul (EVar 3) (EVar 3)).
Lemma sumsq_rel x y z : fin x -> fin y -> fin z -> / 2 ^ 20 <= n4 (axis x y z) <= 2 ^ 20 ->
  rel (31 / 10) (fadd (fadd (fmul x x) (fmul y y)) (fmul z z)) (q4 (axis x y z) (axis x y z)).
Proof.
  intros Fx Fy Fz [L H].
  assert (P1 : bpow radix2 (-20) = / 2 ^ 20) by (cbn; f_equal; ring). assert (P2 : bpow radix2 20 = 2 ^ 20) by (cbn; ring).
  rewrite <- P1 in L. rewrite <- P2 in H.
  destruct (n4_lane (axis x y z)) as (_ & N1 & N2 & N3). cbn [axis l1 l2 l3] in N1, N2, N3.
  set (v := mk4 (f32_of 0 0) x y z). set (q := q4 (axis x y z) (axis x y z)).
  assert (Q : bpow radix2 (-40) <= q).
  { unfold q. rewrite <- n4_sq. change (-40)%Z with (-20 + -20)%Z. rewrite bpow_plus. apply Rmult_le_compat; try exact L; apply bpow_ge_0. }
  assert (Q0 : 0 < q) by (pose proof (bpow_gt_0 radix2 (-40)); lra).
  destruct (rounding_any (lanes4 v) (2 ^ 20) sumsq) as [Fe Ee].
  - lia.
  - rewrite (IZR_Zpower radix2) by lia. assert (Z0 : bounded 20 (f32_of 0 0)) by apply (bounded_zero 20). assert (Z : bounded 20 (B754_zero false)) by apply bounded_zero.
    intro n. unfold lanes4, v. cbn [l0 l1 l2 l3]. destruct n as [|[|[|[|[|n]]]]]; cbn [nth]; try exact Z; try exact Z0; (split; [assumption|]); eapply Rle_trans; eassumption.
  - vm_compute. reflexivity.
  - vm_compute. lia.
  - change (eval (lanes4 v) sumsq) with (fadd (fadd (fmul x x) (fmul y y)) (fmul z z)) in Fe, Ee.
    apply rel_of_err; [exact Q0|exact Fe|].
    assert (A : forall t : R, Rabs t * Rabs t = t * t) by (intro t; rewrite <- Rabs_mult; apply Rabs_pos_eq; nra).
    assert (E1 : eval (A := Arith_R) (fun n => val (lanes4 v n)) sumsq = q) by (unfold q, q4, axis; cbn; ring).
    assert (E2 : absv (fun n => val (lanes4 v n)) sumsq = q) by (unfold q, q4, axis; cbn; rewrite ?A; ring).
    rewrite E1, E2 in Ee. eapply Rle_trans; [exact Ee|]. change (dep sumsq) with 3%nat.
    pose proof (P_lin 3 ltac:(lia)) as PL. replace (INR 3) with 3 in PL by (cbn; lra). pose proof u_small as U.
    assert (Sl : eta * IZR (slack (2 ^ 20) sumsq) <= / 1000 * u * q).
    { apply (Rle_trans _ (eta * bpow radix2 30)).
      - apply Rmult_le_compat_l; [pose proof eta_pos; lra|]. rewrite <- (IZR_Zpower radix2) by lia. apply IZR_le. vm_compute. discriminate.
      - apply (Rle_trans _ (/ 1000 * u * bpow radix2 (-40))); [|apply Rmult_le_compat_l; [lra|exact Q]].
        apply (Rle_trans _ (bpow radix2 (-40) * bpow radix2 (-40))); [unfold eta; rewrite <- !bpow_plus; apply bpow_le; lia|].
        apply Rmult_le_compat_r; [apply bpow_ge_0|]. unfold u. cbn. lra. }
    assert ((P 3 - 1) * q <= 3001 / 1000 * u * q) by (apply Rmult_le_compat_r; lra).
    assert (0 <= u * q) by (apply Rmult_le_pos; lra).
    assert (P 3 * (eta * IZR (slack (2 ^ 20) sumsq)) <= 2 * (/ 1000 * u * q)).
    { apply Rmult_le_compat; try exact Sl; try lra.
      - pose proof (P_64 3 ltac:(lia)). lra.
      - apply Rmult_le_pos; [pose proof eta_pos; lra|]. apply IZR_le, slack_nonneg. lia. }
    lra.
Qed.
Lemma inverse_length x y z M : let FL := Flo_f32 M in fin x -> fin y -> fin z -> / 2 ^ 20 <= n4 (axis x y z) <= 2 ^ 20 ->
  rel (36 / 10) (fdiv (fz 1) (fsqrt (fadd (fadd (fmul x x) (fmul y y)) (fmul z z)))) (/ n4 (axis x y z)).
Proof.
  intros FL Fx Fy Fz L. pose proof (sumsq_rel x y z Fx Fy Fz L) as R. destruct L as [L H].
  assert (P1 : bpow radix2 (-20) = / 2 ^ 20) by (cbn; f_equal; ring). assert (P2 : bpow radix2 20 = 2 ^ 20) by (cbn; ring).
  rewrite <- P1 in L. rewrite <- P2 in H. set (n := n4 (axis x y z)) in *.
  apply rel_sqrt in R; [|lra|].
  2: { rewrite <- n4_sq. fold n. split.
       - apply (Rle_trans _ (bpow radix2 (-20) * bpow radix2 (-20))); [rewrite <- bpow_plus; apply bpow_le; lia|]. apply Rmult_le_compat; try exact L; apply bpow_ge_0.
       - apply (Rle_trans _ (bpow radix2 20 * bpow radix2 20)); [|rewrite <- bpow_plus; apply bpow_le; lia]. apply Rmult_le_compat; try exact H; apply n4_pos. }
  change (sqrt (q4 (axis x y z) (axis x y z))) with n in R.
  apply rel_inv in R; [|lra|].
  2: { split; [eapply Rle_trans; [|exact L]; apply bpow_le; lia|eapply Rle_trans; [exact H|]; apply bpow_le; lia]. }
  destruct R as (F & e & V & E). split; [exact F|]. exists e. split; [exact V|]. eapply Rle_trans; [exact E|]. apply Rmult_le_compat_r; [pose proof u_small; lra|lra].
Qed.

(** ** Rotors from an angle and an axis *)
Definition exact_rotor (ang : R) (a : m128 R) : m128 R :=
  mk4 (cos (ang / 2)) (sin (ang / 2) * l1 a / n4 a) (sin (ang / 2) * l2 a / n4 a) (sin (ang / 2) * l3 a / n4 a).
Lemma half_ok x : fin x -> Rabs (val x) <= 2 ^ 20 -> fin (fmul (f32_of 1 (-1)) x) /\ Rabs (val (fmul (f32_of 1 (-1)) x) - val x / 2) <= eta /\ Rabs (val (fmul (f32_of 1 (-1)) x)) <= 2 ^ 20.
Proof.
  intros F L. assert (Vh : val (f32_of 1 (-1)) = / 2) by (vm_compute; lra).
  assert (P2 : bpow radix2 20 = 2 ^ 20) by (cbn; ring).
  assert (A : Rabs (val (f32_of 1 (-1)) * val x) <= bpow radix2 20).
  { rewrite Vh, Rabs_mult, (Rabs_pos_eq (/ 2)) by lra. rewrite P2. pose proof (Rabs_pos (val x)). lra. }
  destruct (mul_ok (f32_of 1 (-1)) x eq_refl F) as [Fm Vm]; [eapply Rle_trans; [exact A|]; apply bpow_le; lia|].
  split; [exact Fm|]. split.
  - rewrite Vm, Vh. destruct (Rlt_or_le (Rabs (/ 2 * val x)) (bpow radix2 (-126))) as [S|B].
    + (* the result is subnormal: error at most 2^-150 *)
      replace (val x / 2) with (/ 2 * val x) by field. unfold eta.
      destruct (Req_dec (/ 2 * val x) 0) as [Z|N].
      * rewrite Z, round_0 by typeclasses eauto. rewrite Rminus_0_r, Rabs_R0. apply bpow_ge_0.
      * eapply Rle_trans; [apply error_le_half_ulp; typeclasses eauto|]. rewrite ulp_neq_0 by exact N.
        change (bpow radix2 (-150)) with (bpow radix2 (-1 + -149)). rewrite bpow_plus. change (bpow radix2 (-1)) with (/ 2).
        apply Rmult_le_compat_l; [lra|]. apply bpow_le. unfold cexp, FLT_exp.
        assert (mag radix2 (/ 2 * val x) <= -126)%Z by (apply mag_le_bpow; [exact N|exact S]). lia.
    + replace (val x / 2) with (/ 2 * val x) by field. rewrite round_generic; [rewrite Rminus_diag_eq, Rabs_R0 by reflexivity; pose proof eta_pos; lra|typeclasses eauto|].
      pose proof (val_format x) as G. assert (N : / 2 * val x <> 0). { intro Z. rewrite Z, Rabs_R0 in B. pose proof (bpow_gt_0 radix2 (-126)). lra. }
      assert (Mg : (-125 <= mag radix2 (/ 2 * val x))%Z) by (apply mag_ge_bpow; exact B).
      assert (N2 : val x <> 0) by (intro Z; apply N; rewrite Z; ring).
      assert (MM : (mag radix2 (/ 2 * val x) = mag radix2 (val x) - 1 :> Z)%Z).
      { replace (/ 2 * val x) with (val x * bpow radix2 (-1)) by (change (bpow radix2 (-1)) with (/ 2); ring). rewrite mag_mult_bpow by exact N2. lia. }
      apply (onto_format (cexp radix2 fexp32 (val x) - 1)).
      * unfold generic_format in G. rewrite G at 2. unfold F2R. cbn [Fnum Fexp]. eexists. unfold Z.sub. rewrite bpow_plus. change (bpow radix2 (- (1))) with (/ 2).
        set (k := Ztrunc _). replace (/ 2 * (IZR k * bpow radix2 (cexp radix2 fexp32 (val x)))) with (IZR k * (bpow radix2 (cexp radix2 fexp32 (val x)) * / 2)) by ring. reflexivity.
      * unfold cexp, FLT_exp. lia.
  - rewrite Vm. rewrite <- P2. apply rnd_le_bpow; [lia|exact A].
Qed.
Lemma sin_lip a b : Rabs (sin a - sin b) <= Rabs (a - b).
Proof.
  destruct (Req_dec a b) as [->|N]; [rewrite !Rminus_diag_eq, Rabs_R0 by reflexivity; lra|].
  destruct (MVT_abs sin cos b a) as (c & E & _); [intros; apply derivable_pt_lim_sin|]. rewrite E.
  rewrite <- (Rmult_1_l (Rabs (a - b))) at 2. apply Rmult_le_compat_r; [apply Rabs_pos|]. apply Rabs_le. apply COS_bound.
Qed.
Lemma cos_lip a b : Rabs (cos a - cos b) <= Rabs (a - b).
Proof.
  destruct (Req_dec a b) as [->|N]; [rewrite !Rminus_diag_eq, Rabs_R0 by reflexivity; lra|].
  destruct (MVT_abs cos (fun x => - sin x) b a) as (c & E & _); [intros; apply derivable_pt_lim_cos|]. rewrite E.
  rewrite <- (Rmult_1_l (Rabs (a - b))) at 2. apply Rmult_le_compat_r; [apply Rabs_pos|]. rewrite Rabs_Ropp. apply Rabs_le. apply SIN_bound.
Qed.
Lemma exact_rotor_unit ang a : l0 a = 0 -> 0 < n4 a -> n4 (exact_rotor ang a) = 1.
Proof.
  intros Z P. unfold n4 at 1. rewrite <- sqrt_1. f_equal. unfold exact_rotor, q4. cbn [l0 l1 l2 l3].
  pose proof (n4_sq a) as S. unfold q4 in S. rewrite Z in S. set (n := n4 a) in *.
  assert (Q : forall t, sin (ang / 2) * t / n * (sin (ang / 2) * t / n) = sin (ang / 2) * sin (ang / 2) * (t * t) / (n * n)) by (intro t; field; lra).
  rewrite !Q. replace (cos (ang / 2) * cos (ang / 2)) with (1 - sin (ang / 2) * sin (ang / 2)) by (pose proof (sin2_cos2 (ang / 2)) as T; unfold Rsqr in T; lra).
  assert (n * n <> 0) by nra. field_simplify_eq; [|lra]. nra.
Qed.
(** the axis scaled by a rounded factor *)
Lemma scaled_axis c k x y z s n : 0 < n -> Rabs s <= 1 -> fin c -> fin x -> fin y -> fin z -> n4 (axis x y z) = n -> / 2 ^ 20 <= n <= 2 ^ 20 ->
  0 <= k <= 20 -> Rabs (val c - s / n) <= k * u / n ->
  Forall fin [fmul x c; fmul y c; fmul z c] /\
  n4 (sub4 (mk4 0 (val (fmul x c)) (val (fmul y c)) (val (fmul z c))) (mk4 0 (s * val x / n) (s * val y / n) (s * val z / n))) <= (k + 102 / 100) * u.
Proof.
  intros Pn Ps Fc Fx Fy Fz En [Ln Hn] Kk Ec. pose proof u_small as U. pose proof eta_small as T. pose proof eta_pos as T0.
  assert (In : 0 < / n) by (apply Rinv_0_lt_compat; exact Pn).
  assert (Ku : 0 <= k * u <= 20 * u) by (split; [apply Rmult_le_pos; lra|apply Rmult_le_compat_r; lra]).
  assert (Cb : Rabs (val c) <= (1 + 20 * u) * / n).
  { replace (val c) with (s / n + (val c - s / n)) by ring. eapply Rle_trans; [apply Rabs_triang|].
    unfold Rdiv at 1. rewrite Rabs_mult, (Rabs_pos_eq (/ n)) by lra.
    assert (Rabs s * / n <= 1 * / n) by (apply Rmult_le_compat_r; lra). unfold Rdiv in *.
    assert (k * u * / n <= 20 * u * / n) by (apply Rmult_le_compat_r; lra). lra. }
  destruct (n4_lane (axis x y z)) as (_ & N1 & N2 & N3). cbn [axis l1 l2 l3] in N1, N2, N3. rewrite En in N1, N2, N3.
  assert (K : forall t, fin t -> Rabs (val t) <= n -> fin (fmul t c) /\ Rabs (val (fmul t c) - s * val t / n) <= (k * u + u * (1 + 20 * u)) * / n * Rabs (val t) + eta).
  { intros t Ft Bt. pose proof (Rabs_pos (val t)) as At.
    assert (Pb : Rabs (val t * val c) <= (1 + 20 * u) * / n * Rabs (val t)).
    { rewrite Rabs_mult, Rmult_comm. apply Rmult_le_compat_r; [exact At|exact Cb]. }
    assert (Q1 : / n * Rabs (val t) <= 1) by (apply (Rmult_le_reg_l n); [exact Pn|]; rewrite <- Rmult_assoc, Rinv_r by lra; lra).
    assert (Q0 : 0 <= / n * Rabs (val t)) by (apply Rmult_le_pos; lra).
    destruct (mul_any t c Ft Fc) as [F E].
    { eapply Rle_trans; [exact Pb|]. apply (Rle_trans _ 2); [nra|]. change 2 with (bpow radix2 1). apply bpow_le. lia. }
    split; [exact F|].
    replace (val (fmul t c) - s * val t / n) with ((val (fmul t c) - val t * val c) + val t * (val c - s / n)) by (field; lra).
    eapply Rle_trans; [apply Rabs_triang|]. rewrite (Rabs_mult (val t)).
    assert (Rabs (val t) * Rabs (val c - s / n) <= Rabs (val t) * (k * u / n)) by (apply Rmult_le_compat_l; assumption).
    assert (u * Rabs (val t * val c) <= u * ((1 + 20 * u) * / n * Rabs (val t))) by (apply Rmult_le_compat_l; lra).
    unfold Rdiv in *. lra. }
  destruct (K x Fx N1) as [F1 E1]. destruct (K y Fy N2) as [F2 E2]. destruct (K z Fz N3) as [F3 E3].
  split; [repeat (apply Forall_cons; [assumption|]); apply Forall_nil|].
  set (g := (k * u + u * (1 + 20 * u)) * / n) in *.
  assert (G0 : 0 <= g) by (apply Rmult_le_pos; nra).
  apply (Rle_trans _ (n4 (add4 (scale4 g (abs4 (axis x y z))) (mk4 eta eta eta eta)))).
  - apply n4_mono; unfold sub4, add4, scale4, abs4, axis, map4; cbn [l0 l1 l2 l3]; try assumption.
    rewrite Rminus_0_r, Rabs_R0. lra.
  - eapply Rle_trans; [apply n4_add|]. rewrite n4_scale, abs4_n4, En by exact G0.
    assert (n4 (mk4 eta eta eta eta) <= 2 * eta) by (apply n4_all; cbn [l0 l1 l2 l3]; try rewrite Rabs_pos_eq; lra).
    replace (g * n) with (k * u + u * (1 + 20 * u)) by (unfold g; field; lra).
    assert (/ 2 ^ 60 <= / 1000) by (apply Rinv_le_contravar; [lra|]; change 1000 with (IZR 1000); rewrite pow_IZR; apply IZR_le; cbv; discriminate).
    assert (eta <= / 1000 * u) by (eapply Rle_trans; [apply T|]; apply Rmult_le_compat_r; lra).
    assert (u * (20 * u) <= / 1000 * u) by nra. lra.
Qed.
Lemma unit_sq g : Rabs (g - 1) <= 10 * u -> Rabs (g * g - 1) <= 24 * u.
Proof. pose proof u_small as U. intro H. apply Rabs_le_inv in H. apply Rabs_le. nra. Qed.
Theorem C73_rotor : forall M : machine, libm M -> let FL := Flo_f32 M in forall ang x y z : f32,
  fin ang -> Rabs (val ang) <= 2 ^ 20 -> fin x -> fin y -> fin z -> / 2 ^ 20 <= n4 (axis x y z) <= 2 ^ 20 ->
  n4 (sub4 (rv (rotor_ctor ang x y z)) (exact_rotor (val ang) (axis x y z))) <= 10 * / 2 ^ 24 /\
  near_unit (rotor_ctor ang x y z).
Proof.
  intros M LM FL ang x y z Fa La Fx Fy Fz L. pose proof u_small as U. pose proof eta_small as T. pose proof eta_pos as T0.
  destruct (inverse_length x y z M Fx Fy Fz L) as (Fi & e & Vi & Ei). fold FL in Fi, Vi.
  destruct (half_ok ang Fa La) as (Fh & Eh & Bh).
  destruct (LM _ Fh Bh) as (Fs & Es & Fc & Ec). rewrite u_pow in *.
  set (n := n4 (axis x y z)) in *. assert (Pn : 0 < n) by (assert (0 < / 2 ^ 20) by (apply Rinv_0_lt_compat, pow_lt; lra); lra).
  set (h := fmul (f32_of 1 (-1)) ang) in *.
  set (inv := fdiv (fz 1) (fsqrt (fadd (fadd (fmul x x) (fmul y y)) (fmul z z)))) in *.
  assert (In : 0 < / n) by (apply Rinv_0_lt_compat; exact Pn).
  assert (In2 : / 2 ^ 20 <= / n <= 2 ^ 20).
  { split; [apply Rinv_le_contravar; [exact Pn|apply L]|]. rewrite <- (Rinv_inv (2 ^ 20)) by (apply pow_nonzero; lra). apply Rinv_le_contravar; [apply Rinv_0_lt_compat, pow_lt; lra|apply L]. }
  apply Rabs_le_inv in Ei.
  assert (Et : eta <= / 1000 * u * / n).
  { eapply Rle_trans; [apply T|]. apply (Rle_trans _ (/ 1000 * u * / 2 ^ 20)); [|apply Rmult_le_compat_l; [lra|apply In2]].
    rewrite Rmult_comm. replace (/ 1000 * u * / 2 ^ 20) with (u * (/ 1000 * / 2 ^ 20)) by ring. apply Rmult_le_compat_l; [lra|].
    rewrite <- Rinv_mult. apply Rinv_le_contravar; [apply Rmult_lt_0_compat; [lra|apply pow_lt; lra]|]. change 1000 with (IZR 1000). rewrite !pow_IZR, <- mult_IZR. apply IZR_le. cbv. discriminate. }
  assert (Et2 : eta <= / 1000 * u).
  { eapply Rle_trans; [apply T|]. apply Rmult_le_compat_r; [lra|]. apply Rinv_le_contravar; [lra|]. change 1000 with (IZR 1000). rewrite pow_IZR. apply IZR_le. cbv. discriminate. }
  set (s := sin (val ang / 2)). set (c := cos (val ang / 2)).
  assert (Ds : Rabs (val (m_sin M h) - s) <= 2001 / 1000 * u).
  { replace (val (m_sin M h) - s) with ((val (m_sin M h) - sin (val h)) + (sin (val h) - s)) by ring. eapply Rle_trans; [apply Rabs_triang|].
    pose proof (sin_lip (val h) (val ang / 2)) as Q. fold s in Q. lra. }
  assert (Dc : Rabs (val (m_cos M h) - c) <= 2001 / 1000 * u).
  { replace (val (m_cos M h) - c) with ((val (m_cos M h) - cos (val h)) + (cos (val h) - c)) by ring. eapply Rle_trans; [apply Rabs_triang|].
    pose proof (cos_lip (val h) (val ang / 2)) as Q. fold c in Q. lra. }
  assert (Ps : Rabs s <= 1) by (apply Rabs_le; apply SIN_bound). assert (Pc : Rabs c <= 1) by (apply Rabs_le; apply COS_bound).
  (* the factor *)
  set (sc := fmul (m_sin M h) inv).
  assert (Sb : Rabs (val (m_sin M h)) <= 1 + 3 * u).
  { replace (val (m_sin M h)) with (s + (val (m_sin M h) - s)) by ring. eapply Rle_trans; [apply Rabs_triang|]. lra. }
  assert (Pv : Rabs (val inv - / n) <= 36 / 10 * u * / n).
  { rewrite Vi. replace (/ n * (1 + e) - / n) with (e * / n) by ring. rewrite Rabs_mult, (Rabs_pos_eq (/ n)) by lra. apply Rmult_le_compat_r; [lra|apply Rabs_le; exact Ei]. }
  assert (Pa : Rabs (val inv) <= (1 + 4 * u) * / n) by (rewrite Vi, Rabs_mult, (Rabs_pos_eq (/ n)) by lra; rewrite Rmult_comm; apply Rmult_le_compat_r; [lra|apply Rabs_le; lra]).
  assert (Pp : Rabs (val (m_sin M h) * val inv) <= (1 + 3 * u) * ((1 + 4 * u) * / n)) by (rewrite Rabs_mult; apply Rmult_le_compat; try assumption; apply Rabs_pos).
  assert (P20 : bpow radix2 20 = 2 ^ 20) by (cbn; ring).
  destruct (mul_any (m_sin M h) inv Fs Fi) as [Fsc Esc].
  { eapply Rle_trans; [exact Pp|]. apply (Rle_trans _ (2 * bpow radix2 20)); [rewrite P20; nra|]. change 2 with (bpow radix2 1) at 1. rewrite <- bpow_plus. apply bpow_le. lia. }
  fold sc in Fsc, Esc.
  assert (Sc : Rabs (val sc - s / n) <= 662 / 100 * u / n).
  { replace (val sc - s / n) with ((val sc - val (m_sin M h) * val inv) + val (m_sin M h) * (val inv - / n) + (val (m_sin M h) - s) * / n) by (field; lra).
    eapply Rle_trans; [apply Rabs_triang|]. eapply Rle_trans; [apply Rplus_le_compat_r, Rabs_triang|]. rewrite !Rabs_mult, (Rabs_pos_eq (/ n)) by lra. rewrite <- Rabs_mult in *.
    assert (A1 : Rabs (val (m_sin M h)) * Rabs (val inv - / n) <= (1 + 3 * u) * (36 / 10 * u * / n)) by (apply Rmult_le_compat; try assumption; apply Rabs_pos).
    assert (A2 : Rabs (val (m_sin M h) - s) * / n <= 2001 / 1000 * u * / n) by (apply Rmult_le_compat_r; [lra|exact Ds]).
    assert (A3 : u * Rabs (val (m_sin M h) * val inv) <= u * ((1 + 3 * u) * ((1 + 4 * u) * / n))) by (apply Rmult_le_compat_l; [lra|exact Pp]).
    rewrite Rabs_mult in *. unfold Rdiv. set (i := / n) in *. assert (Ui : 0 < u * i) by (apply Rmult_lt_0_compat; lra).
    assert (U1 : u * (u * i) <= / 1000000 * (u * i)) by (apply Rmult_le_compat_r; lra).
    assert (U2 : u * (u * (u * i)) <= / 1000000 * (u * i)) by nra. nra. }
  destruct (scaled_axis sc (662 / 100) x y z s n Pn Ps Fsc Fx Fy Fz eq_refl L ltac:(lra) Sc) as [Fl El].
  inversion_clear Fl as [|? ? F1 Fl']. inversion_clear Fl' as [|? ? F2 Fl'']. inversion_clear Fl'' as [|? ? F3 _].
  (* the scalar part *)
  destruct (fz_ok 1 ltac:(lia)) as [F1' V1]. destruct (mul_ok (m_cos M h) (fz 1) Fc F1') as [F0 V0].
  { rewrite V1, Rmult_1_r. apply (Rle_trans _ 2); [|change 2 with (bpow radix2 1); apply bpow_le; lia].
    replace (val (m_cos M h)) with (c + (val (m_cos M h) - c)) by ring. eapply Rle_trans; [apply Rabs_triang|]. lra. }
  rewrite V1, Rmult_1_r in V0. rewrite (round_generic radix2 fexp32 ZnearestE (val (m_cos M h))) in V0 by apply val_format.
  set (r := rotor_ctor ang x y z).
  assert (Rr : rv r = mk4 (val (fmul (m_cos M h) (fz 1))) (val (fmul x sc)) (val (fmul y sc)) (val (fmul z sc))) by reflexivity.
  assert (D : n4 (sub4 (rv r) (exact_rotor (val ang) (axis x y z))) <= 10 * u).
  { rewrite Rr, V0. unfold exact_rotor. cbn [l1 l2 l3 axis]. fold (axis x y z) n s c.
    set (a := sub4 _ _) in El.
    replace (sub4 _ _) with (add4 (mk4 (val (m_cos M h) - c) 0 0 0) a) by (unfold a, add4, sub4; cbn [l0 l1 l2 l3]; f_equal; ring).
    eapply Rle_trans; [apply n4_add|]. assert (n4 (mk4 (val (m_cos M h) - c) 0 0 0) <= 2001 / 1000 * u).
    { apply n4_le; [lra|]. unfold q4. cbn [l0 l1 l2 l3]. apply Rabs_le_inv in Dc. nra. }
    lra. }
  split; [exact D|]. split.
  - change (coefs (k := KRotor) r) with [fmul (m_cos M h) (fz 1); fmul x sc; fmul y sc; fmul z sc]. repeat (apply Forall_cons; [assumption|]). apply Forall_nil.
  - rewrite u_pow. rewrite <- n4_sq. pose proof (n4_diff (rv r) (exact_rotor (val ang) (axis x y z))) as Q.
    rewrite exact_rotor_unit in Q; [|reflexivity|exact Pn]. apply unit_sq. exact (Rle_trans _ _ _ Q D).
Qed.

(** ** Rotors from Euler angles *)
Lemma eta_tiny : eta <= / 1000000 * u.
Proof. unfold eta. apply (Rle_trans _ (bpow radix2 (-60))); [apply bpow_le; lia|unfold u; cbn; lra]. Qed.
Lemma near_mul a b A B ea eb : fin a -> fin b -> Rabs (val a - A) <= ea * u -> Rabs (val b - B) <= eb * u -> Rabs A <= 1 -> Rabs B <= 1 ->
  0 <= ea <= 20 -> 0 <= eb <= 20 ->
  fin (fmul a b) /\ Rabs (val (fmul a b) - A * B) <= (ea * Rabs B + eb * Rabs A + Rabs (A * B) + / 1000) * u.
Proof.
  intros Fa Fb Ea Eb LA LB Ka Kb. pose proof u_small as U. pose proof eta_tiny as T.
  assert (ua : 0 <= ea * u <= 20 * u) by (split; [apply Rmult_le_pos; lra|apply Rmult_le_compat_r; lra]).
  assert (ub : 0 <= eb * u <= 20 * u) by (split; [apply Rmult_le_pos; lra|apply Rmult_le_compat_r; lra]).
  set (x := val a) in *. set (y := val b) in *.
  pose proof (Rabs_pos A) as PA. pose proof (Rabs_pos B) as PB.
  assert (D : Rabs (x * y - A * B) <= ea * u * Rabs B + eb * u * Rabs A + 400 * u * u).
  { replace (x * y - A * B) with ((x - A) * B + (y - B) * A + (x - A) * (y - B)) by ring.
    eapply Rle_trans; [apply Rabs_triang|]. eapply Rle_trans; [apply Rplus_le_compat_r, Rabs_triang|]. rewrite !Rabs_mult.
    assert (Rabs (x - A) * Rabs B <= ea * u * Rabs B) by (apply Rmult_le_compat_r; lra).
    assert (Rabs (y - B) * Rabs A <= eb * u * Rabs A) by (apply Rmult_le_compat_r; lra).
    assert (Rabs (x - A) * Rabs (y - B) <= 20 * u * (20 * u)) by (apply Rmult_le_compat; try apply Rabs_pos; lra). lra. }
  assert (PAB : 0 <= Rabs (A * B) <= 1) by (split; [apply Rabs_pos|rewrite Rabs_mult; nra]).
  assert (D2 : ea * u * Rabs B + eb * u * Rabs A <= 40 * u) by nra.
  assert (uu : u * u <= / 1000000 * u) by (apply Rmult_le_compat_r; lra).
  assert (S : Rabs (x * y) <= Rabs (A * B) + 41 * u).
  { replace (x * y) with (A * B + (x * y - A * B)) by ring. eapply Rle_trans; [apply Rabs_triang|]. lra. }
  destruct (mul_any a b Fa Fb) as [F E].
  { fold x y. apply (Rle_trans _ 2); [lra|]. change 2 with (bpow radix2 1). apply bpow_le. lia. }
  split; [exact F|]. fold x y in E. replace (val (fmul a b) - A * B) with ((val (fmul a b) - x * y) + (x * y - A * B)) by ring.
  eapply Rle_trans; [apply Rabs_triang|].
  assert (u * Rabs (x * y) <= u * (Rabs (A * B) + 41 * u)) by (apply Rmult_le_compat_l; lra).
  replace ((ea * Rabs B + eb * Rabs A + Rabs (A * B) + / 1000) * u) with (ea * u * Rabs B + eb * u * Rabs A + Rabs (A * B) * u + / 1000 * u) by ring. nra.
Qed.
Lemma pair_le a b c d : a * a + b * b = 1 -> c * c + d * d = 1 -> Rabs (a * c) + Rabs (b * d) <= 1.
Proof.
  intros H K. rewrite !Rabs_mult.
  assert (Rabs a * Rabs a + Rabs b * Rabs b = 1) by (rewrite <- !Rabs_mult, !Rabs_pos_eq by nra; exact H).
  assert (Rabs c * Rabs c + Rabs d * Rabs d = 1) by (rewrite <- !Rabs_mult, !Rabs_pos_eq by nra; exact K).
  pose proof (Rle_0_sqr (Rabs a - Rabs c)) as X. pose proof (Rle_0_sqr (Rabs b - Rabs d)) as Y. unfold Rsqr in *. lra.
Qed.
Lemma near_lane (sg : bool) a b c d e f A B C D E F : Forall fin [a; b; c; d; e; f] ->
  Forall (fun p => Rabs (val (fst p) - snd p) <= 2001 / 1000 * u) [(a, A); (b, B); (c, C); (d, D); (e, E); (f, F)] ->
  A * A + D * D = 1 -> B * B + E * E = 1 -> C * C + F * F = 1 ->
  let p := fmul (fmul a b) c in let q := fmul (fmul d e) f in let y := if sg then fadd p q else fsub p q in
  fin y /\ Rabs (val y - (if sg then A * B * C + D * E * F else A * B * C - D * E * F)) <= 91 / 10 * u.
Proof.
  intros FF EE H1 H2 H3 p q y. pose proof u_small as U. pose proof eta_tiny as T.
  inversion_clear FF as [|? ? Fa FF']. inversion_clear FF' as [|? ? Fb FF]. inversion_clear FF as [|? ? Fc FF']. inversion_clear FF' as [|? ? Fd FF]. inversion_clear FF as [|? ? Fe FF']. inversion_clear FF' as [|? ? Ff _].
  inversion_clear EE as [|? ? Ea EE']. inversion_clear EE' as [|? ? Eb EE]. inversion_clear EE as [|? ? Ec EE']. inversion_clear EE' as [|? ? Ed EE]. inversion_clear EE as [|? ? Ee EE']. inversion_clear EE' as [|? ? Ef _].
  cbn [fst snd] in *.
  assert (one : forall s t, s * s + t * t = 1 -> Rabs s <= 1 /\ Rabs t <= 1) by (intros s t H; split; apply Rabs_le; nra).
  destruct (one _ _ H1) as [LA LD]. destruct (one _ _ H2) as [LB LE]. destruct (one _ _ H3) as [LC LF].
  pose proof (pair_le _ _ _ _ H1 H2) as PAB. pose proof (pair_le _ _ _ _ H1 H3) as PAC. pose proof (pair_le _ _ _ _ H2 H3) as PBC.
  assert (K : forall x y z X Y Z, fin x -> fin y -> fin z -> Rabs (val x - X) <= 2001 / 1000 * u -> Rabs (val y - Y) <= 2001 / 1000 * u -> Rabs (val z - Z) <= 2001 / 1000 * u ->
    Rabs X <= 1 -> Rabs Y <= 1 -> Rabs Z <= 1 ->
    fin (fmul (fmul x y) z) /\ Rabs (val (fmul (fmul x y) z) - X * Y * Z) <= (2001 / 1000 * (Rabs (X * Y) + Rabs (X * Z) + Rabs (Y * Z)) + 2 * Rabs (X * Y) + / 500) * u).
  { intros x y0 z X Y Z Fx Fy Fz Ex Ey Ez LX LY LZ.
    pose proof (Rabs_pos X) as PX. pose proof (Rabs_pos Y) as PY. pose proof (Rabs_pos Z) as PZ.
    destruct (near_mul x y0 X Y _ _ Fx Fy Ex Ey LX LY ltac:(lra) ltac:(lra)) as [F1 E1].
    assert (L1 : 0 <= Rabs (X * Y) <= 1) by (split; [apply Rabs_pos|rewrite Rabs_mult; nra]).
    destruct (near_mul (fmul x y0) z (X * Y) Z _ _ F1 Fz E1 Ez ltac:(lra) LZ ltac:(lra) ltac:(lra)) as [F2 E2].
    split; [exact F2|]. eapply Rle_trans; [exact E2|]. apply Rmult_le_compat_r; [lra|]. rewrite !Rabs_mult in *.
    assert (Rabs X * Rabs Y * Rabs Z <= Rabs X * Rabs Y * 1) by (apply Rmult_le_compat_l; nra). nra. }
  destruct (K a b c A B C Fa Fb Fc Ea Eb Ec LA LB LC) as [Fp Ep]. destruct (K d e f D E F Fd Fe Ff Ed Ee Ef LD LE LF) as [Fq Eq].
  fold p in Fp, Ep. fold q in Fq, Eq.
  assert (S1 : Rabs (val p - A * B * C) + Rabs (val q - D * E * F) <= (3 * (2001 / 1000) + 2 + 2 / 500) * u).
  { eapply Rle_trans; [apply Rplus_le_compat; [exact Ep|exact Eq]|]. rewrite <- Rmult_plus_distr_r. apply Rmult_le_compat_r; lra. }
  assert (S2 : Rabs (A * B * C) + Rabs (D * E * F) <= 1).
  { rewrite (Rabs_mult (A * B)), (Rabs_mult (D * E)). pose proof (Rabs_pos (A * B)). pose proof (Rabs_pos (D * E)).
    assert (Rabs (A * B) * Rabs C <= Rabs (A * B) * 1) by (apply Rmult_le_compat_l; lra).
    assert (Rabs (D * E) * Rabs F <= Rabs (D * E) * 1) by (apply Rmult_le_compat_l; lra). lra. }
  assert (S3 : forall k, Rabs k = 1 -> Rabs ((val p + k * val q) - (A * B * C + k * (D * E * F))) <= 801 / 100 * u /\ Rabs (val p + k * val q) <= 1 + 9 * u).
  { intros k Hk. assert (W : Rabs ((val p + k * val q) - (A * B * C + k * (D * E * F))) <= 801 / 100 * u).
    { replace ((val p + k * val q) - (A * B * C + k * (D * E * F))) with ((val p - A * B * C) + k * (val q - D * E * F)) by ring.
      eapply Rle_trans; [apply Rabs_triang|]. rewrite (Rabs_mult k), Hk. lra. }
    split; [exact W|]. replace (val p + k * val q) with ((A * B * C + k * (D * E * F)) + ((val p + k * val q) - (A * B * C + k * (D * E * F)))) by ring.
    eapply Rle_trans; [apply Rabs_triang|]. eapply Rle_trans; [apply Rplus_le_compat_r, Rabs_triang|]. rewrite (Rabs_mult k), Hk. lra. }
  assert (fin_end : forall t v, Rabs t <= 1 + 9 * u -> Rabs (t - v) <= 801 / 100 * u -> Rabs t <= big /\ Rabs (rnd t - v) <= 91 / 10 * u).
  { intros t v Bt Dt. split; [apply (Rle_trans _ 2); [lra|]; change 2 with (bpow radix2 1); apply bpow_le; lia|].
    replace (rnd t - v) with ((rnd t - t) + (t - v)) by ring. eapply Rle_trans; [apply Rabs_triang|]. pose proof (rnd_any t).
    assert (u * Rabs t <= u * (1 + 9 * u)) by (apply Rmult_le_compat_l; lra). nra. }
  destruct sg.
  - destruct (S3 1 Rabs_R1) as [W1 W2]. rewrite !Rmult_1_l in *. destruct (fin_end _ _ W2 W1) as [Bg R].
    destruct (add_ok p q Fp Fq Bg) as [Fy Vy]. split; [exact Fy|]. unfold y. rewrite Vy. exact R.
  - destruct (S3 (-1)) as [W1 W2]; [rewrite Rabs_left; lra|].
    replace (val p + -1 * val q) with (val p - val q) in * by ring. replace (A * B * C + -1 * (D * E * F)) with (A * B * C - D * E * F) in * by ring.
    destruct (fin_end _ _ W2 W1) as [Bg R].
    destruct (sub_ok p q Fp Fq Bg) as [Fy Vy]. split; [exact Fy|]. unfold y. rewrite Vy. exact R.
Qed.
(** dividing by the length does not move a vector away from a unit vector by more than
    the square root of the length *)
Lemma normalize_near v e d : n4 e = 1 -> n4 (sub4 v e) <= d -> 0 <= d <= / 100 -> n4 (sub4 (scale4 (/ n4 v) v) e) <= (1 + d) * d.
Proof.
  intros E1 D Dd. pose proof (n4_diff v e) as N. rewrite E1 in N. apply Rabs_le_inv in N. set (m := n4 v) in *.
  assert (M : 1 - d <= m <= 1 + d) by lra.
  pose proof (n4_sq v) as Sv. pose proof (n4_sq e) as Se. rewrite E1 in Se. pose proof (n4_sq (sub4 v e)) as Sd. fold m in Sv.
  pose proof (n4_pos (sub4 v e)) as D0.
  assert (Q : q4 (sub4 v e) (sub4 v e) = m * m + 1 - 2 * q4 v e) by (rewrite Sv, <- (Rmult_1_l 1), Se; unfold q4, sub4; cbn [l0 l1 l2 l3]; ring).
  apply n4_le; [nra|].
  assert (X : q4 (sub4 (scale4 (/ m) v) e) (sub4 (scale4 (/ m) v) e) = 2 - 2 * q4 v e / m).
  { replace 2 with (/ m * / m * (m * m) + 1 * 1) at 1 by (field; lra). rewrite Sv, Se. unfold q4, sub4, scale4, map4. cbn [l0 l1 l2 l3]. field. lra. }
  rewrite X. set (g := q4 v e) in *. apply (Rmult_le_reg_r m); [lra|]. replace ((2 - 2 * g / m) * m) with (2 * m - 2 * g) by (field; lra).
  assert (n4 (sub4 v e) * n4 (sub4 v e) <= d * d) by (apply Rmult_le_compat; lra).
  assert (2 * g >= m * m + 1 - d * d) by lra. pose proof (Rle_0_sqr (m - 1)) as Y. unfold Rsqr in Y.
  assert (1 <= (1 + d) * (1 + d) * (1 - d)) by nra.
  assert (d * d * 1 <= d * d * ((1 + d) * (1 + d) * m)) by (apply Rmult_le_compat_l; nra). nra.
Qed.
Lemma one_n4 v : q4 v v = 1 -> n4 v = 1.
Proof. intro H. unfold n4. rewrite H. apply sqrt_1. Qed.
Definition exact_euler (ro pi ya : R) : m128 R :=
  qm (qm (exact_rotor ro (mk4 0 1 0 0)) (exact_rotor pi (mk4 0 0 1 0))) (exact_rotor ya (mk4 0 0 0 1)).
Lemma exact_euler_lanes ro pi ya :
  let cr := cos (ro / 2) in let sr := sin (ro / 2) in let cp := cos (pi / 2) in let sp := sin (pi / 2) in let cy := cos (ya / 2) in let sy := sin (ya / 2) in
  exact_euler ro pi ya = mk4 (cr * cp * cy + sr * sp * sy) (sr * cp * cy - cr * sp * sy) (cr * sp * cy + sr * cp * sy) (cr * cp * sy - sr * sp * cy).
Proof.
  intros. unfold exact_euler, exact_rotor. cbn [l1 l2 l3].
  assert (N1 : n4 (mk4 0 1 0 0) = 1) by (apply one_n4; unfold q4; cbn [l0 l1 l2 l3]; ring).
  assert (N2 : n4 (mk4 0 0 1 0) = 1) by (apply one_n4; unfold q4; cbn [l0 l1 l2 l3]; ring).
  assert (N3 : n4 (mk4 0 0 0 1) = 1) by (apply one_n4; unfold q4; cbn [l0 l1 l2 l3]; ring).
  rewrite N1, N2, N3. fold cr sr cp sp cy sy. unfold qm. cbn [l0 l1 l2 l3]. f_equal; field.
Qed.
Lemma exact_euler_unit ro pi ya : n4 (exact_euler ro pi ya) = 1.
Proof.
  unfold exact_euler. assert (K : forall t v, l0 v = 0 -> q4 v v = 1 -> n4 (exact_rotor t v) = 1).
  { intros t v Z Q. apply exact_rotor_unit; [exact Z|]. unfold n4. rewrite Q, sqrt_1. lra. }
  rewrite !qm_n4, !K by (try reflexivity; unfold q4; cbn [l0 l1 l2 l3]; ring). ring.
Qed.
(** Built from Euler angles, the rotor is within 30 units of the product of the three
    rotations. *)
Theorem C73_euler : forall (B : Build) (M : machine), libm M -> rsqrt_estimate M -> let FL := Flo_f32 M in forall ro pi ya : f32,
  Forall (fun x => fin x /\ Rabs (val x) <= 2 ^ 20) [ro; pi; ya] ->
  n4 (sub4 (rv (rotor_of_euler (mkeuler ro pi ya))) (exact_euler (val ro) (val pi) (val ya))) <= 30 * / 2 ^ 24 /\
  near_unit (rotor_of_euler (mkeuler ro pi ya)).
Proof.
  intros B M LM HM FL ro pi ya AA. pose proof u_small as U. pose proof eta_tiny as T.
  inversion_clear AA as [|? ? [Fr Lr] AA']. inversion_clear AA' as [|? ? [Fp Lp] AA]. inversion_clear AA as [|? ? [Fy Ly] _].
  assert (TR : forall x, fin x -> Rabs (val x) <= 2 ^ 20 -> let h := fmul x (f32_of 1 (-1)) in
    (fin (m_sin M h) /\ fin (m_cos M h)) /\ Rabs (val (m_sin M h) - sin (val x / 2)) <= 2001 / 1000 * u /\ Rabs (val (m_cos M h) - cos (val x / 2)) <= 2001 / 1000 * u).
  { intros xa Fx Lx h. destruct (half_ok xa Fx Lx) as (Fh & Eh & Bh).
    assert (C : fmul xa (f32_of 1 (-1)) = fmul (f32_of 1 (-1)) xa \/ True) by (right; exact I).
    assert (Vh : val h = val (fmul (f32_of 1 (-1)) xa) /\ fin h).
    { assert (A : Rabs (val xa * val (f32_of 1 (-1))) <= big).
      { assert (Vh : val (f32_of 1 (-1)) = / 2) by (vm_compute; lra). rewrite Vh, Rabs_mult, (Rabs_pos_eq (/ 2)) by lra.
        apply (Rle_trans _ (bpow radix2 20)); [|apply bpow_le; lia]. assert (P2 : bpow radix2 20 = 2 ^ 20) by (cbn; ring). rewrite P2. pose proof (Rabs_pos (val xa)). lra. }
      destruct (mul_ok xa (f32_of 1 (-1)) Fx eq_refl A) as [F1 V1]. rewrite Rmult_comm in A. destruct (mul_ok (f32_of 1 (-1)) xa eq_refl Fx A) as [F2 V2].
      split; [|exact F1]. unfold h. rewrite V1, V2. f_equal. ring. }
    destruct Vh as [Vh Fh']. rewrite <- Vh in *. destruct (LM h Fh' Bh) as (Fs & Es & Fc & Ec). rewrite u_pow in *.
    split; [split; assumption|]. pose proof (sin_lip (val h) (val xa / 2)) as Q1. pose proof (cos_lip (val h) (val xa / 2)) as Q2. split.
    - replace (val (m_sin M h) - sin (val xa / 2)) with ((val (m_sin M h) - sin (val h)) + (sin (val h) - sin (val xa / 2))) by ring. eapply Rle_trans; [apply Rabs_triang|]. lra.
    - replace (val (m_cos M h) - cos (val xa / 2)) with ((val (m_cos M h) - cos (val h)) + (cos (val h) - cos (val xa / 2))) by ring. eapply Rle_trans; [apply Rabs_triang|]. lra. }
  destruct (TR ro Fr Lr) as ([Fsr Fcr] & Esr & Ecr). destruct (TR pi Fp Lp) as ([Fsp Fcp] & Esp & Ecp). destruct (TR ya Fy Ly) as ([Fsy Fcy] & Esy & Ecy). clear TR.
  set (hr := fmul ro (f32_of 1 (-1))) in *. set (hp := fmul pi (f32_of 1 (-1))) in *. set (hy := fmul ya (f32_of 1 (-1))) in *.
  set (cr := cos (val ro / 2)) in *. set (sr := sin (val ro / 2)) in *. set (cp := cos (val pi / 2)) in *. set (sp := sin (val pi / 2)) in *. set (cy := cos (val ya / 2)) in *. set (sy := sin (val ya / 2)) in *.
  assert (Ur : cr * cr + sr * sr = 1) by (pose proof (sin2_cos2 (val ro / 2)) as Q; unfold Rsqr in Q; fold cr sr in Q; lra).
  assert (Up : cp * cp + sp * sp = 1) by (pose proof (sin2_cos2 (val pi / 2)) as Q; unfold Rsqr in Q; fold cp sp in Q; lra).
  assert (Uy : cy * cy + sy * sy = 1) by (pose proof (sin2_cos2 (val ya / 2)) as Q; unfold Rsqr in Q; fold cy sy in Q; lra).
  set (fcr := m_cos M hr) in *. set (fsr := m_sin M hr) in *. set (fcp := m_cos M hp) in *. set (fsp := m_sin M hp) in *. set (fcy := m_cos M hy) in *. set (fsy := m_sin M hy) in *.
  assert (FA : forall l, incl l [fcr; fsr; fcp; fsp; fcy; fsy] -> Forall fin l).
  { intros l I. apply Forall_forall. intros t Ht. apply I in Ht. cbn [In] in Ht. repeat destruct Ht as [<-|Ht]; try assumption. contradiction. }
  assert (EA : forall l, incl l [(fcr, cr); (fsr, sr); (fcp, cp); (fsp, sp); (fcy, cy); (fsy, sy)] -> Forall (fun p => Rabs (val (fst p) - snd p) <= 2001 / 1000 * u) l).
  { intros l I. apply Forall_forall. intros t Ht. apply I in Ht. cbn [In] in Ht. repeat destruct Ht as [<-|Ht]; try assumption. contradiction. }
  Ltac inc := intros ? Q; cbn [In] in *; tauto.
  pose proof (near_lane true fcr fcp fcy fsr fsp fsy cr cp cy sr sp sy) as L0. specialize (L0 ltac:(apply FA; inc) ltac:(apply EA; inc) ltac:(lra) ltac:(lra) ltac:(lra)). destruct L0 as [F0 E0].
  pose proof (near_lane false fsr fcp fcy fcr fsp fsy sr cp cy cr sp sy) as L1. specialize (L1 ltac:(apply FA; inc) ltac:(apply EA; inc) ltac:(lra) ltac:(lra) ltac:(lra)). destruct L1 as [F1 E1].
  pose proof (near_lane true fcr fsp fcy fsr fcp fsy cr sp cy sr cp sy) as L2. specialize (L2 ltac:(apply FA; inc) ltac:(apply EA; inc) ltac:(lra) ltac:(lra) ltac:(lra)). destruct L2 as [F2 E2].
  pose proof (near_lane false fcr fcp fsy fsr fsp fcy cr cp sy sr sp cy) as L3. specialize (L3 ltac:(apply FA; inc) ltac:(apply EA; inc) ltac:(lra) ltac:(lra) ltac:(lra)). destruct L3 as [F3 E3].
  cbn beta iota zeta in F0, E0, F1, E1, F2, E2, F3, E3.
  set (a0 := fadd (fmul (fmul fcr fcp) fcy) (fmul (fmul fsr fsp) fsy)) in *.
  set (a1 := fsub (fmul (fmul fsr fcp) fcy) (fmul (fmul fcr fsp) fsy)) in *.
  set (a2 := fadd (fmul (fmul fcr fsp) fcy) (fmul (fmul fsr fcp) fsy)) in *.
  set (a3 := fsub (fmul (fmul fcr fcp) fsy) (fmul (fmul fsr fsp) fcy)) in *.
  set (v := mk4 a0 a1 a2 a3).
  assert (Rv : rotor_of_euler (mkeuler ro pi ya) = rotor_normalized (mkrotor v)) by reflexivity.
  set (e := exact_euler (val ro) (val pi) (val ya)). assert (Ee : n4 e = 1) by apply exact_euler_unit.
  assert (D : n4 (sub4 (map4 val v) e) <= 182 / 10 * u).
  { unfold e. rewrite exact_euler_lanes. cbn zeta. fold cr sr cp sp cy sy. replace (182 / 10 * u) with (2 * (91 / 10 * u)) by field. apply n4_all; [lra|..]; unfold v, sub4, map4; cbn [l0 l1 l2 l3]; assumption. }
  assert (Fv : Forall fin (reg_list v)) by (repeat (apply Forall_cons; [assumption|]); apply Forall_nil).
  assert (Nv : bpow radix2 (-20) <= n4 (map4 val v) <= bpow radix2 20).
  { pose proof (n4_diff (map4 val v) e) as Q. rewrite Ee in Q. apply Rabs_le_inv in Q. split.
    - apply (Rle_trans _ (bpow radix2 (-1))); [apply bpow_le; lia|cbn; lra].
    - apply (Rle_trans _ (bpow radix2 1)); [cbn; lra|apply bpow_le; lia]. }
  rewrite Rv. destruct (unit_any B M v HM Fv Nv) as (Fn & En & Dn).
  assert (G : n4 (sub4 (scale4 (/ n4 (map4 val v)) (map4 val v)) e) <= (1 + 182 / 10 * u) * (182 / 10 * u)) by (apply normalize_near; [exact Ee|exact D|lra]).
  assert (uu : u * u <= / 1000000 * u) by (apply Rmult_le_compat_r; lra).
  change (rotor_normalized (mkrotor v)) with (mkrotor (_mm_mul_ps v (rsqrt_nr1 (FL := Flo_f32 M) (dp_bc v v)))).
  set (y := _mm_mul_ps v (rsqrt_nr1 (FL := Flo_f32 M) (dp_bc v v))) in *. clearbody y.
  split.
  - rewrite u_pow. change (rv (mkrotor y)) with (map4 val y). eapply Rle_trans; [apply (n4_via _ (scale4 (/ n4 (map4 val v)) (map4 val v)))|]. lra.
  - split; [exact Fn|]. rewrite u_pow. eapply Rle_trans; [exact En|]. lra.
Qed.

(** ** Translators from a distance and an axis *)
Definition exact_translator (d : R) (a : m128 R) : m128 R := scale4 (- d / 2 / n4 a) a.
Definition tv (t : translator f32) : m128 R := map4 val (translator_p2 t).
Theorem C73_translator : forall M : machine, let FL := Flo_f32 M in forall d x y z : f32,
  fin d -> Rabs (val d) <= 2 ^ 40 -> fin x -> fin y -> fin z -> / 2 ^ 20 <= n4 (axis x y z) <= 2 ^ 20 ->
  Forall fin (reg_list (translator_p2 (translator_ctor d x y z))) /\
  n4 (sub4 (tv (translator_ctor d x y z)) (exact_translator (val d) (axis x y z))) <= 7 * / 2 ^ 24 * (Rabs (val d) / 2) + / 2 ^ 100.
Proof.
  intros M FL d x y z Fd Ld Fx Fy Fz L. pose proof u_small as U. pose proof eta_tiny as T. pose proof eta_pos as T0.
  destruct (inverse_length x y z M Fx Fy Fz L) as (Fi & e & Vi & Ei). fold FL in Fi, Vi.
  set (n := n4 (axis x y z)) in *. assert (P0 : 0 < / 2 ^ 20) by (apply Rinv_0_lt_compat, pow_lt; lra). assert (Pn : 0 < n) by lra.
  set (inv := fdiv (fz 1) (fsqrt (fadd (fadd (fmul x x) (fmul y y)) (fmul z z)))) in *.
  assert (In : 0 < / n) by (apply Rinv_0_lt_compat; exact Pn).
  assert (In2 : / n <= 2 ^ 20) by (rewrite <- (Rinv_inv (2 ^ 20)) by (apply pow_nonzero; lra); apply Rinv_le_contravar; [exact P0|apply L]).
  apply Rabs_le_inv in Ei. set (hd := fmul (fopp (f32_of 1 (-1))) d).
  assert (Vh : val (fopp (f32_of 1 (-1))) = - / 2) by (vm_compute; lra).
  pose proof (Rabs_pos (val d)) as Pd.
  assert (B20 : bpow radix2 20 = 2 ^ 20) by (cbn; ring). assert (B40 : bpow radix2 40 = 2 ^ 40) by (cbn; ring). rewrite <- B20 in In2. assert (L' : n <= bpow radix2 20) by (rewrite B20; apply L). clear L. rename L' into L. rewrite <- B40 in Ld.
  pose proof (bpow_gt_0 radix2 20) as G20. pose proof (bpow_gt_0 radix2 40) as G40.
  assert (Ah : Rabs (val (fopp (f32_of 1 (-1))) * val d) = Rabs (val d) / 2) by (rewrite Vh, Rabs_mult, Rabs_Ropp, (Rabs_pos_eq (/ 2)) by lra; field).
  assert (Fo : fin (fopp (f32_of 1 (-1)))) by (vm_compute; reflexivity).
  destruct (mul_any (fopp (f32_of 1 (-1))) d Fo Fd) as [Fh Eh].
  { rewrite Ah. apply (Rle_trans _ (bpow radix2 40)); [lra|apply bpow_le; lia]. }
  fold hd in Fh, Eh. rewrite Ah, Vh in Eh.
  replace (- / 2 * val d) with (- val d / 2) in Eh by field. set (h := - val d / 2) in *.
  assert (Hh : Rabs h = Rabs (val d) / 2) by (unfold h, Rdiv; rewrite Rabs_mult, Rabs_Ropp, (Rabs_pos_eq (/ 2)) by lra; reflexivity).
  rewrite <- Hh in *. set (k := Rabs h) in *. assert (K0 : 0 <= k <= bpow radix2 40) by lra.
  assert (Hb : Rabs (val hd) <= (1 + u) * k + eta).
  { replace (val hd) with (h + (val hd - h)) by ring. eapply Rle_trans; [apply Rabs_triang|]. fold k. lra. }
  assert (Hl : eta * bpow radix2 40 <= / 2 ^ 110).
  { apply (Rle_trans _ (bpow radix2 (-110))); [unfold eta; rewrite <- bpow_plus; apply bpow_le; lia|]. change (bpow radix2 (-110)) with (/ IZR (Zpower_pos 2 110)). rewrite pow_IZR. right. reflexivity. }
  assert (B1 : 1 <= bpow radix2 20) by (change 1 with (bpow radix2 0); apply bpow_le; lia).
  destruct (n4_lane (axis x y z)) as (_ & N1 & N2 & N3). cbn [axis l1 l2 l3] in N1, N2, N3. fold (axis x y z) in N1, N2, N3. fold n in N1, N2, N3.
  assert (Vb : Rabs (val inv) <= (1 + 4 * u) * / n) by (rewrite Vi, Rabs_mult, (Rabs_pos_eq (/ n)) by lra; rewrite Rmult_comm; apply Rmult_le_compat_r; [lra|apply Rabs_le; lra]).
  assert (uu : u * u <= / 1000000 * u) by (apply Rmult_le_compat_r; lra).
  assert (KK : forall t, fin t -> Rabs (val t) <= n -> let w := fmul (fmul hd t) inv in
    fin w /\ Rabs (val w - h / n * val t) <= 67 / 10 * u * k * / n * Rabs (val t) + 5 * (eta * bpow radix2 40)).
  { intros t Ft Bt w. pose proof (Rabs_pos (val t)) as At.
    assert (Hn : n <= bpow radix2 20) by lra.
    (* h t *)
    assert (Pm : Rabs (val hd * val t) <= (1 + u) * k * Rabs (val t) + eta * Rabs (val t)).
    { rewrite Rabs_mult. replace ((1 + u) * k * Rabs (val t) + eta * Rabs (val t)) with (((1 + u) * k + eta) * Rabs (val t)) by ring. apply Rmult_le_compat_r; assumption. }
    assert (Bm : Rabs (val hd * val t) <= 4 * (bpow radix2 40 * bpow radix2 20)).
    { rewrite Rabs_mult. apply (Rle_trans _ (4 * bpow radix2 40 * bpow radix2 20)); [|lra].
      apply Rmult_le_compat; try apply Rabs_pos; [|lra]. assert (1 <= bpow radix2 40) by (change 1 with (bpow radix2 0); apply bpow_le; lia). nra. }
    destruct (mul_any hd t Fh Ft) as [F1 E1].
    { eapply Rle_trans; [exact Bm|]. change 4 with (bpow radix2 2). rewrite <- !bpow_plus. apply bpow_le. lia. }
    set (p := fmul hd t) in *.
    assert (Ep : Rabs (val p - h * val t) <= 201 / 100 * u * k * Rabs (val t) + 3 * eta * bpow radix2 20).
    { replace (val p - h * val t) with ((val p - val hd * val t) + (val hd - h) * val t) by ring.
      eapply Rle_trans; [apply Rabs_triang|]. rewrite (Rabs_mult (val hd - h)).
      assert (X1 : Rabs (val hd - h) * Rabs (val t) <= (u * k + eta) * Rabs (val t)) by (apply Rmult_le_compat_r; assumption).
      assert (X2 : u * Rabs (val hd * val t) <= u * ((1 + u) * k * Rabs (val t) + eta * Rabs (val t))) by (apply Rmult_le_compat_l; lra).
      assert (X3 : eta * Rabs (val t) <= eta * bpow radix2 20) by (apply Rmult_le_compat_l; lra).
      assert (X4 : 0 <= k * Rabs (val t)) by (apply Rmult_le_pos; lra). assert (X8 : 0 <= u * (k * Rabs (val t))) by (apply Rmult_le_pos; lra). assert (X9 : 0 <= eta * Rabs (val t)) by (apply Rmult_le_pos; lra).
      assert (X5 : u * u * (k * Rabs (val t)) <= / 1000000 * u * (k * Rabs (val t))) by (apply Rmult_le_compat_r; lra).
      assert (X6 : u * (eta * Rabs (val t)) <= / 1000000 * (eta * Rabs (val t))) by (apply Rmult_le_compat_r; [apply Rmult_le_pos; lra|lra]).
      assert (X7 : eta * 1 <= eta * bpow radix2 20) by (apply Rmult_le_compat_l; lra). lra. }
    set (q := k * Rabs (val t)) in *. assert (q0 : 0 <= q) by (apply Rmult_le_pos; lra). assert (uq : 0 <= u * q) by (apply Rmult_le_pos; lra).
    replace (201 / 100 * u * k * Rabs (val t)) with (201 / 100 * u * q) in Ep by (unfold q; ring).
    assert (Hq : Rabs (h * val t) = q) by (rewrite Rabs_mult; reflexivity).
    assert (Pb : Rabs (val p) <= (1 + 3 * u) * q + 3 * eta * bpow radix2 20).
    { replace (val p) with (h * val t + (val p - h * val t)) by ring. eapply Rle_trans; [apply Rabs_triang|]. rewrite Hq. lra. }
    assert (eb : 0 <= eta * bpow radix2 20) by (apply Rmult_le_pos; lra).
    set (z' := eta * bpow radix2 20) in *.
    assert (Zi : z' * / n <= bpow radix2 20 * z') by (rewrite (Rmult_comm z'); apply Rmult_le_compat_r; lra).
    assert (Pv : Rabs (val p * val inv) <= ((1 + 3 * u) * q + 3 * z') * ((1 + 4 * u) * / n)).
    { rewrite Rabs_mult. apply Rmult_le_compat; try apply Rabs_pos; [|exact Vb]. unfold z'. lra. }
    assert (qi : q * / n <= k).
    { unfold q. rewrite Rmult_assoc. rewrite <- (Rmult_1_r k) at 2. apply Rmult_le_compat_l; [lra|]. apply (Rmult_le_reg_r n); [exact Pn|]. rewrite Rmult_assoc, Rinv_l by lra. lra. }
    assert (qp : 0 <= q * / n) by (apply Rmult_le_pos; lra). assert (zp : 0 <= z' * / n) by (apply Rmult_le_pos; lra).
    assert (Pv' : Rabs (val p * val inv) <= (1 + 8 * u) * (q * / n) + 4 * (z' * / n)).
    { eapply Rle_trans; [exact Pv|]. replace (((1 + 3 * u) * q + 3 * z') * ((1 + 4 * u) * / n)) with ((1 + 3 * u) * (1 + 4 * u) * (q * / n) + 3 * (1 + 4 * u) * (z' * / n)) by ring.
      apply Rplus_le_compat; apply Rmult_le_compat_r; try assumption; lra. }
    assert (z1 : z' * / n <= 1).
    { eapply Rle_trans; [exact Zi|]. unfold z', eta. rewrite <- !bpow_plus. change 1 with (bpow radix2 0). apply bpow_le. lia. }
    destruct (mul_any p inv F1 Fi) as [F2 E2].
    { eapply Rle_trans; [exact Pv'|]. apply (Rle_trans _ (8 * bpow radix2 40)).
      - assert (1 <= bpow radix2 40) by (change 1 with (bpow radix2 0); apply bpow_le; lia).
        assert ((1 + 8 * u) * (q * / n) <= 2 * (q * / n)) by (apply Rmult_le_compat_r; lra). lra.
      - change 8 with (bpow radix2 3). rewrite <- bpow_plus. apply bpow_le. lia. }
    fold w in F2, E2. split; [exact F2|].
    replace (val w - h / n * val t) with ((val w - val p * val inv) + (val p - h * val t) * val inv + (h * val t) * (val inv - / n)) by (field; lra).
    eapply Rle_trans; [apply Rabs_triang|]. eapply Rle_trans; [apply Rplus_le_compat_r, Rabs_triang|]. rewrite (Rabs_mult (val p - _)), (Rabs_mult (h * val t)), Hq.
    assert (Y1 : u * Rabs (val p * val inv) <= u * ((1 + 8 * u) * (q * / n) + 4 * (z' * / n))) by (apply Rmult_le_compat_l; lra).
    assert (Y2 : Rabs (val p - h * val t) * Rabs (val inv) <= (201 / 100 * u * q + 3 * z') * ((1 + 4 * u) * / n)).
    { apply Rmult_le_compat; try apply Rabs_pos; [|exact Vb]. eapply Rle_trans; [exact Ep|]. unfold z'. lra. }
    assert (Y3 : q * Rabs (val inv - / n) <= q * (36 / 10 * u * / n)).
    { apply Rmult_le_compat_l; [exact q0|]. rewrite Vi. replace (/ n * (1 + e) - / n) with (e * / n) by ring. rewrite Rabs_mult, (Rabs_pos_eq (/ n)) by lra. apply Rmult_le_compat_r; [lra|]. apply Rabs_le. exact Ei. }
    replace (67 / 10 * u * k * / n * Rabs (val t)) with (67 / 10 * u * (q * / n)) by (unfold q; ring).
    replace ((201 / 100 * u * q + 3 * z') * ((1 + 4 * u) * / n)) with (201 / 100 * u * (q * / n) + 804 / 100 * (u * u) * (q * / n) + (3 + 12 * u) * (z' * / n)) in Y2 by (field; lra).
    replace (u * ((1 + 8 * u) * (q * / n) + 4 * (z' * / n))) with (u * (q * / n) + 8 * (u * u) * (q * / n) + 4 * u * (z' * / n)) in Y1 by ring.
    replace (q * (36 / 10 * u * / n)) with (36 / 10 * u * (q * / n)) in Y3 by ring.
    set (Q := q * / n) in *. set (Z := z' * / n) in *.
    assert (W1 : u * u * Q <= / 1000000 * u * Q) by (apply Rmult_le_compat_r; lra).
    assert (W2 : u * Z <= / 1000000 * Z) by (apply Rmult_le_compat_r; lra).
    assert (W3 : eta <= z') by (unfold z'; rewrite <- (Rmult_1_r eta) at 1; apply Rmult_le_compat_l; lra).
    (* the underflow terms *)
    assert (uQ : 0 <= u * Q) by (apply Rmult_le_pos; lra).
    assert (W4 : bpow radix2 20 * z' = eta * bpow radix2 40) by (unfold z'; change 40%Z with (20 + 20)%Z; rewrite bpow_plus; ring).
    assert (W5 : z' <= eta * bpow radix2 40) by (unfold z'; apply Rmult_le_compat_l; [lra|apply bpow_le; lia]).
    fold Z in Zi. rewrite W4 in Zi. lra. }
  destruct (KK x Fx N1) as [F1 E1]. destruct (KK y Fy N2) as [F2 E2]. destruct (KK z Fz N3) as [F3 E3].
  destruct (fz_ok 0 ltac:(lia)) as [Fz0 Vz0].
  assert (Z0 : fin (fmul (fmul hd (fz 0)) (fz 0)) /\ val (fmul (fmul hd (fz 0)) (fz 0)) = 0).
  { destruct (mul_ok hd (fz 0) Fh Fz0) as [Fa Va]; [rewrite Vz0, Rmult_0_r, Rabs_R0; apply bpow_ge_0|].
    destruct (mul_ok (fmul hd (fz 0)) (fz 0) Fa Fz0) as [Fb Vb']; [rewrite Vz0, Rmult_0_r, Rabs_R0; apply bpow_ge_0|].
    split; [exact Fb|]. rewrite Vb', Vz0, Rmult_0_r. apply round_0. typeclasses eauto. }
  destruct Z0 as [Fw Vw].
  change (translator_p2 (translator_ctor d x y z)) with (mk4 (fmul (fmul hd (fz 0)) (fz 0)) (fmul (fmul hd x) inv) (fmul (fmul hd y) inv) (fmul (fmul hd z) inv)).
  split; [repeat (apply Forall_cons; [assumption|]); apply Forall_nil|].
  change (tv (translator_ctor d x y z)) with (mk4 (val (fmul (fmul hd (fz 0)) (fz 0))) (val (fmul (fmul hd x) inv)) (val (fmul (fmul hd y) inv)) (val (fmul (fmul hd z) inv))).
  rewrite Vw. unfold exact_translator. fold n h. rewrite u_pow. set (g := 67 / 10 * u * k * / n) in *. set (c := 5 * (eta * bpow radix2 40)) in *.
  assert (g0 : 0 <= g) by (unfold g; apply Rmult_le_pos; [apply Rmult_le_pos; lra|lra]).
  assert (c0 : 0 <= c) by (unfold c; apply Rmult_le_pos; [lra|apply Rmult_le_pos; lra]).
  apply (Rle_trans _ (n4 (add4 (scale4 g (abs4 (axis x y z))) (mk4 c c c c)))).
  - apply n4_mono; unfold sub4, add4, scale4, abs4, axis, map4; cbn [l0 l1 l2 l3]; try assumption.
    rewrite Rmult_0_r, Rminus_0_r, Rabs_R0. lra.
  - eapply Rle_trans; [apply n4_add|]. rewrite n4_scale, abs4_n4 by exact g0. fold n.
    assert (n4 (mk4 c c c c) <= 2 * c) by (apply n4_all; cbn [l0 l1 l2 l3]; try rewrite Rabs_pos_eq; lra).
    replace (g * n) with (67 / 10 * u * k) by (unfold g; field; lra).
    assert (10 * / 2 ^ 110 <= / 2 ^ 100).
    { apply (Rmult_le_reg_r (2 ^ 110)); [apply pow_lt; lra|]. rewrite Rmult_assoc, Rinv_l by (apply pow_nonzero; lra).
      replace (2 ^ 110) with (2 ^ 100 * 2 ^ 10) by ring. rewrite <- Rmult_assoc, Rinv_l by (apply pow_nonzero; lra). lra. }
    assert (0 <= u * k) by (apply Rmult_le_pos; lra). unfold c in *. lra.
Qed.

(** ** Square roots *)
Definition one_plus (v : m128 R) : m128 R := mk4 (1 + l0 v) (l1 v) (l2 v) (l3 v).
Lemma unit_root e : n4 e = 1 -> 0 < n4 (one_plus e) ->
  let s := scale4 (/ n4 (one_plus e)) (one_plus e) in qm s s = e /\ n4 s = 1.
Proof.
  intros E W s. split.
  - pose proof (n4_sq e) as Q. rewrite E in Q. pose proof (n4_sq (one_plus e)) as S. set (W' := n4 (one_plus e)) in *.
    destruct e as [a b c d]. unfold q4, one_plus in Q, S. cbn [l0 l1 l2 l3] in Q, S.
    assert (S' : W' * W' = 2 * (1 + a)) by lra. assert (A : 0 < 1 + a) by nra.
    assert (I : / W' * / W' = / (2 * (1 + a))) by (rewrite <- Rinv_mult, S'; reflexivity).
    unfold s, qm, scale4, one_plus, map4. cbn [l0 l1 l2 l3]. fold W'. set (i := / W') in *.
    f_equal.
    + replace (i * (1 + a) * (i * (1 + a)) - i * b * (i * b) - i * c * (i * c) - i * d * (i * d)) with (i * i * ((1 + a) * (1 + a) - (b * b + c * c + d * d))) by ring.
      rewrite I. replace (b * b + c * c + d * d) with (1 - a * a) by lra. field. lra.
    + replace (i * (1 + a) * (i * b) + i * b * (i * (1 + a)) - i * c * (i * d) + i * d * (i * c)) with (i * i * (2 * (1 + a) * b)) by ring. rewrite I. field. lra.
    + replace (i * (1 + a) * (i * c) + i * c * (i * (1 + a)) - i * d * (i * b) + i * b * (i * d)) with (i * i * (2 * (1 + a) * c)) by ring. rewrite I. field. lra.
    + replace (i * (1 + a) * (i * d) + i * d * (i * (1 + a)) - i * b * (i * c) + i * c * (i * b)) with (i * i * (2 * (1 + a) * d)) by ring. rewrite I. field. lra.
  - unfold s. rewrite n4_scale by (left; apply Rinv_0_lt_compat; exact W). field. lra.
Qed.
Lemma dir_near a b : 0 < n4 a -> 0 < n4 b -> n4 (sub4 (scale4 (/ n4 a) a) (scale4 (/ n4 b) b)) <= 2 * n4 (sub4 a b) / n4 a.
Proof.
  intros A B. set (x := n4 a) in *. set (y := n4 b) in *.
  replace (sub4 (scale4 (/ x) a) (scale4 (/ y) b)) with (add4 (scale4 (/ x) (sub4 a b)) (scale4 (/ x - / y) b))
    by (unfold sub4, add4, scale4, map4; cbn [l0 l1 l2 l3]; f_equal; ring).
  eapply Rle_trans; [apply n4_add|]. rewrite n4_scale by (left; apply Rinv_0_lt_compat; exact A). rewrite n4_scale_abs. fold y.
  assert (E : Rabs (/ x - / y) * y = Rabs (y - x) * / x).
  { replace (/ x - / y) with ((y - x) * (/ x * / y)) by (field; lra). rewrite Rabs_mult, (Rabs_pos_eq (/ x * / y)) by (left; apply Rmult_lt_0_compat; apply Rinv_0_lt_compat; assumption). field. lra. }
  rewrite E. pose proof (n4_diff b a) as D. fold x y in D. rewrite n4_sym in D.
  assert (Rabs (y - x) * / x <= n4 (sub4 a b) * / x) by (apply Rmult_le_compat_r; [left; apply Rinv_0_lt_compat; exact A|exact D]). unfold Rdiv. lra.
Qed.
Lemma qm_sub_r a b c : sub4 (qm a b) (qm a c) = qm a (sub4 b c).
Proof. unfold sub4, qm. cbn [l0 l1 l2 l3]. f_equal; ring. Qed.
Lemma sqrt_core (B : Build) M (v : m128 f32) : rsqrt_estimate M -> near_unit (mkrotor v) -> / 2 ^ 10 <= n4 (one_plus (map4 val v)) ->
  let w := mk4 (fadd (l0 v) (fz 1)) (l1 v) (l2 v) (l3 v) in let y := _mm_mul_ps w (rsqrt_nr1 (FL := Flo_f32 M) (dp_bc w w)) in
  near_unit (mkrotor y) /\ n4 (sub4 (qm (map4 val y) (map4 val y)) (map4 val v)) <= 125 * u / n4 (one_plus (map4 val v)).
Proof.
  intros HM [Fv Qv] LW w y. pose proof u_small as U. pose proof eta_tiny as T. pose proof eta_pos as T0. rewrite u_pow in Qv.
  change (rv (mkrotor v)) with (map4 val v) in Qv. set (r := map4 val v) in *. set (W := n4 (one_plus r)) in *.
  assert (uu : u * u <= / 1000000 * u) by (apply Rmult_le_compat_r; lra).
  assert (P10 : / 2 ^ 10 = / 1024) by (f_equal; ring). rewrite P10 in LW.
  set (m := n4 r). pose proof (n4_pos r) as M0. fold m in M0.
  assert (Nm : Rabs (m - 1) <= 121 / 10 * u).
  { rewrite <- n4_sq in Qv. fold m in Qv. apply Rabs_le_inv in Qv. apply Rabs_le. split; [|nra].
    destruct (Rle_or_lt (- (121 / 10 * u)) (m - 1)) as [X|X]; [exact X|exfalso]. assert (m * m <= (1 - 121 / 10 * u) * (1 - 121 / 10 * u)) by (apply Rmult_le_compat; lra). nra. }
  pose proof (Rabs_le_inv _ _ Nm) as Nm'.
  set (e := scale4 (/ m) r). assert (Ee : n4 e = 1) by (unfold e; rewrite n4_scale by (left; apply Rinv_0_lt_compat; lra); fold m; field; lra).
  assert (De : n4 (sub4 r e) <= 122 / 10 * u).
  { replace (sub4 r e) with (scale4 (1 - / m) r) by (unfold e, sub4, scale4, map4; cbn [l0 l1 l2 l3]; f_equal; ring). rewrite n4_scale_abs. fold m.
    replace (Rabs (1 - / m) * m) with (Rabs (m - 1)); [lra|]. replace (m - 1) with ((1 - / m) * m) by (field; lra). rewrite Rabs_mult, (Rabs_pos_eq m) by lra. reflexivity. }
  assert (WH : W <= 2 + 13 * u).
  { unfold W. replace (one_plus r) with (add4 (mk4 1 0 0 0) r) by (unfold add4, one_plus; cbn [l0 l1 l2 l3]; f_equal; ring).
    eapply Rle_trans; [apply n4_add|]. fold m. rewrite (one_n4 (mk4 1 0 0 0)) by (unfold q4; cbn [l0 l1 l2 l3]; ring). lra. }
  (* the sum *)
  destruct v as [a b c d]. cbn [l0 l1 l2 l3] in w.
  change (coefs (k := KRotor) (mkrotor (mk4 a b c d))) with [a; b; c; d] in Fv.
  inversion_clear Fv as [|? ? Fa F']. inversion_clear F' as [|? ? Fb F'']. inversion_clear F'' as [|? ? Fc F3]. inversion_clear F3 as [|? ? Fd _].
  destruct (n4_lane r) as (R0 & _). change (l0 r) with (val a) in R0. fold m in R0.
  destruct (fz_ok 1 ltac:(lia)) as [F1 V1].
  assert (Bw : Rabs (val a + 1) <= W).
  { destruct (n4_lane (one_plus r)) as (Q & _). change (l0 (one_plus r)) with (1 + val a) in Q. fold W in Q. rewrite Rplus_comm. exact Q. }
  destruct (add_ok a (fz 1) Fa F1) as [Fs Vs].
  { rewrite V1. apply (Rle_trans _ 4); [lra|]. change 4 with (bpow radix2 2). apply bpow_le. lia. }
  rewrite V1 in Vs. pose proof (rnd_any (val a + 1)) as Es. rewrite <- Vs in Es.
  set (wv := map4 val w).
  assert (Dw : n4 (sub4 (one_plus r) wv) <= 1002 / 1000 * u * W).
  { rewrite n4_sym. apply n4_le; [apply Rmult_le_pos; lra|]. unfold wv, w, r, q4, sub4, one_plus, map4. cbn [l0 l1 l2 l3].
    assert (Rabs (val (fadd a (fz 1)) - (1 + val a)) <= 1002 / 1000 * u * W).
    { rewrite (Rplus_comm 1). eapply Rle_trans; [exact Es|]. assert (u * Rabs (val a + 1) <= u * W) by (apply Rmult_le_compat_l; lra).
      assert (u * / 1024 <= u * W) by (apply Rmult_le_compat_l; lra). lra. }
    set (t := val (fadd a (fz 1)) - (1 + val a)) in *. apply Rabs_le_inv in H. set (z := 1002 / 1000 * u * W) in *. nra. }
  assert (Fw : Forall fin (reg_list w)) by (repeat (apply Forall_cons; [assumption|]); apply Forall_nil).
  assert (W0 : 0 < W) by lra. assert (uW : 0 < u * W) by (apply Rmult_lt_0_compat; lra). assert (uW2 : u * W <= / 1000000 * W) by (apply Rmult_le_compat_r; lra).
  assert (Nw : W / 2 <= n4 wv <= 2 * W).
  { pose proof (n4_diff (one_plus r) wv) as Q. fold W in Q. apply Rabs_le_inv in Q. lra. }
  assert (Nw' : bpow radix2 (-20) <= n4 (map4 val w) <= bpow radix2 20).
  { fold wv. split; [apply (Rle_trans _ (bpow radix2 (-11))); [apply bpow_le; lia|cbn; lra]|].
    apply (Rle_trans _ (bpow radix2 3)); [cbn; lra|apply bpow_le; lia]. }
  destruct (unit_any B M w HM Fw Nw') as (Fy & Ey & Dy). fold y in Fy, Ey, Dy. fold wv in Dy.
  split; [split; [exact Fy|]; rewrite u_pow; eapply Rle_trans; [exact Ey|]; lra|].
  set (yv := map4 val y) in *. clearbody yv. clear y Fy Ey.
  (* the exact root *)
  set (We := n4 (one_plus e)).
  assert (Dwe : n4 (sub4 (one_plus r) (one_plus e)) <= 122 / 10 * u).
  { replace (sub4 (one_plus r) (one_plus e)) with (sub4 r e) by (unfold sub4, one_plus; cbn [l0 l1 l2 l3]; f_equal; ring). exact De. }
  assert (We0 : 0 < We).
  { pose proof (n4_diff (one_plus r) (one_plus e)) as Q. fold W We in Q. apply Rabs_le_inv in Q. lra. }
  destruct (unit_root e Ee We0) as [Rt Ns]. fold We in Rt, Ns. set (s := scale4 (/ We) (one_plus e)) in *.
  assert (iW : 0 < / W) by (apply Rinv_0_lt_compat; exact W0).
  assert (iW2 : 1 <= (2 + 13 * u) * / W) by (apply (Rmult_le_reg_r W); [exact W0|]; rewrite Rmult_assoc, Rinv_l by lra; lra).
  assert (iW3 : / W <= 1024) by (rewrite <- (Rinv_inv 1024); apply Rinv_le_contravar; lra).
  assert (D1 : n4 (sub4 (scale4 (/ W) (one_plus r)) (scale4 (/ n4 wv) wv)) <= 2005 / 1000 * u).
  { eapply Rle_trans; [apply dir_near; [exact W0|lra]|]. fold W. apply (Rmult_le_reg_r W); [exact W0|]. unfold Rdiv. rewrite Rmult_assoc, Rinv_l by lra. lra. }
  assert (D2 : n4 (sub4 (scale4 (/ W) (one_plus r)) s) <= 244 / 10 * u * / W).
  { unfold s. eapply Rle_trans; [apply dir_near; [exact W0|exact We0]|]. fold W. unfold Rdiv. apply Rmult_le_compat_r; lra. }
  assert (D3 : n4 (sub4 yv s) <= 485 / 10 * u * / W).
  { eapply Rle_trans; [apply (n4_via _ (scale4 (/ n4 wv) wv))|]. eapply Rle_trans; [apply Rplus_le_compat; [exact Dy|apply (n4_via _ (scale4 (/ W) (one_plus r)))]|].
    rewrite (n4_sym (scale4 (/ n4 wv) wv)).
    assert (u * 1 <= u * ((2 + 13 * u) * / W)) by (apply Rmult_le_compat_l; lra).
    assert (0 < u * / W) by (apply Rmult_lt_0_compat; lra). assert (u * u * / W <= / 1000000 * u * / W) by (apply Rmult_le_compat_r; lra). nra. }
  assert (D4 : n4 (sub4 yv s) <= 3 / 1000).
  { eapply Rle_trans; [exact D3|]. assert (u * / W <= u * 1024) by (apply Rmult_le_compat_l; lra).
    assert (u = / 16777216) by reflexivity. lra. }
  eapply Rle_trans; [apply (n4_via _ e)|].
  assert (D5 : n4 (sub4 (qm yv yv) e) <= 2003 / 1000 * (485 / 10 * u * / W)).
  { rewrite <- Rt. eapply Rle_trans; [apply (n4_via _ (qm s yv))|]. rewrite qm_sub_l, qm_sub_r, !qm_n4, Ns.
    pose proof (n4_tri yv s) as Q. rewrite Ns in Q. pose proof (n4_pos (sub4 yv s)) as Z.
    assert (n4 (sub4 yv s) * n4 yv <= n4 (sub4 yv s) * (1003 / 1000)) by (apply Rmult_le_compat_l; lra). lra. }
  rewrite (n4_sym e r).
  assert (u * 1 <= u * ((2 + 13 * u) * / W)) by (apply Rmult_le_compat_l; lra).
  assert (0 < u * / W) by (apply Rmult_lt_0_compat; lra). assert (u * u * / W <= / 1000000 * u * / W) by (apply Rmult_le_compat_r; lra). unfold Rdiv. lra.
Qed.
(** The square of the square root is the rotor, up to 125 units divided by the length
    of 1 + r; the closer r is to a full turn (-1), the less is promised. *)
Theorem C73_sqrt : forall (B : Build) (M : machine), rsqrt_estimate M -> let FL := Flo_f32 M in
  (forall r : rotor f32, near_unit r -> / 2 ^ 10 <= n4 (one_plus (rv r)) ->
     near_unit (rotor_sqrt r) /\ n4 (sub4 (qm (rv (rotor_sqrt r)) (rv (rotor_sqrt r))) (rv r)) <= 125 * / 2 ^ 24 / n4 (one_plus (rv r))) /\
  (forall b : branch f32, near_unit (mkrotor (branch_p1 b)) -> val (l0 (branch_p1 b)) = 0 ->
     near_unit (branch_sqrt b) /\ n4 (sub4 (qm (rv (branch_sqrt b)) (rv (branch_sqrt b))) (rv (mkrotor (branch_p1 b)))) <= 89 * / 2 ^ 24) /\
  (forall m : motor f32, near_unit (mkrotor (motor_p1 m)) -> / 2 ^ 10 <= n4 (one_plus (rv (mkrotor (motor_p1 m)))) ->
     let y := mkrotor (motor_p1 (motor_sqrt m)) in
     near_unit y /\ n4 (sub4 (qm (rv y) (rv y)) (rv (mkrotor (motor_p1 m)))) <= 125 * / 2 ^ 24 / n4 (one_plus (rv (mkrotor (motor_p1 m))))).
Proof.
  intros B M HM FL. rewrite u_pow. split; [|split].
  - intros r N L. exact (sqrt_core B M (rotor_p1 r) HM N L).
  - intros b N Z.
    assert (W : 1412 / 1000 <= n4 (one_plus (rv (mkrotor (branch_p1 b))))).
    { destruct N as [_ Q]. rewrite u_pow in Q. pose proof u_small as U. apply Rabs_le_inv in Q.
      set (v := rv (mkrotor (branch_p1 b))) in *. assert (Z' : l0 v = 0) by exact Z.
      destruct (Rle_or_lt (1412 / 1000) (n4 (one_plus v))) as [X|X]; [exact X|exfalso].
      pose proof (n4_sq (one_plus v)) as S. pose proof (n4_pos (one_plus v)) as P. unfold q4, one_plus in S. unfold q4 in Q. cbn [l0 l1 l2 l3] in S. fold (one_plus v) in S. rewrite Z' in S, Q.
      assert (n4 (one_plus v) * n4 (one_plus v) <= 1412 / 1000 * (1412 / 1000)) by (apply Rmult_le_compat; lra). lra. }
    destruct (sqrt_core B M (branch_p1 b) HM N) as [N1 N2].
    { eapply Rle_trans; [|exact W]. replace (/ 2 ^ 10) with (/ 1024) by (f_equal; ring). lra. }
    split; [exact N1|]. eapply Rle_trans; [exact N2|]. change (map4 val (branch_p1 b)) with (rv (mkrotor (branch_p1 b))). pose proof u_small as U.
    set (W' := n4 (one_plus _)) in *. apply (Rmult_le_reg_r W'); [lra|]. unfold Rdiv. rewrite Rmult_assoc, Rinv_l by lra. nra.
  - intros m N L. exact (sqrt_core B M (motor_p1 m) HM N L).
Qed.

(** ** The exponential of a branch *)
Lemma hi_squares (B : Build) (v : m128 f32) : let a := axis (l1 v) (l2 v) (l3 v) in
  fin (l1 v) -> fin (l2 v) -> fin (l3 v) -> bpow radix2 (-40) <= n4 a <= bpow radix2 20 -> rel (31 / 10) (l0 (hi_dp v v)) (q4 a a).
Proof.
  intros a Fx Fy Fz [L H]. destruct v as [w x y z]. cbn [l0 l1 l2 l3] in *.
  set (e := l0 (hi_dp (vreg 0) (vreg 0))). set (v0 := mk4 (f32_of 0 0) x y z).
  assert (Ev : l0 (hi_dp (mk4 w x y z) (mk4 w x y z)) = eval (lanes4 v0) e) by (destruct B as [[|]]; reflexivity). rewrite Ev. clear Ev.
  destruct (n4_lane a) as (_ & N1 & N2 & N3). cbn [a axis l1 l2 l3] in N1, N2, N3. fold a in N1, N2, N3. set (q := q4 a a).
  assert (Q : bpow radix2 (-80) <= q).
  { unfold q. rewrite <- n4_sq. change (-80)%Z with (-40 + -40)%Z. rewrite bpow_plus. apply Rmult_le_compat; try exact L; apply bpow_ge_0. }
  assert (Q0 : 0 < q) by (pose proof (bpow_gt_0 radix2 (-80)); lra).
  destruct (rounding_any (lanes4 v0) (2 ^ 20) e) as [Fe Ee].
  - lia.
  - rewrite (IZR_Zpower radix2) by lia. assert (Z0 : bounded 20 (f32_of 0 0)) by apply (bounded_zero 20). assert (Z : bounded 20 (B754_zero false)) by apply bounded_zero.
    intro n. unfold lanes4, v0. cbn [l0 l1 l2 l3]. destruct n as [|[|[|[|[|n]]]]]; cbn [nth]; try exact Z; try exact Z0; (split; [assumption|]); eapply Rle_trans; eassumption.
  - destruct B as [[|]]; vm_compute; reflexivity.
  - destruct B as [[|]]; vm_compute; lia.
  - apply rel_of_err; [exact Q0|exact Fe|].
    assert (A : forall t : R, Rabs t * Rabs t = t * t) by (intro t; rewrite <- Rabs_mult; apply Rabs_pos_eq; nra).
    assert (E1 : eval (A := Arith_R) (fun n => val (lanes4 v0 n)) e = q) by (unfold q, q4, a, axis, e; destruct B as [[|]]; cbn; ring).
    assert (E2 : absv (fun n => val (lanes4 v0 n)) e = q) by (unfold q, q4, a, axis, e; destruct B as [[|]]; cbn; rewrite ?A, ?Rabs_R0; ring).
    rewrite E1, E2 in Ee. eapply Rle_trans; [exact Ee|].
    assert (D : (dep e <= 3)%nat) by (unfold e; destruct B as [[|]]; vm_compute; lia).
    assert (S : (slack (2 ^ 20) e <= 2 ^ 30)%Z) by (unfold e; destruct B as [[|]]; vm_compute; discriminate).
    pose proof (P_lin (dep e) ltac:(lia)) as PL. assert (Id : INR (dep e) <= 3) by (replace 3 with (INR 3) by (cbn; lra); apply le_INR; exact D).
    pose proof (pos_INR (dep e)) as I0. pose proof u_small as U. assert (Ud : INR (dep e) * u <= 3 * u) by (apply Rmult_le_compat_r; lra).
    assert (Sl : eta * IZR (slack (2 ^ 20) e) <= / 1000 * u * q).
    { apply (Rle_trans _ (eta * bpow radix2 30)).
      - apply Rmult_le_compat_l; [pose proof eta_pos; lra|]. rewrite <- (IZR_Zpower radix2) by lia. apply IZR_le. exact S.
      - apply (Rle_trans _ (/ 1000 * u * bpow radix2 (-80))); [|apply Rmult_le_compat_l; [lra|exact Q]].
        apply (Rle_trans _ (bpow radix2 (-40) * bpow radix2 (-80))); [unfold eta; rewrite <- !bpow_plus; apply bpow_le; lia|].
        apply Rmult_le_compat_r; [apply bpow_ge_0|]. unfold u. cbn. lra. }
    assert ((P (dep e) - 1) * q <= 3001 / 1000 * u * q) by (apply Rmult_le_compat_r; lra).
    assert (0 <= u * q) by (apply Rmult_le_pos; lra).
    assert (P (dep e) * (eta * IZR (slack (2 ^ 20) e)) <= 2 * (/ 1000 * u * q)).
    { apply Rmult_le_compat; try exact Sl; try lra.
      - pose proof (P_64 (dep e) ltac:(lia)). lra.
      - apply Rmult_le_pos; [pose proof eta_pos; lra|]. apply IZR_le, slack_nonneg. lia. }
    lra.
Qed.
Lemma hi_length (B : Build) M (v : m128 f32) : rsqrt_estimate M -> let a := axis (l1 v) (l2 v) (l3 v) in
  fin (l1 v) -> fin (l2 v) -> fin (l3 v) -> bpow radix2 (-40) <= n4 a <= bpow radix2 20 ->
  rel (91 / 10) (l0 (sqrt_nr1 (FL := Flo_f32 M) (hi_dp v v))) (n4 a).
Proof.
  intros HM a Fx Fy Fz L. destruct (hi_squares B v Fx Fy Fz L) as (Fn & e & Vn & En). fold a in Vn. apply Rabs_le_inv in En.
  set (h := hi_dp v v) in *. set (n := l0 h) in *. pose proof u_small as U.
  assert (uu : u * u <= / 1000000 * u) by (apply Rmult_le_compat_r; lra). assert (uu0 : 0 < u * u) by (apply Rmult_lt_0_compat; lra).
  change (l0 (sqrt_nr1 (FL := Flo_f32 M) h)) with (fmul n (rsqrt_step (H := Flo_f32 M) n)). clearbody n. clear h.
  set (t := n4 a) in *. destruct L as [Ll Lh]. pose proof (bpow_gt_0 radix2 (-40)) as G. assert (T0 : 0 < t) by lra.
  rewrite <- n4_sq in Vn. fold t in Vn.
  assert (Tt : 0 < t * t) by nra.
  assert (Pn : 0 < val n) by (rewrite Vn; apply Rmult_lt_0_compat; lra).
  assert (T1 : bpow radix2 (-80) <= t * t) by (change (-80)%Z with (-40 + -40)%Z; rewrite bpow_plus; apply Rmult_le_compat; lra).
  assert (T2 : t * t <= bpow radix2 40) by (change 40%Z with (20 + 20)%Z; rewrite bpow_plus; apply Rmult_le_compat; lra).
  assert (B1 : t * t * / 2 <= val n <= t * t * 2) by (rewrite Vn; split; apply Rmult_le_compat_l; lra).
  assert (Rn : nr_range n).
  { split; [exact Fn|]. rewrite Rabs_pos_eq by lra. split.
    - apply (Rle_trans _ (bpow radix2 (-80) * bpow radix2 (-1))); [rewrite <- bpow_plus; apply bpow_le; lia|]. change (bpow radix2 (-1)) with (/ 2). lra.
    - apply (Rle_trans _ (bpow radix2 40 * bpow radix2 1)); [|rewrite <- bpow_plus; apply bpow_le; lia]. change (bpow radix2 1) with 2. lra. }
  destruct (rsqrt_step_error M n HM Rn Pn) as (Fs & Ps & Es). set (s := rsqrt_step n) in *. apply Rabs_le_inv in Es.
  set (w := sqrt (val n)) in *. assert (W0 : 0 < w) by (apply sqrt_lt_R0; exact Pn). assert (W : w * w = val n) by (apply sqrt_sqrt; lra).
  assert (Wt : t * (1 - 156 / 100 * u) <= w <= t * (1 + 156 / 100 * u)).
  { split.
    - destruct (Rle_or_lt (t * (1 - 156 / 100 * u)) w) as [X|X]; [exact X|exfalso].
      assert (w * w <= t * (1 - 156 / 100 * u) * (t * (1 - 156 / 100 * u))) by (apply Rmult_le_compat; lra).
      assert (t * t * ((1 - 156 / 100 * u) * (1 - 156 / 100 * u)) < t * t * (1 + e)) by (apply Rmult_lt_compat_l; lra). lra.
    - destruct (Rle_or_lt w (t * (1 + 156 / 100 * u))) as [X|X]; [exact X|exfalso].
      assert (t * (1 + 156 / 100 * u) * (t * (1 + 156 / 100 * u)) <= w * w) by (apply Rmult_le_compat; try (apply Rmult_le_pos; lra); lra).
      assert (t * t * (1 + e) < t * t * ((1 + 156 / 100 * u) * (1 + 156 / 100 * u))) by (apply Rmult_lt_compat_l; lra). lra. }
  assert (Pr : val n * val s = w * (w * val s)) by (rewrite <- W; ring).
  set (g := w * val s) in *.
  assert (PL : t * (1 - 807 / 100 * u) <= val n * val s).
  { rewrite Pr. apply (Rle_trans _ (t * (1 - 156 / 100 * u) * (1 - 13 / 2 * u))); [|apply Rmult_le_compat; try apply Rmult_le_pos; lra].
    rewrite Rmult_assoc. apply Rmult_le_compat_l; lra. }
  assert (PH : val n * val s <= t * (1 + 807 / 100 * u)).
  { rewrite Pr. apply (Rle_trans _ (t * (1 + 156 / 100 * u) * (1 + 13 / 2 * u))); [apply Rmult_le_compat; lra|].
    rewrite Rmult_assoc. apply Rmult_le_compat_l; lra. }
  assert (ut : 0 < u * t) by (apply Rmult_lt_0_compat; lra). assert (ut2 : u * t <= / 1000000 * t) by (apply Rmult_le_compat_r; lra).
  assert (Pp : 0 <= val n * val s) by (apply Rmult_le_pos; lra).
  destruct (mul_any n s Fn Fs) as [Fm Em].
  { rewrite Rabs_pos_eq by exact Pp. apply (Rle_trans _ (bpow radix2 20 * bpow radix2 1)); [|rewrite <- bpow_plus; apply bpow_le; lia]. change (bpow radix2 1) with 2. lra. }
  apply rel_of_err; [exact T0|exact Fm|]. rewrite (Rabs_pos_eq (val n * val s)) in Em by exact Pp.
  assert (Et : eta <= / 1000 * u * t).
  { apply (Rle_trans _ (/ 1000 * u * bpow radix2 (-40))); [|apply Rmult_le_compat_l; lra].
    apply (Rle_trans _ (bpow radix2 (-40) * bpow radix2 (-40))); [unfold eta; rewrite <- bpow_plus; apply bpow_le; lia|]. apply Rmult_le_compat_r; [lra|]. unfold u. cbn. lra. }
  assert (u * (val n * val s) <= u * (t * (1 + 807 / 100 * u))) by (apply Rmult_le_compat_l; lra).
  assert (u * u * t <= / 1000000 * u * t) by (apply Rmult_le_compat_r; lra).
  apply Rabs_le_inv in Em. apply Rabs_le. lra.
Qed.
Lemma chord a b : n4 (mk4 (cos a - cos b) (sin a - sin b) 0 0) <= Rabs (a - b).
Proof.
  apply n4_le; [apply Rabs_pos|]. unfold q4. cbn [l0 l1 l2 l3]. rewrite <- Rabs_mult, (Rabs_pos_eq ((a - b) * (a - b))) by apply Rle_0_sqr.
  pose proof (sin2_cos2 a) as A. pose proof (sin2_cos2 b) as Bb. unfold Rsqr in *.
  assert (C : cos (a - b) = 1 - 2 * (sin ((a - b) / 2) * sin ((a - b) / 2))).
  { replace (a - b) with (2 * ((a - b) / 2)) at 1 by field. rewrite cos_2a_sin. ring. }
  rewrite cos_minus in C. set (h := (a - b) / 2) in *. pose proof (sin_lip h 0) as S. rewrite sin_0, !Rminus_0_r in S.
  assert (S2 : sin h * sin h <= h * h).
  { rewrite <- (Rabs_pos_eq (sin h * sin h)), <- (Rabs_pos_eq (h * h)), !Rabs_mult by nra. apply Rmult_le_compat; try apply Rabs_pos; exact S. }
  assert (h * h = (a - b) * (a - b) / 4) by (unfold h; field). nra.
Qed.
(** The exponential of a branch of length t: a rotation by the angle 2t about it. *)
Theorem C73_exp : forall (B : Build) (M : machine), libm M -> rsqrt_estimate M -> let FL := Flo_f32 M in forall b : branch f32,
  Forall fin (reg_list (branch_p1 b)) -> val (l0 (branch_p1 b)) = 0 -> let a := map4 val (branch_p1 b) in / 2 ^ 20 <= n4 a <= 2 ^ 19 ->
  Forall fin (coefs (k := KRotor) (branch_exp b)) /\
  n4 (sub4 (rv (branch_exp b)) (exact_rotor (2 * n4 a) a)) <= (16 + 10 * n4 a) * / 2 ^ 24 /\
  Rabs (q4 (rv (branch_exp b)) (rv (branch_exp b)) - 1) <= 32 * / 2 ^ 24.
Proof.
  intros B M LM HM FL b Fb Zb a L. rewrite u_pow. pose proof u_small as U. pose proof eta_tiny as T. pose proof eta_pos as T0.
  destruct b as [[w x y z]]. cbn [branch_p1 l0 l1 l2 l3] in *.
  inversion_clear Fb as [|? ? Fw F']. inversion_clear F' as [|? ? Fx F'']. inversion_clear F'' as [|? ? Fy F3]. inversion_clear F3 as [|? ? Fz _].
  assert (Ea : a = axis x y z) by (unfold a, axis, map4; cbn [l0 l1 l2 l3]; rewrite Zb; reflexivity).
  assert (P20 : bpow radix2 (-20) = / 2 ^ 20) by (cbn; f_equal; ring). assert (P19 : bpow radix2 19 = 2 ^ 19) by (cbn; ring).
  assert (B1920 : bpow radix2 19 <= bpow radix2 20) by (apply bpow_le; lia).
  rewrite <- P20, <- P19 in L.
  destruct (hi_length B M (mk4 w x y z) HM Fx Fy Fz) as (Fg & e & Vg & Eg).
  { cbn [l1 l2 l3]. rewrite <- Ea. assert (bpow radix2 (-40) <= bpow radix2 (-20)) by (apply bpow_le; lia). lra. }
  cbn [l1 l2 l3] in Vg. rewrite <- Ea in Vg. set (t := n4 a) in *. fold FL in Fg, Vg. set (g := l0 (sqrt_nr1 (hi_dp (mk4 w x y z) (mk4 w x y z)))) in *.
  pose proof (bpow_gt_0 radix2 (-20)) as G. assert (Tp : 0 < t) by lra.
  pose proof (Rabs_le_inv _ _ Eg) as Eg'.
  assert (uu : u * u <= / 1000000 * u) by (apply Rmult_le_compat_r; lra).
  assert (Gb : t / 2 <= val g <= 2 * t) by (rewrite Vg; split; nra).
  assert (Gb' : Rabs (val g) <= 2 ^ 20).
  { rewrite Rabs_pos_eq by lra. replace (2 ^ 20) with (2 * 2 ^ 19) by ring. rewrite <- P19. lra. }
  destruct (LM g Fg Gb') as (Fs & Es & Fc & Ec). rewrite u_pow in Es, Ec.
  set (si := m_sin M g) in *. set (co := m_cos M g) in *. set (A := val g) in *.
  assert (SA : Rabs (sin A) <= 1) by (apply Rabs_le; apply SIN_bound). assert (CA : Rabs (cos A) <= 1) by (apply Rabs_le; apply COS_bound).
  assert (it : 0 < / t) by (apply Rinv_0_lt_compat; exact Tp).
  assert (iA : Rabs (/ A - / t) <= 911 / 100 * u * / t).
  { replace (/ A - / t) with (- (e * / (1 + e)) * / t) by (rewrite Vg; field; lra). rewrite Rabs_mult, (Rabs_pos_eq (/ t)) by lra.
    apply Rmult_le_compat_r; [lra|]. rewrite Rabs_Ropp, Rabs_mult, (Rabs_pos_eq (/ (1 + e))) by (left; apply Rinv_0_lt_compat; lra).
    apply (Rmult_le_reg_r (1 + e)); [lra|]. rewrite Rmult_assoc, Rinv_l, Rmult_1_r by lra. nra. }
  assert (Sb : Rabs (val si) <= 1 + 2 * u) by (replace (val si) with (sin A + (val si - sin A)) by ring; eapply Rle_trans; [apply Rabs_triang|]; lra).
  assert (Dq : Rabs (val si / A - sin A / t) <= 1112 / 100 * u * / t).
  { replace (val si / A - sin A / t) with ((val si - sin A) * / t + val si * (/ A - / t)) by (field; lra).
    eapply Rle_trans; [apply Rabs_triang|]. rewrite !Rabs_mult, (Rabs_pos_eq (/ t)) by lra.
    assert (Rabs (val si - sin A) * / t <= 2 * u * / t) by (apply Rmult_le_compat_r; lra).
    assert (Rabs (val si) * Rabs (/ A - / t) <= (1 + 2 * u) * (911 / 100 * u * / t)) by (apply Rmult_le_compat; try apply Rabs_pos; assumption).
    assert (0 < u * / t) by (apply Rmult_lt_0_compat; lra).
    assert (u * u * / t <= / 1000000 * u * / t) by (apply Rmult_le_compat_r; lra). lra. }
  assert (Qb : Rabs (val si / A) <= (1 + 12 * u) * / t).
  { replace (val si / A) with (sin A / t + (val si / A - sin A / t)) by ring. eapply Rle_trans; [apply Rabs_triang|].
    unfold Rdiv at 1. rewrite Rabs_mult, (Rabs_pos_eq (/ t)) by lra. assert (Rabs (sin A) * / t <= 1 * / t) by (apply Rmult_le_compat_r; lra).
    assert (0 < u * / t) by (apply Rmult_lt_0_compat; lra). lra. }
  assert (it2 : / t <= bpow radix2 20).
  { change 20%Z with (- (-20))%Z. rewrite bpow_opp. apply Rinv_le_contravar; lra. }
  assert (it3 : bpow radix2 (-19) <= / t).
  { change (-19)%Z with (- (19))%Z. rewrite bpow_opp. apply Rinv_le_contravar; lra. }
  assert (ui : 0 < u * / t) by (apply Rmult_lt_0_compat; lra).
  assert (Bi : (1 + 12 * u) * / t <= 2 * / t) by (apply Rmult_le_compat_r; lra).
  destruct (div_ok si g Fs) as [Fq Vq].
  { fold A. lra. }
  { fold A. eapply Rle_trans; [exact Qb|]. eapply Rle_trans; [exact Bi|]. apply (Rle_trans _ (bpow radix2 1 * bpow radix2 20)); [change (bpow radix2 1) with 2; lra|]. rewrite <- bpow_plus. apply bpow_le. lia. }
  fold A in Vq. set (q := Bdiv mode_NE si g) in *.
  assert (Eq : Rabs (val q - sin A / t) <= 122 / 10 * u / t).
  { replace (val q - sin A / t) with ((val q - val si / A) + (val si / A - sin A / t)) by ring. eapply Rle_trans; [apply Rabs_triang|].
    pose proof (rnd_any (val si / A)) as R. rewrite <- Vq in R.
    assert (u * Rabs (val si / A) <= u * ((1 + 12 * u) * / t)) by (apply Rmult_le_compat_l; lra).
    assert (u * u * / t <= / 1000000 * u * / t) by (apply Rmult_le_compat_r; lra).
    assert (eta <= / 1000 * u * / t).
    { apply (Rle_trans _ (/ 1000 * u * bpow radix2 (-19))); [|apply Rmult_le_compat_l; lra].
      apply (Rle_trans _ (bpow radix2 (-40) * bpow radix2 (-19))); [unfold eta; rewrite <- bpow_plus; apply bpow_le; lia|]. apply Rmult_le_compat_r; [apply bpow_ge_0|]. unfold u. cbn. lra. }
    unfold Rdiv. lra. }
  destruct (scaled_axis q (122 / 10) x y z (sin A) t Tp SA Fq Fx Fy Fz) as [Fl El].
  { rewrite <- Ea. reflexivity. }
  { rewrite <- P20. assert (B20' : bpow radix2 20 = 2 ^ 20) by (cbn; ring). rewrite <- B20'. lra. }
  { lra. }
  { exact Eq. }
  inversion_clear Fl as [|? ? F1 Fl']. inversion_clear Fl' as [|? ? F2 Fl'']. inversion_clear Fl'' as [|? ? F3 _].
  assert (F1' : fin (fmul q x)) by (rewrite (mul_comm_f32 q x); exact F1). assert (F2' : fin (fmul q y)) by (rewrite (mul_comm_f32 q y); exact F2). assert (F3' : fin (fmul q z)) by (rewrite (mul_comm_f32 q z); exact F3).
  set (E := mk4 0 (sin A * val x / t) (sin A * val y / t) (sin A * val z / t)) in El.
  set (O := mk4 0 (val (fmul q x)) (val (fmul q y)) (val (fmul q z))).
  assert (El' : n4 (sub4 O E) <= (122 / 10 + 102 / 100) * u) by (unfold O; rewrite (mul_comm_f32 q x), (mul_comm_f32 q y), (mul_comm_f32 q z); exact El).
  clear El F1 F2 F3. rename El' into El, F1' into F1, F2' into F2, F3' into F3.
  destruct (fz_ok 0 ltac:(lia)) as [Fz0 Vz0].
  assert (AZ : forall p, fin p -> Rabs (val p) <= 4 -> fin (fadd p (fz 0)) /\ val (fadd p (fz 0)) = val p).
  { intros p Fp Bp. destruct (add_ok p (fz 0) Fp Fz0) as [Fa Va].
    - rewrite Vz0, Rplus_0_r. eapply Rle_trans; [exact Bp|]. change 4 with (bpow radix2 2). apply bpow_le. lia.
    - split; [exact Fa|]. rewrite Va, Vz0, Rplus_0_r. apply round_generic; [typeclasses eauto|apply val_format]. }
  assert (NE : n4 E <= 1).
  { replace E with (scale4 (sin A / t) a) by (unfold E; rewrite Ea; unfold scale4, axis, map4; cbn [l0 l1 l2 l3]; f_equal; field; lra).
    rewrite n4_scale_abs. fold t. unfold Rdiv. rewrite Rabs_mult, (Rabs_pos_eq (/ t)), Rmult_assoc, Rinv_l by lra. lra. }
  assert (NO : n4 O <= 2) by (pose proof (n4_tri O E); lra).
  destruct (n4_lane O) as (_ & O1 & O2 & O3). assert (NO4 : n4 O <= 4) by lra.
  destruct (AZ (fmul q x) F1 (Rle_trans _ _ _ O1 NO4)) as [G1 V1]. destruct (AZ (fmul q y) F2 (Rle_trans _ _ _ O2 NO4)) as [G2 V2]. destruct (AZ (fmul q z) F3 (Rle_trans _ _ _ O3 NO4)) as [G3 V3].
  assert (C0 : fin (fadd (fmul q w) co) /\ val (fadd (fmul q w) co) = val co).
  { destruct (mul_ok q w Fq Fw) as [Fm Vm]; [rewrite Zb, Rmult_0_r, Rabs_R0; apply bpow_ge_0|]. rewrite Zb, Rmult_0_r, round_0 in Vm by typeclasses eauto.
    destruct (add_ok (fmul q w) co Fm Fc) as [Fa Va].
    - rewrite Vm, Rplus_0_l. apply (Rle_trans _ 2); [|change 2 with (bpow radix2 1); apply bpow_le; lia].
      replace (val co) with (cos A + (val co - cos A)) by ring. eapply Rle_trans; [apply Rabs_triang|]. lra.
    - split; [exact Fa|]. rewrite Va, Vm, Rplus_0_l. apply round_generic; [typeclasses eauto|apply val_format]. }
  destruct C0 as [G0 V0].
  assert (Eb : branch_exp (mkbranch (mk4 w x y z)) = mkrotor (mk4 (fadd (fmul q w) co) (fadd (fmul q x) (fz 0)) (fadd (fmul q y) (fz 0)) (fadd (fmul q z) (fz 0)))) by reflexivity.
  rewrite Eb. split; [repeat (apply Forall_cons; [assumption|]); apply Forall_nil|].
  set (V := rv _). assert (VV : V = add4 (mk4 (val co) 0 0 0) O).
  { unfold V, rv, O, add4, map4. cbn [rotor_p1 l0 l1 l2 l3]. rewrite V0, V1, V2, V3. f_equal; ring. }
  clearbody V.
  set (E1 := exact_rotor (2 * A) a).
  assert (HE : forall s, exact_rotor (2 * s) a = mk4 (cos s) (sin s * val x / t) (sin s * val y / t) (sin s * val z / t)).
  { intro s. unfold exact_rotor. replace (2 * s / 2) with s by field. fold t. rewrite Ea. reflexivity. }
  assert (D1 : n4 (sub4 V E1) <= 153 / 10 * u).
  { unfold E1. rewrite VV, HE. replace (sub4 _ _) with (add4 (mk4 (val co - cos A) 0 0 0) (sub4 O E)) by (unfold O, E, sub4, add4; cbn [l0 l1 l2 l3]; f_equal; ring).
    eapply Rle_trans; [apply n4_add|]. assert (n4 (mk4 (val co - cos A) 0 0 0) <= 2 * u).
    { apply n4_le; [lra|]. unfold q4. cbn [l0 l1 l2 l3]. apply Rabs_le_inv in Ec. nra. }
    lra. }
  assert (NE1 : n4 E1 = 1) by (unfold E1; apply exact_rotor_unit; [rewrite Ea; reflexivity|exact Tp]).
  split.
  - eapply Rle_trans; [apply (n4_via _ E1)|].
    assert (D2 : n4 (sub4 E1 (exact_rotor (2 * t) a)) <= 91 / 10 * u * t).
    { unfold E1. rewrite !HE.
      assert (X : n4 (sub4 (mk4 (cos A) (sin A * val x / t) (sin A * val y / t) (sin A * val z / t)) (mk4 (cos t) (sin t * val x / t) (sin t * val y / t) (sin t * val z / t)))
        = n4 (mk4 (cos A - cos t) (sin A - sin t) 0 0)).
      { unfold n4. f_equal. pose proof (n4_sq a) as S. fold t in S. rewrite Ea in S. unfold q4, axis in S. cbn [l0 l1 l2 l3] in S. unfold q4, sub4. cbn [l0 l1 l2 l3].
        replace (sin A * val x / t - sin t * val x / t) with ((sin A - sin t) * val x / t) by (field; lra).
        replace (sin A * val y / t - sin t * val y / t) with ((sin A - sin t) * val y / t) by (field; lra).
        replace (sin A * val z / t - sin t * val z / t) with ((sin A - sin t) * val z / t) by (field; lra).
        set (k := sin A - sin t). assert (N : t * t <> 0) by nra.
        replace (k * val x / t * (k * val x / t)) with (k * k * (val x * val x) / (t * t)) by (field; lra).
        replace (k * val y / t * (k * val y / t)) with (k * k * (val y * val y) / (t * t)) by (field; lra).
        replace (k * val z / t * (k * val z / t)) with (k * k * (val z * val z) / (t * t)) by (field; lra).
        assert (Y : k * k * (val x * val x) / (t * t) + k * k * (val y * val y) / (t * t) + k * k * (val z * val z) / (t * t) = k * k).
        { replace (k * k * (val x * val x) / (t * t) + k * k * (val y * val y) / (t * t) + k * k * (val z * val z) / (t * t)) with (k * k * (val x * val x + val y * val y + val z * val z) / (t * t)) by (field; lra).
          replace (val x * val x + val y * val y + val z * val z) with (t * t) by lra. field. lra. }
        lra. }
      rewrite X. eapply Rle_trans; [apply chord|]. rewrite Vg. replace (t * (1 + e) - t) with (e * t) by ring. rewrite Rabs_mult, (Rabs_pos_eq t) by lra. apply Rmult_le_compat_r; [lra|exact Eg]. }
    assert (0 < u * t) by (apply Rmult_lt_0_compat; lra). lra.
  - rewrite <- n4_sq. pose proof (n4_diff V E1) as Q. rewrite NE1 in Q. assert (Q' : Rabs (n4 V - 1) <= 153 / 10 * u) by lra.
    apply Rabs_le_inv in Q'. set (g' := n4 V) in *. clear - Q' U uu. apply Rabs_le. nra.
Qed.

(** ** Instances: an axis of length 3, an angle of one radian *)
Lemma len_122 : n4 (axis (f32_of 1 0) (f32_of 2 0) (f32_of 2 0)) = 3.
Proof.
  unfold n4, q4, axis. cbn [l0 l1 l2 l3]. assert (V1 : val (f32_of 1 0) = 1) by (vm_compute; lra). assert (V2 : val (f32_of 2 0) = 2) by (vm_compute; lra).
  rewrite V1, V2. replace (0 * 0 + 1 * 1 + 2 * 2 + 2 * 2) with (3 * 3) by ring. apply sqrt_square. lra.
Qed.
Example C73_axis : exists M : machine, libm M /\ rsqrt_estimate M /\
  let a := f32_of 1 0 in let x := f32_of 1 0 in let y := f32_of 2 0 in
  fin a /\ Rabs (val a) <= 2 ^ 20 /\ fin x /\ fin y /\ / 2 ^ 20 <= n4 (axis x y y) <= 2 ^ 20 /\ near_unit (rotor_ctor (FL := Flo_f32 M) a x y y).
Proof.
  destruct libm_exists as (M & LM & _ & RM). exists M. split; [exact LM|]. split; [exact RM|]. intros a x y.
  assert (V1 : val a = 1) by (vm_compute; lra).
  assert (La : Rabs (val a) <= 2 ^ 20) by (rewrite V1, Rabs_R1; apply pow_R1_Rle; lra).
  assert (Ln : / 2 ^ 20 <= n4 (axis x y y) <= 2 ^ 20).
  { unfold x, y. rewrite len_122. split; [|cbn; lra]. apply (Rle_trans _ 1); [|lra]. rewrite <- Rinv_1. apply Rinv_le_contravar; [lra|]. apply pow_R1_Rle. lra. }
  split; [reflexivity|]. split; [exact La|]. split; [reflexivity|]. split; [reflexivity|]. split; [exact Ln|].
  exact (proj2 (C73_rotor M LM a x y y eq_refl La eq_refl eq_refl eq_refl Ln)).
Qed.
Example C73_branch : let b := mkbranch (mk4 (f32_of 0 0) (f32_of 1 0) (f32_of 2 0) (f32_of 2 0)) in
  Forall fin (reg_list (branch_p1 b)) /\ val (l0 (branch_p1 b)) = 0 /\ n4 (map4 val (branch_p1 b)) = 3.
Proof. split; [repeat constructor|]. split; [reflexivity|]. exact len_122. Qed.
(** r34 of Props23.v is (3/5, 4/5) rounded *)
Example C73_root : near_unit r34 /\ 3 / 2 <= n4 (one_plus (rv r34)).
Proof.
  split; [exact C72_near_unit|].
  assert (V1 : val (f32_of 10066330 (-24)) = 10066330 / 16777216) by (vm_compute; lra).
  destruct (n4_lane (one_plus (rv r34))) as (Q & _). eapply Rle_trans; [|exact Q]. change (l0 (one_plus (rv r34))) with (1 + val (f32_of 10066330 (-24))). rewrite V1, Rabs_pos_eq; lra.
Qed.

Print Assumptions C73_rotor.
Print Assumptions C73_euler.
Print Assumptions C73_translator.
Print Assumptions C73_sqrt.
Print Assumptions C73_exp.
