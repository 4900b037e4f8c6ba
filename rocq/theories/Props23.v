(** Property C72: rotations and rigid motions in binary32. *)
From Coq Require Import ZArith Reals List Bool Lra Lia Psatz.
From Flocq Require Import Core BinarySingleNaN.
From Verif Require Import AlgTac SpecMass SpecGeom Float32 FloatFacts ExprSyntax FloatErr FloatMass FloatOps FloatAbs FloatApx FloatNR FloatNorm Props21 Props22.
Import ListNotations.
Local Open Scope R_scope.

(** ** Length in four dimensions *)
Definition q4 (v w : m128 R) : R := l0 v * l0 w + l1 v * l1 w + l2 v * l2 w + l3 v * l3 w.
Definition n4 (v : m128 R) : R := sqrt (q4 v v).
Definition add4 (v w : m128 R) : m128 R := mk4 (l0 v + l0 w) (l1 v + l1 w) (l2 v + l2 w) (l3 v + l3 w).
Definition sub4 (v w : m128 R) : m128 R := mk4 (l0 v - l0 w) (l1 v - l1 w) (l2 v - l2 w) (l3 v - l3 w).
Lemma q4_pos v : 0 <= q4 v v. Proof. unfold q4. pose proof (Rle_0_sqr (l0 v)). pose proof (Rle_0_sqr (l1 v)). pose proof (Rle_0_sqr (l2 v)). pose proof (Rle_0_sqr (l3 v)). unfold Rsqr in *. lra. Qed.
Lemma n4_pos v : 0 <= n4 v. Proof. apply sqrt_pos. Qed.
Lemma n4_sq v : n4 v * n4 v = q4 v v. Proof. apply sqrt_sqrt, q4_pos. Qed.
Lemma q4_cauchy v w : Rabs (q4 v w) <= n4 v * n4 w.
Proof.
  apply Rsqr_incr_0_var.
  - rewrite <- Rsqr_abs. unfold Rsqr. replace (n4 v * n4 w * (n4 v * n4 w)) with ((n4 v * n4 v) * (n4 w * n4 w)) by ring. rewrite !n4_sq.
    destruct v as [a b c d], w as [x y z t]. unfold q4. cbn [l0 l1 l2 l3].
    pose proof (Rle_0_sqr (a * y - b * x)). pose proof (Rle_0_sqr (a * z - c * x)). pose proof (Rle_0_sqr (a * t - d * x)).
    pose proof (Rle_0_sqr (b * z - c * y)). pose proof (Rle_0_sqr (b * t - d * y)). pose proof (Rle_0_sqr (c * t - d * z)).
    unfold Rsqr in *. lra.
  - apply Rmult_le_pos; apply n4_pos.
Qed.
Lemma n4_le v b : 0 <= b -> q4 v v <= b * b -> n4 v <= b.
Proof. intros H K. unfold n4. rewrite <- (sqrt_square b H). apply sqrt_le_1_alt. exact K. Qed.
Lemma n4_add v w : n4 (add4 v w) <= n4 v + n4 w.
Proof.
  pose proof (n4_pos v). pose proof (n4_pos w). apply n4_le; [lra|].
  replace (q4 (add4 v w) (add4 v w)) with (q4 v v + 2 * q4 v w + q4 w w) by (unfold q4, add4; cbn [l0 l1 l2 l3]; ring).
  rewrite <- !n4_sq. pose proof (Rle_abs (q4 v w)). pose proof (q4_cauchy v w). lra.
Qed.
Lemma n4_tri v w : n4 v <= n4 w + n4 (sub4 v w).
Proof. replace v with (add4 w (sub4 v w)) at 1 by (destruct v as [a b c d], w as [x y z t]; unfold add4, sub4; cbn [l0 l1 l2 l3]; f_equal; ring). apply n4_add. Qed.
Lemma n4_sym v w : n4 (sub4 v w) = n4 (sub4 w v).
Proof. unfold n4. f_equal. unfold q4, sub4. cbn [l0 l1 l2 l3]. ring. Qed.
Lemma n4_diff v w : Rabs (n4 v - n4 w) <= n4 (sub4 v w).
Proof. pose proof (n4_tri v w). pose proof (n4_tri w v) as K. rewrite (n4_sym w v) in K. apply Rabs_le. lra. Qed.
Lemma n4_all v m : 0 <= m -> Rabs (l0 v) <= m -> Rabs (l1 v) <= m -> Rabs (l2 v) <= m -> Rabs (l3 v) <= m -> n4 v <= 2 * m.
Proof.
  intros M A B C D. apply n4_le; [lra|].
  assert (S : forall x, Rabs x <= m -> x * x <= m * m).
  { intros x X. rewrite <- (Rabs_pos_eq (x * x)) by apply Rle_0_sqr. rewrite Rabs_mult. apply Rmult_le_compat; try assumption; apply Rabs_pos. }
  pose proof (S _ A). pose proof (S _ B). pose proof (S _ C). pose proof (S _ D). unfold q4. lra.
Qed.
Lemma n4_lane v : Rabs (l0 v) <= n4 v /\ Rabs (l1 v) <= n4 v /\ Rabs (l2 v) <= n4 v /\ Rabs (l3 v) <= n4 v.
Proof.
  assert (S : forall x, x * x <= q4 v v -> Rabs x <= n4 v).
  { intros x X. unfold n4. rewrite <- sqrt_Rsqr_abs. apply sqrt_le_1_alt. exact X. }
  pose proof (Rle_0_sqr (l0 v)). pose proof (Rle_0_sqr (l1 v)). pose proof (Rle_0_sqr (l2 v)). pose proof (Rle_0_sqr (l3 v)). unfold Rsqr in *.
  repeat split; apply S; unfold q4; lra.
Qed.

(** ** The product of rotors *)
Definition qm (a b : m128 R) : m128 R :=
  mk4 (l0 a * l0 b - l1 a * l1 b - l2 a * l2 b - l3 a * l3 b)
      (l0 a * l1 b + l1 a * l0 b - l2 a * l3 b + l3 a * l2 b)
      (l0 a * l2 b + l2 a * l0 b - l3 a * l1 b + l1 a * l3 b)
      (l0 a * l3 b + l3 a * l0 b - l1 a * l2 b + l2 a * l1 b).
Lemma qm_gp a b : mv_p1 (qm a b) == gp (mv_p1 a) (mv_p1 b).
Proof. destruct a as [a0 a1 a2 a3], b as [b0 b1 b2 b3]. unfold qm. cbn [l0 l1 l2 l3]. mvring. Qed.
Lemma qm_q4 a b : q4 (qm a b) (qm a b) = q4 a a * q4 b b.
Proof. unfold q4, qm. cbn [l0 l1 l2 l3]. ring. Qed.
Lemma qm_n4 a b : n4 (qm a b) = n4 a * n4 b.
Proof. unfold n4. rewrite qm_q4. apply sqrt_mult; apply q4_pos. Qed.
Lemma qm_sub_l a b c : sub4 (qm a c) (qm b c) = qm (sub4 a b) c.
Proof. unfold sub4, qm. cbn [l0 l1 l2 l3]. f_equal; ring. Qed.
Definition abs4 (v : m128 R) : m128 R := map4 Rabs v.
Lemma abs4_n4 v : n4 (abs4 v) = n4 v.
Proof. unfold n4, q4, abs4, map4. cbn [l0 l1 l2 l3]. rewrite <- !Rabs_mult, !Rabs_pos_eq by apply Rle_0_sqr. reflexivity. Qed.
(** sums of absolute values of products *)
Lemma mass_bound a0 a1 a2 a3 b0 b1 b2 b3 : Rabs a0 * Rabs b0 + Rabs a1 * Rabs b1 + Rabs a2 * Rabs b2 + Rabs a3 * Rabs b3 <= n4 (mk4 a0 a1 a2 a3) * n4 (mk4 b0 b1 b2 b3).
Proof.
  rewrite <- (abs4_n4 (mk4 a0 a1 a2 a3)), <- (abs4_n4 (mk4 b0 b1 b2 b3)). eapply Rle_trans; [|apply q4_cauchy].
  eapply Rle_trans; [|apply Rle_abs]. unfold q4, abs4, map4. cbn [l0 l1 l2 l3]. lra.
Qed.
Lemma n4_perm a b c d : n4 (mk4 b a d c) = n4 (mk4 a b c d) /\ n4 (mk4 c d a b) = n4 (mk4 a b c d) /\ n4 (mk4 d c b a) = n4 (mk4 a b c d).
Proof. unfold n4, q4. cbn [l0 l1 l2 l3]. repeat split; f_equal; ring. Qed.
Definition vals {k} (x : ent k f32) : ent k R := emap val x.
Definition rv (r : rotor f32) : m128 R := map4 val (rotor_p1 r).
Lemma rotor_mass a b i : gp_mass (mv_p1 a) (mv_p1 b) i <= n4 a * n4 b.
Proof.
  destruct a as [a0 a1 a2 a3], b as [b0 b1 b2 b3].
  destruct (n4_perm b0 b1 b2 b3) as (P1 & P2 & P3).
  assert (Z : 0 <= n4 (mk4 a0 a1 a2 a3) * n4 (mk4 b0 b1 b2 b3)) by (apply Rmult_le_pos; apply n4_pos).
  pose proof (mass_bound a0 a1 a2 a3 b0 b1 b2 b3) as M0. pose proof (mass_bound a0 a1 a2 a3 b1 b0 b3 b2) as M1.
  pose proof (mass_bound a0 a1 a2 a3 b2 b3 b0 b1) as M2. pose proof (mass_bound a0 a1 a2 a3 b3 b2 b1 b0) as M3.
  rewrite P1 in M1. rewrite P2 in M2. rewrite P3 in M3. set (m := _ * _) in Z. fold m in M0, M1, M2, M3 |- *. clearbody m.
  destruct i as [[|] [|] [|] [|]]; cbv -[Rplus Rmult Ropp Rminus Rabs IZR Rle]; rewrite ?Rabs_Ropp, ?Rabs_R0; lra.
Qed.
Theorem C72_rotor_product : forall (B : Build) (a b : rotor f32),
  Forall (bounded 60) (coefs (k := KRotor) a) -> Forall (bounded 60) (coefs (k := KRotor) b) ->
  Forall fin (coefs (k := KRotor) (rotor_mul_rotor a b)) /\
  n4 (sub4 (rv (rotor_mul_rotor a b)) (qm (rv a) (rv b))) <= 6 * (1 + / 100000) * / 2 ^ 24 * (n4 (rv a) * n4 (rv b)) + bpow radix2 (-143).
Proof.
  intros B a b Ha Hb.
  destruct (C41_any_geometric_product_partial B) as (_ & _ & _ & _ & A & _).
  destruct (A a b Ha Hb I I) as [F E]. split; [exact F|]. clear A.
  set (m := n4 (rv a) * n4 (rv b)). set (t := 3 * (1 + / 100000) * / 2 ^ 24 * m + bpow radix2 (-144)).
  assert (K : forall i, Rabs (mv_p1 (rv (rotor_mul_rotor a b)) i - mv_p1 (qm (rv a) (rv b)) i) <= t).
  { intro i. rewrite (qm_gp (rv a) (rv b) i). eapply Rle_trans; [apply (E i)|]. unfold t. apply Rplus_le_compat_r. apply Rmult_le_compat_l; [lra|].
    exact (rotor_mass (rv a) (rv b) i). }
  assert (0 <= t) by (eapply Rle_trans; [apply Rabs_pos|apply (K (Bl false false false false))]).
  replace (6 * (1 + / 100000) * / 2 ^ 24 * m + bpow radix2 (-143)) with (2 * t).
  2: { unfold t. change (-143)%Z with (-144 + 1)%Z. rewrite bpow_plus. change (bpow radix2 1) with 2. ring. }
  pose proof (K (Bl false false false false)) as K0. pose proof (K (Bl false false true true)) as K1.
  pose proof (K (Bl false true false true)) as K2. pose proof (K (Bl false true true false)) as K3.
  cbn [mv_p1] in K0, K1, K2, K3.
  apply n4_all; [assumption|exact K0|exact K1| |exact K3].
  rewrite <- Rabs_Ropp. replace (- l2 (sub4 (rv (rotor_mul_rotor a b)) (qm (rv a) (rv b)))) with
    (- l2 (rv (rotor_mul_rotor a b)) - - l2 (qm (rv a) (rv b))) by (unfold sub4; cbn [l2]; ring). exact K2.
Qed.

(** ** Chains of rotors *)
Lemma pow_up x k : 0 <= x -> INR k * x <= 1 -> (1 + x) ^ k <= 1 + INR k * x * (1 + INR k * x).
Proof.
  intros X. induction k as [|k IH]; intro K.
  - cbn. lra.
  - rewrite S_INR in *. pose proof (pos_INR k) as P. assert (Kx : INR k * x <= 1) by nra. specialize (IH Kx). cbn [pow].
    apply (Rle_trans _ ((1 + x) * (1 + INR k * x * (1 + INR k * x)))); [apply Rmult_le_compat_l; lra|].
    assert (INR k * x * (INR k * x) * x <= INR k * x * x) by (assert (0 <= INR k * x * x) by (repeat apply Rmult_le_pos; lra); nra).
    nra.
Qed.
Lemma pow_down x k : 0 <= x <= 1 -> 1 - INR k * x <= (1 - x) ^ k.
Proof.
  intros X. induction k as [|k IH]; [cbn; lra|]. rewrite S_INR. cbn [pow]. pose proof (pos_INR k).
  apply (Rle_trans _ ((1 - x) * (1 - INR k * x))); [nra|]. apply Rmult_le_compat_l; lra.
Qed.
Definition one32 : rotor f32 := mkrotor (mk4 (f32_of 1 0) (f32_of 0 0) (f32_of 0 0) (f32_of 0 0)).
(** as close to a unit rotor as normalization leaves it *)
Definition near_unit (r : rotor f32) : Prop := Forall fin (coefs (k := KRotor) r) /\ Rabs (q4 (rv r) (rv r) - 1) <= 24 * / 2 ^ 24.
Definition qchain (rs : list (rotor f32)) (p : m128 R) : m128 R := fold_left (fun m r => qm m (rv r)) rs p.
Definition gchain (rs : list (rotor f32)) (m : mv) : mv := fold_left (fun m r => gp m (mv_rotor (emap (k := KRotor) val r))) rs m.
Lemma gp_ext_l a a' b : a == a' -> gp a b == gp a' b.
Proof. intros H k. unfold gp. apply sum16_ext. intro i. rewrite (H i). reflexivity. Qed.
Lemma gchain_ext rs : forall m m', m == m' -> gchain rs m == gchain rs m'.
Proof. induction rs as [|r rs IH]; intros m m' H; [exact H|]. cbn. apply IH, gp_ext_l, H. Qed.
Lemma gchain_q rs : forall p, gchain rs (mv_p1 p) == mv_p1 (qchain rs p).
Proof.
  induction rs as [|r rs IH]; intro p; [intro k; reflexivity|]. intro k. cbn [gchain fold_left qchain].
  fold (gchain rs (gp (mv_p1 p) (mv_rotor (emap (k := KRotor) val r)))) (qchain rs (qm p (rv r))).
  rewrite <- (IH (qm p (rv r)) k). apply gchain_ext. intro j. rewrite (qm_gp p (rv r) j). reflexivity.
Qed.
Lemma near_n4 r : near_unit r -> 1 - 13 * u <= n4 (rv r) <= 1 + 13 * u.
Proof.
  intros [_ H]. replace (/ 2 ^ 24) with u in H by (unfold u; f_equal; ring). apply Rabs_le_inv in H. pose proof (n4_sq (rv r)) as S. pose proof (n4_pos (rv r)).
  assert (U : 0 < u < / 1000000) by (unfold u; lra). split.
  - destruct (Rle_or_lt (1 - 13 * u) (n4 (rv r))) as [L|L]; [exact L|exfalso]. nra.
  - destruct (Rle_or_lt (n4 (rv r)) (1 + 13 * u)) as [L|L]; [exact L|exfalso]. nra.
Qed.
Lemma rv_bounded r hi : (0 <= hi)%Z -> Forall fin (coefs (k := KRotor) r) -> n4 (rv r) <= bpow radix2 hi -> Forall (bounded hi) (coefs (k := KRotor) r).
Proof.
  intros H F N. destruct r as [[a b c d]]. destruct (n4_lane (rv (mkrotor (mk4 a b c d)))) as (A & B & C & D). cbn [rv rotor_p1 map4 l0 l1 l2 l3] in *.
  cbn in F. unfold reg_list in F. cbn in F. inversion_clear F as [|? ? F0 F']. inversion_clear F' as [|? ? F1 F'']. inversion_clear F'' as [|? ? F2 F3]. inversion_clear F3 as [|? ? F4 _].
  repeat apply Forall_cons; try apply Forall_nil; (split; [assumption|]); eapply Rle_trans; try eassumption.
Qed.
Lemma rotor_step (B : Build) (p r : rotor f32) : Forall fin (coefs (k := KRotor) p) -> near_unit r -> / 4 <= n4 (rv p) <= 4 ->
  Forall fin (coefs (k := KRotor) (rotor_mul_rotor p r)) /\
  n4 (sub4 (rv (rotor_mul_rotor p r)) (qm (rv p) (rv r))) <= 7 * u * (n4 (rv p) * n4 (rv r)).
Proof.
  intros F N [L H]. pose proof (near_n4 r N) as M. assert (U : 0 < u < / 1000000) by (unfold u; lra).
  assert (K : forall x, x <= 4 -> x <= bpow radix2 60). { intros x X. eapply Rle_trans; [exact X|]. change 4 with (bpow radix2 2). apply bpow_le. lia. }
  destruct (C72_rotor_product B p r) as [F' E].
  - apply rv_bounded; [lia|exact F|apply K; lra].
  - apply rv_bounded; [lia|apply N|apply K; lra].
  - split; [exact F'|]. eapply Rle_trans; [exact E|]. replace (/ 2 ^ 24) with u by (unfold u; f_equal; ring).
    assert (X : / 8 <= n4 (rv p) * n4 (rv r)) by nra.
    assert (bpow radix2 (-143) <= / 100 * u).
    { apply (Rle_trans _ (bpow radix2 (-31))); [apply bpow_le; lia|]. unfold u. cbn. lra. }
    assert (/ 8 * u <= u * (n4 (rv p) * n4 (rv r))) by nra. lra.
Qed.
Theorem rotor_chain_step (B : Build) rs : Forall near_unit rs -> (Z.of_nat (length rs) <= 2 ^ 18)%Z ->
  let p := fold_left rotor_mul_rotor rs one32 in let E := qchain rs (mk4 1 0 0 0) in
  Forall fin (coefs (k := KRotor) p) /\
  (1 - 13 * u) ^ length rs <= n4 E <= (1 + 13 * u) ^ length rs /\
  n4 (sub4 (rv p) E) <= ((1 + 7 * u) ^ length rs - 1) * n4 E.
Proof.
  induction rs as [|r rs IH] using rev_ind; intros N L.
  - cbn -[n4 u]. split; [repeat constructor|]. assert (V : rv one32 = mk4 1 0 0 0).
    { unfold rv, one32, map4. cbn [rotor_p1 l0 l1 l2 l3]. f_equal; vm_compute; lra. }
    rewrite V. assert (n4 (mk4 1 0 0 0) = 1) as -> by (unfold n4, q4; cbn [l0 l1 l2 l3]; replace (1 * 1 + 0 * 0 + 0 * 0 + 0 * 0) with 1 by ring; apply sqrt_1).
    split; [lra|]. replace (sub4 (mk4 1 0 0 0) (mk4 1 0 0 0)) with (mk4 0 0 0 0) by (unfold sub4; cbn [l0 l1 l2 l3]; f_equal; ring).
    unfold n4, q4. cbn [l0 l1 l2 l3]. replace (0 * 0 + 0 * 0 + 0 * 0 + 0 * 0) with 0 by ring. rewrite sqrt_0. lra.
  - apply Forall_app in N. destruct N as [N Nr]. inversion_clear Nr as [|? ? Hr _]. rewrite app_length in *. cbn [length] in *.
    destruct (IH N ltac:(lia)) as (F & (E1 & E2) & D). clear IH. cbn zeta. unfold qchain. rewrite !fold_left_app. cbn [fold_left].
    fold (qchain rs (mk4 1 0 0 0)). set (p := fold_left rotor_mul_rotor rs one32) in *. set (E := qchain rs (mk4 1 0 0 0)) in *.
    rewrite Nat.add_1_r. set (k := length rs) in *.
    assert (U : 0 < u < / 1000000) by (unfold u; lra).
    assert (Kb : INR k * u <= / 64).
    { rewrite INR_IZR_INZ. apply (Rle_trans _ (IZR (2 ^ 18) * u)); [apply Rmult_le_compat_r; [lra|apply IZR_le; lia]|]. unfold u. lra. }
    pose proof (pos_INR k) as K0.
    pose proof (pow_up (7 * u) k ltac:(lra) ltac:(lra)) as P7. pose proof (pow_up (13 * u) k ltac:(lra) ltac:(lra)) as P13.
    pose proof (pow_down (13 * u) k ltac:(lra)) as D13.
    set (x := INR k * u) in *. assert (X0 : 0 <= x) by (apply Rmult_le_pos; lra).
    replace (INR k * (7 * u)) with (7 * x) in P7 by (unfold x; ring). replace (INR k * (13 * u)) with (13 * x) in P13, D13 by (unfold x; ring).
    assert (XX : x * x <= / 64 * x) by (apply Rmult_le_compat_r; assumption).
    assert (P7' : (1 + 7 * u) ^ k <= 1 + / 4) by lra. assert (P13' : (1 + 13 * u) ^ k <= 1 + / 2) by lra.
    assert (E1' : / 2 <= n4 E) by lra. assert (E2' : n4 E <= 3 / 2) by lra.
    pose proof (near_n4 r Hr) as M.
    pose proof (n4_diff (rv p) E) as T. apply Rabs_le_inv in T.
    assert (D' : n4 (sub4 (rv p) E) <= / 4 * n4 E) by nra.
    destruct (rotor_step B p r F Hr ltac:(lra)) as [F' S].
    split; [exact F'|]. rewrite qm_n4. split.
    + cbn [pow]. split.
      * rewrite Rmult_comm. apply Rmult_le_compat; try lra; try (apply pow_le; lra).
      * rewrite Rmult_comm. apply Rmult_le_compat; try lra; apply n4_pos.
    + replace (sub4 (rv (rotor_mul_rotor p r)) (qm E (rv r))) with
        (add4 (sub4 (rv (rotor_mul_rotor p r)) (qm (rv p) (rv r))) (sub4 (qm (rv p) (rv r)) (qm E (rv r))))
        by (unfold add4, sub4; cbn [l0 l1 l2 l3]; f_equal; ring).
      eapply Rle_trans; [apply n4_add|]. rewrite qm_sub_l, qm_n4. cbn [pow]. set (q := (1 + 7 * u) ^ k) in *.
      set (d := n4 (sub4 (rv p) E)) in *. set (e := n4 E) in *. set (z := n4 (rv r)) in *. set (y := n4 (rv p)) in *.
      assert (Y : y <= q * e) by lra.
      assert (7 * u * (y * z) <= 7 * u * (q * e * z)) by (apply Rmult_le_compat_l; [lra|]; apply Rmult_le_compat_r; lra).
      assert (d * z <= (q - 1) * e * z) by (apply Rmult_le_compat_r; lra). lra.
Qed.
Theorem C72_rotor_chain : forall (B : Build) rs, Forall near_unit rs -> (Z.of_nat (length rs) <= 2 ^ 18)%Z ->
  let p := fold_left rotor_mul_rotor rs one32 in let n := INR (length rs) in
  Forall fin (coefs (k := KRotor) p) /\
  (forall i, Rabs (mv_rotor (emap (k := KRotor) val p) i - gchain rs one i) <= 10 * n * / 2 ^ 24) /\
  Rabs (n4 (rv p) - 1) <= 26 * n * / 2 ^ 24.
Proof.
  intros B rs N L p n. destruct (rotor_chain_step B rs N L) as (F & (E1 & E2) & D). fold p in F, D. split; [exact F|].
  set (E := qchain rs (mk4 1 0 0 0)) in *.
  assert (G : forall i, gchain rs one i = mv_p1 E i).
  { intro i. unfold E. rewrite <- gchain_q. apply gchain_ext. intros [[|] [|] [|] [|]]; try reflexivity. symmetry. apply Ropp_0. }
  replace (/ 2 ^ 24) with u by (unfold u; f_equal; ring).
  assert (U : 0 < u < / 1000000) by (unfold u; lra). pose proof (pos_INR (length rs)) as K0. fold n in K0.
  assert (Kb : n * u <= / 64).
  { unfold n. rewrite INR_IZR_INZ. apply (Rle_trans _ (IZR (2 ^ 18) * u)); [apply Rmult_le_compat_r; [lra|apply IZR_le; lia]|]. unfold u. lra. }
  pose proof (pow_up (7 * u) (length rs) ltac:(lra) ltac:(fold n; lra)) as P7. pose proof (pow_up (13 * u) (length rs) ltac:(lra) ltac:(fold n; lra)) as P13.
  pose proof (pow_down (13 * u) (length rs) ltac:(lra)) as D13. fold n in P7, P13, D13.
  assert (Q : n4 (sub4 (rv p) E) <= 10 * n * u).
  { eapply Rle_trans; [exact D|]. set (x := n * u) in *.
    assert (0 <= x) by (apply Rmult_le_pos; lra). replace (10 * n * u) with (10 * x) by (unfold x; ring).
    replace (n * (7 * u)) with (7 * x) in P7 by (unfold x; ring). replace (n * (13 * u)) with (13 * x) in P13 by (unfold x; ring).
    assert (XX : x * x <= / 64 * x) by (apply Rmult_le_compat_r; assumption).
    assert (A : (1 + 7 * u) ^ length rs - 1 <= 7 * x * (1 + 7 / 64)) by lra.
    assert (C : n4 E <= 5 / 4) by lra. pose proof (n4_pos E).
    assert (1 <= (1 + 7 * u) ^ length rs) by (apply pow_R1_Rle; lra).
    apply (Rle_trans _ (7 * x * (1 + 7 / 64) * (5 / 4))); [apply Rmult_le_compat; lra|lra]. }
  split.
  - intro i. rewrite G. eapply Rle_trans; [|exact Q]. destruct (n4_lane (sub4 (rv p) E)) as (A0 & A1 & A2 & A3).
    assert (Z : 0 <= n4 (sub4 (rv p) E)) by apply n4_pos.
    destruct i as [[|] [|] [|] [|]]; cbn [mv_rotor mv_p1 rotor_p1 emap];
      try (rewrite Rminus_diag_eq, Rabs_R0 by reflexivity; exact Z); try assumption.
    rewrite <- Rabs_Ropp. match goal with |- Rabs ?x <= _ => replace x with (l2 (sub4 (rv p) E)) by (unfold sub4, rv; cbn [l2]; ring) end. exact A2.
  - pose proof (n4_diff (rv p) E) as T. apply Rabs_le_inv in T. set (x := n * u) in *.
    assert (0 <= x) by (apply Rmult_le_pos; lra). replace (26 * n * u) with (26 * x) by (unfold x; ring).
    replace (10 * n * u) with (10 * x) in Q by (unfold x; ring). replace (n * (13 * u)) with (13 * x) in P13, D13 by (unfold x; ring).
    assert (XX : x * x <= / 64 * x) by (apply Rmult_le_compat_r; assumption). apply Rabs_le. lra.
Qed.

(** ** Normalization *)
Lemma n4_mono v w : Rabs (l0 v) <= l0 w -> Rabs (l1 v) <= l1 w -> Rabs (l2 v) <= l2 w -> Rabs (l3 v) <= l3 w -> n4 v <= n4 w.
Proof.
  intros A B C D. apply sqrt_le_1_alt. assert (S : forall x y, Rabs x <= y -> x * x <= y * y).
  { intros x y X. rewrite <- (Rabs_pos_eq (x * x)) by apply Rle_0_sqr. rewrite Rabs_mult. apply Rmult_le_compat; try assumption; apply Rabs_pos. }
  unfold q4. pose proof (S _ _ A). pose proof (S _ _ B). pose proof (S _ _ C). pose proof (S _ _ D). lra.
Qed.
Definition scale4 (s : R) (v : m128 R) : m128 R := map4 (Rmult s) v.
Lemma n4_scale s v : 0 <= s -> n4 (scale4 s v) = s * n4 v.
Proof.
  intro H. unfold n4. replace (q4 (scale4 s v) (scale4 s v)) with (s * s * q4 v v) by (unfold q4, scale4, map4; cbn [l0 l1 l2 l3]; ring).
  rewrite sqrt_mult, sqrt_square; [reflexivity|exact H|apply Rmult_le_pos; exact H|apply q4_pos].
Qed.
Lemma squares_any (B : Build) (v : m128 f32) : Forall fin (reg_list v) -> bpow radix2 (-20) <= n4 (map4 val v) <= bpow radix2 20 ->
  exists n, dp_bc v v = mk4 n n n n /\ fin n /\ Rabs (val n - q4 (map4 val v) (map4 val v)) <= 41 / 10 * u * q4 (map4 val v) (map4 val v).
Proof.
  intros F [L H]. set (e := l0 (dp_bc (vreg 0) (vreg 0))). exists (eval (lanes4 v) e). split; [destruct B as [[|]]; reflexivity|].
  assert (A : forall x : R, Rabs x * Rabs x = x * x) by (intro x; rewrite <- Rabs_mult; apply Rabs_pos_eq; nra).
  destruct (n4_lane (map4 val v)) as (N0 & N1 & N2 & N3).
  destruct (rounding_any (lanes4 v) (2 ^ 20) e) as [Fe Ee].
  - lia.
  - rewrite (IZR_Zpower radix2) by lia. assert (Z : bounded 20 (B754_zero false)) by apply bounded_zero.
    destruct v as [a b c d]. unfold reg_list in F. cbn [l0 l1 l2 l3 map4] in *.
    inversion_clear F as [|? ? F0 F']. inversion_clear F' as [|? ? F1 F'']. inversion_clear F'' as [|? ? F2 F3]. inversion_clear F3 as [|? ? F4 _].
    intro n. unfold lanes4. cbn [l0 l1 l2 l3]. destruct n as [|[|[|[|[|n]]]]]; cbn [nth]; try exact Z; (split; [assumption|]); eapply Rle_trans; eassumption.
  - destruct B as [[|]]; vm_compute; reflexivity.
  - destruct B as [[|]]; vm_compute; lia.
  - split; [exact Fe|]. set (q := q4 (map4 val v) (map4 val v)) in *.
    assert (E1 : eval (A := Arith_R) (fun n => val (lanes4 v n)) e = q) by (unfold q, q4, e; destruct B as [[|]]; cbn; ring).
    assert (E2 : absv (fun n => val (lanes4 v n)) e = q) by (unfold q, q4, e; destruct B as [[|]]; cbn; rewrite ?A; ring).
    rewrite E1, E2 in Ee. eapply Rle_trans; [exact Ee|].
    assert (Q : bpow radix2 (-40) <= q).
    { unfold q. rewrite <- n4_sq. change (-40)%Z with (-20 + -20)%Z. rewrite bpow_plus. apply Rmult_le_compat; try exact L; apply bpow_ge_0. }
    assert (D : (dep e <= 4)%nat) by (unfold e; destruct B as [[|]]; vm_compute; lia).
    assert (S : (slack (2 ^ 20) e <= 2 ^ 30)%Z) by (unfold e; destruct B as [[|]]; vm_compute; discriminate).
    pose proof (P_lin (dep e) ltac:(lia)) as PL. assert (Id : INR (dep e) <= 4) by (replace 4 with (INR 4) by (cbn; lra); apply le_INR; exact D).
    pose proof (pos_INR (dep e)) as I0. assert (Ud : INR (dep e) * u <= 4 * u) by (apply Rmult_le_compat_r; [unfold u; lra|exact Id]).
    assert (U : 0 < u < / 1000000) by (unfold u; lra).
    assert (P1 : P (dep e) - 1 <= 401 / 100 * u) by lra.
    assert (P2 : P (dep e) <= 2) by lra.
    assert (X : eta * IZR (slack (2 ^ 20) e) <= bpow radix2 (-80) * q).
    { apply (Rle_trans _ (eta * bpow radix2 30)).
      - apply Rmult_le_compat_l; [pose proof eta_pos; lra|]. rewrite <- (IZR_Zpower radix2) by lia. apply IZR_le. exact S.
      - apply (Rle_trans _ (bpow radix2 (-80) * bpow radix2 (-40))); [|apply Rmult_le_compat_l; [apply bpow_ge_0|exact Q]].
        unfold eta. rewrite <- !bpow_plus. apply bpow_le. lia. }
    assert (X0 : 0 <= eta * IZR (slack (2 ^ 20) e)).
    { apply Rmult_le_pos; [pose proof eta_pos; lra|]. apply IZR_le, slack_nonneg. lia. }
    assert (Y : P (dep e) * (eta * IZR (slack (2 ^ 20) e)) <= 2 * (bpow radix2 (-80) * q)) by (apply Rmult_le_compat; try assumption; pose proof (P_64 (dep e) ltac:(lia)); lra).
    assert (T : bpow radix2 (-80) <= / 1000 * u) by (apply (Rle_trans _ (bpow radix2 (-40))); [apply bpow_le; lia|unfold u; cbn; lra]).
    assert (Q0 : 0 < q) by (pose proof (bpow_gt_0 radix2 (-40)); lra).
    assert ((P (dep e) - 1) * q <= 401 / 100 * u * q) by (apply Rmult_le_compat_r; lra).
    assert (bpow radix2 (-80) * q <= / 1000 * u * q) by (apply Rmult_le_compat_r; lra). lra.
Qed.
Lemma n4_via v w x : n4 (sub4 v x) <= n4 (sub4 v w) + n4 (sub4 w x).
Proof.
  replace (sub4 v x) with (add4 (sub4 v w) (sub4 w x)); [apply n4_add|]. unfold add4, sub4. cbn [l0 l1 l2 l3]. f_equal; ring.
Qed.
Lemma n4_scale_abs s v : n4 (scale4 s v) = Rabs s * n4 v.
Proof.
  rewrite <- (n4_scale (Rabs s)) by apply Rabs_pos. unfold n4, q4, scale4. cbn [l0 l1 l2 l3].
  assert (K : forall t, s * t * (s * t) = Rabs s * t * (Rabs s * t)) by (intro t; unfold Rabs; destruct (Rcase_abs s); ring). f_equal. apply f_equal2; [apply f_equal2; [apply f_equal2|]|]; apply K.
Qed.
(** coefficients of any size: only the length matters *)
Lemma unit_any (B : Build) M (v : m128 f32) : rsqrt_estimate M -> Forall fin (reg_list v) -> bpow radix2 (-20) <= n4 (map4 val v) <= bpow radix2 20 ->
  let y := _mm_mul_ps v (rsqrt_nr1 (FL := Flo_f32 M) (dp_bc v v)) in
  Forall fin (reg_list y) /\ Rabs (q4 (map4 val y) (map4 val y) - 1) <= 20 * u /\
  n4 (sub4 (map4 val y) (scale4 (/ n4 (map4 val v)) (map4 val v))) <= 10 * u.
Proof.
  intros HM F LH y. destruct (squares_any B v F LH) as (n & Dn & Fn & En).
  assert (U : 0 < u < / 1000000) by (unfold u; lra).
  set (N := q4 (map4 val v) (map4 val v)) in *.
  assert (QL : bpow radix2 (-40) <= N).
  { unfold N. rewrite <- n4_sq. change (-40)%Z with (-20 + -20)%Z. rewrite bpow_plus. apply Rmult_le_compat; try apply LH; apply bpow_ge_0. }
  assert (QH : N <= bpow radix2 40).
  { unfold N. rewrite <- n4_sq. change 40%Z with (20 + 20)%Z. rewrite bpow_plus. apply Rmult_le_compat; try apply LH; apply n4_pos. }
  assert (N0 : 0 < N) by (pose proof (bpow_gt_0 radix2 (-40)); lra).
  apply Rabs_le_inv in En. assert (uN : 0 < u * N) by (apply Rmult_lt_0_compat; lra).
  assert (Ln : N / 2 <= val n <= 2 * N) by nra.
  assert (Pn : 0 < val n) by lra.
  assert (Rn : nr_range n).
  { split; [exact Fn|]. rewrite Rabs_pos_eq by lra. split.
    - apply (Rle_trans _ (bpow radix2 (-40) / 2)); [|lra]. change (bpow radix2 (-40) / 2) with (bpow radix2 (-40) * bpow radix2 (-1)). rewrite <- bpow_plus. apply bpow_le. lia.
    - apply (Rle_trans _ (2 * bpow radix2 40)); [lra|]. change 2 with (bpow radix2 1) at 1. rewrite <- bpow_plus. apply bpow_le. lia. }
  destruct (rsqrt_step_error M n HM Rn Pn) as (Fr & Pr & Er). set (r := rsqrt_step n) in *.
  apply Rabs_le_inv in Er. set (w := sqrt (val n)) in *. assert (W : w * w = val n) by (apply sqrt_sqrt; lra).
  assert (W0 : 0 < w) by (apply sqrt_lt_R0; exact Pn).
  set (s := val r) in *.
  (* s^2 N is close to 1 *)
  assert (A1 : (1 - 13 / 2 * u) * (1 - 13 / 2 * u) <= val n * (s * s) <= (1 + 13 / 2 * u) * (1 + 13 / 2 * u)).
  { rewrite <- W. replace (w * w * (s * s)) with (w * s * (w * s)) by ring. split; apply Rmult_le_compat; lra. }
  assert (S2 : 0 < s * s) by (apply Rmult_lt_0_compat; exact Pr).
  assert (A2 : 1 - 172 / 10 * u <= s * s * N <= 1 + 172 / 10 * u).
  { set (z := s * s * N) in *. assert (Z0 : 0 < z) by (apply Rmult_lt_0_compat; assumption).
    assert (B1 : val n * (s * s) <= z + 41 / 10 * u * z) by (unfold z; nra).
    assert (B2 : z - 41 / 10 * u * z <= val n * (s * s)) by (unfold z; nra).
    assert (u * u <= / 1000000 * u) by (apply Rmult_le_compat_r; lra). split.
    - destruct (Rle_or_lt (1 - 172 / 10 * u) z) as [X|X]; [exact X|exfalso].
      assert (z + 41 / 10 * u * z <= (1 + 41 / 10 * u) * (1 - 172 / 10 * u)) by nra. nra.
    - destruct (Rle_or_lt z (1 + 172 / 10 * u)) as [X|X]; [exact X|exfalso].
      assert ((1 - 41 / 10 * u) * (1 + 172 / 10 * u) <= z - 41 / 10 * u * z) by (replace (z - 41 / 10 * u * z) with ((1 - 41 / 10 * u) * z) by ring; apply Rmult_le_compat_l; lra). nra. }
  set (m := n4 (map4 val v)) in *. assert (Nm : N = m * m) by (unfold N, m; rewrite n4_sq; reflexivity).
  assert (M0 : 0 < m) by (pose proof (bpow_gt_0 radix2 (-20)); lra).
  set (g := s * m). assert (G0 : 0 < g) by (apply Rmult_lt_0_compat; assumption).
  assert (G : 1 - 172 / 10 * u <= g * g <= 1 + 172 / 10 * u) by (unfold g; replace (s * m * (s * m)) with (s * s * (m * m)) by ring; rewrite <- Nm; exact A2).
  assert (G2 : / 2 <= g <= 2) by (split; nra).
  assert (K : forall x, fin x -> Rabs (val x) <= m -> fin (fmul x r) /\ Rabs (val (fmul x r) - s * val x) <= u * (s * Rabs (val x)) + eta).
  { intros x Fx Bx. assert (Ax : Rabs (val x * val r) = s * Rabs (val x)) by (rewrite Rabs_mult, (Rabs_pos_eq (val r)) by (fold s; lra); unfold s; ring).
    destruct (mul_ok x r Fx Fr) as [Fm Vm].
    { rewrite Ax. apply (Rle_trans _ (s * m)); [apply Rmult_le_compat_l; [lra|exact Bx]|]. fold g. apply (Rle_trans _ 2); [lra|]. change 2 with (bpow radix2 1). unfold big. apply bpow_le. lia. }
    split; [exact Fm|]. rewrite Vm. replace (s * val x) with (val x * val r) by (unfold s; ring). rewrite <- Ax. apply rnd_any. }
  destruct (n4_lane (map4 val v)) as (V0 & V1 & V2 & V3). fold m in V0, V1, V2, V3.
  unfold y. rewrite Dn, rsqrt_nr1_bc. cbn zeta. fold r.
  destruct v as [a b c d]. unfold reg_list in F |- *. cbn [l0 l1 l2 l3 map4 _mm_mul_ps map4_2] in *.
  inversion_clear F as [|? ? F0 F']. inversion_clear F' as [|? ? F1 F'']. inversion_clear F'' as [|? ? F2 F3]. inversion_clear F3 as [|? ? F4 _].
  destruct (K a F0 V0) as [Ka Ea]. destruct (K b F1 V1) as [Kb Eb]. destruct (K c F2 V2) as [Kc Ec]. destruct (K d F4 V3) as [Kd Ed].
  split; [repeat (apply Forall_cons; [assumption|]); apply Forall_nil|].
  set (z := mk4 (val (fmul a r)) (val (fmul b r)) (val (fmul c r)) (val (fmul d r))).
  set (x := mk4 (val a) (val b) (val c) (val d)) in *.
  assert (D : n4 (sub4 z (scale4 s x)) <= u * g + 2 * eta).
  { apply (Rle_trans _ (n4 (add4 (scale4 (u * s) (abs4 x)) (mk4 eta eta eta eta)))).
    - apply n4_mono; unfold z, x, sub4, add4, scale4, abs4, map4; cbn [l0 l1 l2 l3]; rewrite !Rmult_assoc; assumption.
    - eapply Rle_trans; [apply n4_add|]. rewrite n4_scale, abs4_n4 by (apply Rmult_le_pos; lra). apply Rplus_le_compat.
      + change (n4 x) with m. unfold g. lra.
      + pose proof eta_pos. apply n4_all; cbn [l0 l1 l2 l3]; try rewrite Rabs_pos_eq; lra. }
  assert (Xs : n4 (scale4 s x) = g) by (rewrite n4_scale by lra; reflexivity).
  pose proof (n4_diff z (scale4 s x)) as T. rewrite Xs in T. apply Rabs_le_inv in T.
  assert (Et : eta <= / 1000 * u) by (unfold eta; apply (Rle_trans _ (bpow radix2 (-40))); [apply bpow_le; lia|unfold u; cbn; lra]).
  pose proof eta_pos as Ep. split.
  2: { change (n4 (sub4 z (scale4 (/ m) x)) <= 10 * u).
    eapply Rle_trans; [apply (n4_via _ (scale4 s x))|].
    replace (sub4 (scale4 s x) (scale4 (/ m) x)) with (scale4 (s - / m) x) by (unfold sub4, scale4, map4; cbn [l0 l1 l2 l3]; f_equal; ring).
    rewrite n4_scale_abs. change (n4 x) with m.
    replace (Rabs (s - / m) * m) with (Rabs (g - 1)) by (replace (g - 1) with ((s - / m) * m) by (unfold g; field; lra); rewrite Rabs_mult, (Rabs_pos_eq m) by lra; reflexivity).
    assert (Rabs (g - 1) <= 87 / 10 * u) by (apply Rabs_le; nra). assert (u * g <= (1 + / 100) * u) by nra. lra. }
  change (Rabs (q4 z z - 1) <= 20 * u). rewrite <- (n4_sq z). set (h := n4 z) in *.
  assert (ug : 0 < u * g) by (apply Rmult_lt_0_compat; lra).
  assert (HG : Rabs (h - g) <= 101 / 100 * u * g) by (apply Rabs_le; nra).
  apply Rabs_le_inv in HG.
  assert (HL : g * (1 - 101 / 100 * u) <= h) by lra. assert (HH : h <= g * (1 + 101 / 100 * u)) by lra.
  assert (uu : u * u <= / 1000000 * u) by (apply Rmult_le_compat_r; lra).
  assert (X1 : g * (1 - 101 / 100 * u) * (g * (1 - 101 / 100 * u)) <= h * h) by (apply Rmult_le_compat; nra).
  assert (X2 : h * h <= g * (1 + 101 / 100 * u) * (g * (1 + 101 / 100 * u))) by (apply Rmult_le_compat; nra).
  replace (g * (1 - 101 / 100 * u) * (g * (1 - 101 / 100 * u))) with (g * g * (1 - 202 / 100 * u + 101 * 101 / 10000 * (u * u))) in X1 by field.
  replace (g * (1 + 101 / 100 * u) * (g * (1 + 101 / 100 * u))) with (g * g * (1 + 202 / 100 * u + 101 * 101 / 10000 * (u * u))) in X2 by field.
  apply Rabs_le. split.
  - assert ((1 - 172 / 10 * u) * (1 - 202 / 100 * u) <= g * g * (1 - 202 / 100 * u + 101 * 101 / 10000 * (u * u))) by (apply Rmult_le_compat; nra). nra.
  - assert (g * g * (1 + 202 / 100 * u + 101 * 101 / 10000 * (u * u)) <= (1 + 172 / 10 * u) * (1 + 203 / 100 * u)) by (apply Rmult_le_compat; nra). nra.
Qed.

(** ** What normalization returns *)
Theorem C72_normalize : forall (B : Build) (M : machine), rsqrt_estimate M -> let FL := Flo_f32 M in
  (forall r : rotor f32, Forall fin (coefs (k := KRotor) r) -> / 2 ^ 20 <= n4 (rv r) <= 2 ^ 20 -> near_unit (rotor_normalized r)) /\
  (forall m : motor f32, Forall fin (reg_list (motor_p1 m)) -> / 2 ^ 20 <= n4 (map4 val (motor_p1 m)) <= 2 ^ 20 ->
     near_unit (mkrotor (motor_p1 (motor_normalized m)))).
Proof.
  intros B M HM FL.
  assert (P1 : bpow radix2 (-20) = / 2 ^ 20) by (cbn; f_equal; ring). assert (P2 : bpow radix2 20 = 2 ^ 20) by (cbn; ring).
  assert (K : forall v : m128 f32, Forall fin (reg_list v) -> / 2 ^ 20 <= n4 (map4 val v) <= 2 ^ 20 ->
    near_unit (mkrotor (_mm_mul_ps v (rsqrt_nr1 (dp_bc v v))))).
  { intros v F L. rewrite <- P1, <- P2 in L. destruct (unit_any B M v HM F L) as (Fy & Ey & _). split; [exact Fy|].
    eapply Rle_trans; [exact Ey|]. unfold u. lra. }
  split.
  - intros r F L. exact (K (rotor_p1 r) F L).
  - intros m F L. exact (K (motor_p1 m) F L).
Qed.
Theorem C72_direction : forall (B : Build) (M : machine), rsqrt_estimate M -> let FL := Flo_f32 M in
  forall r : rotor f32, Forall fin (coefs (k := KRotor) r) -> / 2 ^ 20 <= n4 (rv r) <= 2 ^ 20 ->
  n4 (sub4 (rv (rotor_normalized r)) (scale4 (/ n4 (rv r)) (rv r))) <= 10 * / 2 ^ 24.
Proof.
  intros B M HM FL r F L.
  assert (P1 : bpow radix2 (-20) = / 2 ^ 20) by (cbn; f_equal; ring). assert (P2 : bpow radix2 20 = 2 ^ 20) by (cbn; ring). rewrite <- P1, <- P2 in L.
  destruct (unit_any B M (rotor_p1 r) HM F L) as (_ & _ & D). replace (/ 2 ^ 24) with u by (unfold u; f_equal; ring). exact D.
Qed.

(** ** Distances *)
Definition pos (p : point f32) : vec := V (val (l1 (point_p3 p))) (val (l2 (point_p3 p))) (val (l3 (point_p3 p))).
Lemma vlen_n4 a : vlen a = n4 (mk4 0 (vx a) (vy a) (vz a)).
Proof. unfold vlen, n4, q4, vdot. f_equal. cbn [l0 l1 l2 l3]. ring. Qed.
Lemma vlen_tri a b : vlen (vadd a b) <= vlen a + vlen b.
Proof. rewrite !vlen_n4. eapply Rle_trans; [|apply n4_add]. apply Req_le. f_equal. unfold add4, vadd. cbn [l0 l1 l2 l3 vx vy vz]. f_equal; ring. Qed.
Lemma vlen_pos a : 0 <= vlen a. Proof. apply sqrt_pos. Qed.
(** two points displaced by vectors of known length *)
Lemma dist_moved a b a' b' ea eb : vlen (vsub a a') <= ea -> vlen (vsub b b') <= eb -> Rabs (dist a b - dist a' b') <= ea + eb.
Proof.
  intros Ha Hb. assert (S : forall x y, vlen (vsub x y) = vlen (vsub y x)) by (intros x y; unfold vlen, vdot, vsub; f_equal; cbn [vx vy vz]; ring).
  assert (T : forall x y z, vlen (vsub x z) <= vlen (vsub x y) + vlen (vsub y z)).
  { intros x y z. eapply Rle_trans; [|apply vlen_tri]. apply Req_le. f_equal. destruct x as [x1 x2 x3], y as [y1 y2 y3], z as [z1 z2 z3]. unfold vsub, vadd. cbn [vx vy vz]. f_equal; ring. }
  unfold dist. pose proof (T a a' b). pose proof (T a' b' b). pose proof (T a' a b'). pose proof (T a b b'). rewrite (S b' b) in *. rewrite (S a' a) in *. apply Rabs_le. lra.
Qed.
Lemma vlen_all v t : 0 <= t -> Rabs (vx v) <= t -> Rabs (vy v) <= t -> Rabs (vz v) <= t -> vlen v <= 7 / 4 * t.
Proof.
  intros H A B C. rewrite vlen_n4. apply n4_le; [lra|].
  assert (S : forall x, Rabs x <= t -> x * x <= t * t).
  { intros x X. rewrite <- (Rabs_pos_eq (x * x)) by apply Rle_0_sqr. rewrite Rabs_mult. apply Rmult_le_compat; try assumption; apply Rabs_pos. }
  pose proof (S _ A). pose proof (S _ B). pose proof (S _ C). unfold q4. cbn [l0 l1 l2 l3]. nra.
Qed.
Lemma sum_lanes a : Rabs (vx a) + Rabs (vy a) + Rabs (vz a) <= sqrt 3 * vlen a.
Proof.
  pose proof (Rabs_pos (vx a)). pose proof (Rabs_pos (vy a)). pose proof (Rabs_pos (vz a)).
  apply Rsqr_incr_0_var; [|apply Rmult_le_pos; apply sqrt_pos]. unfold Rsqr, vlen.
  replace (sqrt 3 * sqrt (vdot a a) * (sqrt 3 * sqrt (vdot a a))) with (sqrt 3 * sqrt 3 * (sqrt (vdot a a) * sqrt (vdot a a))) by ring.
  rewrite (sqrt_sqrt 3) by lra. rewrite (sqrt_sqrt (vdot a a)).
  - unfold vdot. assert (Q : forall x, x * x = Rabs x * Rabs x) by (intro x; rewrite <- Rabs_mult, Rabs_pos_eq by apply Rle_0_sqr; reflexivity).
    rewrite (Q (vx a)), (Q (vy a)), (Q (vz a)). pose proof (Rle_0_sqr (Rabs (vx a) - Rabs (vy a))). pose proof (Rle_0_sqr (Rabs (vx a) - Rabs (vz a))). pose proof (Rle_0_sqr (Rabs (vy a) - Rabs (vz a))). unfold Rsqr in *. lra.
  - unfold vdot. nra.
Qed.
Lemma vlen_sum v t a s : 0 <= t -> 0 <= s -> (forall x, In x (vx v :: vy v :: vz v :: nil) -> Rabs x <= t * (Rabs (vx a) + Rabs (vy a) + Rabs (vz a)) + s) ->
  vlen v <= 3 * t * vlen a + 7 / 4 * s.
Proof.
  intros Ht Hs H. set (q := t * (Rabs (vx a) + Rabs (vy a) + Rabs (vz a))).
  assert (Q : q <= t * (sqrt 3 * vlen a)) by (apply Rmult_le_compat_l; [exact Ht|apply sum_lanes]).
  assert (R3 : sqrt 3 * sqrt 3 = 3) by (apply sqrt_sqrt; lra). assert (R0 : 0 <= sqrt 3) by apply sqrt_pos.
  assert (R7 : sqrt 3 <= 7 / 4) by nra.
  assert (Q0 : 0 <= q). { apply Rmult_le_pos; [exact Ht|]. pose proof (Rabs_pos (vx a)). pose proof (Rabs_pos (vy a)). pose proof (Rabs_pos (vz a)). lra. }
  apply (Rle_trans _ (sqrt 3 * (q + s))).
  - rewrite vlen_n4. apply n4_le; [apply Rmult_le_pos; lra|].
    replace (sqrt 3 * (q + s) * (sqrt 3 * (q + s))) with (sqrt 3 * sqrt 3 * ((q + s) * (q + s))) by ring. rewrite R3.
    assert (S : forall x, Rabs x <= q + s -> x * x <= (q + s) * (q + s)).
    { intros x X. rewrite <- (Rabs_pos_eq (x * x)) by apply Rle_0_sqr. rewrite Rabs_mult. apply Rmult_le_compat; try assumption; apply Rabs_pos. }
    assert (A : Rabs (vx v) <= q + s) by (apply H; cbn; tauto). assert (B : Rabs (vy v) <= q + s) by (apply H; cbn; tauto). assert (C : Rabs (vz v) <= q + s) by (apply H; cbn; tauto).
    pose proof (S _ A). pose proof (S _ B). pose proof (S _ C). unfold q4. cbn [l0 l1 l2 l3]. lra.
  - rewrite Rmult_plus_distr_l. apply Rplus_le_compat.
    + apply (Rle_trans _ (sqrt 3 * (t * (sqrt 3 * vlen a)))); [apply Rmult_le_compat_l; assumption|].
      replace (sqrt 3 * (t * (sqrt 3 * vlen a))) with (sqrt 3 * sqrt 3 * t * vlen a) by ring. rewrite R3. lra.
    + apply Rmult_le_compat_r; assumption.
Qed.
(** the exact image of a point *)
Definition motor_image (p1 p2 : m128 R) (w : R) (x : vec) : vec :=
  let s := sandwich (mv_motor (mkmotor p1 p2)) (mv_point (mkpoint (mk4 w (vx x) (vy x) (vz x)))) in
  V (- s (Bl true false true true)) (s (Bl true true false true)) (- s (Bl true true true false)).
Lemma image_mass p1 p2 w x i : In i (Bl true false true true :: Bl true true false true :: Bl true true true false :: nil) ->
  sandwich_mass (mv_motor (mkmotor p1 p2)) (mv_point (mkpoint (mk4 w (vx x) (vy x) (vz x)))) i
  <= q4 p1 p1 * (Rabs (vx x) + Rabs (vy x) + Rabs (vz x)) + 2 * (n4 p1 * n4 p2) * Rabs w.
Proof.
  destruct p1 as [a b c d], p2 as [e f g h], x as [x y z]. cbn [vx vy vz].
  destruct (n4_perm e f g h) as (P1 & P2 & P3).
  pose proof (mass_bound a b c d f e h g) as M1. pose proof (mass_bound a b c d g h e f) as M2. pose proof (mass_bound a b c d h g f e) as M3.
  rewrite P1 in M1. rewrite P2 in M2. rewrite P3 in M3. set (T := n4 (mk4 a b c d) * n4 (mk4 e f g h)) in *.
  assert (Q : forall x, x * x = Rabs x * Rabs x) by (intro t; rewrite <- Rabs_mult, Rabs_pos_eq by apply Rle_0_sqr; reflexivity).
  assert (N : q4 (mk4 a b c d) (mk4 a b c d) = Rabs a * Rabs a + Rabs b * Rabs b + Rabs c * Rabs c + Rabs d * Rabs d) by (unfold q4; cbn [l0 l1 l2 l3]; rewrite <- !Q; reflexivity).
  rewrite N. clear N.
  assert (A2 : forall s t : R, 2 * (s * t) <= s * s + t * t) by (intros s t; pose proof (Rle_0_sqr (s - t)); unfold Rsqr in *; lra).
  pose proof (Rabs_pos w) as W0. pose proof (Rabs_pos x) as X0. pose proof (Rabs_pos y) as Y0. pose proof (Rabs_pos z) as Z0.
  intros [<-|[<-|[<-|[]]]]; cbv -[Rplus Rmult Ropp Rminus Rabs IZR Rle T]; rewrite ?Rplus_0_l, ?Rplus_0_r, ?Rabs_Ropp, ?Rabs_R0;
  set (A := Rabs a) in *; set (B := Rabs b) in *; set (C := Rabs c) in *; set (D := Rabs d) in *;
  set (E := Rabs e) in *; set (F := Rabs f) in *; set (G := Rabs g) in *; set (H := Rabs h) in *;
  set (W := Rabs w) in *; set (X := Rabs x) in *; set (Y := Rabs y) in *; set (Z := Rabs z) in *;
  set (N := A * A + B * B + C * C + D * D);
  assert (K1 : 2 * (A * D + B * C) <= N) by (unfold N; pose proof (A2 A D); pose proof (A2 B C); lra);
  assert (K2 : 2 * (A * C + B * D) <= N) by (unfold N; pose proof (A2 A C); pose proof (A2 B D); lra);
  assert (K3 : 2 * (A * B + C * D) <= N) by (unfold N; pose proof (A2 A B); pose proof (A2 C D); lra).
  - pose proof (Rmult_le_compat_r _ _ _ Y0 K1). pose proof (Rmult_le_compat_r _ _ _ Z0 K2). pose proof (Rmult_le_compat_r _ _ _ W0 M1). unfold N in *. lra.
  - pose proof (Rmult_le_compat_r _ _ _ X0 K1). pose proof (Rmult_le_compat_r _ _ _ Z0 K3). pose proof (Rmult_le_compat_r _ _ _ W0 M2). unfold N in *. lra.
  - pose proof (Rmult_le_compat_r _ _ _ X0 K2). pose proof (Rmult_le_compat_r _ _ _ Y0 K3). pose proof (Rmult_le_compat_r _ _ _ W0 M3). unfold N in *. lra.
Qed.
Lemma image_dist p1 p2 w x y : dist (motor_image p1 p2 w x) (motor_image p1 p2 w y) = q4 p1 p1 * dist x y.
Proof.
  unfold dist, vlen. replace (q4 p1 p1 * sqrt (vdot (vsub x y) (vsub x y))) with (sqrt (q4 p1 p1 * q4 p1 p1) * sqrt (vdot (vsub x y) (vsub x y))) by (rewrite sqrt_square by apply q4_pos; reflexivity). rewrite <- sqrt_mult.
  - f_equal. destruct p1 as [a b c d], p2 as [e f g h], x as [x1 x2 x3], y as [y1 y2 y3].
    unfold motor_image. cbv -[Rplus Rmult Ropp Rminus Rabs IZR Rle]. ring.
  - apply Rmult_le_pos; apply q4_pos.
  - unfold vdot. pose proof (Rle_0_sqr (vx (vsub x y))). pose proof (Rle_0_sqr (vy (vsub x y))). pose proof (Rle_0_sqr (vz (vsub x y))). unfold Rsqr in *. lra.
Qed.

(** the computed image is close to the exact one *)
Lemma motor_moves (B : Build) (m : motor f32) (p : point f32) :
  Forall (bounded 20) (coefs (k := KMotor) m) -> Forall (bounded 20) (coefs (k := KPoint) p) -> val (l0 (point_p3 p)) = 1 ->
  let p1 := map4 val (motor_p1 m) in let p2 := map4 val (motor_p2 m) in
  vlen (vsub (pos (motor_on_point m p)) (motor_image p1 p2 1 (pos p))) <=
    22 * u * (q4 p1 p1 * vlen (pos p)) + 25 * u * (n4 p1 * n4 p2) + bpow radix2 (-121).
Proof.
  intros Hm Hp Hw p1 p2.
  destruct (C41_any_sandwich_20 B) as (_ & _ & _ & _ & _ & _ & _ & _ & _ & A & _).
  destruct (A m p Hm Hp I I) as [_ E]. clear A. set (Y := motor_on_point m p) in *. clearbody Y. destruct Y as [[y0 y1 y2 y3]].
  set (N := q4 p1 p1). assert (N0 : 0 <= N) by apply q4_pos. set (T := n4 p1 * n4 p2). assert (T0 : 0 <= T) by (apply Rmult_le_pos; apply n4_pos).
  set (k := 7 * (1 + / 100000) * / 2 ^ 24) in *.
  assert (k0 : 0 < k <= 701 / 100 * u) by (unfold k, u; lra).
  set (x := pos p) in *. set (t := bpow radix2 (-122)) in *. assert (t0 : 0 < t) by apply bpow_gt_0.
  assert (E' : forall i, Rabs (mv_point (mkpoint (map4 val (mk4 y0 y1 y2 y3))) i -
      sandwich (mv_motor (mkmotor p1 p2)) (mv_point (mkpoint (mk4 (val (l0 (point_p3 p))) (vx x) (vy x) (vz x)))) i) <=
      k * sandwich_mass (mv_motor (mkmotor p1 p2)) (mv_point (mkpoint (mk4 (val (l0 (point_p3 p))) (vx x) (vy x) (vz x)))) i + t) by exact E.
  rewrite Hw in E'. clear E. set (y := pos (mkpoint (mk4 y0 y1 y2 y3))).
  assert (K : forall i, In i (Bl true false true true :: Bl true true false true :: Bl true true true false :: nil) ->
    Rabs (mv_point (mkpoint (mk4 0 (vx y) (vy y) (vz y))) i -
      sandwich (mv_motor (mkmotor p1 p2)) (mv_point (mkpoint (mk4 1 (vx x) (vy x) (vz x)))) i) <= k * N * (Rabs (vx x) + Rabs (vy x) + Rabs (vz x)) + (2 * k * T + t)).
  { intros i Hi. apply (Rle_trans _ (k * sandwich_mass (mv_motor (mkmotor p1 p2)) (mv_point (mkpoint (mk4 1 (vx x) (vy x) (vz x)))) i + t)).
    - specialize (E' i). destruct Hi as [<-|[<-|[<-|[]]]]; exact E'.
    - pose proof (image_mass p1 p2 1 x i Hi) as Q. rewrite Rabs_R1 in Q. fold N T in Q.
      assert (k * sandwich_mass (mv_motor (mkmotor p1 p2)) (mv_point (mkpoint (mk4 1 (vx x) (vy x) (vz x)))) i <= k * (N * (Rabs (vx x) + Rabs (vy x) + Rabs (vz x)) + 2 * T * 1)) by (apply Rmult_le_compat_l; lra). lra. }
  assert (V1 : vlen (vsub y (motor_image p1 p2 1 x)) <= 3 * (k * N) * vlen x + 7 / 4 * (2 * k * T + t)).
  { apply vlen_sum; [apply Rmult_le_pos; lra|assert (0 <= k * T) by (apply Rmult_le_pos; lra); lra|].
    intros v [<-|[<-|[<-|[]]]].
    - rewrite <- Rabs_Ropp. eapply Rle_trans; [|apply (K (Bl true false true true)); cbn; tauto]. apply Req_le. f_equal. unfold vsub, motor_image. cbn [vx vy vz]. cbn [mv_point mv_p3 point_p3 l0 l1 l2 l3]. ring.
    - eapply Rle_trans; [|apply (K (Bl true true false true)); cbn; tauto]. apply Req_le. f_equal.
    - rewrite <- Rabs_Ropp. eapply Rle_trans; [|apply (K (Bl true true true false)); cbn; tauto]. apply Req_le. f_equal. unfold vsub, motor_image. cbn [vx vy vz]. cbn [mv_point mv_p3 point_p3 l0 l1 l2 l3]. ring. }
  eapply Rle_trans; [exact V1|]. pose proof (vlen_pos x) as X0.
  assert (Nx : 0 <= N * vlen x) by (apply Rmult_le_pos; assumption).
  assert (k * (N * vlen x) <= 701 / 100 * u * (N * vlen x)) by (apply Rmult_le_compat_r; lra).
  assert (k * T <= 701 / 100 * u * T) by (apply Rmult_le_compat_r; lra).
  assert (0 <= u * (N * vlen x)) by (apply Rmult_le_pos; [unfold u; lra|exact Nx]). assert (0 <= u * T) by (apply Rmult_le_pos; [unfold u; lra|exact T0]).
  replace (bpow radix2 (-121)) with (2 * t) by (unfold t; change (-121)%Z with (1 + -122)%Z; rewrite bpow_plus; reflexivity). lra.
Qed.
Lemma rotor_as_motor p1 i : mv_rotor (mkrotor p1) i = mv_motor (mkmotor p1 (mk4 0 0 0 0)) i.
Proof. destruct p1 as [a b c d]. destruct i as [[|] [|] [|] [|]]; unfold mv_rotor, mv_motor, mv_p12; cbn [mv_p1 mv_p2 rotor_p1 motor_p1 motor_p2 l0 l1 l2 l3]; ring. Qed.
Lemma rotor_moves (B : Build) (r : rotor f32) (p : point f32) :
  Forall (bounded 20) (coefs (k := KRotor) r) -> Forall (bounded 20) (coefs (k := KPoint) p) -> 
  vlen (vsub (pos (rotor_on_point r p)) (motor_image (rv r) (mk4 0 0 0 0) (val (l0 (point_p3 p))) (pos p))) <=
    55 * u * (q4 (rv r) (rv r) * vlen (pos p)) + bpow radix2 (-121).
Proof.
  intros Hm Hp. set (p1 := rv r). set (w := val (l0 (point_p3 p))).
  destruct (C41_any_sandwich_20 B) as (_ & _ & _ & A & _).
  destruct (A r p Hm Hp I I) as [_ E]. clear A. set (Y := rotor_on_point r p) in *. clearbody Y. destruct Y as [[y0 y1 y2 y3]].
  set (N := q4 p1 p1). assert (N0 : 0 <= N) by apply q4_pos.
  set (k := 18 * (1 + / 100000) * / 2 ^ 24) in *.
  assert (k0 : 0 < k <= 1801 / 100 * u) by (unfold k, u; lra).
  set (x := pos p) in *. set (t := bpow radix2 (-122)) in *. assert (t0 : 0 < t) by apply bpow_gt_0.
  set (P := mv_point (mkpoint (mk4 w (vx x) (vy x) (vz x)))).
  set (Z := mk4 0 0 0 0).
  assert (Q1 : forall i, mv_rotor (mkrotor p1) i = mv_motor (mkmotor p1 Z) i).
  { apply rotor_as_motor. }
  assert (Q2 : forall i, sandwich (mv_rotor (mkrotor p1)) P i = sandwich (mv_motor (mkmotor p1 Z)) P i).
  { intro i. unfold sandwich, gp, rev. apply sum16_ext. intro j. rewrite Q1. do 2 f_equal. apply sum16_ext. intro l. rewrite Q1. reflexivity. }
  assert (Q3 : forall i, sandwich_mass (mv_rotor (mkrotor p1)) P i = sandwich_mass (mv_motor (mkmotor p1 Z)) P i).
  { intro i. unfold sandwich_mass, mass, absmv. apply sum16_ext. intro j. rewrite Q1. do 2 f_equal. apply sum16_ext. intro l. rewrite Q1. reflexivity. }
  assert (E' : forall i, Rabs (mv_point (mkpoint (map4 val (mk4 y0 y1 y2 y3))) i - sandwich (mv_rotor (mkrotor p1)) P i) <=
      k * sandwich_mass (mv_rotor (mkrotor p1)) P i + t) by exact E.
  clear E. set (y := pos (mkpoint (mk4 y0 y1 y2 y3))).
  assert (K : forall i, In i (Bl true false true true :: Bl true true false true :: Bl true true true false :: nil) ->
    Rabs (mv_point (mkpoint (mk4 0 (vx y) (vy y) (vz y))) i - sandwich (mv_motor (mkmotor p1 Z)) P i) <= k * N * (Rabs (vx x) + Rabs (vy x) + Rabs (vz x)) + t).
  { intros i Hi. apply (Rle_trans _ (k * sandwich_mass (mv_motor (mkmotor p1 Z)) P i + t)).
    - specialize (E' i). rewrite Q2, Q3 in E'. destruct Hi as [<-|[<-|[<-|[]]]]; exact E'.
    - pose proof (image_mass p1 Z w x i Hi) as Q. fold N P in Q. replace (n4 Z) with 0 in Q.
      2: { unfold n4, q4, Z. cbn [l0 l1 l2 l3]. replace (0 * 0 + 0 * 0 + 0 * 0 + 0 * 0) with 0 by ring. rewrite sqrt_0. reflexivity. }
      assert (k * sandwich_mass (mv_motor (mkmotor p1 Z)) P i <= k * (N * (Rabs (vx x) + Rabs (vy x) + Rabs (vz x)))) by (apply Rmult_le_compat_l; lra). lra. }
  assert (V1 : vlen (vsub y (motor_image p1 Z w x)) <= 3 * (k * N) * vlen x + 7 / 4 * t).
  { apply vlen_sum; [apply Rmult_le_pos; lra|lra|].
    intros v [<-|[<-|[<-|[]]]].
    - rewrite <- Rabs_Ropp. eapply Rle_trans; [|apply (K (Bl true false true true)); cbn; tauto]. apply Req_le. f_equal. unfold vsub, motor_image. fold P. cbn [vx vy vz]. cbn [mv_point mv_p3 point_p3 l0 l1 l2 l3]. ring.
    - eapply Rle_trans; [|apply (K (Bl true true false true)); cbn; tauto]. apply Req_le. f_equal.
    - rewrite <- Rabs_Ropp. eapply Rle_trans; [|apply (K (Bl true true true false)); cbn; tauto]. apply Req_le. f_equal. unfold vsub, motor_image. fold P. cbn [vx vy vz]. cbn [mv_point mv_p3 point_p3 l0 l1 l2 l3]. ring. }
  eapply Rle_trans; [exact V1|]. pose proof (vlen_pos x) as X0.
  assert (Nx : 0 <= N * vlen x) by (apply Rmult_le_pos; assumption).
  assert (k * (N * vlen x) <= 1801 / 100 * u * (N * vlen x)) by (apply Rmult_le_compat_r; lra).
  assert (0 <= u * (N * vlen x)) by (apply Rmult_le_pos; [unfold u; lra|exact Nx]).
  replace (bpow radix2 (-121)) with (2 * t) by (unfold t; change (-121)%Z with (1 + -122)%Z; rewrite bpow_plus; reflexivity). lra.
Qed.
Lemma translator_moves (B : Build) (m : translator f32) (p : point f32) :
  Forall (bounded 20) (coefs (k := KTranslator) m) -> val (l0 (translator_p2 m)) = 0 -> Forall (bounded 20) (coefs (k := KPoint) p) -> val (l0 (point_p3 p)) = 1 ->
  let p2 := map4 val (translator_p2 m) in
  vlen (vsub (pos (translator_on_point m p)) (motor_image (mk4 1 0 0 0) p2 1 (pos p))) <= 10 * u * vlen (pos p) + 11 * u * n4 p2 + bpow radix2 (-121).
Proof.
  intros Hm Z Hp Hw p2. set (p1 := mk4 1 0 0 0).
  destruct (C41_any_sandwich_20 B) as (_ & _ & _ & _ & _ & _ & A & _).
  destruct (A m p Hm Hp Z I) as [_ E]. clear A. set (Y := translator_on_point m p) in *. clearbody Y. destruct Y as [[y0 y1 y2 y3]].
  assert (N1 : q4 p1 p1 = 1) by (unfold q4, p1; cbn [l0 l1 l2 l3]; ring). assert (N2 : n4 p1 = 1) by (unfold n4; rewrite N1; apply sqrt_1).
  set (T := n4 p2). assert (T0 : 0 <= T) by apply n4_pos.
  set (k := 3 * (1 + / 100000) * / 2 ^ 24) in *.
  assert (k0 : 0 < k <= 301 / 100 * u) by (unfold k, u; lra).
  set (x := pos p) in *. set (t := bpow radix2 (-122)) in *. assert (t0 : 0 < t) by apply bpow_gt_0.
  assert (E' : forall i, Rabs (mv_point (mkpoint (map4 val (mk4 y0 y1 y2 y3))) i -
      sandwich (mv_motor (mkmotor p1 p2)) (mv_point (mkpoint (mk4 (val (l0 (point_p3 p))) (vx x) (vy x) (vz x)))) i) <=
      k * sandwich_mass (mv_motor (mkmotor p1 p2)) (mv_point (mkpoint (mk4 (val (l0 (point_p3 p))) (vx x) (vy x) (vz x)))) i + t) by exact E.
  rewrite Hw in E'. clear E. set (y := pos (mkpoint (mk4 y0 y1 y2 y3))).
  assert (K : forall i, In i (Bl true false true true :: Bl true true false true :: Bl true true true false :: nil) ->
    Rabs (mv_point (mkpoint (mk4 0 (vx y) (vy y) (vz y))) i -
      sandwich (mv_motor (mkmotor p1 p2)) (mv_point (mkpoint (mk4 1 (vx x) (vy x) (vz x)))) i) <= k * (Rabs (vx x) + Rabs (vy x) + Rabs (vz x)) + (2 * k * T + t)).
  { intros i Hi. apply (Rle_trans _ (k * sandwich_mass (mv_motor (mkmotor p1 p2)) (mv_point (mkpoint (mk4 1 (vx x) (vy x) (vz x)))) i + t)).
    - specialize (E' i). destruct Hi as [<-|[<-|[<-|[]]]]; exact E'.
    - pose proof (image_mass p1 p2 1 x i Hi) as Q. rewrite Rabs_R1, N1, N2 in Q. fold T in Q.
      assert (k * sandwich_mass (mv_motor (mkmotor p1 p2)) (mv_point (mkpoint (mk4 1 (vx x) (vy x) (vz x)))) i <= k * (1 * (Rabs (vx x) + Rabs (vy x) + Rabs (vz x)) + 2 * (1 * T) * 1)) by (apply Rmult_le_compat_l; lra). lra. }
  assert (V1 : vlen (vsub y (motor_image p1 p2 1 x)) <= 3 * k * vlen x + 7 / 4 * (2 * k * T + t)).
  { apply vlen_sum; [lra|assert (0 <= k * T) by (apply Rmult_le_pos; lra); lra|].
    intros v [<-|[<-|[<-|[]]]].
    - rewrite <- Rabs_Ropp. eapply Rle_trans; [|apply (K (Bl true false true true)); cbn; tauto]. apply Req_le. f_equal. unfold vsub, motor_image. cbn [vx vy vz]. cbn [mv_point mv_p3 point_p3 l0 l1 l2 l3]. ring.
    - eapply Rle_trans; [|apply (K (Bl true true false true)); cbn; tauto]. apply Req_le. f_equal.
    - rewrite <- Rabs_Ropp. eapply Rle_trans; [|apply (K (Bl true true true false)); cbn; tauto]. apply Req_le. f_equal. unfold vsub, motor_image. cbn [vx vy vz]. cbn [mv_point mv_p3 point_p3 l0 l1 l2 l3]. ring. }
  eapply Rle_trans; [exact V1|]. pose proof (vlen_pos x) as X0.
  assert (k * vlen x <= 301 / 100 * u * vlen x) by (apply Rmult_le_compat_r; lra).
  assert (k * T <= 301 / 100 * u * T) by (apply Rmult_le_compat_r; lra).
  assert (0 <= u * vlen x) by (apply Rmult_le_pos; [unfold u; lra|exact X0]). assert (0 <= u * T) by (apply Rmult_le_pos; [unfold u; lra|exact T0]).
  replace (bpow radix2 (-121)) with (2 * t) by (unfold t; change (-121)%Z with (1 + -122)%Z; rewrite bpow_plus; reflexivity). lra.
Qed.
Theorem C72_distance : forall B : Build,
  (forall (m : motor f32) (p q : point f32),
     Forall (bounded 20) (coefs (k := KMotor) m) -> near_unit (mkrotor (motor_p1 m)) ->
     Forall (bounded 20) (coefs (k := KPoint) p) -> Forall (bounded 20) (coefs (k := KPoint) q) ->
     val (l0 (point_p3 p)) = 1 -> val (l0 (point_p3 q)) = 1 ->
     Rabs (dist (pos (motor_on_point m p)) (pos (motor_on_point m q)) - dist (pos p) (pos q)) <=
       / 2 ^ 24 * (47 * (vlen (pos p) + vlen (pos q)) + 51 * n4 (map4 val (motor_p2 m))) + / 2 ^ 120) /\
  (forall (r : rotor f32) (p q : point f32), near_unit r ->
     Forall (bounded 20) (coefs (k := KPoint) p) -> Forall (bounded 20) (coefs (k := KPoint) q) ->
     val (l0 (point_p3 p)) = val (l0 (point_p3 q)) ->
     Rabs (dist (pos (rotor_on_point r p)) (pos (rotor_on_point r q)) - dist (pos p) (pos q)) <=
       / 2 ^ 24 * (80 * (vlen (pos p) + vlen (pos q))) + / 2 ^ 120) /\
  (forall (rs : list (rotor f32)) (p q : point f32), Forall near_unit rs -> (Z.of_nat (length rs) <= 2 ^ 18)%Z ->
     Forall (bounded 20) (coefs (k := KPoint) p) -> Forall (bounded 20) (coefs (k := KPoint) q) ->
     val (l0 (point_p3 p)) = val (l0 (point_p3 q)) ->
     let r := fold_left rotor_mul_rotor rs one32 in
     Rabs (dist (pos (rotor_on_point r p)) (pos (rotor_on_point r q)) - dist (pos p) (pos q)) <=
       / 2 ^ 24 * ((110 + 63 * INR (length rs)) * (vlen (pos p) + vlen (pos q))) + / 2 ^ 120) /\
  (forall (t : translator f32) (p q : point f32), Forall (bounded 20) (coefs (k := KTranslator) t) -> val (l0 (translator_p2 t)) = 0 ->
     Forall (bounded 20) (coefs (k := KPoint) p) -> Forall (bounded 20) (coefs (k := KPoint) q) ->
     val (l0 (point_p3 p)) = 1 -> val (l0 (point_p3 q)) = 1 ->
     Rabs (dist (pos (translator_on_point t p)) (pos (translator_on_point t q)) - dist (pos p) (pos q)) <=
       / 2 ^ 24 * (10 * (vlen (pos p) + vlen (pos q)) + 22 * n4 (map4 val (translator_p2 t))) + / 2 ^ 120).
Proof.
  intro B.
  assert (U : 0 < u < / 1000000) by (unfold u; lra).
  assert (Ue : / 2 ^ 24 = u) by (unfold u; f_equal; ring).
  assert (P120 : / 2 ^ 120 = 2 * bpow radix2 (-121)).
  { replace (2 * bpow radix2 (-121)) with (bpow radix2 (-120)) by (change (-120)%Z with (1 + -121)%Z; rewrite bpow_plus; reflexivity).
    change (bpow radix2 (-120)) with (/ IZR (Zpower_pos 2 120)). f_equal. rewrite pow_IZR. f_equal. }
  assert (DT : forall a b, 0 <= dist a b <= vlen a + vlen b).
  { intros a b. split; [apply vlen_pos|]. unfold dist. replace (vsub a b) with (vadd a (vopp b)) by (destruct a as [a1 a2 a3], b as [b1 b2 b3]; unfold vsub, vadd, vopp; cbn [vx vy vz]; f_equal; ring).
    eapply Rle_trans; [apply vlen_tri|]. apply Rplus_le_compat_l, Req_le. unfold vlen. f_equal. unfold vdot, vopp. cbn [vx vy vz]. ring. }
  assert (RT : forall (r : rotor f32) p q e, Forall (bounded 20) (coefs (k := KRotor) r) ->
     Forall (bounded 20) (coefs (k := KPoint) p) -> Forall (bounded 20) (coefs (k := KPoint) q) ->
     val (l0 (point_p3 p)) = val (l0 (point_p3 q)) -> Rabs (q4 (rv r) (rv r) - 1) <= e ->
     Rabs (dist (pos (rotor_on_point r p)) (pos (rotor_on_point r q)) - dist (pos p) (pos q)) <=
       (e + 55 * u * (1 + e)) * (vlen (pos p) + vlen (pos q)) + / 2 ^ 120).
  { intros r p q e Hr Hp Hq W He. pose proof (rotor_moves B r p Hr Hp) as Mp. pose proof (rotor_moves B r q Hr Hq) as Mq. rewrite <- W in Mq.
    pose proof (dist_moved _ _ _ _ _ _ Mp Mq) as D. rewrite image_dist in D. rewrite P120. apply Rabs_le_inv in He. apply Rabs_le_inv in D.
    pose proof (DT (pos p) (pos q)) as [D0 D1]. set (d := dist (pos p) (pos q)) in *. set (N := q4 (rv r) (rv r)) in *.
    pose proof (vlen_pos (pos p)). pose proof (vlen_pos (pos q)). set (s := vlen (pos p) + vlen (pos q)) in *.
    assert (A1 : Rabs (N * d - d) <= e * s).
    { replace (N * d - d) with ((N - 1) * d) by ring. rewrite Rabs_mult, (Rabs_pos_eq d) by exact D0. apply Rmult_le_compat; try assumption; try apply Rabs_pos. apply Rabs_le. lra. }
    apply Rabs_le_inv in A1.
    assert (A2 : u * (N * s) <= u * ((1 + e) * s)) by (apply Rmult_le_compat_l; [lra|]; apply Rmult_le_compat_r; unfold s; lra).
    apply Rabs_le. unfold s in *. lra. }
  assert (B20 : 2 <= bpow radix2 20) by (change 2 with (bpow radix2 1); apply bpow_le; lia).
  repeat split.
  - intros m p q Hm HN Hp Hq Wp Wq. pose proof (motor_moves B m p Hm Hp Wp) as Mp. pose proof (motor_moves B m q Hm Hq Wq) as Mq. cbn zeta in Mp, Mq.
    pose proof (dist_moved _ _ _ _ _ _ Mp Mq) as D. rewrite image_dist in D. rewrite P120, Ue. pose proof (near_n4 _ HN) as L. destruct HN as [_ HN]. rewrite Ue in HN.
    change (rv (mkrotor (motor_p1 m))) with (map4 val (motor_p1 m)) in HN, L.
    apply Rabs_le_inv in HN. apply Rabs_le_inv in D.
    pose proof (DT (pos p) (pos q)) as [D0 D1]. set (d := dist (pos p) (pos q)) in *. set (N := q4 (map4 val (motor_p1 m)) (map4 val (motor_p1 m))) in *.
    pose proof (vlen_pos (pos p)) as V1. pose proof (vlen_pos (pos q)) as V2. set (s := vlen (pos p) + vlen (pos q)) in *. assert (S0 : 0 <= s) by (unfold s; lra).
    set (l := n4 (map4 val (motor_p1 m))) in *. set (T := n4 (map4 val (motor_p2 m))) in *. assert (T0 : 0 <= T) by apply n4_pos.
    assert (A1 : Rabs (N * d - d) <= 24 * u * s).
    { replace (N * d - d) with ((N - 1) * d) by ring. rewrite Rabs_mult, (Rabs_pos_eq d) by exact D0. apply Rmult_le_compat; try assumption; try apply Rabs_pos. apply Rabs_le. lra. }
    apply Rabs_le_inv in A1.
    assert (A2 : u * (N * s) <= u * (101 / 100 * s)) by (apply Rmult_le_compat_l; [lra|]; apply Rmult_le_compat_r; lra).
    assert (A3 : u * (l * T) <= u * (101 / 100 * T)) by (apply Rmult_le_compat_l; [lra|]; apply Rmult_le_compat_r; lra).
    assert (0 <= u * s) by (apply Rmult_le_pos; lra). assert (0 <= u * T) by (apply Rmult_le_pos; lra).
    apply Rabs_le. unfold s in *. lra.
  - intros r p q HN Hp Hq W. pose proof (near_n4 r HN) as L.
    assert (Hr : Forall (bounded 20) (coefs (k := KRotor) r)) by (apply rv_bounded; [lia|apply HN|lra]).
    destruct HN as [_ HN]. rewrite Ue in *. pose proof (RT r p q _ Hr Hp Hq W HN) as D. eapply Rle_trans; [exact D|].
    apply Rplus_le_compat_r. pose proof (vlen_pos (pos p)). pose proof (vlen_pos (pos q)). set (s := vlen (pos p) + vlen (pos q)) in *. assert (S0 : 0 <= s) by (unfold s; lra).
    rewrite <- Rmult_assoc. apply Rmult_le_compat_r; [exact S0|]. nra.
  - intros rs p q HN HL Hp Hq W r. destruct (C72_rotor_chain B rs HN HL) as (F & _ & E). fold r in F, E. set (n := INR (length rs)) in *.
    assert (K0 : 0 <= n) by apply pos_INR. rewrite Ue in *.
    assert (Kb : n * u <= / 64).
    { unfold n. rewrite INR_IZR_INZ. apply (Rle_trans _ (IZR (2 ^ 18) * u)); [apply Rmult_le_compat_r; [lra|apply IZR_le; lia]|]. unfold u. lra. }
    set (x := n * u) in *. assert (X0 : 0 <= x) by (apply Rmult_le_pos; lra). replace (26 * n * u) with (26 * x) in E by (unfold x; ring). apply Rabs_le_inv in E.
    assert (Hr : Forall (bounded 20) (coefs (k := KRotor) r)) by (apply rv_bounded; [lia|exact F|lra]).
    assert (XX : x * x <= / 64 * x) by (apply Rmult_le_compat_r; assumption).
    assert (He : Rabs (q4 (rv r) (rv r) - 1) <= 63 * x).
    { rewrite <- n4_sq. set (g := n4 (rv r)) in *. assert (G : (g - 1) * (g - 1) <= 26 * x * (26 * x)).
      { rewrite <- (Rabs_pos_eq ((g - 1) * (g - 1))) by apply Rle_0_sqr. rewrite Rabs_mult. apply Rmult_le_compat; try apply Rabs_pos; apply Rabs_le; lra. }
      pose proof (Rle_0_sqr (g - 1)). unfold Rsqr in *. apply Rabs_le. split; nra. }
    pose proof (RT r p q _ Hr Hp Hq W He) as D. eapply Rle_trans; [exact D|].
    apply Rplus_le_compat_r. pose proof (vlen_pos (pos p)). pose proof (vlen_pos (pos q)). set (s := vlen (pos p) + vlen (pos q)) in *. assert (S0 : 0 <= s) by (unfold s; lra).
    rewrite <- Rmult_assoc. apply Rmult_le_compat_r; [exact S0|]. replace (u * (110 + 63 * n)) with (110 * u + 63 * x) by (unfold x; ring).
    assert (u * x <= u * / 64) by (apply Rmult_le_compat_l; lra). lra.
  - intros t p q Ht Z Hp Hq Wp Wq. pose proof (translator_moves B t p Ht Z Hp Wp) as Mp. pose proof (translator_moves B t q Ht Z Hq Wq) as Mq. cbn zeta in Mp, Mq.
    pose proof (dist_moved _ _ _ _ _ _ Mp Mq) as D. rewrite image_dist in D. rewrite P120, Ue.
    replace (q4 (mk4 1 0 0 0) (mk4 1 0 0 0)) with 1 in D by (unfold q4; cbn [l0 l1 l2 l3]; ring).
    rewrite Rmult_1_l in D. eapply Rle_trans; [exact D|]. lra.
Qed.

(** the hypotheses are met: a rotation by twice the angle of (3, 4, 0, 0), points at (1, 2, 3) and (-2, 0, 5) *)
Definition r34 : rotor f32 := mkrotor (mk4 (f32_of 10066330 (-24)) (f32_of 13421773 (-24)) (f32_of 0 0) (f32_of 0 0)).
Definition pt (x y z : Z) : point f32 := mkpoint (mk4 (f32_of 1 0) (f32_of x 0) (f32_of y 0) (f32_of z 0)).
Example C72_near_unit : near_unit r34.
Proof.
  split; [repeat constructor|]. unfold rv, r34, q4, map4. cbn [rotor_p1 l0 l1 l2 l3].
  assert (V1 : val (f32_of 10066330 (-24)) = 10066330 / 16777216) by (vm_compute; lra).
  assert (V2 : val (f32_of 13421773 (-24)) = 13421773 / 16777216) by (vm_compute; lra).
  assert (V3 : val (f32_of 0 0) = 0) by reflexivity. rewrite V1, V2, V3. apply Rabs_le. lra.
Qed.
Example C72_points : Forall (bounded 20) (coefs (k := KPoint) (pt 1 2 3)) /\ Forall (bounded 20) (coefs (k := KPoint) (pt (-2) 0 5)) /\
  val (l0 (point_p3 (pt 1 2 3))) = 1.
Proof.
  assert (P : bpow radix2 20 = 1048576) by (cbn; lra).
  split; [|split]; [| |vm_compute; lra]; repeat apply Forall_cons; try apply Forall_nil; (split; [reflexivity|]); rewrite P; vm_compute; repeat destruct Rcase_abs; lra.
Qed.
Example C72_thousand : Forall near_unit (repeat r34 1000) /\ (Z.of_nat (length (repeat r34 1000)) <= 2 ^ 18)%Z.
Proof. split; [|rewrite repeat_length; lia]. apply Forall_forall. intros x Hx. apply repeat_spec in Hx. subst x. exact C72_near_unit. Qed.

Print Assumptions C72_rotor_product.
Print Assumptions rotor_chain_step.
Print Assumptions C72_rotor_chain.
Print Assumptions C72_normalize.
Print Assumptions C72_direction.
Print Assumptions C72_distance.
