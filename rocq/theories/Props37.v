(** Property C85: planes, lines and directions carried by motors in binary32. *)
From Coq Require Import ZArith Reals List Bool Lra Lia Psatz.
From Flocq Require Import Core BinarySingleNaN.
From Verif Require Import AlgTac SpecMass FloatMass Float32 FloatFacts ExprSyntax FloatErr FloatAbs FloatApx FloatNR FloatOps Props11 SpecGeom Props23 Props24 Props26 Props28 Props30 Props34 Props36.
Import ListNotations.
Local Open Scope R_scope.

(** ** Expressions on four registers *)
Definition lanes16 (a b c d : m128 f32) (n : nat) : f32 := nth n (reg_list a ++ reg_list b ++ reg_list c ++ reg_list d) (B754_zero false).
Lemma lanes16_ok a b c d : bound a -> bound b -> bound c -> bound d -> okx (lanes16 a b c d).
Proof.
  intros Ha Hb Hc Hd n. rewrite (IZR_Zpower radix2) by lia. change (bounded 20 (lanes16 a b c d n)). unfold lanes16.
  assert (H : Forall (bounded 20) (reg_list a ++ reg_list b ++ reg_list c ++ reg_list d)) by (repeat (apply Forall_app; split); assumption). rewrite Forall_forall in H.
  destruct (nth_in_or_default n (reg_list a ++ reg_list b ++ reg_list c ++ reg_list d) (B754_zero false)) as [I|I]; [apply H; exact I|rewrite I; apply bounded_zero].
Qed.

(** ** The code *)
Section Gen.
Context {F : Type} {A : Arith F} {B : Build} (x : nat -> F).
Notation h := (map4 (eval x)).
Lemma mp_gen : plane_p0 (motor_on_plane (mkmotor (h (vreg 0)) (h (vreg 4))) (mkplane (h (vreg 8)))) = h (plane_p0 (motor_on_plane (mkmotor (vreg 0) (vreg 4)) (mkplane (vreg 8)))).
Proof. destruct B as [[|]]; reflexivity. Qed.
Lemma ml_gen1 : line_p1 (motor_on_line (mkmotor (h (vreg 0)) (h (vreg 4))) (mkline (h (vreg 8)) (h (vreg 12)))) = h (line_p1 (motor_on_line (mkmotor (vreg 0) (vreg 4)) (mkline (vreg 8) (vreg 12)))).
Proof. reflexivity. Qed.
Lemma ml_gen2 : line_p2 (motor_on_line (mkmotor (h (vreg 0)) (h (vreg 4))) (mkline (h (vreg 8)) (h (vreg 12)))) = h (line_p2 (motor_on_line (mkmotor (vreg 0) (vreg 4)) (mkline (vreg 8) (vreg 12)))).
Proof. reflexivity. Qed.
Lemma md_gen : direction_p3 (motor_on_direction (mkmotor (h (vreg 0)) (h (vreg 4))) (mkdirection (h (vreg 8)))) = h (direction_p3 (motor_on_direction (mkmotor (vreg 0) (vreg 4)) (mkdirection (vreg 8)))).
Proof. destruct B as [[|]]; reflexivity. Qed.
End Gen.
Lemma mp_code (B : Build) (m : motor f32) (b : plane f32) : plane_p0 (motor_on_plane m b) = map4 (eval (lanes16 (motor_p1 m) (motor_p2 m) (plane_p0 b) nought)) (plane_p0 (motor_on_plane (mkmotor (vreg 0) (vreg 4)) (mkplane (vreg 8)))).
Proof. destruct m as [[a0 a1 a2 a3] [a4 a5 a6 a7]], b as [[b0 b1 b2 b3]]. exact (mp_gen (lanes16 (mk4 a0 a1 a2 a3) (mk4 a4 a5 a6 a7) (mk4 b0 b1 b2 b3) nought)). Qed.
Lemma ml_code1 (m : motor f32) (b : line f32) : line_p1 (motor_on_line m b) = map4 (eval (lanes16 (motor_p1 m) (motor_p2 m) (line_p1 b) (line_p2 b))) (line_p1 (motor_on_line (mkmotor (vreg 0) (vreg 4)) (mkline (vreg 8) (vreg 12)))).
Proof. destruct m as [[a0 a1 a2 a3] [a4 a5 a6 a7]], b as [[b0 b1 b2 b3] [c0 c1 c2 c3]]. exact (ml_gen1 (lanes16 (mk4 a0 a1 a2 a3) (mk4 a4 a5 a6 a7) (mk4 b0 b1 b2 b3) (mk4 c0 c1 c2 c3))). Qed.
Lemma ml_code2 (m : motor f32) (b : line f32) : line_p2 (motor_on_line m b) = map4 (eval (lanes16 (motor_p1 m) (motor_p2 m) (line_p1 b) (line_p2 b))) (line_p2 (motor_on_line (mkmotor (vreg 0) (vreg 4)) (mkline (vreg 8) (vreg 12)))).
Proof. destruct m as [[a0 a1 a2 a3] [a4 a5 a6 a7]], b as [[b0 b1 b2 b3] [c0 c1 c2 c3]]. exact (ml_gen2 (lanes16 (mk4 a0 a1 a2 a3) (mk4 a4 a5 a6 a7) (mk4 b0 b1 b2 b3) (mk4 c0 c1 c2 c3))). Qed.
Lemma md_code (B : Build) (m : motor f32) (b : direction f32) : direction_p3 (motor_on_direction m b) = map4 (eval (lanes16 (motor_p1 m) (motor_p2 m) (direction_p3 b) nought)) (direction_p3 (motor_on_direction (mkmotor (vreg 0) (vreg 4)) (mkdirection (vreg 8)))).
Proof. destruct m as [[a0 a1 a2 a3] [a4 a5 a6 a7]], b as [[b0 b1 b2 b3]]. exact (md_gen (lanes16 (mk4 a0 a1 a2 a3) (mk4 a4 a5 a6 a7) (mk4 b0 b1 b2 b3) nought)). Qed.

(** ** What the code computes, and the terms it sums *)
Definition r4 (y : nat -> R) (o : nat) : m128 R := mk4 (y o) (y (1 + o)%nat) (y (2 + o)%nat) (y (3 + o)%nat).
Definition sum1 (a : vec) : R := Rabs (vx a) + Rabs (vy a) + Rabs (vz a).
(** the term a line's direction adds to its moment *)
Definition twist (p1 p2 : m128 R) (s : vec) : vec := vpart (qm (qm p1 (lift s)) p2).
Lemma mp_exact (B : Build) y : let c := plane_p0 (motor_on_plane (mkmotor (vreg 0) (vreg 4)) (mkplane (vreg 8))) in let p1 := r4 y 0 in let p2 := r4 y 4 in let n := vy3 y 8 in let d := y 8%nat in
  eval (A := Arith_R) y (l0 c) = q4 p1 p1 * d + 2 * vdot n (vpart (qm p2 p1)) /\ turn p1 n = ev3 y c.
Proof.
  intros c p1 p2 n d. unfold c. split.
  - unfold vdot, n, vy3, vpart, qm, q4, d, p1, p2, r4. cbn [vx vy vz l0 l1 l2 l3]. destruct B as [[|]]; rcbv; ring.
  - unfold n, vy3, turn, vpart, qm, rev4, lift, p1, r4, ev3. cbn [vx vy vz l0 l1 l2 l3]. destruct B as [[|]]; apply vec_eq; rcbv; ring.
Qed.
Lemma ml_exact y : let r := motor_on_line (mkmotor (vreg 0) (vreg 4)) (mkline (vreg 8) (vreg 12)) in let p1 := r4 y 0 in let p2 := r4 y 4 in let s := vy3 y 8 in let m := vy3 y 12 in
  turn p1 s = ev3 y (line_p1 r) /\ vsub (turn p1 m) (vscale 2 (twist p1 p2 s)) = ev3 y (line_p2 r).
Proof.
  intros r p1 p2 s m. unfold r. split.
  - unfold s, vy3, turn, vpart, qm, rev4, lift, p1, r4, ev3. cbn [vx vy vz l0 l1 l2 l3]. apply vec_eq; rcbv; ring.
  - unfold s, m, vy3, twist, turn, vpart, qm, rev4, lift, p1, p2, r4, ev3, vsub, vscale. cbn [vx vy vz l0 l1 l2 l3]. apply vec_eq; rcbv; ring.
Qed.
Lemma md_exact (B : Build) y : let c := direction_p3 (motor_on_direction (mkmotor (vreg 0) (vreg 4)) (mkdirection (vreg 8))) in turn (r4 y 0) (vy3 y 8) = ev3 y c.
Proof.
  intro c. unfold c, vy3, turn, vpart, qm, rev4, lift, r4, ev3. cbn [vx vy vz l0 l1 l2 l3]. destruct B as [[|]]; apply vec_eq; rcbv; ring.
Qed.
Definition v3 (k : R) : vec := V k k k.
Lemma block p1 : let a := Rabs (l0 p1) in let b := Rabs (l1 p1) in let c := Rabs (l2 p1) in let d := Rabs (l3 p1) in
  a * a + b * b + c * c + d * d = q4 p1 p1 /\ 2 * (a * b + c * d) <= q4 p1 p1 /\ 2 * (a * c + b * d) <= q4 p1 p1 /\ 2 * (a * d + b * c) <= q4 p1 p1.
Proof.
  intros a b c d. assert (E : a * a + b * b + c * c + d * d = q4 p1 p1) by (unfold a, b, c, d, q4; rewrite !sq_abs; ring). rewrite <- E.
  pose proof (Rle_0_sqr (a - b)). pose proof (Rle_0_sqr (c - d)). pose proof (Rle_0_sqr (a - c)). pose proof (Rle_0_sqr (b - d)). pose proof (Rle_0_sqr (a - d)). pose proof (Rle_0_sqr (b - c)). unfold Rsqr in *. repeat split; lra.
Qed.
Lemma cross4 p1 p2 : let t := n4 p1 * n4 p2 in let a := fun v => Rabs v in
  a (l0 p1) * a (l0 p2) + a (l1 p1) * a (l1 p2) + a (l2 p1) * a (l2 p2) + a (l3 p1) * a (l3 p2) <= t /\ a (l0 p1) * a (l1 p2) + a (l1 p1) * a (l0 p2) + a (l2 p1) * a (l3 p2) + a (l3 p1) * a (l2 p2) <= t /\
  a (l0 p1) * a (l2 p2) + a (l1 p1) * a (l3 p2) + a (l2 p1) * a (l0 p2) + a (l3 p1) * a (l1 p2) <= t /\ a (l0 p1) * a (l3 p2) + a (l1 p1) * a (l2 p2) + a (l2 p1) * a (l1 p2) + a (l3 p1) * a (l0 p2) <= t.
Proof.
  destruct p1 as [a0 a1 a2 a3], p2 as [b0 b1 b2 b3]. intros t a. unfold t, a. cbn [l0 l1 l2 l3]. destruct (n4_perm b0 b1 b2 b3) as (P1 & P2 & P3).
  pose proof (mass_bound a0 a1 a2 a3 b0 b1 b2 b3) as M0. pose proof (mass_bound a0 a1 a2 a3 b1 b0 b3 b2) as M1. pose proof (mass_bound a0 a1 a2 a3 b2 b3 b0 b1) as M2. pose proof (mass_bound a0 a1 a2 a3 b3 b2 b1 b0) as M3.
  rewrite P1 in M1. rewrite P2 in M2. rewrite P3 in M3. repeat split; assumption.
Qed.
(** a row of three coefficients *)
Lemma row k a b c x y z : a <= k -> b <= k -> c <= k -> a * Rabs x + b * Rabs y + c * Rabs z <= k * sum1 (V x y z).
Proof.
  intros A B C. unfold sum1. cbn [vx vy vz]. pose proof (Rmult_le_compat_r (Rabs x) _ _ (Rabs_pos x) A). pose proof (Rmult_le_compat_r (Rabs y) _ _ (Rabs_pos y) B). pose proof (Rmult_le_compat_r (Rabs z) _ _ (Rabs_pos z) C). lra.
Qed.
Lemma mp_mass (B : Build) y : let c := plane_p0 (motor_on_plane (mkmotor (vreg 0) (vreg 4)) (mkplane (vreg 8))) in let p1 := r4 y 0 in let p2 := r4 y 4 in let n := vy3 y 8 in let d := y 8%nat in
  absv y (l0 c) <= 3 * q4 p1 p1 * Rabs d + 2 * (n4 p1 * n4 p2) * sum1 n /\ vle (av3 y c) (v3 (q4 p1 p1 * sum1 n)).
Proof.
  intros c p1 p2 n d. unfold c. destruct (block p1) as (E & E1 & E2 & E3). destruct (cross4 p1 p2) as (_ & M1 & M2 & M3). set (N := q4 p1 p1) in *. set (t := n4 p1 * n4 p2) in *. clearbody N t.
  unfold p1, p2, r4 in *. cbn [l0 l1 l2 l3 Nat.add] in *. cbv beta in *.
  set (a0 := Rabs (y 0%nat)) in *. set (a1 := Rabs (y 1%nat)) in *. set (a2 := Rabs (y 2%nat)) in *. set (a3 := Rabs (y 3%nat)) in *.
  assert (Q : forall v, 0 <= Rabs v * Rabs v) by (intro v; apply Rle_0_sqr). pose proof (Q (y 0%nat)) as Q0. pose proof (Q (y 1%nat)) as Q1. pose proof (Q (y 2%nat)) as Q2. pose proof (Q (y 3%nat)) as Q3. fold a0 in Q0. fold a1 in Q1. fold a2 in Q2. fold a3 in Q3. clear Q.
  split.
  - pose proof (Rmult_le_compat_r (Rabs d) (a0 * a0) N (Rabs_pos d) ltac:(lra)) as H0.
    pose proof (row (2 * t) _ _ _ (y 9%nat) (y 10%nat) (y 11%nat) (Rmult_le_compat_l 2 _ _ ltac:(lra) M1) (Rmult_le_compat_l 2 _ _ ltac:(lra) M2) (Rmult_le_compat_l 2 _ _ ltac:(lra) M3)) as H.
    rewrite <- E. unfold n, vy3, sum1, d in *. rewrite <- E in H0. cbn [vx vy vz Nat.add] in *. unfold a0, a1, a2, a3 in *. destruct B as [[|]]; norm_abs; lra.
  - pose proof (row N N _ _ (y 9%nat) (y 10%nat) (y 11%nat) (Rle_refl N) E3 E2) as H1.
    pose proof (row N _ N _ (y 9%nat) (y 10%nat) (y 11%nat) E3 (Rle_refl N) E1) as H2.
    pose proof (row N _ _ N (y 9%nat) (y 10%nat) (y 11%nat) E2 E1 (Rle_refl N)) as H3. rewrite <- E in *.
    unfold n, vle, vy3, sum1, av3, v3 in *. cbn [vx vy vz Nat.add] in *. unfold a0, a1, a2, a3 in *. destruct B as [[|]]; (split; [|split]); norm_abs; lra.
Qed.
Lemma ml_mass y : let r := motor_on_line (mkmotor (vreg 0) (vreg 4)) (mkline (vreg 8) (vreg 12)) in let p1 := r4 y 0 in let p2 := r4 y 4 in let s := vy3 y 8 in let m := vy3 y 12 in
  vle (av3 y (line_p1 r)) (v3 (q4 p1 p1 * sum1 s)) /\ vle (av3 y (line_p2 r)) (v3 (q4 p1 p1 * sum1 m + 2 * (n4 p1 * n4 p2) * sum1 s)).
Proof.
  intros r p1 p2 s m. unfold r. destruct (block p1) as (E & E1 & E2 & E3). destruct (cross4 p1 p2) as (M0 & M1 & M2 & M3). set (N := q4 p1 p1) in *. set (t := n4 p1 * n4 p2) in *. clearbody N t.
  unfold p1, p2, r4 in *. cbn [l0 l1 l2 l3 Nat.add] in *. cbv beta in *.
  assert (H : forall o, let x := y (1 + o)%nat in let z := y (2 + o)%nat in let w := y (3 + o)%nat in
    N * Rabs x + 2 * (Rabs (y 0%nat) * Rabs (y 3%nat) + Rabs (y 1%nat) * Rabs (y 2%nat)) * Rabs z + 2 * (Rabs (y 0%nat) * Rabs (y 2%nat) + Rabs (y 1%nat) * Rabs (y 3%nat)) * Rabs w <= N * sum1 (vy3 y o) /\
    2 * (Rabs (y 0%nat) * Rabs (y 3%nat) + Rabs (y 1%nat) * Rabs (y 2%nat)) * Rabs x + N * Rabs z + 2 * (Rabs (y 0%nat) * Rabs (y 1%nat) + Rabs (y 2%nat) * Rabs (y 3%nat)) * Rabs w <= N * sum1 (vy3 y o) /\
    2 * (Rabs (y 0%nat) * Rabs (y 2%nat) + Rabs (y 1%nat) * Rabs (y 3%nat)) * Rabs x + 2 * (Rabs (y 0%nat) * Rabs (y 1%nat) + Rabs (y 2%nat) * Rabs (y 3%nat)) * Rabs z + N * Rabs w <= N * sum1 (vy3 y o)).
  { intros o x z w. unfold vy3. fold x z w. split; [|split]; apply row; try assumption; apply Rle_refl. }
  split.
  - destruct (H 8%nat) as (H1 & H2 & H3). clear H. cbn [Nat.add] in *. rewrite <- E in *. unfold s, vle, vy3, sum1, av3, v3 in *. cbn [vx vy vz Nat.add] in *. (split; [|split]); norm_abs; lra.
  - destruct (H 12%nat) as (H1 & H2 & H3). clear H. pose proof (Rmult_le_compat_l 2 _ _ ltac:(lra) M0) as T0. pose proof (Rmult_le_compat_l 2 _ _ ltac:(lra) M1) as T1. pose proof (Rmult_le_compat_l 2 _ _ ltac:(lra) M2) as T2. pose proof (Rmult_le_compat_l 2 _ _ ltac:(lra) M3) as T3. clear M0 M1 M2 M3.
    pose proof (row (2 * t) _ _ _ (y 9%nat) (y 10%nat) (y 11%nat) T0 T3 T2) as K1. pose proof (row (2 * t) _ _ _ (y 9%nat) (y 10%nat) (y 11%nat) T3 T0 T1) as K2. pose proof (row (2 * t) _ _ _ (y 9%nat) (y 10%nat) (y 11%nat) T2 T1 T0) as K3.
    clear T0 T1 T2 T3. cbn [Nat.add] in *. rewrite <- E in *. unfold s, m, vle, vy3, sum1, av3, v3 in *. cbn [vx vy vz Nat.add] in *. (split; [|split]); norm_abs; lra.
Qed.
Lemma md_mass (B : Build) y : let c := direction_p3 (motor_on_direction (mkmotor (vreg 0) (vreg 4)) (mkdirection (vreg 8))) in vle (av3 y c) (v3 (q4 (r4 y 0) (r4 y 0) * sum1 (vy3 y 8))).
Proof.
  intro c. unfold c. destruct (block (r4 y 0)) as (E & E1 & E2 & E3). set (N := q4 (r4 y 0) (r4 y 0)) in *. clearbody N. unfold r4 in *. cbn [l0 l1 l2 l3 Nat.add] in *.
  pose proof (row N N _ _ (y 9%nat) (y 10%nat) (y 11%nat) (Rle_refl N) E3 E2) as H1.
  pose proof (row N _ N _ (y 9%nat) (y 10%nat) (y 11%nat) E3 (Rle_refl N) E1) as H2.
  pose proof (row N _ _ N (y 9%nat) (y 10%nat) (y 11%nat) E2 E1 (Rle_refl N)) as H3. rewrite <- E in *.
  unfold vle, vy3, sum1, av3, v3 in *. cbn [vx vy vz Nat.add] in *. destruct B as [[|]]; (split; [|split]); norm_abs; lra.
Qed.
Lemma sum1_len a : sum1 a <= 7 / 4 * vlen a.
Proof.
  pose proof (vlen_pos a) as P. apply Rsqr_incr_0_var; [|lra]. unfold Rsqr. replace (7 / 4 * vlen a * (7 / 4 * vlen a)) with (49 / 16 * (vlen a * vlen a)) by field. rewrite vlen_sq.
  unfold sum1, vdot. rewrite <- (sq_abs (vx a)), <- (sq_abs (vy a)), <- (sq_abs (vz a)). pose proof (Rabs_pos (vx a)). pose proof (Rabs_pos (vy a)). pose proof (Rabs_pos (vz a)).
  set (p := Rabs (vx a)) in *. set (q := Rabs (vy a)) in *. set (r := Rabs (vz a)) in *. pose proof (Rle_0_sqr (p - q)). pose proof (Rle_0_sqr (q - r)). pose proof (Rle_0_sqr (p - r)). pose proof (Rle_0_sqr p). pose proof (Rle_0_sqr q). pose proof (Rle_0_sqr r). unfold Rsqr in *. lra.
Qed.
Lemma v3_len k : 0 <= k -> vlen (v3 k) <= 7 / 4 * k.
Proof. intro K. apply vlen_bound; [lra|]. unfold vdot, v3. cbn [vx vy vz]. pose proof (Rle_0_sqr k). unfold Rsqr in *. lra. Qed.
Lemma sum1_pos a : 0 <= sum1 a. Proof. unfold sum1. pose proof (Rabs_pos (vx a)). pose proof (Rabs_pos (vy a)). pose proof (Rabs_pos (vz a)). lra. Qed.
(** sqrt 3 * sqrt 3, a little rounded up *)
Lemma block_len N a : 0 <= N -> vlen (v3 (N * sum1 a)) <= 49 / 16 * (N * vlen a).
Proof.
  intro H. pose proof (sum1_pos a). pose proof (sum1_len a). eapply Rle_trans; [apply v3_len, Rmult_le_pos; assumption|]. pose proof (Rmult_le_compat_l N _ _ H H1). lra.
Qed.
Definition motor_bound (m : motor f32) := bound (motor_p1 m) /\ bound (motor_p2 m).

(** ** The computed images against the polynomials *)
Lemma plane_moves (B : Build) (m : motor f32) (b : plane f32) : motor_bound m -> bound (plane_p0 b) ->
  let p1 := mv1 m in let p2 := mv2 m in let n := nrm b in let d := off b in let q := motor_on_plane m b in
  Forall fin (reg_list (plane_p0 q)) /\
  Rabs (off q - (q4 p1 p1 * d + 2 * vdot n (vpart (qm p2 p1)))) <= unit_err 9 * (3 * (q4 p1 p1 * Rabs d) + 7 / 2 * (n4 p1 * n4 p2 * vlen n)) + tiny /\
  vlen (vsub (nrm q) (turn p1 n)) <= unit_err 7 * (49 / 16 * (q4 p1 p1 * vlen n)) + 2 * tiny.
Proof.
  intros [Hm1 Hm2] Hb p1 p2 n d q. pose proof (lanes16_ok _ _ _ _ Hm1 Hm2 Hb nought_ok) as X. set (L := lanes16 (motor_p1 m) (motor_p2 m) (plane_p0 b) nought) in *.
  set (c := plane_p0 (motor_on_plane (A := Arith_expr) (mkmotor (vreg 0) (vreg 4)) (mkplane (vreg 8)))).
  assert (G0 : good 9 (l0 c) = true) by (unfold c; destruct B as [[|]]; vm_compute; reflexivity).
  assert (G : good 7 (l1 c) && good 7 (l2 c) && good 7 (l3 c) = true) by (unfold c; destruct B as [[|]]; vm_compute; reflexivity).
  destruct (mp_exact B (fun k => val (L k))) as (E0 & E). destruct (mp_mass B (fun k => val (L k))) as (M0 & M). fold c in E0, E, M0, M.
  assert (C : plane_p0 q = map4 (eval L) c) by apply mp_code. clearbody q c.
  destruct (term L (l0 c) _ _ 9 X G0 E0 M0) as [F0 Q0]. destruct (term3 L c _ _ 7 X G E M) as (F1 & F2 & F3 & Q).
  change (vy3 (fun k => val (L k)) 8) with n in *. change (r4 (fun k => val (L k)) 0) with p1 in *. change (r4 (fun k => val (L k)) 4) with p2 in *. change (val (L 8%nat)) with d in *.
  pose proof (sum1_len n) as S. pose proof (q4_pos p1) as N0. assert (T0 : 0 <= n4 p1 * n4 p2) by (apply Rmult_le_pos; apply n4_pos). split; [|split].
  - rewrite C. repeat (apply Forall_cons; [assumption|]). apply Forall_nil.
  - unfold off. rewrite C. eapply Rle_trans; [exact Q0|]. apply grow; [apply unit_err_pos|]. pose proof (Rmult_le_compat_l _ _ _ T0 S). lra.
  - unfold nrm. rewrite C. eapply Rle_trans; [exact Q|]. apply grow; [apply unit_err_pos|]. apply block_len. exact N0.
Qed.
Lemma line_moves (m : motor f32) (b : line f32) : motor_bound m -> bound (line_p1 b) -> bound (line_p2 b) ->
  let p1 := mv1 m in let p2 := mv2 m in let s := dirn b in let k := mom b in let q := motor_on_line m b in
  Forall fin (coefs (k := KLine) q) /\
  vlen (vsub (dirn q) (turn p1 s)) <= unit_err 6 * (49 / 16 * (q4 p1 p1 * vlen s)) + 2 * tiny /\
  vlen (vsub (mom q) (vsub (turn p1 k) (vscale 2 (twist p1 p2 s)))) <= unit_err 9 * (49 / 16 * (q4 p1 p1 * vlen k) + 49 / 8 * (n4 p1 * n4 p2 * vlen s)) + 2 * tiny.
Proof.
  intros [Hm1 Hm2] Ha Hb p1 p2 s k q. pose proof (lanes16_ok _ _ _ _ Hm1 Hm2 Ha Hb) as X. set (L := lanes16 (motor_p1 m) (motor_p2 m) (line_p1 b) (line_p2 b)) in *.
  set (r := motor_on_line (A := Arith_expr) (mkmotor (vreg 0) (vreg 4)) (mkline (vreg 8) (vreg 12))).
  assert (G0 : good 9 (l0 (line_p1 r)) && good 9 (l0 (line_p2 r)) = true) by (vm_compute; reflexivity). apply andb_prop in G0. destruct G0 as [G0 G0'].
  assert (G : good 6 (l1 (line_p1 r)) && good 6 (l2 (line_p1 r)) && good 6 (l3 (line_p1 r)) = true) by (vm_compute; reflexivity).
  assert (G' : good 9 (l1 (line_p2 r)) && good 9 (l2 (line_p2 r)) && good 9 (l3 (line_p2 r)) = true) by (vm_compute; reflexivity).
  destruct (ml_exact (fun k => val (L k))) as (E1 & E2). destruct (ml_mass (fun k => val (L k))) as (M1 & M2). fold r in E1, E2, M1, M2.
  assert (C1 : line_p1 q = map4 (eval L) (line_p1 r)) by apply ml_code1. assert (C2 : line_p2 q = map4 (eval L) (line_p2 r)) by apply ml_code2. clearbody q r.
  destruct (term L (l0 (line_p1 r)) _ _ 9 X G0 eq_refl (Rle_refl _)) as [F0 _]. destruct (term L (l0 (line_p2 r)) _ _ 9 X G0' eq_refl (Rle_refl _)) as [F0' _].
  destruct (term3 L (line_p1 r) _ _ 6 X G E1 M1) as (F1 & F2 & F3 & Q1). destruct (term3 L (line_p2 r) _ _ 9 X G' E2 M2) as (F4 & F5 & F6 & Q2).
  change (vy3 (fun k => val (L k)) 8) with s in *. change (vy3 (fun k => val (L k)) 12) with k in *. change (r4 (fun k => val (L k)) 0) with p1 in *. change (r4 (fun k => val (L k)) 4) with p2 in *.
  pose proof (sum1_len s) as S. pose proof (sum1_len k) as S'. pose proof (sum1_pos s) as S0. pose proof (sum1_pos k) as S0'. pose proof (q4_pos p1) as N0. assert (T0 : 0 <= n4 p1 * n4 p2) by (apply Rmult_le_pos; apply n4_pos). split; [|split].
  - change (coefs (k := KLine) q) with (reg_list (line_p1 q) ++ reg_list (line_p2 q)). rewrite C1, C2. repeat (apply Forall_cons; [assumption|]). apply Forall_nil.
  - unfold dirn. rewrite C1. eapply Rle_trans; [exact Q1|]. apply grow; [apply unit_err_pos|]. apply block_len. exact N0.
  - unfold mom. rewrite C2. eapply Rle_trans; [exact Q2|]. apply grow; [apply unit_err_pos|]. pose proof (Rmult_le_compat_l _ _ _ T0 S) as H1. pose proof (Rmult_le_compat_l _ _ _ N0 S') as H2. pose proof (Rmult_le_pos _ _ T0 S0). pose proof (Rmult_le_pos _ _ N0 S0').
    eapply Rle_trans; [apply v3_len; lra|]. lra.
Qed.
Lemma direction_moves (B : Build) (m : motor f32) (b : direction f32) : motor_bound m -> bound (direction_p3 b) ->
  let p1 := mv1 m in let n := vval (direction_p3 b) in let q := motor_on_direction m b in
  fin (l1 (direction_p3 q)) /\ fin (l2 (direction_p3 q)) /\ fin (l3 (direction_p3 q)) /\
  vlen (vsub (vval (direction_p3 q)) (turn p1 n)) <= unit_err 7 * (49 / 16 * (q4 p1 p1 * vlen n)) + 2 * tiny.
Proof.
  intros [Hm1 Hm2] Hb p1 n q. pose proof (lanes16_ok _ _ _ _ Hm1 Hm2 Hb nought_ok) as X. set (L := lanes16 (motor_p1 m) (motor_p2 m) (direction_p3 b) nought) in *.
  set (c := direction_p3 (motor_on_direction (A := Arith_expr) (mkmotor (vreg 0) (vreg 4)) (mkdirection (vreg 8)))).
  assert (G : good 7 (l1 c) && good 7 (l2 c) && good 7 (l3 c) = true) by (unfold c; destruct B as [[|]]; vm_compute; reflexivity).
  pose proof (md_exact B (fun k => val (L k))) as E. pose proof (md_mass B (fun k => val (L k))) as M. fold c in E, M.
  assert (C : direction_p3 q = map4 (eval L) c) by exact (md_code B m b). clearbody q c.
  destruct (term3 L c _ _ 7 X G E M) as (F1 & F2 & F3 & Q). rewrite C. repeat (split; [assumption|]).
  eapply Rle_trans; [exact Q|]. apply grow; [apply unit_err_pos|]. apply block_len. apply q4_pos.
Qed.
(** the lane of a line that has no meaning stays an exact zero *)
Fixpoint null (z : nat -> bool) (e : expr) : bool := match e with
  | EVar n => z n | ECst k => (k =? 0)%Z | EAdd a b | ESub a b => null z a && null z b
  | EMul a b => (mild (2 ^ 20) a && (dep a <=? 64)%nat && null z b) || (mild (2 ^ 20) b && (dep b <=? 64)%nat && null z a) | EOpp _ => false end.
Lemma null_ok x z e : okx x -> (forall n, z n = true -> val (x n) = 0) -> null z e = true -> fin (eval x e) /\ val (eval x e) = 0.
Proof.
  intros X Z. induction e as [n|k|a IHa b IHb|a IHa b IHb|a IHa b IHb|a IHa]; intro H; cbn [null eval] in *; try discriminate H.
  - split; [apply X|apply Z; exact H].
  - apply Z.eqb_eq in H. subst k. apply (fz_ok 0). lia.
  - apply andb_prop in H. destruct H as [H1 H2]. destruct (IHa H1) as [Fa Va], (IHb H2) as [Fb Vb]. destruct (add_ok _ _ Fa Fb) as [F V]; [rewrite Va, Vb, Rplus_0_r, Rabs_R0; apply bpow_ge_0|]. split; [exact F|]. rewrite V, Va, Vb, Rplus_0_r. apply (rnd_Z 0). lia.
  - apply andb_prop in H. destruct H as [H1 H2]. destruct (IHa H1) as [Fa Va], (IHb H2) as [Fb Vb]. destruct (sub_ok _ _ Fa Fb) as [F V]; [rewrite Va, Vb, Rminus_0_r, Rabs_R0; apply bpow_ge_0|]. split; [exact F|]. rewrite V, Va, Vb, Rminus_0_r. apply (rnd_Z 0). lia.
  - apply orb_prop in H. destruct H as [H|H]; apply andb_prop in H; destruct H as [H H2]; apply andb_prop in H; destruct H as [H1 D]; apply Nat.leb_le in D.
    + destruct (rounding_any x (2 ^ 20) a ltac:(lia) X H1 ltac:(lia)) as [Fa _]. destruct (IHb H2) as [Fb Vb]. destruct (mul_ok _ _ Fa Fb) as [F V]; [rewrite Vb, Rmult_0_r, Rabs_R0; apply bpow_ge_0|]. split; [exact F|]. rewrite V, Vb, Rmult_0_r. apply (rnd_Z 0). lia.
    + destruct (rounding_any x (2 ^ 20) b ltac:(lia) X H1 ltac:(lia)) as [Fb _]. destruct (IHa H2) as [Fa Va]. destruct (mul_ok _ _ Fa Fb) as [F V]; [rewrite Va, Rmult_0_l, Rabs_R0; apply bpow_ge_0|]. split; [exact F|]. rewrite V, Va, Rmult_0_l. apply (rnd_Z 0). lia.
Qed.
Theorem C85_hidden : forall (m : motor f32) (b : line f32), motor_bound m -> bound (line_p1 b) -> bound (line_p2 b) -> val (l0 (line_p1 b)) = 0 -> val (l0 (line_p2 b)) = 0 ->
  let q := motor_on_line m b in val (l0 (line_p1 q)) = 0 /\ val (l0 (line_p2 q)) = 0.
Proof.
  intros m b [Hm1 Hm2] Ha Hb Z1 Z2 q. pose proof (lanes16_ok _ _ _ _ Hm1 Hm2 Ha Hb) as X. set (L := lanes16 (motor_p1 m) (motor_p2 m) (line_p1 b) (line_p2 b)) in *.
  set (r := motor_on_line (A := Arith_expr) (mkmotor (vreg 0) (vreg 4)) (mkline (vreg 8) (vreg 12))). set (z := fun n => (n =? 8)%nat || (n =? 12)%nat).
  assert (G : null z (l0 (line_p1 r)) && null z (l0 (line_p2 r)) = true) by (vm_compute; reflexivity). apply andb_prop in G. destruct G as [G G'].
  assert (Z : forall n, z n = true -> val (L n) = 0) by (intros n Hn; apply orb_prop in Hn; destruct Hn as [Hn|Hn]; apply Nat.eqb_eq in Hn; subst n; assumption).
  assert (C1 : line_p1 q = map4 (eval L) (line_p1 r)) by apply ml_code1. assert (C2 : line_p2 q = map4 (eval L) (line_p2 r)) by apply ml_code2. clearbody q r. rewrite C1, C2.
  split; apply (null_ok L z); assumption.
Qed.
Print Assumptions C85_hidden.

(** ** The exact images *)
Lemma swung_dot e a b : proper e -> vdot (swung e a) (swung e b) = vdot a b.
Proof.
  intros [P _]. rewrite !swung_turn. pose proof (n4_sq (motor_p1 e)) as Q. rewrite P in Q. transitivity (q4 (motor_p1 e) (motor_p1 e) * q4 (motor_p1 e) (motor_p1 e) * vdot a b); [|rewrite <- Q; ring]. clear.
  destruct (motor_p1 e) as [p0 p1 p2 p3], a as [x y z], b as [x' y' z']. unfold vdot, turn, vpart, qm, lift, rev4, q4. cbn [vx vy vz l0 l1 l2 l3]. ring.
Qed.
Lemma swung_cross e a b : proper e -> vcross (swung e a) (swung e b) = swung e (vcross a b).
Proof.
  intros [P _]. rewrite !swung_turn. pose proof (n4_sq (motor_p1 e)) as Q. rewrite P in Q. transitivity (vscale (q4 (motor_p1 e) (motor_p1 e)) (turn (motor_p1 e) (vcross a b))).
  - clear. destruct (motor_p1 e) as [p0 p1 p2 p3], a as [x y z], b as [x' y' z']. unfold vscale, vcross, turn, vpart, qm, lift, rev4, q4. cbn [vx vy vz l0 l1 l2 l3]. apply vec_eq; cbn [vx vy vz]; ring.
  - rewrite <- Q. destruct (turn _ _) as [x y z]. unfold vscale. cbn [vx vy vz]. apply vec_eq; cbn [vx vy vz]; ring.
Qed.
Lemma moved_swung e x : moved e x = vadd (swung e x) (moved e (V 0 0 0)).
Proof. unfold swung. destruct (moved e x) as [a b c], (moved e (V 0 0 0)) as [a' b' c']. unfold vadd, vsub. cbn [vx vy vz]. apply vec_eq; cbn [vx vy vz]; ring. Qed.
Lemma swung_lin e a b : swung e (vsub a b) = vsub (swung e a) (swung e b).
Proof. rewrite !swung_turn, turn_sub. reflexivity. Qed.
(** the plane n.x + d = 0 and the line x cross s = k after the motion *)
Definition moved_off (e : motor R) (n : vec) (d : R) : R := d - vdot (swung e n) (moved e (V 0 0 0)).
Definition moved_mom (e : motor R) (s k : vec) : vec := vadd (swung e k) (vcross (moved e (V 0 0 0)) (swung e s)).
Theorem C85_exact : forall e, proper e -> forall x,
  (forall n d, vdot (swung e n) (moved e x) + moved_off e n d = vdot n x + d) /\
  (forall s k, vsub (vcross (moved e x) (swung e s)) (moved_mom e s k) = swung e (vsub (vcross x s) k)).
Proof.
  intros e P x. split.
  - intros n d. unfold moved_off. rewrite moved_swung. rewrite <- (swung_dot e n x P). unfold vdot, vadd. cbn [vx vy vz]. ring.
  - intros s k. unfold moved_mom. rewrite moved_swung, swung_lin, <- (swung_cross e x s P). destruct (swung e x) as [x1 x2 x3], (swung e s) as [s1 s2 s3], (swung e k) as [k1 k2 k3], (moved e (V 0 0 0)) as [o1 o2 o3]. unfold vsub, vadd, vcross. cbn [vx vy vz]. apply vec_eq; cbn [vx vy vz]; ring.
Qed.
Print Assumptions C85_exact.
(** ... in terms of the coefficients of the motor *)
Lemma shift_exact e : moved e (V 0 0 0) = vscale (-2) (vpart (qm (motor_p1 e) (motor_p2 e))).
Proof. unfold moved. rewrite image_turn. destruct (motor_p1 e) as [a b c d], (motor_p2 e) as [a' b' c' d']. unfold turn, vpart, qm, lift, rev4, vsub, vscale. cbn [vx vy vz l0 l1 l2 l3]. apply vec_eq; cbn [vx vy vz]; ring. Qed.
Lemma study_lane p d : l0 (qm p d) = study p d.
Proof. destruct p as [a0 a1 a2 a3], d as [b0 b1 b2 b3]. unfold study, qm, q4, rev4. cbn [l0 l1 l2 l3]. ring. Qed.
Lemma off_exact e n d : proper e -> moved_off e n d = d + 2 * vdot n (vpart (qm (motor_p2 e) (motor_p1 e))).
Proof.
  intros [P S]. unfold moved_off. rewrite swung_turn, shift_exact. pose proof (n4_sq (motor_p1 e)) as Q. rewrite P in Q. pose proof (study_lane (motor_p1 e) (motor_p2 e)) as S'. rewrite S in S'. clear P S.
  enough (H : vdot (turn (motor_p1 e) n) (vpart (qm (motor_p1 e) (motor_p2 e))) = q4 (motor_p1 e) (motor_p1 e) * vdot n (vpart (qm (motor_p2 e) (motor_p1 e)))).
  { rewrite <- Q in H. replace (vdot (turn (motor_p1 e) n) (vscale (-2) (vpart (qm (motor_p1 e) (motor_p2 e))))) with (-2 * vdot (turn (motor_p1 e) n) (vpart (qm (motor_p1 e) (motor_p2 e)))) by (unfold vdot, vscale; cbn [vx vy vz]; ring). rewrite H. ring. }
  clear Q. transitivity (q4 (motor_p1 e) (motor_p1 e) * vdot n (vpart (qm (motor_p2 e) (motor_p1 e))) - 2 * l0 (qm (motor_p1 e) (motor_p2 e)) * vdot n (vpart (motor_p1 e)) * 0); [|rewrite S'; ring].
  destruct (motor_p1 e) as [a b c d'], (motor_p2 e) as [a' b' c' e'], n as [x y z]. unfold vdot, turn, vpart, qm, lift, rev4, q4. cbn [vx vy vz l0 l1 l2 l3]. ring.
Qed.
Lemma mom_exact e s k : proper e -> moved_mom e s k = vsub (turn (motor_p1 e) k) (vscale 2 (twist (motor_p1 e) (motor_p2 e) s)).
Proof.
  intros [P S]. unfold moved_mom. rewrite !swung_turn, shift_exact. pose proof (n4_sq (motor_p1 e)) as Q. rewrite P in Q. pose proof (study_lane (motor_p1 e) (motor_p2 e)) as S'. rewrite S in S'. clear P S.
  assert (H : vscale (q4 (motor_p1 e) (motor_p1 e)) (twist (motor_p1 e) (motor_p2 e) s) = vadd (vcross (vpart (qm (motor_p1 e) (motor_p2 e))) (turn (motor_p1 e) s)) (vscale (l0 (qm (motor_p1 e) (motor_p2 e))) (turn (motor_p1 e) s))).
  { clear. destruct (motor_p1 e) as [a b c d'], (motor_p2 e) as [a' b' c' e'], s as [x y z]. unfold vscale, vadd, vcross, twist, turn, vpart, qm, lift, rev4, q4. cbn [vx vy vz l0 l1 l2 l3]. apply vec_eq; cbn [vx vy vz]; ring. }
  rewrite S', <- Q in H. destruct (twist (motor_p1 e) (motor_p2 e) s) as [w1 w2 w3], (turn (motor_p1 e) k) as [k1 k2 k3], (turn (motor_p1 e) s) as [s1 s2 s3], (vpart (qm (motor_p1 e) (motor_p2 e))) as [v1 v2 v3].
  unfold vscale, vadd, vcross in H. cbn [vx vy vz] in H. injection H as H1 H2 H3. unfold vsub, vscale, vadd, vcross. cbn [vx vy vz]. apply vec_eq; cbn [vx vy vz]; lra.
Qed.
Lemma near_facts th r m e : near_motor th r m e -> th <= / 1000 -> r <= 2 ^ 19 -> motor_bound m /\ 0 <= th /\ 0 <= r /\ n4 (mv1 m) <= 1001 / 1000 /\ n4 (mv2 m) <= 1001 / 1000 * r /\ Rabs (q4 (mv1 m) (mv1 m) - 1) <= 2001 / 1000 * th /\ q4 (mv1 m) (mv1 m) <= 10021 / 10000 /\
  n4 (mv1 m) * n4 (mv2 m) <= 10021 / 10000 * r /\ n4 (sub4 (mv1 m) (motor_p1 e)) * (n4 (mv1 m) + 1) <= 2001 / 1000 * th.
Proof.
  intros N T H. destruct (near_motor_len _ _ _ _ N) as (A1 & A2 & t0 & r0). destruct N as (F & (P & _) & Re & E1 & E2).
  assert (A3 : (1 + th) * r <= 1001 / 1000 * r) by (apply Rmult_le_compat_r; lra). assert (P20 : bpow radix2 20 = 2 ^ 20) by (cbn; ring). assert (Y19 : 2 ^ 20 = 2 ^ 19 * 2) by ring. assert (Z19 : 1 <= 2 ^ 19) by (apply pow_R1_Rle; lra).
  assert (Hm : Forall (bounded 20) (coefs (k := KMotor) m)) by (apply motor_bounded; [lia|exact F| |]; rewrite P20, Y19; lra).
  pose proof (n4_pos (mv1 m)) as a0. pose proof (n4_pos (mv2 m)) as b0. pose proof (n4_pos (sub4 (mv1 m) (motor_p1 e))) as d0.
  split; [change (coefs (k := KMotor) m) with (reg_list (motor_p1 m) ++ reg_list (motor_p2 m)) in Hm; apply Forall_app in Hm; exact Hm|]. split; [exact t0|split; [exact r0|split; [lra|split; [lra|]]]].
  pose proof (n4_diff (mv1 m) (motor_p1 e)) as D. rewrite P in D. assert (X : n4 (sub4 (mv1 m) (motor_p1 e)) * (n4 (mv1 m) + 1) <= th * (2001 / 1000)) by (apply Rmult_le_compat; lra). split; [|split; [|split; [|lra]]].
  - rewrite <- n4_sq. replace (n4 (mv1 m) * n4 (mv1 m) - 1) with ((n4 (mv1 m) - 1) * (n4 (mv1 m) + 1)) by ring. rewrite Rabs_mult, (Rabs_pos_eq (n4 (mv1 m) + 1)) by lra.
    eapply Rle_trans; [apply Rmult_le_compat_r; [lra|exact D]|]. lra.
  - rewrite <- n4_sq. apply (Rle_trans _ (1001 / 1000 * (1001 / 1000))); [apply Rmult_le_compat; lra|lra].
  - apply (Rle_trans _ (1001 / 1000 * (1001 / 1000 * r))); [apply Rmult_le_compat; lra|lra].
Qed.
Lemma unit_err_u d : unit_err d = INR d * (1 + / 100000) * u. Proof. unfold unit_err. ring. Qed.

(** ** The computed images, geometrically *)
Theorem C85_plane : forall (B : Build) (th r : R) (m : motor f32) (e : motor R) (b : plane f32), near_motor th r m e -> th <= / 1000 -> r <= 2 ^ 19 -> bound (plane_p0 b) ->
  let n := nrm b in let d := off b in let q := motor_on_plane m b in
  Forall fin (reg_list (plane_p0 q)) /\
  vlen (vsub (nrm q) (swung e n)) <= (201 / 100 * th + 22 * / 2 ^ 24) * vlen n + 2 * tiny /\
  Rabs (off q - moved_off e n d) <= (201 / 100 * th + 28 * / 2 ^ 24) * Rabs d + (401 / 100 * th + 32 * / 2 ^ 24) * (r * vlen n) + tiny.
Proof.
  intros B th r m e b N T H Hb n d q. destruct (near_facts _ _ _ _ N T H) as (Hm & t0 & r0 & A1 & A2 & Q & Q' & AB & D). rewrite u_pow. pose proof u_small as U.
  destruct (plane_moves B m b Hm Hb) as (F & E0 & E). fold n d q in E0, E, F. clearbody q. destruct N as (_ & P & Re & E1 & E2). rewrite (off_exact e n d P), swung_turn. destruct P as [P _].
  set (p1 := mv1 m) in *. set (p2 := mv2 m) in *. set (e1 := motor_p1 e) in *. set (e2 := motor_p2 e) in *. clearbody p1 p2 e1 e2.
  pose proof (vlen_pos n) as n0. pose proof (Rabs_pos d) as d0. rewrite !unit_err_u in *. cbn [INR] in *. assert (un : 0 <= u * vlen n) by (apply Rmult_le_pos; lra). assert (ud : 0 <= u * Rabs d) by (apply Rmult_le_pos; lra).
  assert (rn : 0 <= r * vlen n) by (apply Rmult_le_pos; lra). assert (urn : 0 <= u * (r * vlen n)) by (apply Rmult_le_pos; lra). assert (trn : 0 <= th * (r * vlen n)) by (apply Rmult_le_pos; lra).
  split; [exact F|split].
  - eapply Rle_trans; [apply (vlen_via _ (turn p1 n))|]. pose proof (turn_diff p1 e1 n) as K. rewrite P in K. pose proof (Rmult_le_compat_r _ _ _ n0 D) as K1. pose proof (Rmult_le_compat_r _ _ _ n0 Q') as K2. apply (Rmult_le_compat_l u) in K2; [|lra].
    assert (0 <= th * vlen n) by (apply Rmult_le_pos; lra). lra.
  - set (w := vpart (qm p2 p1)) in *. set (w' := vpart (qm e2 e1)).
    assert (W : vlen (vsub w w') <= 2002 / 1000 * (th * r)).
    { unfold w, w'. rewrite <- vpart_sub. eapply Rle_trans; [apply vpart_le|]. eapply Rle_trans; [apply (n4_via _ (qm e2 p1))|]. rewrite qm_sub_l, qm_sub_r, !qm_n4.
      pose proof (n4_pos (sub4 p2 e2)). pose proof (n4_pos (sub4 p1 e1)). pose proof (n4_pos e2). pose proof (n4_pos p1).
      assert (n4 (sub4 p2 e2) * n4 p1 <= th * r * (1001 / 1000)) by (apply Rmult_le_compat; lra). assert (n4 e2 * n4 (sub4 p1 e1) <= r * th) by (apply Rmult_le_compat; lra). assert (0 <= th * r) by (apply Rmult_le_pos; lra). lra. }
    replace (off q - (d + 2 * vdot n w')) with ((off q - (q4 p1 p1 * d + 2 * vdot n w)) + ((q4 p1 p1 - 1) * d + 2 * vdot n (vsub w w'))) by (unfold vdot, vsub; cbn [vx vy vz]; ring).
    eapply Rle_trans; [apply Rabs_triang|]. pose proof (Rabs_triang ((q4 p1 p1 - 1) * d) (2 * vdot n (vsub w w'))) as X. rewrite !Rabs_mult, (Rabs_pos_eq 2) in X by lra.
    pose proof (vdot_abs n (vsub w w')) as X2. pose proof (Rmult_le_compat_l _ _ _ n0 W) as X3. pose proof (Rmult_le_compat_r _ _ _ d0 Q) as X4.
    pose proof (Rmult_le_compat_r _ _ _ d0 Q') as X5. apply (Rmult_le_compat_l u) in X5; [|lra]. pose proof (Rmult_le_compat_r _ _ _ n0 AB) as X6. apply (Rmult_le_compat_l u) in X6; [|lra].
    assert (0 <= th * Rabs d) by (apply Rmult_le_pos; lra). lra.
Qed.
Print Assumptions C85_plane.
Theorem C85_line : forall (th r : R) (m : motor f32) (e : motor R) (b : line f32), near_motor th r m e -> th <= / 1000 -> r <= 2 ^ 19 -> bound (line_p1 b) -> bound (line_p2 b) ->
  let s := dirn b in let k := mom b in let q := motor_on_line m b in
  Forall fin (coefs (k := KLine) q) /\
  vlen (vsub (dirn q) (swung e s)) <= (201 / 100 * th + 19 * / 2 ^ 24) * vlen s + 2 * tiny /\
  vlen (vsub (mom q) (moved_mom e s k)) <= (201 / 100 * th + 28 * / 2 ^ 24) * vlen k + (401 / 100 * th + 56 * / 2 ^ 24) * (r * vlen s) + 2 * tiny.
Proof.
  intros th r m e b N T H Ha Hb s k q. destruct (near_facts _ _ _ _ N T H) as (Hm & t0 & r0 & A1 & A2 & Q & Q' & AB & D). rewrite u_pow. pose proof u_small as U.
  destruct (line_moves m b Hm Ha Hb) as (F & E0 & E). fold s k q in E0, E, F. clearbody q. destruct N as (_ & P & Re & E1 & E2). rewrite (mom_exact e s k P), swung_turn. destruct P as [P _].
  set (p1 := mv1 m) in *. set (p2 := mv2 m) in *. set (e1 := motor_p1 e) in *. set (e2 := motor_p2 e) in *. clearbody p1 p2 e1 e2.
  pose proof (vlen_pos s) as n0. pose proof (vlen_pos k) as d0. rewrite !unit_err_u in *. cbn [INR] in *. assert (un : 0 <= u * vlen s) by (apply Rmult_le_pos; lra). assert (ud : 0 <= u * vlen k) by (apply Rmult_le_pos; lra).
  assert (rn : 0 <= r * vlen s) by (apply Rmult_le_pos; lra). assert (urn : 0 <= u * (r * vlen s)) by (apply Rmult_le_pos; lra). assert (trn : 0 <= th * (r * vlen s)) by (apply Rmult_le_pos; lra). assert (tk : 0 <= th * vlen k) by (apply Rmult_le_pos; lra). assert (ts : 0 <= th * vlen s) by (apply Rmult_le_pos; lra).
  split; [exact F|split].
  - eapply Rle_trans; [apply (vlen_via _ (turn p1 s))|]. pose proof (turn_diff p1 e1 s) as K. rewrite P in K. pose proof (Rmult_le_compat_r _ _ _ n0 D) as K1. pose proof (Rmult_le_compat_r _ _ _ n0 Q') as K2. apply (Rmult_le_compat_l u) in K2; [|lra]. lra.
  - eapply Rle_trans; [apply (vlen_via _ (vsub (turn p1 k) (vscale 2 (twist p1 p2 s))))|].
    assert (W : vlen (vsub (twist p1 p2 s) (twist e1 e2 s)) <= 2002 / 1000 * (th * r) * vlen s).
    { unfold twist. rewrite <- vpart_sub. eapply Rle_trans; [apply vpart_le|]. eapply Rle_trans; [apply (n4_via _ (qm (qm e1 (lift s)) p2))|]. rewrite qm_sub_l, qm_sub_r, qm_sub_l, !qm_n4, !lift_n4, P.
      pose proof (n4_pos (sub4 p2 e2)). pose proof (n4_pos (sub4 p1 e1)). pose proof (n4_pos p2).
      assert (X : n4 (sub4 p1 e1) * n4 p2 <= th * (1001 / 1000 * r)) by (apply Rmult_le_compat; lra). apply (Rmult_le_compat_r _ _ _ n0) in X. pose proof (Rmult_le_compat_r _ _ _ n0 E2). lra. }
    assert (W' : vlen (vsub (vsub (turn p1 k) (vscale 2 (twist p1 p2 s))) (vsub (turn e1 k) (vscale 2 (twist e1 e2 s)))) <= vlen (vsub (turn p1 k) (turn e1 k)) + 2 * vlen (vsub (twist p1 p2 s) (twist e1 e2 s))).
    { replace (vsub (vsub (turn p1 k) (vscale 2 (twist p1 p2 s))) (vsub (turn e1 k) (vscale 2 (twist e1 e2 s)))) with (vadd (vsub (turn p1 k) (turn e1 k)) (vscale (-2) (vsub (twist p1 p2 s) (twist e1 e2 s)))).
      - eapply Rle_trans; [apply vlen_tri|]. rewrite vlen_scale, Rabs_left by lra. lra.
      - destruct (turn p1 k) as [a1 a2 a3], (turn e1 k) as [b1 b2 b3], (twist p1 p2 s) as [c1 c2 c3], (twist e1 e2 s) as [d1 d2 d3]. unfold vadd, vsub, vscale. cbn [vx vy vz]. apply vec_eq; cbn [vx vy vz]; ring. }
    pose proof (turn_diff p1 e1 k) as K. rewrite P in K. pose proof (Rmult_le_compat_r _ _ _ d0 D) as K1.
    pose proof (Rmult_le_compat_r _ _ _ d0 Q') as X5. apply (Rmult_le_compat_l u) in X5; [|lra]. pose proof (Rmult_le_compat_r _ _ _ n0 AB) as X6. apply (Rmult_le_compat_l u) in X6; [|lra]. lra.
Qed.
Print Assumptions C85_line.
Theorem C85_direction : forall (B : Build) (th r : R) (m : motor f32) (e : motor R) (b : direction f32), near_motor th r m e -> th <= / 1000 -> r <= 2 ^ 19 -> bound (direction_p3 b) ->
  let n := vval (direction_p3 b) in let q := motor_on_direction m b in
  (fin (l1 (direction_p3 q)) /\ fin (l2 (direction_p3 q)) /\ fin (l3 (direction_p3 q))) /\
  vlen (vsub (vval (direction_p3 q)) (swung e n)) <= (201 / 100 * th + 22 * / 2 ^ 24) * vlen n + 2 * tiny.
Proof.
  intros B th r m e b N T H Hb n q. destruct (near_facts _ _ _ _ N T H) as (Hm & t0 & r0 & A1 & A2 & Q & Q' & AB & D). rewrite u_pow. pose proof u_small as U.
  destruct (direction_moves B m b Hm Hb) as (F1 & F2 & F3 & E). fold n q in E, F1, F2, F3. clearbody q. destruct N as (_ & [P _] & Re & E1 & E2). rewrite swung_turn.
  set (p1 := mv1 m) in *. set (e1 := motor_p1 e) in *. clearbody p1 e1. pose proof (vlen_pos n) as n0. rewrite !unit_err_u in *. cbn [INR] in *. assert (un : 0 <= u * vlen n) by (apply Rmult_le_pos; lra).
  split; [repeat split; assumption|].
  eapply Rle_trans; [apply (vlen_via _ (turn p1 n))|]. pose proof (turn_diff p1 e1 n) as K. rewrite P in K. pose proof (Rmult_le_compat_r _ _ _ n0 D) as K1. pose proof (Rmult_le_compat_r _ _ _ n0 Q') as K2. apply (Rmult_le_compat_l u) in K2; [|lra].
  assert (0 <= th * vlen n) by (apply Rmult_le_pos; lra). lra.
Qed.
Print Assumptions C85_direction.

(** ** A point and a plane, or a line, carried along together *)
Definition slop : R := bpow radix2 (-97).
Lemma point_moves (B : Build) th r m e (p : point f32) : near_motor th r m e -> th <= / 1000 -> r <= 2 ^ 19 -> bound (point_p3 p) -> wt p = 1 ->
  let q := motor_on_point m p in vlen (vsub (pos q) (moved e (pos p))) <= (2001 / 1000 * th + 221 / 10 * u) * vlen (pos p) + (4002 / 1000 * th + 251 / 10 * u) * r + 2 * tiny /\ Rabs (wt q - 1) <= 2001 / 1000 * th + 8 * u.
Proof.
  intros N T H Hp Hw q. destruct (near_facts _ _ _ _ N T H) as ([Hm1 Hm2] & t0 & r0 & _). destruct N as (F & (P & _) & Re & E1 & E2).
  assert (Hm : Forall (bounded 20) (coefs (k := KMotor) m)) by (change (coefs (k := KMotor) m) with (reg_list (motor_p1 m) ++ reg_list (motor_p2 m)); apply Forall_app; split; assumption).
  assert (S : th * r <= r / 1000) by (apply (Rle_trans _ (/ 1000 * r)); [apply Rmult_le_compat_r; lra|lra]).
  destruct (motor_near B m p (motor_p1 e) (motor_p2 e) th (th * r) r Hm Hp Hw P Re E1 T E2 S) as [Y1 Y2]. fold q in Y1, Y2. split; [|exact Y2].
  replace (2 * tiny) with (bpow radix2 (-121)) by (unfold tiny; change (-121)%Z with (1 + -122)%Z; rewrite bpow_plus; reflexivity). unfold moved. lra.
Qed.
Lemma lanes4 {T} (P : T -> Prop) (v : m128 T) : Forall P (reg_list v) -> P (l0 v) /\ P (l1 v) /\ P (l2 v) /\ P (l3 v).
Proof. intro H. rewrite Forall_forall in H. repeat split; apply H; cbn; auto. Qed.
Lemma bound_len v : bound v -> vlen (vval v) <= 2 ^ 21 /\ Rabs (val (l0 v)) <= 2 ^ 20.
Proof.
  intro H. destruct (lanes4 _ _ H) as ((_ & H0) & (_ & H1) & (_ & H2) & (_ & H3)). assert (P20 : bpow radix2 20 = 2 ^ 20) by (cbn; ring). rewrite P20 in *. split; [|exact H0].
  assert (Y : 2 ^ 21 = 2 * 2 ^ 20) by ring. assert (Z : 0 < 2 ^ 20) by (apply pow_lt; lra). set (K := 2 ^ 20) in *. rewrite Y. apply vlen_bound; [lra|]. unfold vdot, vval. cbn [vx vy vz].
  assert (Q : forall a, Rabs a <= K -> a * a <= K * K) by (intros a Ha; rewrite <- sq_abs; apply Rmult_le_compat; try assumption; apply Rabs_pos). pose proof (Q _ H1). pose proof (Q _ H2). pose proof (Q _ H3). pose proof (Rle_0_sqr K). unfold Rsqr in *. lra.
Qed.
Lemma swung_len e a : proper e -> vlen (swung e a) = vlen a.
Proof. intro P. unfold vlen. rewrite swung_dot by exact P. reflexivity. Qed.
Lemma moved_len e r x : proper e -> n4 (motor_p2 e) <= r -> vlen (moved e (V 0 0 0)) <= 2 * r /\ vlen (moved e x) <= vlen x + 2 * r.
Proof.
  intros P R2. assert (Z : vlen (moved e (V 0 0 0)) <= 2 * r).
  { rewrite shift_exact, vlen_scale, Rabs_left by lra. replace (- -2) with 2 by ring. apply Rmult_le_compat_l; [lra|]. eapply Rle_trans; [apply vpart_le|]. rewrite qm_n4, (proj1 P), Rmult_1_l. exact R2. }
  split; [exact Z|]. rewrite moved_swung. eapply Rle_trans; [apply vlen_tri|]. rewrite swung_len by exact P. lra.
Qed.
(** adding up the errors *)
Lemma sum_up a1 a2 a3 th r A X D ea eb ec ew : 0 <= th <= / 1000 -> 0 <= r <= 2 ^ 19 -> 0 <= A <= 2 ^ 21 -> 0 <= X <= 2 ^ 21 -> 0 <= D -> 0 <= a1 <= 30 -> 0 <= a2 <= 30 -> 0 <= a3 <= 60 ->
  0 <= ea <= (201 / 100 * th + a1 * u) * A + 2 * tiny -> 0 <= eb <= (2001 / 1000 * th + 221 / 10 * u) * X + (4002 / 1000 * th + 251 / 10 * u) * r + 2 * tiny ->
  0 <= ec <= (201 / 100 * th + a2 * u) * D + (401 / 100 * th + a3 * u) * (r * A) + 2 * tiny -> 0 <= ew <= 2001 / 1000 * th + 8 * u ->
  ea * (X + 2 * r + eb) + A * eb + ec * (1 + ew) + (D + 2 * (r * A)) * ew <=
  (402 / 100 * th + (101 / 100 * a1 + 222 / 10) * u) * (A * X) + (161 / 10 * th + (201 / 100 * a1 + 101 / 100 * a3 + 412 / 10) * u) * (r * A) + (402 / 100 * th + (101 / 100 * a2 + 81 / 10) * u) * D + slop.
Proof.
  intros (t0 & t1) (r0 & r1) (A0 & A1) (X0 & X1) D0 P1 P2 P3 (ea0 & Ea) (eb0 & Eb) (ec0 & Ec) (ew0 & Ew). pose proof u_small as U.
  assert (W : ew <= 21 / 10000) by lra. assert (tn : 0 <= tiny) by apply bpow_ge_0. set (w1 := 2001 / 1000 * th + 221 / 10 * u) in *. set (w2 := 4002 / 1000 * th + 251 / 10 * u) in *.
  assert (Y : X + 2 * r + eb <= 1003 / 1000 * X + 2005 / 1000 * r + 2 * tiny).
  { assert (w1 * X <= 3 / 1000 * X) by (apply Rmult_le_compat_r; unfold w1; lra). assert (w2 * r <= 5 / 1000 * r) by (apply Rmult_le_compat_r; unfold w2; lra). lra. }
  set (k1 := 201 / 100 * th + a1 * u) in *. assert (au1 : 0 <= a1 * u <= 30 * u) by (split; [apply Rmult_le_pos|apply Rmult_le_compat_r]; lra). assert (k1s : 0 <= k1 <= 3 / 1000) by (unfold k1; lra).
  assert (L1 : ea * (X + 2 * r + eb) <= (k1 * A + 2 * tiny) * (1003 / 1000 * X + 2005 / 1000 * r + 2 * tiny)) by (apply Rmult_le_compat; lra).
  assert (L2 : A * eb <= A * (w1 * X + w2 * r + 2 * tiny)) by (apply Rmult_le_compat_l; lra).
  set (k2 := 201 / 100 * th + a2 * u) in *. set (k3 := 401 / 100 * th + a3 * u) in *. assert (rA : 0 <= r * A) by (apply Rmult_le_pos; lra).
  assert (L3 : ec * (1 + ew) <= (k2 * D + k3 * (r * A) + 2 * tiny) * (10021 / 10000)) by (apply Rmult_le_compat; lra).
  assert (L4 : (D + 2 * (r * A)) * ew <= (D + 2 * (r * A)) * (2001 / 1000 * th + 8 * u)) by (apply Rmult_le_compat_l; lra).
  assert (kA : k1 * A <= 3 / 1000 * 2 ^ 21) by (apply Rmult_le_compat; lra).
  assert (S : 2 * tiny * (1003 / 1000 * X + 2005 / 1000 * r + 2 * tiny) + k1 * A * (2 * tiny) + A * (2 * tiny) + 3 * tiny <= slop).
  { assert (Ts : tiny <= 1) by (unfold tiny; apply (Rle_trans _ (bpow radix2 0)); [apply bpow_le; lia|cbn; lra]).
    apply (Rle_trans _ (tiny * (2 * (1003 / 1000 * 2 ^ 21 + 2005 / 1000 * 2 ^ 19 + 2) + 2 * (3 / 1000 * 2 ^ 21) + 2 * 2 ^ 21 + 3))).
    - replace (2 * tiny * (1003 / 1000 * X + 2005 / 1000 * r + 2 * tiny) + k1 * A * (2 * tiny) + A * (2 * tiny) + 3 * tiny) with (tiny * (2 * (1003 / 1000 * X + 2005 / 1000 * r + 2 * tiny) + 2 * (k1 * A) + 2 * A + 3)) by ring. apply Rmult_le_compat_l; [exact tn|]. lra.
    - unfold slop, tiny. change (-97)%Z with (-122 + 25)%Z. rewrite bpow_plus. apply Rmult_le_compat_l; [apply bpow_ge_0|]. cbn. lra. }
  assert (AX : 0 <= A * X) by (apply Rmult_le_pos; lra).
  assert (z1 : 0 <= th * (A * X)) by (apply Rmult_le_pos; lra). assert (z2 : 0 <= u * (A * X)) by (apply Rmult_le_pos; lra). assert (z3 : 0 <= a1 * u * (A * X)) by (apply Rmult_le_pos; lra).
  assert (z4 : 0 <= th * (r * A)) by (apply Rmult_le_pos; lra). assert (z5 : 0 <= u * (r * A)) by (apply Rmult_le_pos; lra). assert (z6 : 0 <= a1 * u * (r * A)) by (apply Rmult_le_pos; lra). assert (z7 : 0 <= a3 * u * (r * A)) by (apply Rmult_le_pos; [apply Rmult_le_pos|]; lra).
  assert (z8 : 0 <= th * D) by (apply Rmult_le_pos; lra). assert (z9 : 0 <= u * D) by (apply Rmult_le_pos; lra). assert (za : 0 <= a2 * u * D) by (apply Rmult_le_pos; [apply Rmult_le_pos|]; lra).
  eapply Rle_trans; [apply Rplus_le_compat; [apply Rplus_le_compat; [apply Rplus_le_compat; [exact L1|exact L2]|exact L3]|exact L4]|].
  clear L1 L2 L3 L4 Ea Eb Ec Ew Y kA. unfold k1, k2, k3, w1, w2 in *. lra.
Qed.
Lemma on_plane_gen th r e (n x N X : vec) (d D W : R) : proper e -> n4 (motor_p2 e) <= r -> 0 <= th <= / 1000 -> 0 <= r <= 2 ^ 19 -> vlen n <= 2 ^ 21 -> vlen x <= 2 ^ 21 ->
  vlen (vsub N (swung e n)) <= (201 / 100 * th + 22 * u) * vlen n + 2 * tiny -> Rabs (D - moved_off e n d) <= (201 / 100 * th + 28 * u) * Rabs d + (401 / 100 * th + 32 * u) * (r * vlen n) + tiny ->
  vlen (vsub X (moved e x)) <= (2001 / 1000 * th + 221 / 10 * u) * vlen x + (4002 / 1000 * th + 251 / 10 * u) * r + 2 * tiny -> Rabs (W - 1) <= 2001 / 1000 * th + 8 * u ->
  Rabs (vdot N X + D * W - (vdot n x + d)) <= (402 / 100 * th + 45 * u) * (vlen n * vlen x) + (161 / 10 * th + 118 * u) * (r * vlen n) + (402 / 100 * th + 37 * u) * Rabs d + slop.
Proof.
  intros P Re [t0 T] [r0 H] Bn Bx Ea Ec Eb Ew. rewrite <- (proj1 (C85_exact e P x) n d). destruct (moved_len e r x P Re) as [L0 L1]. pose proof (swung_len e n P) as L2.
  assert (L3 : Rabs (moved_off e n d) <= Rabs d + 2 * (r * vlen n)).
  { unfold moved_off. replace (d - vdot (swung e n) (moved e (V 0 0 0))) with (d + - vdot (swung e n) (moved e (V 0 0 0))) by ring. eapply Rle_trans; [apply Rabs_triang|]. rewrite Rabs_Ropp. apply Rplus_le_compat_l. eapply Rle_trans; [apply vdot_abs|]. rewrite L2. pose proof (Rmult_le_compat_l _ _ _ (vlen_pos n) L0). lra. }
  set (n' := swung e n) in *. set (x' := moved e x) in *. set (d' := moved_off e n d) in *. clearbody n' x' d'. clear L0.
  set (ea := vlen (vsub N n')) in *. set (eb := vlen (vsub X x')) in *. set (ec := Rabs (D - d')) in *. set (ew := Rabs (W - 1)) in *.
  pose proof (vlen_pos n) as n0. pose proof (vlen_pos x) as x0. pose proof (Rabs_pos d) as d0. assert (ea0 : 0 <= ea) by apply vlen_pos. assert (eb0 : 0 <= eb) by apply vlen_pos. assert (ec0 : 0 <= ec) by apply Rabs_pos. assert (ew0 : 0 <= ew) by apply Rabs_pos.
  assert (tn : 0 <= tiny) by apply bpow_ge_0.
  pose proof (sum_up 22 28 32 th r (vlen n) (vlen x) (Rabs d) ea eb ec ew ltac:(lra) ltac:(lra) ltac:(lra) ltac:(lra) d0 ltac:(lra) ltac:(lra) ltac:(lra) ltac:(lra) ltac:(lra) ltac:(lra) ltac:(lra)) as S.
  assert (K : Rabs (vdot N X + D * W - (vdot n' x' + d')) <= ea * (vlen x + 2 * r + eb) + vlen n * eb + ec * (1 + ew) + (Rabs d + 2 * (r * vlen n)) * ew).
  { replace (vdot N X + D * W - (vdot n' x' + d')) with (vdot (vsub N n') (vadd x' (vsub X x')) + vdot n' (vsub X x') + (D - d') * (1 + (W - 1)) + d' * (W - 1)) by (unfold vdot, vsub, vadd; cbn [vx vy vz]; ring).
    eapply Rle_trans; [apply Rabs_triang|]. apply Rplus_le_compat. eapply Rle_trans; [apply Rabs_triang|]. apply Rplus_le_compat. eapply Rle_trans; [apply Rabs_triang|]. apply Rplus_le_compat.
    - eapply Rle_trans; [apply vdot_abs|]. apply Rmult_le_compat_l; [exact ea0|]. eapply Rle_trans; [apply vlen_tri|]. fold eb. lra.
    - eapply Rle_trans; [apply vdot_abs|]. rewrite L2. apply Rle_refl.
    - rewrite Rabs_mult. apply Rmult_le_compat_l; [exact ec0|]. eapply Rle_trans; [apply Rabs_triang|]. rewrite Rabs_R1. apply Rle_refl.
    - rewrite Rabs_mult. apply Rmult_le_compat_r; assumption. }
  pose proof u_small as U. assert (0 <= u * (vlen n * vlen x)) by (apply Rmult_le_pos; [lra|apply Rmult_le_pos; assumption]). assert (0 <= u * (r * vlen n)) by (apply Rmult_le_pos; [lra|apply Rmult_le_pos; assumption]). assert (0 <= u * Rabs d) by (apply Rmult_le_pos; lra).
  eapply Rle_trans; [exact K|]. eapply Rle_trans; [exact S|]. lra.
Qed.
Theorem C85_on_plane : forall (B : Build) (th r : R) (m : motor f32) (e : motor R) (b : plane f32) (p : point f32), near_motor th r m e -> th <= / 1000 -> r <= 2 ^ 19 -> bound (plane_p0 b) -> bound (point_p3 p) -> wt p = 1 ->
  let n := nrm b in let d := off b in let x := pos p in let b' := motor_on_plane m b in let p' := motor_on_point m p in
  Rabs (vdot (nrm b') (pos p') + off b' * wt p' - (vdot n x + d)) <=
  (402 / 100 * th + 45 * / 2 ^ 24) * (vlen n * vlen x) + (161 / 10 * th + 118 * / 2 ^ 24) * (r * vlen n) + (402 / 100 * th + 37 * / 2 ^ 24) * Rabs d + slop.
Proof.
  intros B th r m e b p N T H Hb Hp Hw n d x b' p'. destruct (C85_plane B th r m e b N T H Hb) as (_ & Ea & Ec). destruct (point_moves B th r m e p N T H Hp Hw) as [Eb Ew]. destruct (near_facts _ _ _ _ N T H) as (_ & t0 & r0 & _). destruct N as (_ & P & Re & _).
  destruct (bound_len _ Hb) as [Bn _]. destruct (bound_len _ Hp) as [Bx _]. rewrite u_pow in *. exact (on_plane_gen th r e n x (nrm b') (pos p') d (off b') (wt p') P Re (conj t0 T) (conj r0 H) Bn Bx Ea Ec Eb Ew).
Qed.
Print Assumptions C85_on_plane.
Lemma on_line_gen th r e (s k x S K X : vec) (W : R) : proper e -> n4 (motor_p2 e) <= r -> 0 <= th <= / 1000 -> 0 <= r <= 2 ^ 19 -> vlen s <= 2 ^ 21 -> vlen x <= 2 ^ 21 ->
  vlen (vsub S (swung e s)) <= (201 / 100 * th + 19 * u) * vlen s + 2 * tiny -> vlen (vsub K (moved_mom e s k)) <= (201 / 100 * th + 28 * u) * vlen k + (401 / 100 * th + 56 * u) * (r * vlen s) + 2 * tiny ->
  vlen (vsub X (moved e x)) <= (2001 / 1000 * th + 221 / 10 * u) * vlen x + (4002 / 1000 * th + 251 / 10 * u) * r + 2 * tiny -> Rabs (W - 1) <= 2001 / 1000 * th + 8 * u ->
  vlen (vsub (vsub (vcross X S) (vscale W K)) (swung e (vsub (vcross x s) k))) <= (402 / 100 * th + 42 * u) * (vlen s * vlen x) + (161 / 10 * th + 136 * u) * (r * vlen s) + (402 / 100 * th + 37 * u) * vlen k + slop.
Proof.
  intros P Re [t0 T] [r0 H] Bn Bx Ea Ec Eb Ew. rewrite <- (proj2 (C85_exact e P x) s k). destruct (moved_len e r x P Re) as [L0 L1]. pose proof (swung_len e s P) as L2.
  assert (L3 : vlen (moved_mom e s k) <= vlen k + 2 * (r * vlen s)).
  { unfold moved_mom. eapply Rle_trans; [apply vlen_tri|]. rewrite swung_len by exact P. apply Rplus_le_compat_l. eapply Rle_trans; [apply vcross_len|]. rewrite L2. pose proof (Rmult_le_compat_r _ _ _ (vlen_pos s) L0). lra. }
  set (s' := swung e s) in *. set (x' := moved e x) in *. set (k' := moved_mom e s k) in *. clearbody s' x' k'. clear L0.
  set (ea := vlen (vsub S s')) in *. set (eb := vlen (vsub X x')) in *. set (ec := vlen (vsub K k')) in *. set (ew := Rabs (W - 1)) in *.
  pose proof (vlen_pos s) as n0. pose proof (vlen_pos x) as x0. pose proof (vlen_pos k) as d0. assert (ea0 : 0 <= ea) by apply vlen_pos. assert (eb0 : 0 <= eb) by apply vlen_pos. assert (ec0 : 0 <= ec) by apply vlen_pos. assert (ew0 : 0 <= ew) by apply Rabs_pos.
  assert (tn : 0 <= tiny) by apply bpow_ge_0.
  pose proof (sum_up 19 28 56 th r (vlen s) (vlen x) (vlen k) ea eb ec ew ltac:(lra) ltac:(lra) ltac:(lra) ltac:(lra) d0 ltac:(lra) ltac:(lra) ltac:(lra) ltac:(lra) ltac:(lra) ltac:(lra) ltac:(lra)) as SU.
  assert (KK : vlen (vsub (vsub (vcross X S) (vscale W K)) (vsub (vcross x' s') k')) <= ea * (vlen x + 2 * r + eb) + vlen s * eb + ec * (1 + ew) + (vlen k + 2 * (r * vlen s)) * ew).
  { replace (vsub (vsub (vcross X S) (vscale W K)) (vsub (vcross x' s') k'))
      with (vadd (vadd (vadd (vcross (vadd x' (vsub X x')) (vsub S s')) (vcross (vsub X x') s')) (vscale (- (1 + (W - 1))) (vsub K k'))) (vscale (- (W - 1)) k')) by (unfold vcross, vsub, vadd, vscale; cbn [vx vy vz]; apply vec_eq; cbn [vx vy vz]; ring).
    eapply Rle_trans; [apply vlen_tri|]. apply Rplus_le_compat. eapply Rle_trans; [apply vlen_tri|]. apply Rplus_le_compat. eapply Rle_trans; [apply vlen_tri|]. apply Rplus_le_compat.
    - eapply Rle_trans; [apply vcross_len|]. rewrite (Rmult_comm ea). apply Rmult_le_compat_r; [exact ea0|]. eapply Rle_trans; [apply vlen_tri|]. fold eb. lra.
    - eapply Rle_trans; [apply vcross_len|]. rewrite L2. apply Req_le, Rmult_comm.
    - rewrite vlen_scale, Rabs_Ropp, Rmult_comm. apply Rmult_le_compat_l; [exact ec0|]. eapply Rle_trans; [apply Rabs_triang|]. rewrite Rabs_R1. apply Rle_refl.
    - rewrite vlen_scale, Rabs_Ropp, Rmult_comm. apply Rmult_le_compat_r; assumption. }
  pose proof u_small as U. assert (0 <= u * (vlen s * vlen x)) by (apply Rmult_le_pos; [lra|apply Rmult_le_pos; assumption]). assert (0 <= u * (r * vlen s)) by (apply Rmult_le_pos; [lra|apply Rmult_le_pos; assumption]). assert (0 <= u * vlen k) by (apply Rmult_le_pos; lra).
  eapply Rle_trans; [exact KK|]. eapply Rle_trans; [exact SU|]. lra.
Qed.
Theorem C85_on_line : forall (B : Build) (th r : R) (m : motor f32) (e : motor R) (b : line f32) (p : point f32), near_motor th r m e -> th <= / 1000 -> r <= 2 ^ 19 -> bound (line_p1 b) -> bound (line_p2 b) -> bound (point_p3 p) -> wt p = 1 ->
  let s := dirn b in let k := mom b in let x := pos p in let b' := motor_on_line m b in let p' := motor_on_point m p in
  vlen (vsub (vsub (vcross (pos p') (dirn b')) (vscale (wt p') (mom b'))) (swung e (vsub (vcross x s) k))) <=
  (402 / 100 * th + 42 * / 2 ^ 24) * (vlen s * vlen x) + (161 / 10 * th + 136 * / 2 ^ 24) * (r * vlen s) + (402 / 100 * th + 37 * / 2 ^ 24) * vlen k + slop.
Proof.
  intros B th r m e b p N T H Ha Hb Hp Hw s k x b' p'. destruct (C85_line th r m e b N T H Ha Hb) as (_ & Ea & Ec). destruct (point_moves B th r m e p N T H Hp Hw) as [Eb Ew]. destruct (near_facts _ _ _ _ N T H) as (_ & t0 & r0 & _). destruct N as (_ & P & Re & _).
  destruct (bound_len _ Ha) as [Bn _]. destruct (bound_len _ Hp) as [Bx _]. rewrite u_pow in *. exact (on_line_gen th r e s k x (dirn b') (mom b') (pos p') (wt p') P Re (conj t0 T) (conj r0 H) Bn Bx Ea Ec Eb Ew).
Qed.
Print Assumptions C85_on_line.
(** The third of a turn with a slide of C79, carrying a point, a plane and a line through it. *)
Example C85_ex : let b := mkplane (mk4 (fz (-9)) (fz 1) (fz 2) (fz 2)) in let p := mkpoint (mk4 (fz 1) (fz 1) (fz 3) (fz 1)) in let l := mkline (mk4 (fz 0) (fz 1) (fz 2) (fz 2)) (mk4 (fz 0) (fz 4) (fz (-1)) (fz (-1))) in
  near_motor 0 4 third third_e /\ motor_bound third /\ bound (plane_p0 b) /\ bound (point_p3 p) /\ bound (line_p1 l) /\ bound (line_p2 l) /\ wt p = 1 /\ val (l0 (line_p1 l)) = 0 /\ val (l0 (line_p2 l)) = 0 /\
  vdot (nrm b) (pos p) + off b = 0 /\ vcross (pos p) (dirn l) = mom l /\
  moved third_e (V 1 3 1) = V (3 - 4) (1 - 4) (1 - 4) /\ swung third_e (V 1 2 2) = V 2 2 1.
Proof.
  assert (I : forall k, (Z.abs k <= 2 ^ 20)%Z -> bounded 20 (fz k)).
  { intros k Hk. destruct (fz_ok k ltac:(lia)) as [F V]. split; [exact F|]. rewrite V, <- abs_IZR. rewrite <- (IZR_Zpower radix2) by lia. apply IZR_le. exact Hk. }
  assert (Z : forall k, (Z.abs k <= 2 ^ 20)%Z -> val (fz k) = IZR k) by (intros k Hk; apply fz_ok; lia).
  intros b p l. split; [exact near_third|]. split; [apply (near_facts 0 4 third third_e near_third); [lra|replace (2 ^ 19) with 524288 by ring; lra]|].
  split; [|split; [|split; [|split; [|split; [|split; [|split; [|split; [|split; [|split]]]]]]]]].
  1-4: repeat (apply Forall_cons; [apply I; lia|]); apply Forall_nil.
  1-3: apply (Z _); lia.
  - unfold vdot, nrm, vval, off, pos, b, p. cbn [plane_p0 point_p3 l0 l1 l2 l3 vx vy vz]. rewrite !Z by lia. lra.
  - unfold vcross, dirn, mom, vval, pos, l, p. cbn [line_p1 line_p2 point_p3 l0 l1 l2 l3 vx vy vz]. rewrite !Z by lia. apply vec_eq; cbn [vx vy vz]; lra.
  - unfold third_e, moved. cbv -[Rplus Rmult Ropp Rminus IZR Rinv]. apply vec_eq; cbn [vx vy vz]; field.
  - unfold third_e, swung, moved. cbv -[Rplus Rmult Ropp Rminus IZR Rinv]. apply vec_eq; cbn [vx vy vz]; field.
Qed.
