(** Property C94: products of many rotors, in binary32. *)
From Coq Require Import ZArith Reals List Bool Lra Lia Psatz.
From Flocq Require Import Core BinarySingleNaN.
From Verif Require Import AlgTac SpecMass FloatMass Float32 FloatFacts ExprSyntax FloatErr FloatAbs FloatApx FloatNR FloatOps FloatIdeal Props11 SpecGeom Props20 Props21 Props23 Props24 Props26 Props28 Props30 Props31 Props34 Props36 Props37 Props38 Props42.
Import ListNotations.
Local Open Scope R_scope.

(** ** One product *)
Section Gen.
Context {F : Type} {A : Arith F} (x : nat -> F).
Notation h := (map4 (eval x)).
Definition e_rr : rotor expr := rotor_mul_rotor (mkrotor (vreg 0)) (mkrotor (vreg 4)).
Lemma rr_gen : rotor_p1 (rotor_mul_rotor (mkrotor (h (vreg 0))) (mkrotor (h (vreg 4)))) = h (rotor_p1 e_rr). Proof. reflexivity. Qed.
End Gen.
Lemma rr_code (a b : rotor f32) : rotor_p1 (rotor_mul_rotor a b) = map4 (eval (lanes12 (rotor_p1 a) (rotor_p1 b) nought)) (rotor_p1 e_rr).
Proof. destruct a as [[a0 a1 a2 a3]], b as [[b0 b1 b2 b3]]. exact (rr_gen (lanes12 (mk4 a0 a1 a2 a3) (mk4 b0 b1 b2 b3) nought)). Qed.
Lemma rr_exact y : let c := rotor_p1 e_rr in let q := qm (r4 y 0) (r4 y 4) in let ev := eval (A := Arith_R) y in let t := n4 (r4 y 0) * n4 (r4 y 4) in
  (ev (l0 c) = l0 q /\ ev (l1 c) = l1 q /\ ev (l2 c) = l2 q /\ ev (l3 c) = l3 q) /\ (absv y (l0 c) <= t /\ absv y (l1 c) <= t /\ absv y (l2 c) <= t /\ absv y (l3 c) <= t).
Proof.
  intros c q ev t. split.
  - unfold q, qm, r4, ev. cbn [l0 l1 l2 l3]. repeat split; rcbv; ring.
  - destruct (cross4 (r4 y 0) (r4 y 4)) as (M0 & M1 & M2 & M3). fold t in M0, M1, M2, M3. clearbody t. unfold r4 in *. cbn [l0 l1 l2 l3 Nat.add] in *. cbv beta in *. repeat split; norm_abs; rewrite ?Rabs_Ropp, ?Rabs_R1; lra.
Qed.
Theorem C94_product : forall a b : rotor f32, bound (rotor_p1 a) -> bound (rotor_p1 b) -> let r := rotor_mul_rotor a b in
  Forall fin (coefs (k := KRotor) r) /\ n4 (sub4 (rv r) (qm (rv a) (rv b))) <= unit_err 6 * (n4 (rv a) * n4 (rv b)) + 2 * tiny.
Proof.
  intros a b Ha Hb r. pose proof (lanes_ok2 _ _ Ha Hb) as X. set (L := lanes12 (rotor_p1 a) (rotor_p1 b) nought) in *. set (c := rotor_p1 e_rr).
  assert (G : good 3 (l0 c) && good 3 (l1 c) && (good 3 (l2 c) && good 3 (l3 c)) = true) by (vm_compute; reflexivity). apply andb_prop in G. destruct G as [G G']. apply andb_prop in G. destruct G as [G0 G1]. apply andb_prop in G'. destruct G' as [G2 G3].
  destruct (rr_exact (fun k => val (L k))) as ((E0 & E1 & E2 & E3) & (M0 & M1 & M2 & M3)). fold c in E0, E1, E2, E3, M0, M1, M2, M3. assert (C : rotor_p1 r = map4 (eval L) c) by apply rr_code. clearbody r c.
  destruct (term L (l0 c) _ _ 3 X G0 E0 M0) as [F0 Q0]. destruct (term L (l1 c) _ _ 3 X G1 E1 M1) as [F1 Q1]. destruct (term L (l2 c) _ _ 3 X G2 E2 M2) as [F2 Q2]. destruct (term L (l3 c) _ _ 3 X G3 E3 M3) as [F3 Q3].
  change (r4 (fun k => val (L k)) 0) with (rv a) in *. change (r4 (fun k => val (L k)) 4) with (rv b) in *. split.
  - change (coefs (k := KRotor) r) with (reg_list (rotor_p1 r)). rewrite C. repeat (apply Forall_cons; [assumption|]). apply Forall_nil.
  - assert (T0 : 0 <= n4 (rv a) * n4 (rv b)) by (apply Rmult_le_pos; apply n4_pos). assert (ty : 0 < tiny) by apply bpow_gt_0. pose proof (unit_err_pos 3) as U3. replace (unit_err 6) with (2 * unit_err 3) by (unfold unit_err; cbn [INR]; ring).
    replace (2 * unit_err 3 * (n4 (rv a) * n4 (rv b)) + 2 * tiny) with (2 * (unit_err 3 * (n4 (rv a) * n4 (rv b)) + tiny)) by ring. unfold rv at 1. rewrite C. apply n4_all; [|assumption..]. assert (0 <= unit_err 3 * (n4 (rv a) * n4 (rv b))) by (apply Rmult_le_pos; assumption). lra.
Qed.
Print Assumptions C94_product.
Lemma near_rotor_bound th r e : near_rotor th r e -> th <= 1 -> bound (rotor_p1 r) /\ 0 <= th /\ n4 (rv r) <= 1 + th.
Proof.
  intros (F & P & E) T. assert (t0 : 0 <= th) by (eapply Rle_trans; [apply n4_pos|exact E]). assert (N : n4 (rv r) <= 1 + th) by (pose proof (n4_tri (rv r) e); lra). split; [|split; assumption].
  destruct (n4_lane (rv r)) as (L0 & L1 & L2 & L3). change (coefs (k := KRotor) r) with (reg_list (rotor_p1 r)) in F. destruct (ap4_lanes _ F) as (F0 & F1 & F2 & F3). assert (P20 : bpow radix2 20 = 1048576) by (cbn; ring). unfold rv, map4 in *. cbn [l0 l1 l2 l3] in *.
  apply Forall_cons; [split; [exact F0|rewrite P20; lra]|]. apply Forall_cons; [split; [exact F1|rewrite P20; lra]|]. apply Forall_cons; [split; [exact F2|rewrite P20; lra]|]. apply Forall_cons; [split; [exact F3|rewrite P20; lra]|]. apply Forall_nil.
Qed.
Theorem C94_multiply : forall th th' (a b : rotor f32) e f, near_rotor th a e -> near_rotor th' b f -> th <= 1 -> th' <= 1 -> near_rotor ((1 + th) * (1 + th') * (1 + 61 / 10 * / 2 ^ 24) - 1) (rotor_mul_rotor a b) (qm e f).
Proof.
  intros th th' a b e f Na Nb Ta Tb. destruct (near_rotor_bound _ _ _ Na Ta) as (Ha & a0 & A1). destruct (near_rotor_bound _ _ _ Nb Tb) as (Hb & b0 & B1). destruct (C94_product a b Ha Hb) as [F E]. destruct Na as (_ & Pe & Ea). destruct Nb as (_ & Pf & Eb). rewrite u_pow. pose proof u_small as U.
  split; [exact F|]. split; [rewrite qm_n4, Pe, Pf; ring|]. eapply Rle_trans; [apply (n4_via _ (qm (rv a) (rv b)))|].
  assert (K1 : n4 (sub4 (qm (rv a) (rv b)) (qm e f)) <= th * (1 + th') + th').
  { eapply Rle_trans; [apply (n4_via _ (qm e (rv b)))|]. rewrite qm_sub_l, qm_sub_r, !qm_n4, Pe. assert (n4 (sub4 (rv a) e) * n4 (rv b) <= th * (1 + th')) by (apply Rmult_le_compat; try apply n4_pos; assumption). lra. }
  assert (K2 : n4 (rv a) * n4 (rv b) <= (1 + th) * (1 + th')) by (apply Rmult_le_compat; try apply n4_pos; assumption).
  assert (K3 : 1 <= (1 + th) * (1 + th')) by (rewrite <- (Rmult_1_r 1) at 1; apply Rmult_le_compat; lra). set (g := (1 + th) * (1 + th')) in *.
  assert (K4 : unit_err 6 * (n4 (rv a) * n4 (rv b)) <= 601 / 100 * u * g). { apply (Rle_trans _ (unit_err 6 * g)); [apply Rmult_le_compat_l; [apply unit_err_pos|exact K2]|]. apply Rmult_le_compat_r; [lra|]. unfold unit_err. cbn [INR]. lra. }
  assert (K5 : 2 * tiny <= 9 / 100 * u * g). { assert (tiny <= / 1000 * u) by (unfold tiny, u; cbn; lra). assert (u * 1 <= u * g) by (apply Rmult_le_compat_l; lra). lra. }
  replace (th * (1 + th') + th') with (g - 1) in K1 by (unfold g; ring). clearbody g. lra.
Qed.
Print Assumptions C94_multiply.
(** ** Chains *)
Definition rchain_m (k : rotor f32 * m128 R) (ls : list (rotor f32 * m128 R)) : rotor f32 := fold_left (fun r k => rotor_mul_rotor r (fst k)) ls (fst k).
Definition rchain_e (k : rotor f32 * m128 R) (ls : list (rotor f32 * m128 R)) : m128 R := fold_left (fun e k => qm e (snd k)) ls (snd k).
(** the turns one after the other, the last of the list first *)
Definition rwalk (ls : list (rotor f32 * m128 R)) (x : vec) : vec := fold_right (fun k y => turn (snd k) y) x ls.
Definition rstage (th : R) (k : rotor f32 * m128 R) : Prop := near_rotor th (fst k) (snd k).
Lemma rchain_step th ls : Forall (rstage th) ls -> 0 <= th -> forall g r e, near_rotor (g - 1) r e -> 1 <= g -> g * ((1 + th) * (1 + 61 / 10 * u)) ^ length ls <= 2 ->
  near_rotor (g * ((1 + th) * (1 + 61 / 10 * u)) ^ length ls - 1) (fold_left (fun r k => rotor_mul_rotor r (fst k)) ls r) (fold_left (fun e k => qm e (snd k)) ls e).
Proof.
  intros H t0. pose proof u_small as U. set (x := (1 + th) * (1 + 61 / 10 * u)). assert (x1 : 1 <= x /\ 1 + th <= x). { assert (0 <= th * u) by (apply Rmult_le_pos; lra). unfold x. lra. }
  induction H as [|k ls Nk H IH]; intros g r e N g1 G; cbn [length pow fold_left] in *; [rewrite Rmult_1_r in *; exact N|].
  assert (Px : 1 <= x ^ length ls) by (apply pow_R1_Rle; lra). assert (G1 : g * x <= 2). { eapply Rle_trans; [|exact G]. rewrite <- Rmult_assoc. rewrite <- (Rmult_1_r (g * x)) at 1. apply Rmult_le_compat_l; [apply Rmult_le_pos; lra|exact Px]. }
  assert (X2 : x <= 2) by (eapply Rle_trans; [|exact G1]; rewrite <- (Rmult_1_l x) at 1; apply Rmult_le_compat_r; lra). assert (G3 : g <= 2) by (eapply Rle_trans; [|exact G1]; rewrite <- (Rmult_1_r g) at 1; apply Rmult_le_compat_l; lra).
  assert (N2 : near_rotor (g * x - 1) (rotor_mul_rotor r (fst k)) (qm e (snd k))).
  { pose proof (C94_multiply (g - 1) th r (fst k) e (snd k) N Nk ltac:(lra) ltac:(lra)) as K. rewrite u_pow in K. replace ((1 + (g - 1)) * (1 + th) * (1 + 61 / 10 * u) - 1) with (g * x - 1) in K by (unfold x; ring). exact K. }
  assert (g2 : 1 <= g * x) by (rewrite <- (Rmult_1_r 1) at 1; apply Rmult_le_compat; lra). specialize (IH (g * x) _ _ N2 g2 ltac:(rewrite Rmult_assoc; exact G)). rewrite Rmult_assoc in IH. exact IH.
Qed.
Theorem C94_chain : forall th k ls, Forall (rstage th) (k :: ls) -> let n := INR (length (k :: ls)) in n * (th + 62 / 10 * / 2 ^ 24) <= / 1100 ->
  near_rotor (1001 / 1000 * (n * (th + 62 / 10 * / 2 ^ 24))) (rchain_m k ls) (rchain_e k ls) /\ forall x, turn (rchain_e k ls) x = rwalk (k :: ls) x.
Proof.
  intros th k ls H n S. inversion_clear H as [|k0 ks0 Nl H']. pose proof u_small as U. rewrite u_pow in *. assert (t0 : 0 <= th) by (destruct Nl as (_ & _ & E); eapply Rle_trans; [apply n4_pos|exact E]).
  split.
  2: { intro x. unfold rchain_e. cbn [rwalk fold_right]. fold (rwalk ls x). generalize (snd k). clear. induction ls as [|k ls IH]; intro e; [reflexivity|]. cbn [fold_left rwalk fold_right]. fold (rwalk ls x). rewrite IH, turn_turn. reflexivity. }
  assert (n1 : n = 1 + INR (length ls)) by (unfold n; cbn [length]; rewrite S_INR; ring). pose proof (pos_INR (length ls)) as n0.
  set (y := th + 62 / 10 * u) in *. assert (Y0 : 0 < y) by (unfold y; lra). assert (YS : y <= / 1100). { eapply Rle_trans; [|exact S]. rewrite <- (Rmult_1_l y) at 1. apply Rmult_le_compat_r; lra. }
  set (x := (1 + th) * (1 + 61 / 10 * u)). assert (XY : x <= 1 + y). { unfold x, y in *. assert (th * (61 / 10 * u) <= / 1100 * (61 / 10 * u)) by (apply Rmult_le_compat_r; lra). lra. }
  assert (X1 : 1 + th <= x) by (unfold x; rewrite <- (Rmult_1_r (1 + th)) at 1; apply Rmult_le_compat_l; lra).
  assert (P : (1 + y) ^ length (k :: ls) <= 1 + 1001 / 1000 * (n * y)).
  { eapply Rle_trans; [apply pow_up; [lra|fold n; lra]|]. fold n. assert (0 <= n * y) by (apply Rmult_le_pos; lra). assert (n * y * (n * y) <= n * y * / 1100) by (apply Rmult_le_compat_l; assumption). lra. }
  assert (Q : (1 + th) * x ^ length ls <= (1 + y) ^ length (k :: ls)). { cbn [length pow]. apply Rmult_le_compat; [lra|apply pow_le; lra|lra|apply pow_incr; lra]. }
  assert (K : near_rotor ((1 + th) * x ^ length ls - 1) (rchain_m k ls) (rchain_e k ls)). { apply (rchain_step th ls H' t0 (1 + th)); [replace (1 + th - 1) with th by ring; exact Nl|lra|fold x; lra]. }
  destruct K as (F & P1 & E). split; [exact F|]. split; [exact P1|]. lra.
Qed.
Print Assumptions C94_chain.
(** ** The product of a chain applied to each kind of entity turns it as the turns of the chain do, one after the other *)
Theorem C94_apply : forall th k ls, Forall (rstage th) (k :: ls) -> let n := INR (length (k :: ls)) in n * (th + 62 / 10 * / 2 ^ 24) <= / 1100 -> let T := 1001 / 1000 * (n * (th + 62 / 10 * / 2 ^ 24)) in let r := rchain_m k ls in
  (forall b : plane f32, bound (plane_p0 b) -> let q := rotor_on_plane r b in Forall fin (reg_list (plane_p0 q)) /\ vlen (vsub (nrm q) (rwalk (k :: ls) (nrm b))) <= (2001 / 1000 * T + 22 * / 2 ^ 24) * vlen (nrm b) + 2 * tiny /\ Rabs (off q - off b) <= (2001 / 1000 * T + 51 / 10 * / 2 ^ 24) * Rabs (off b) + tiny) /\
  (forall b : line f32, bound (line_p1 b) -> bound (line_p2 b) -> let q := rotor_on_line r b in Forall fin (coefs (k := KLine) q) /\ vlen (vsub (dirn q) (rwalk (k :: ls) (dirn b))) <= (2001 / 1000 * T + 19 * / 2 ^ 24) * vlen (dirn b) + 2 * tiny /\ vlen (vsub (mom q) (rwalk (k :: ls) (mom b))) <= (2001 / 1000 * T + 19 * / 2 ^ 24) * vlen (mom b) + 2 * tiny) /\
  (forall b : branch f32, bound (branch_p1 b) -> let q := rotor_on_branch r b in Forall fin (reg_list (branch_p1 q)) /\ vlen (vsub (vval (branch_p1 q)) (rwalk (k :: ls) (vval (branch_p1 b)))) <= (2001 / 1000 * T + 19 * / 2 ^ 24) * vlen (vval (branch_p1 b)) + 2 * tiny) /\
  (forall b : direction f32, bound (direction_p3 b) -> let q := rotor_on_direction r b in Forall fin (reg_list (direction_p3 q)) /\ vlen (vsub (vval (direction_p3 q)) (rwalk (k :: ls) (vval (direction_p3 b)))) <= (2001 / 1000 * T + 22 * / 2 ^ 24) * vlen (vval (direction_p3 b)) + 2 * tiny) /\
  (forall b : point f32, bound (point_p3 b) -> let q := rotor_on_point r b in Forall fin (reg_list (point_p3 q)) /\ vlen (vsub (pos q) (rwalk (k :: ls) (pos b))) <= (2001 / 1000 * T + 22 * / 2 ^ 24) * vlen (pos b) + 2 * tiny /\ Rabs (wt q - wt b) <= (2001 / 1000 * T + 51 / 10 * / 2 ^ 24) * Rabs (wt b) + tiny).
Proof.
  intros th k ls H n S T r. destruct (C94_chain th k ls H S) as [N W]. fold n T r in N. assert (HT : T <= / 1000) by (unfold T; lra). destruct (C90_rotor T r _ N HT) as (PL & LI & BR & DI & PT). split; [|split; [|split; [|split]]].
  - intros b Hb q. rewrite <- (W (nrm b)). exact (PL b Hb).
  - intros b Ha Hb q. rewrite <- (W (dirn b)), <- (W (mom b)). destruct (LI b Ha Hb) as ((F & _) & E). split; [exact F|exact E].
  - intros b Hb q. rewrite <- (W (vval (branch_p1 b))). destruct (BR b Hb) as ((F & _) & E). split; [exact F|exact E].
  - intros b Hb q. rewrite <- (W (vval (direction_p3 b))). exact (DI b Hb).
  - intros b Hb q. rewrite <- (W (pos b)). exact (PT b Hb).
Qed.
Print Assumptions C94_apply.
(** the walk keeps angles and lengths: it is itself a rotation *)
Lemma turn_cross p x y : vcross (turn p x) (turn p y) = vscale (q4 p p) (turn p (vcross x y)).
Proof. destruct p as [a b c d], x as [x1 x2 x3], y as [y1 y2 y3]. unfold turn, vpart, qm, lift, rev4, vcross, vscale, q4. cbn [l0 l1 l2 l3 vx vy vz]. apply vec_eq; cbn [vx vy vz]; ring. Qed.
Theorem C94_walk : forall th ls, Forall (rstage th) ls -> forall x y, vdot (rwalk ls x) (rwalk ls y) = vdot x y /\ vcross (rwalk ls x) (rwalk ls y) = rwalk ls (vcross x y).
Proof.
  intros th ls H x y. induction H as [|k ls (_ & P & _) H [I1 I2]]; [split; reflexivity|]. cbn [rwalk fold_right]. fold (rwalk ls x) (rwalk ls y) (rwalk ls (vcross x y)). rewrite <- I2, <- I1.
  assert (Q : q4 (snd k) (snd k) = 1) by (rewrite <- n4_sq, P; ring). rewrite turn_dot, turn_cross, Q. split; [ring|]. unfold vscale. apply vec_eq; cbn [vx vy vz]; ring.
Qed.
(** Two hundred turns by the rounded rotor (3/5, 4/5, 0, 0) and one by (1/2, 1/2, 1/2, 1/2). *)
Example C94_ex : let a := (mkrotor (mk4 (f32_of 10066330 (-24)) (f32_of 13421773 (-24)) (fz 0) (fz 0)), mk4 (3 / 5) (4 / 5) 0 0) in let h := f32_of 1 (-1) in let b := (mkrotor (mk4 h h h h), mk4 (/ 2) (/ 2) (/ 2) (/ 2)) in
  let ls := repeat a 200 in Forall (rstage (/ 2 ^ 24)) (b :: ls) /\ INR (length (b :: ls)) * (/ 2 ^ 24 + 62 / 10 * / 2 ^ 24) <= / 1100 /\ rwalk [b; a] (V 1 0 0) <> V 1 0 0 /\ bound (point_p3 (ipoint 7 (-3) 2)).
Proof.
  intros a h b ls. destruct C90_ex as (N & _ & _ & _ & _ & Bp & _).
  assert (Hh : val h = / 2) by (vm_compute; lra). split; [|split; [|split; [|exact Bp]]].
  - apply Forall_cons.
    + split; [|split].
      * change (Forall fin [h; h; h; h]). repeat (apply Forall_cons; [reflexivity|]). apply Forall_nil.
      * unfold n4, q4. cbn [b snd l0 l1 l2 l3]. replace (/ 2 * / 2 + / 2 * / 2 + / 2 * / 2 + / 2 * / 2) with 1 by field. apply sqrt_1.
      * rewrite u_pow. unfold n4, q4, sub4, rv, map4. cbn [b fst snd rotor_p1 l0 l1 l2 l3]. rewrite Hh. replace ((/ 2 - / 2) * (/ 2 - / 2) + (/ 2 - / 2) * (/ 2 - / 2) + (/ 2 - / 2) * (/ 2 - / 2) + (/ 2 - / 2) * (/ 2 - / 2)) with 0 by ring. rewrite sqrt_0. pose proof u_small. lra.
    + apply Forall_forall. intros k Hk. apply repeat_spec in Hk. rewrite Hk. exact N.
  - rewrite u_pow. replace (INR (length (b :: ls))) with 201 by (unfold ls; cbn [length]; rewrite repeat_length; rewrite INR_IZR_INZ; reflexivity). unfold u. lra.
  - intro K. apply (f_equal vx) in K. cbn [rwalk fold_right a b snd] in K. unfold turn in K. cbn in K. lra.
Qed.
