(** Property C88: reflections in planes in binary32. *)
From Coq Require Import ZArith Reals List Bool Lra Lia Psatz.
From Flocq Require Import Core BinarySingleNaN.
From Verif Require Import AlgTac SpecMass FloatMass Float32 FloatFacts ExprSyntax FloatErr FloatAbs FloatApx FloatNR FloatOps FloatIdeal Props11 SpecGeom Props20 Props23 Props24 Props26 Props34 Props35 Props36 Props37 Props38.
Import ListNotations.
Local Open Scope R_scope.

Section Gen.
Context {F : Type} {A : Arith F} (x : nat -> F).
Notation h := (map4 (eval x)).
Definition e_rp : plane expr := plane_on_plane (mkplane (vreg 0)) (mkplane (vreg 4)).
Definition e_rl : line expr := plane_on_line (mkplane (vreg 0)) (mkline (vreg 4) (vreg 8)).
Definition e_rx : point expr := plane_on_point (mkplane (vreg 0)) (mkpoint (vreg 4)).
Lemma rp_gen : plane_p0 (plane_on_plane (mkplane (h (vreg 0))) (mkplane (h (vreg 4)))) = h (plane_p0 e_rp). Proof. reflexivity. Qed.
Lemma rx_gen : point_p3 (plane_on_point (mkplane (h (vreg 0))) (mkpoint (h (vreg 4)))) = h (point_p3 e_rx). Proof. reflexivity. Qed.
Lemma rl_gen1 : line_p1 (plane_on_line (mkplane (h (vreg 0))) (mkline (h (vreg 4)) (h (vreg 8)))) = h (line_p1 e_rl). Proof. reflexivity. Qed.
Lemma rl_gen2 : line_p2 (plane_on_line (mkplane (h (vreg 0))) (mkline (h (vreg 4)) (h (vreg 8)))) = h (line_p2 e_rl). Proof. reflexivity. Qed.
End Gen.
Lemma rp_code (a b : plane f32) : plane_p0 (plane_on_plane a b) = map4 (eval (lanes12 (plane_p0 a) (plane_p0 b) nought)) (plane_p0 e_rp).
Proof. destruct a as [[a0 a1 a2 a3]], b as [[b0 b1 b2 b3]]. exact (rp_gen (lanes12 (mk4 a0 a1 a2 a3) (mk4 b0 b1 b2 b3) nought)). Qed.
Lemma rx_code (a : plane f32) (b : point f32) : point_p3 (plane_on_point a b) = map4 (eval (lanes12 (plane_p0 a) (point_p3 b) nought)) (point_p3 e_rx).
Proof. destruct a as [[a0 a1 a2 a3]], b as [[b0 b1 b2 b3]]. exact (rx_gen (lanes12 (mk4 a0 a1 a2 a3) (mk4 b0 b1 b2 b3) nought)). Qed.
Lemma rl_code1 (a : plane f32) (b : line f32) : line_p1 (plane_on_line a b) = map4 (eval (lanes12 (plane_p0 a) (line_p1 b) (line_p2 b))) (line_p1 e_rl).
Proof. destruct a as [[a0 a1 a2 a3]], b as [[b0 b1 b2 b3] [c0 c1 c2 c3]]. exact (rl_gen1 (lanes12 (mk4 a0 a1 a2 a3) (mk4 b0 b1 b2 b3) (mk4 c0 c1 c2 c3))). Qed.
Lemma rl_code2 (a : plane f32) (b : line f32) : line_p2 (plane_on_line a b) = map4 (eval (lanes12 (plane_p0 a) (line_p1 b) (line_p2 b))) (line_p2 e_rl).
Proof. destruct a as [[a0 a1 a2 a3]], b as [[b0 b1 b2 b3] [c0 c1 c2 c3]]. exact (rl_gen2 (lanes12 (mk4 a0 a1 a2 a3) (mk4 b0 b1 b2 b3) (mk4 c0 c1 c2 c3))). Qed.
(** twice the part of [v] along [n], less [v] *)
Definition refl (n v : vec) : vec := vsub (vscale (2 * vdot n v) n) (vscale (vdot n n) v).
(** the magnitudes that enter *)
Definition rmass (n v : vec) : vec := vadd (vscale (2 * vdot (vabs n) (vabs v)) (vabs n)) (vscale (vdot n n) (vabs v)).
Ltac fin_abs := repeat match goal with |- context [Rabs ?a * Rabs ?a] => rewrite (sq_abs a) end.
Lemma quad a b c d : 0 <= Rabs a * Rabs b * Rabs c * Rabs d. Proof. repeat apply Rmult_le_pos; apply Rabs_pos. Qed.
Lemma rp_exact y : let n := vy3 y 0 in let d := y 0%nat in let m := vy3 y 4 in let e := y 4%nat in
  eval (A := Arith_R) y (l0 (plane_p0 e_rp)) = 2 * vdot n m * d - vdot n n * e /\ refl n m = ev3 y (plane_p0 e_rp) /\
  absv y (l0 (plane_p0 e_rp)) <= 2 * vdot (vabs n) (vabs m) * Rabs d + vdot n n * Rabs e /\ vle (av3 y (plane_p0 e_rp)) (rmass n m).
Proof.
  intros n d m e. unfold n, d, m, e, vy3. split; [|split; [|split]].
  - unfold vdot; cbn [vx vy vz]; rcbv; ring.
  - unfold refl, vdot, vsub, vscale, ev3; cbn [vx vy vz]; apply vec_eq; rcbv; ring.
  - unfold vdot, vabs; cbn [vx vy vz]; norm_abs. rewrite <- (sq_abs (y 1%nat)), <- (sq_abs (y 2%nat)), <- (sq_abs (y 3%nat)). lra.
  - unfold rmass, vle, vdot, vabs, vadd, vscale, av3; cbn [vx vy vz]; pose proof (triple (y 1%nat) (y 1%nat) (y 5%nat)); pose proof (triple (y 2%nat) (y 2%nat) (y 6%nat)); pose proof (triple (y 3%nat) (y 3%nat) (y 7%nat)).
    (split; [|split]); norm_abs; rewrite <- (sq_abs (y 1%nat)), <- (sq_abs (y 2%nat)), <- (sq_abs (y 3%nat)); lra.
Qed.
Lemma rx_exact y : let n := vy3 y 0 in let d := y 0%nat in let x := vy3 y 4 in let w := y 4%nat in
  eval (A := Arith_R) y (l0 (point_p3 e_rx)) = vdot n n * w /\ vopp (vadd (refl n x) (vscale (2 * d * w) n)) = ev3 y (point_p3 e_rx) /\
  absv y (l0 (point_p3 e_rx)) <= vdot n n * Rabs w /\ vle (av3 y (point_p3 e_rx)) (vadd (rmass n x) (vscale (2 * Rabs d * Rabs w) (vabs n))).
Proof.
  intros n d m e. unfold n, d, m, e, vy3. split; [|split; [|split]].
  - unfold vdot; cbn [vx vy vz]; rcbv; ring.
  - unfold refl, vopp, vadd, vdot, vsub, vscale, ev3; cbn [vx vy vz]; apply vec_eq; rcbv; ring.
  - unfold vdot, vabs; cbn [vx vy vz]; norm_abs. rewrite <- (sq_abs (y 1%nat)), <- (sq_abs (y 2%nat)), <- (sq_abs (y 3%nat)). lra.
  - unfold rmass, vle, vdot, vabs, vadd, vscale, av3; cbn [vx vy vz]; pose proof (triple (y 1%nat) (y 1%nat) (y 5%nat)); pose proof (triple (y 2%nat) (y 2%nat) (y 6%nat)); pose proof (triple (y 3%nat) (y 3%nat) (y 7%nat)).
    (split; [|split]); norm_abs; rewrite <- (sq_abs (y 1%nat)), <- (sq_abs (y 2%nat)), <- (sq_abs (y 3%nat)); lra.
Qed.
Lemma rl_exact y : let n := vy3 y 0 in let d := y 0%nat in let s := vy3 y 4 in let k := vy3 y 8 in y 4%nat = 0 ->
  refl n s = ev3 y (line_p1 e_rl) /\ vsub (vscale (2 * d) (vcross n s)) (refl n k) = ev3 y (line_p2 e_rl) /\
  vle (av3 y (line_p1 e_rl)) (rmass n s) /\ vle (av3 y (line_p2 e_rl)) (vadd (rmass n k) (vscale (2 * Rabs d) (vmass (vabs n) (vabs s)))).
Proof.
  intros n d s k Z. unfold n, d, s, k, vy3. split; [|split; [|split]].
  - unfold refl, vadd, vdot, vsub, vscale, ev3; cbn [vx vy vz]; apply vec_eq; rcbv; ring.
  - unfold refl, vcross, vadd, vdot, vsub, vscale, ev3; cbn [vx vy vz]; apply vec_eq; rcbv; ring.
  - unfold rmass, vle, vdot, vabs, vadd, vscale, av3; cbn [vx vy vz]; pose proof (triple (y 1%nat) (y 1%nat) (y 5%nat)); pose proof (triple (y 2%nat) (y 2%nat) (y 6%nat)); pose proof (triple (y 3%nat) (y 3%nat) (y 7%nat)).
    (split; [|split]); norm_abs; rewrite <- (sq_abs (y 1%nat)), <- (sq_abs (y 2%nat)), <- (sq_abs (y 3%nat)); lra.
  - unfold rmass, vmass, vle, vdot, vabs, vadd, vscale, av3; cbn [vx vy vz]; pose proof (triple (y 1%nat) (y 1%nat) (y 9%nat)); pose proof (triple (y 2%nat) (y 2%nat) (y 10%nat)); pose proof (triple (y 3%nat) (y 3%nat) (y 11%nat)).
    (split; [|split]); norm_abs; rewrite <- (sq_abs (y 1%nat)), <- (sq_abs (y 2%nat)), <- (sq_abs (y 3%nat)); lra.
Qed.
(** the error bound of Props36 with a larger allowance for underflow: the kernels below multiply by -2 first *)
Definition mote : R := bpow radix2 (-104).
Definition goodm (d : nat) (e : expr) : bool := fits_any 20 (-104) e && (dep e <=? d)%nat && (d <=? 64)%nat.
Lemma termm (x : nat -> f32) e V Q d : okx x -> goodm d e = true -> eval (A := Arith_R) (fun n => val (x n)) e = V -> absv (fun n => val (x n)) e <= Q ->
  fin (eval x e) /\ Rabs (val (eval x e) - V) <= unit_err d * Q + mote.
Proof.
  intros X G HV HQ. unfold goodm in G. apply andb_prop in G. destruct G as [G D64]. apply andb_prop in G. destruct G as [C D]. apply Nat.leb_le in D. apply Nat.leb_le in D64.
  unfold fits_any in C. apply andb_prop in C. destruct C as [C C3]. apply andb_prop in C. destruct C as [C1 C2]. apply Z.leb_le in C2.
  destruct (rounding_any x (2 ^ 20) e ltac:(lia) X C1 ltac:(lia)) as (F & E). split; [exact F|]. rewrite HV in E. eapply Rle_trans; [exact E|].
  pose proof (P_lin (dep e) ltac:(lia)) as PL. pose proof (absv_nonneg (fun n => val (x n)) e) as A0. apply Rplus_le_compat.
  - assert (INR (dep e) <= INR d) by (apply le_INR; exact D). assert (0 <= INR (dep e)) by apply pos_INR. assert (INR (dep e) * u <= INR d * u) by (apply Rmult_le_compat_r; [unfold u; lra|assumption]).
    unfold unit_err. apply Rmult_le_compat; [pose proof (P_pos (dep e)); pose proof (P_mono 0 (dep e) ltac:(lia)) as P0; cbn in P0; lra|exact A0| |exact HQ]. lra.
  - assert (L : IZR (slack (2 ^ 20) e) <= bpow radix2 (149 + -104)) by (rewrite <- IZR_Zpower by lia; apply IZR_le; exact C2).
    assert (Q2 : P (dep e) <= 2). { assert (INR (dep e) <= 64) by (rewrite INR_IZR_INZ; apply IZR_le; lia). pose proof (pos_INR (dep e)). unfold u in PL. nra. }
    unfold mote. replace (bpow radix2 (-104)) with (2 * (eta * bpow radix2 (149 + -104))).
    2: { unfold eta. rewrite <- bpow_plus. change 2 with (bpow radix2 1). rewrite <- bpow_plus. f_equal. }
    pose proof (P_pos (dep e)). pose proof eta_pos. pose proof (IZR_le _ _ (slack_nonneg (2 ^ 20) e ltac:(lia))).
    apply Rmult_le_compat; [lra|apply Rmult_le_pos; lra|exact Q2|]. apply Rmult_le_compat_l; [lra|exact L].
Qed.
Lemma term3m (x : nat -> f32) (e : m128 expr) (E A : vec) d : okx x -> goodm d (l1 e) && goodm d (l2 e) && goodm d (l3 e) = true ->
  let y := fun n => val (x n) in let ev := eval (A := Arith_R) y in E = V (ev (l1 e)) (ev (l2 e)) (ev (l3 e)) -> vle (V (absv y (l1 e)) (absv y (l2 e)) (absv y (l3 e))) A ->
  let v := map4 (eval x) e in fin (l1 v) /\ fin (l2 v) /\ fin (l3 v) /\ vlen (vsub (vval v) E) <= unit_err d * vlen A + 2 * mote.
Proof.
  intros X G y ev HE (A1 & A2 & A3) v. cbn [vx vy vz] in *. apply andb_prop in G. destruct G as [G G3]. apply andb_prop in G. destruct G as [G1 G2].
  destruct (termm x (l1 e) _ _ d X G1 eq_refl A1) as [F1 B1]. destruct (termm x (l2 e) _ _ d X G2 eq_refl A2) as [F2 B2]. destruct (termm x (l3 e) _ _ d X G3 eq_refl A3) as [F3 B3].
  split; [exact F1|split; [exact F2|split; [exact F3|]]]. subst E.
  rewrite <- vlen_vabs. set (D := vabs (vsub (vval v) (V (ev (l1 e)) (ev (l2 e)) (ev (l3 e))))).
  assert (0 <= mote) by apply bpow_ge_0. pose proof (unit_err_pos d).
  apply (Rle_trans _ (vlen (vadd (vscale (unit_err d) A) (V mote mote mote)))).
  - apply vlen_le; [apply vabs_pos|]. split; [|split]; cbn [vx vy vz vadd vscale D vabs vsub vval v map4 l1 l2 l3]; assumption.
  - eapply Rle_trans; [apply vlen_tri|]. rewrite vlen_scale_pos by assumption. apply Rplus_le_compat_l. apply vlen_bound; [lra|]. unfold vdot. cbn [vx vy vz]. nra.
Qed.
Lemma mote_small r : / 2 ^ 60 <= r -> 0 <= mote <= / 4000 * u * r.
Proof.
  intro H. split; [apply bpow_ge_0|]. apply (Rle_trans _ (/ 4000 * u * / 2 ^ 60)); [|apply Rmult_le_compat_l; [unfold u; lra|exact H]]. unfold mote, u. cbn. lra.
Qed.
Lemma rmass_len n v : vlen (rmass n v) <= 3 * (vdot n n * vlen v).
Proof.
  unfold rmass. eapply Rle_trans; [apply vlen_tri|]. pose proof (vdot_abs_pos n v). assert (0 <= vdot n n) by (rewrite <- vlen_sq; apply Rle_0_sqr). rewrite !vlen_scale_pos, !vlen_vabs by lra.
  pose proof (Rmult_le_compat_r _ _ _ (vlen_pos n) (vdot_abs_len n v)) as D. rewrite <- (vlen_sq n). lra.
Qed.
(** ** What the code computes, up to rounding *)
Theorem C88_point : forall (a : plane f32) (b : point f32), bound (plane_p0 a) -> bound (point_p3 b) ->
  let n := nrm a in let d := off a in let x := pos b in let w := wt b in let q := plane_on_point a b in
  Forall fin (reg_list (point_p3 q)) /\ Rabs (wt q - vdot n n * w) <= unit_err 6 * (vdot n n * Rabs w) + mote /\
  vlen (vsub (pos q) (vsub (vscale (vdot n n) x) (vscale (2 * (vdot n x + d * w)) n))) <= unit_err 6 * (3 * (vdot n n * vlen x) + 2 * (Rabs d * Rabs w * vlen n)) + 2 * mote.
Proof.
  intros a b Ha Hb n d x w q. pose proof (lanes_ok2 _ _ Ha Hb) as X. set (L := lanes12 (plane_p0 a) (point_p3 b) nought) in *. set (c := point_p3 e_rx).
  assert (G0 : goodm 6 (l0 c) = true) by (vm_compute; reflexivity). assert (G : goodm 6 (l1 c) && goodm 6 (l2 c) && goodm 6 (l3 c) = true) by (vm_compute; reflexivity).
  destruct (rx_exact (fun k => val (L k))) as (E0 & E & M0 & M). fold c in E0, E, M0, M. assert (C : point_p3 q = map4 (eval L) c) by exact (rx_code a b). clearbody q c.
  destruct (termm L (l0 c) _ _ 6 X G0 E0 M0) as [F0 Q0]. destruct (term3m L c _ _ 6 X G E M) as (F1 & F2 & F3 & Q).
  change (vy3 (fun k => val (L k)) 4) with x in *. change (vy3 (fun k => val (L k)) 0) with n in *. change (val (L 0%nat)) with d in *. change (val (L 4%nat)) with w in *.
  split; [|split].
  - rewrite C. repeat (apply Forall_cons; [assumption|]). apply Forall_nil.
  - unfold wt. rewrite C. exact Q0.
  - unfold pos. rewrite C. change (V (val (l1 (map4 (eval L) c))) (val (l2 (map4 (eval L) c))) (val (l3 (map4 (eval L) c)))) with (vval (map4 (eval L) c)).
    replace (vsub (vscale (vdot n n) x) (vscale (2 * (vdot n x + d * w)) n)) with (vopp (vadd (refl n x) (vscale (2 * d * w) n))) by (unfold refl, vopp, vadd, vsub, vscale; cbn [vx vy vz]; apply vec_eq; cbn [vx vy vz]; ring).
    eapply Rle_trans; [exact Q|]. apply grow; [apply unit_err_pos|]. eapply Rle_trans; [apply vlen_tri|]. pose proof (rmass_len n x). pose proof (Rabs_pos d). pose proof (Rabs_pos w).
    assert (0 <= Rabs d * Rabs w) by (apply Rmult_le_pos; assumption). rewrite vlen_scale_pos, vlen_vabs by lra. lra.
Qed.
Print Assumptions C88_point.
Theorem C88_plane : forall a b : plane f32, bound (plane_p0 a) -> bound (plane_p0 b) ->
  let n := nrm a in let d := off a in let m := nrm b in let e := off b in let q := plane_on_plane a b in
  Forall fin (reg_list (plane_p0 q)) /\ Rabs (off q - (2 * vdot n m * d - vdot n n * e)) <= unit_err 6 * (2 * (vlen n * vlen m) * Rabs d + vdot n n * Rabs e) + tiny /\
  vlen (vsub (nrm q) (vsub (vscale (2 * vdot n m) n) (vscale (vdot n n) m))) <= unit_err 5 * (3 * (vdot n n * vlen m)) + 2 * tiny.
Proof.
  intros a b Ha Hb n d m e q. pose proof (lanes_ok2 _ _ Ha Hb) as X. set (L := lanes12 (plane_p0 a) (plane_p0 b) nought) in *. set (c := plane_p0 e_rp).
  assert (G0 : good 6 (l0 c) = true) by (vm_compute; reflexivity). assert (G : good 5 (l1 c) && good 5 (l2 c) && good 5 (l3 c) = true) by (vm_compute; reflexivity).
  destruct (rp_exact (fun k => val (L k))) as (E0 & E & M0 & M). fold c in E0, E, M0, M. assert (C : plane_p0 q = map4 (eval L) c) by exact (rp_code a b). clearbody q c.
  destruct (term L (l0 c) _ _ 6 X G0 E0 M0) as [F0 Q0]. destruct (term3 L c _ _ 5 X G E M) as (F1 & F2 & F3 & Q).
  change (vy3 (fun k => val (L k)) 4) with m in *. change (vy3 (fun k => val (L k)) 0) with n in *. change (val (L 0%nat)) with d in *. change (val (L 4%nat)) with e in *.
  split; [|split].
  - rewrite C. repeat (apply Forall_cons; [assumption|]). apply Forall_nil.
  - unfold off. rewrite C. eapply Rle_trans; [exact Q0|]. apply grow; [apply unit_err_pos|]. apply Rplus_le_compat_r. apply Rmult_le_compat_r; [apply Rabs_pos|]. pose proof (vdot_abs_len n m). lra.
  - unfold nrm. rewrite C. eapply Rle_trans; [exact Q|]. apply grow; [apply unit_err_pos|]. apply rmass_len.
Qed.
Print Assumptions C88_plane.
Theorem C88_line : forall (a : plane f32) (b : line f32), bound (plane_p0 a) -> bound (line_p1 b) -> bound (line_p2 b) -> val (l0 (line_p1 b)) = 0 -> val (l0 (line_p2 b)) = 0 ->
  let n := nrm a in let d := off a in let s := dirn b in let k := mom b in let q := plane_on_line a b in
  Forall fin (reg_list (line_p1 q) ++ reg_list (line_p2 q)) /\ val (l0 (line_p1 q)) = 0 /\ val (l0 (line_p2 q)) = 0 /\
  vlen (vsub (dirn q) (vsub (vscale (2 * vdot n s) n) (vscale (vdot n n) s))) <= unit_err 5 * (3 * (vdot n n * vlen s)) + 2 * mote /\
  vlen (vsub (mom q) (vadd (vscale (2 * d) (vcross n s)) (vsub (vscale (vdot n n) k) (vscale (2 * vdot n k) n)))) <= unit_err 6 * (3 * (vdot n n * vlen k) + 3 * (Rabs d * (vlen n * vlen s))) + 2 * mote.
Proof.
  intros a b Ha Hb Hc Z1 Z2 n d s k q. pose proof (lanes_ok3 _ _ _ Ha Hb Hc) as X. set (L := lanes12 (plane_p0 a) (line_p1 b) (line_p2 b)) in *. set (c := line_p1 e_rl). set (e := line_p2 e_rl).
  assert (G1 : goodm 5 (l1 c) && goodm 5 (l2 c) && goodm 5 (l3 c) = true) by (vm_compute; reflexivity). assert (G2 : goodm 6 (l1 e) && goodm 6 (l2 e) && goodm 6 (l3 e) = true) by (vm_compute; reflexivity).
  set (z := fun n => (n =? 4)%nat || (n =? 8)%nat). assert (G3 : null z (l0 c) && null z (l0 e) = true) by (vm_compute; reflexivity). apply andb_prop in G3. destruct G3 as [G3 G4].
  assert (HZ : forall i, z i = true -> val (L i) = 0).
  { intros i Hi. unfold z in Hi. apply orb_prop in Hi. destruct Hi as [Hi|Hi]; apply Nat.eqb_eq in Hi; subst i; [exact Z1|exact Z2]. }
  destruct (rl_exact (fun k => val (L k)) Z1) as (E1 & E2 & M1 & M2). fold c in E1, M1. fold e in E2, M2.
  assert (C1 : line_p1 q = map4 (eval L) c) by exact (rl_code1 a b). assert (C2 : line_p2 q = map4 (eval L) e) by exact (rl_code2 a b). clearbody q c e.
  destruct (null_ok L z _ X HZ G3) as [F0 V0]. destruct (null_ok L z _ X HZ G4) as [F4 V4].
  destruct (term3m L c _ _ 5 X G1 E1 M1) as (F1 & F2 & F3 & Q1). destruct (term3m L e _ _ 6 X G2 E2 M2) as (F5 & F6 & F7 & Q2).
  change (vy3 (fun k => val (L k)) 8) with k in *. change (vy3 (fun k => val (L k)) 4) with s in *. change (vy3 (fun k => val (L k)) 0) with n in *. change (val (L 0%nat)) with d in *.
  split; [|split; [|split; [|split]]].
  - rewrite C1, C2. repeat (apply Forall_cons; [assumption|]). apply Forall_nil.
  - rewrite C1. exact V0.
  - rewrite C2. exact V4.
  - unfold dirn. rewrite C1. eapply Rle_trans; [exact Q1|]. apply grow; [apply unit_err_pos|]. apply rmass_len.
  - unfold mom. rewrite C2. replace (vadd (vscale (2 * d) (vcross n s)) (vsub (vscale (vdot n n) k) (vscale (2 * vdot n k) n))) with (vsub (vscale (2 * d) (vcross n s)) (refl n k)) by (unfold refl, vadd, vsub, vscale; cbn [vx vy vz]; apply vec_eq; cbn [vx vy vz]; ring).
    eapply Rle_trans; [exact Q2|]. apply grow; [apply unit_err_pos|]. eapply Rle_trans; [apply vlen_tri|]. pose proof (rmass_len n k). pose proof (Rabs_pos d) as D. rewrite vlen_scale_pos by lra. pose proof (Rmult_le_compat_l _ _ _ D (vmass_abs n s)). lra.
Qed.
Print Assumptions C88_line.
(** ** Mirror images *)
Definition mirrored (n : vec) (d : R) (x : vec) : vec := vsub x (vscale (2 * (vdot n x + d) / vdot n n) n).
Lemma mirrored_iso n d x y : vdot n n <> 0 -> vlen (vsub (mirrored n d x) (mirrored n d y)) = vlen (vsub x y).
Proof.
  intro N. unfold vlen. f_equal. set (z := vsub x y). set (p := vdot n z). assert (E : vsub (mirrored n d x) (mirrored n d y) = vsub z (vscale (2 * p / vdot n n) n)).
  { unfold mirrored, p, z, vsub, vscale. cbn [vx vy vz]. set (k := vdot n n) in *. unfold vdot. cbn [vx vy vz]. apply vec_eq; cbn [vx vy vz]; field; exact N. }
  rewrite E. replace (vdot (vsub z (vscale (2 * p / vdot n n) n)) (vsub z (vscale (2 * p / vdot n n) n))) with (vdot z z - 2 * (2 * p / vdot n n) * vdot n z + (2 * p / vdot n n) * (2 * p / vdot n n) * vdot n n) by (unfold vdot, vsub, vscale; cbn [vx vy vz]; ring).
  fold p. field. exact N.
Qed.
Lemma mirrored_twice n d x : vdot n n <> 0 -> mirrored n d (mirrored n d x) = x.
Proof.
  intro N. unfold mirrored. set (t := 2 * (vdot n x + d) / vdot n n). replace (vdot n (vsub x (vscale t n))) with (vdot n x - t * vdot n n) by (unfold vdot, vsub, vscale; cbn [vx vy vz]; ring).
  replace (2 * (vdot n x - t * vdot n n + d) / vdot n n) with (- t) by (unfold t; field; exact N). unfold vsub, vscale. apply vec_eq; cbn [vx vy vz]; ring.
Qed.
Lemma mirrored_len n d x r : Rabs (vdot n n - 1) <= / 1000 -> vlen x <= r -> Rabs d <= r -> vlen (mirrored n d x) <= 3003 / 1000 * r.
Proof.
  intros Hn Hx Hd. destruct (near_unit_len n Hn) as [N1 N2]. assert (N0 : vdot n n <> 0) by lra. pose proof (vlen_sq n) as S. pose proof (Rabs_pos d) as D0.
  assert (Z : vlen (mirrored n d (V 0 0 0)) <= 2003 / 1000 * r).
  { replace (mirrored n d (V 0 0 0)) with (vscale (- (2 * d / vdot n n)) n) by (unfold mirrored, vsub, vscale; cbn [vx vy vz]; replace (vdot n (V 0 0 0)) with 0 by (unfold vdot; cbn [vx vy vz]; ring); apply vec_eq; cbn [vx vy vz]; field; exact N0).
    rewrite vlen_scale, Rabs_Ropp. unfold Rdiv. rewrite !Rabs_mult, Rabs_inv, (Rabs_pos_eq 2), (Rabs_pos_eq (vdot n n)) by lra. rewrite <- S, Rinv_mult. replace (2 * Rabs d * (/ vlen n * / vlen n) * vlen n) with (2 * Rabs d * / vlen n) by (field; lra).
    assert (/ vlen n <= 10015 / 10000) by (apply (Rle_trans _ (/ (999 / 1000))); [apply Rinv_le_contravar; lra|lra]). assert (0 < / vlen n) by (apply Rinv_0_lt_compat; lra).
    assert (Rabs d * / vlen n <= r * (10015 / 10000)) by (apply Rmult_le_compat; lra). lra. }
  pose proof (mirrored_iso n d x (V 0 0 0) N0) as I. replace (vsub x (V 0 0 0)) with x in I by (unfold vsub; apply vec_eq; cbn [vx vy vz]; ring).
  pose proof (vlen_tri (vsub (mirrored n d x) (mirrored n d (V 0 0 0))) (mirrored n d (V 0 0 0))) as T. replace (vadd (vsub (mirrored n d x) (mirrored n d (V 0 0 0))) (mirrored n d (V 0 0 0))) with (mirrored n d x) in T by (unfold vadd, vsub; apply vec_eq; cbn [vx vy vz]; ring). lra.
Qed.
(** The mirror image of the points of a plane, or of a line. *)
Theorem C88_exact : forall n d, vdot n n <> 0 ->
  (forall x y, vlen (vsub (mirrored n d x) (mirrored n d y)) = vlen (vsub x y)) /\ (forall x, mirrored n d (mirrored n d x) = x) /\ (forall x, on_plane n d x -> mirrored n d x = x) /\ (forall x, on_plane n d (vscale (/ 2) (vadd x (mirrored n d x))) /\ exists t, vsub x (mirrored n d x) = vscale t n) /\ (forall m e x, on_plane m e x <-> on_plane (vsub (vscale (2 * vdot n m) n) (vscale (vdot n n) m)) (2 * vdot n m * d - vdot n n * e) (mirrored n d x)) /\ (forall s k x, on_line s k x -> on_line (vsub (vscale (2 * vdot n s) n) (vscale (vdot n n) s)) (vadd (vscale (2 * d) (vcross n s)) (vsub (vscale (vdot n n) k) (vscale (2 * vdot n k) n))) (mirrored n d x)).
Proof.
  intros n d N. split; [intros x y; apply mirrored_iso; exact N|]. split; [intro x; apply mirrored_twice; exact N|]. split; [|split; [|split]].
  - intros x H. unfold on_plane in H. unfold mirrored. rewrite H. unfold vsub, vscale. apply vec_eq; cbn [vx vy vz]; field; exact N.
  - intro x. split.
    + unfold on_plane, mirrored. set (t := 2 * (vdot n x + d) / vdot n n). replace (vdot n (vscale (/ 2) (vadd x (vsub x (vscale t n))))) with (vdot n x - / 2 * t * vdot n n) by (unfold vdot, vscale, vadd, vsub; cbn [vx vy vz]; field). unfold t. field. exact N.
    + exists (2 * (vdot n x + d) / vdot n n). unfold mirrored, vsub, vscale. apply vec_eq; cbn [vx vy vz]; ring.
  - intros m e x. unfold on_plane, mirrored. set (t := 2 * (vdot n x + d) / vdot n n). assert (T : t * vdot n n = 2 * (vdot n x + d)) by (unfold t; field; exact N).
    assert (E : vdot (vsub (vscale (2 * vdot n m) n) (vscale (vdot n n) m)) (vsub x (vscale t n)) + (2 * vdot n m * d - vdot n n * e) = - vdot n n * (vdot m x + e) + vdot n m * (2 * (vdot n x + d) - t * vdot n n)).
    { unfold vdot, vsub, vscale; cbn [vx vy vz]; ring. }
    rewrite E, T, Rminus_diag_eq, Rmult_0_r, Rplus_0_r by reflexivity. split; intro H; [rewrite H; ring|]. apply Rmult_integral in H. destruct H as [H|H]; [lra|exact H].
  - intros s k x H. unfold on_line in *. subst k. unfold mirrored. set (t := 2 * (vdot n x + d) / vdot n n). assert (T : t * vdot n n = 2 * (vdot n x + d)) by (unfold t; field; exact N).
    replace (2 * d) with (t * vdot n n - 2 * vdot n x) by lra. clearbody t. clear T. unfold vcross, vdot, vsub, vadd, vscale. cbn [vx vy vz]. apply vec_eq; cbn [vx vy vz]; ring.
Qed.
Print Assumptions C88_exact.
(** A point reflected in a normalized plane lies within 49 roundings of its mirror image, and reflected twice within 198
    of where it was. *)
Theorem C88_mirror : forall (a : plane f32) (b : point f32) r, bound (plane_p0 a) -> bound (point_p3 b) -> Rabs (vdot (nrm a) (nrm a) - 1) <= / 1000 ->
  998 / 1000 <= Rabs (wt b) <= 1002 / 1000 -> vlen (place b) <= r -> Rabs (off a) <= r -> / 2 ^ 60 <= r ->
  let q := plane_on_point a b in Forall fin (reg_list (point_p3 q)) /\ Rabs (wt q - vdot (nrm a) (nrm a) * wt b) <= 603 / 100 * u /\ wt q <> 0 /\ vlen (vsub (place q) (mirrored (nrm a) (off a) (place b))) <= 49 * u * r.
Proof.
  intros a b r Ha Hb Hn Hw Hx Hd Hr q. destruct (C88_point a b Ha Hb) as (F & Q0 & Q). fold q in F, Q0, Q. clearbody q. split; [exact F|].
  set (n := nrm a) in *. set (d := off a) in *. set (w := wt b) in *. destruct (near_unit_len n Hn) as [N1 N2]. pose proof (vlen_sq n) as LS. set (N := vdot n n) in *. set (l := vlen n) in *.
  assert (W0 : w <> 0) by (intro Z; rewrite Z, Rabs_R0 in Hw; lra). set (y := place b) in *. assert (X : pos b = vscale w y) by (unfold y, place; fold w; unfold vscale; cbn [vx vy vz]; destruct (pos b) as [p1 p2 p3]; cbn [vx vy vz]; apply vec_eq; cbn [vx vy vz]; field; exact W0).
  rewrite X in Q. clearbody y. pose proof (mote_small r Hr) as TS. pose proof (mote_small 1 ltac:(apply (Rle_trans _ (/ 1)); [apply Rinv_le_contravar; [lra|apply pow_R1_Rle; lra]|lra])) as T1.
  assert (r0 : 0 < r) by (eapply Rlt_le_trans; [|exact Hr]; apply Rinv_0_lt_compat; apply pow_lt; lra). assert (u0 : 0 < u) by (unfold u; lra). assert (ur : 0 < u * r) by (apply Rmult_lt_0_compat; assumption).
  assert (NW : N * Rabs w <= 1001 / 1000 * (1002 / 1000)) by (apply Rmult_le_compat; lra).
  assert (E0 : Rabs (wt q - N * w) <= 603 / 100 * u).
  { eapply Rle_trans; [exact Q0|]. unfold unit_err. replace (INR 6) with 6 by (cbn; ring). assert (6 * u * (1 + / 100000) * (N * Rabs w) <= 6 * u * (1 + / 100000) * (1001 / 1000 * (1002 / 1000))) by (apply Rmult_le_compat_l; lra). lra. }
  split; [exact E0|]. set (M := mirrored n d y).
  assert (E1 : vlen (vsub (pos q) (vscale (N * w) M)) <= 3016 / 100 * u * r).
  { replace (vscale (N * w) M) with (vsub (vscale N (vscale w y)) (vscale (2 * (vdot n (vscale w y) + d * w)) n)).
    2: { unfold M, mirrored. fold N. replace (vdot n (vscale w y)) with (w * vdot n y) by (unfold vdot, vscale; cbn [vx vy vz]; ring). unfold vsub, vscale. cbn [vx vy vz]. apply vec_eq; cbn [vx vy vz]; field; lra. }
    eapply Rle_trans; [exact Q|]. rewrite vlen_scale. unfold unit_err. replace (INR 6) with 6 by (cbn; ring). pose proof (vlen_pos y). pose proof (Rabs_pos d).
    assert (A1 : N * Rabs w * vlen y <= 1001 / 1000 * (1002 / 1000) * r) by (apply Rmult_le_compat; try lra; apply Rmult_le_pos; lra).
    assert (A2 : Rabs d * Rabs w * l <= r * (1002 / 1000) * (1001 / 1000)) by (repeat apply Rmult_le_compat; try lra; apply Rmult_le_pos; lra).
    assert (A3 : 6 * u * (1 + / 100000) * (3 * (N * (Rabs w * vlen y)) + 2 * (Rabs d * Rabs w * l)) <= 6 * u * (1 + / 100000) * (5 * (1001 / 1000 * (1002 / 1000) * r))) by (apply Rmult_le_compat_l; lra). lra. }
  destruct (spot_gen _ _ _ _ _ _ E1 E0) as [_ S]. assert (NK : 997 / 1000 <= Rabs (N * w)) by (rewrite Rabs_mult, (Rabs_pos_eq N) by lra; apply (Rle_trans _ (999 / 1000 * (998 / 1000))); [lra|apply Rmult_le_compat; lra]).
  destruct (S ltac:(apply (Rlt_le_trans _ (997 / 1000)); [unfold u; lra|exact NK])) as [S1 S2]. split; [exact S1|]. unfold place. eapply Rle_trans; [exact S2|].
  assert (ML : vlen M <= 3003 / 1000 * r) by (apply mirrored_len; assumption). pose proof (vlen_pos M). assert (UM : 603 / 100 * u * vlen M <= 603 / 100 * u * (3003 / 1000 * r)) by (apply Rmult_le_compat_l; lra).
  apply (Rle_trans _ ((3016 / 100 * u * r + 603 / 100 * u * (3003 / 1000 * r)) / (996 / 1000))).
  - unfold Rdiv at 1. apply Rmult_le_compat; [assert (0 <= 603 / 100 * u * vlen M) by (apply Rmult_le_pos; lra); lra|apply Rlt_le, Rinv_0_lt_compat; unfold u in *; lra|lra|]. apply Rinv_le_contravar; [lra|unfold u; lra].
  - lra.
Qed.
Print Assumptions C88_mirror.
Theorem C88_twice : forall (a : plane f32) (b : point f32) r, bound (plane_p0 a) -> bound (point_p3 b) -> Rabs (vdot (nrm a) (nrm a) - 1) <= / 1000 - / 2 ^ 20 ->
  wt b = 1 -> vlen (pos b) <= r -> Rabs (off a) <= r -> / 2 ^ 60 <= r <= 2 ^ 17 ->
  let q := plane_on_point a (plane_on_point a b) in Forall fin (reg_list (point_p3 q)) /\ wt q <> 0 /\ vlen (vsub (place q) (pos b)) <= 198 * u * r.
Proof.
  intros a b r Ha Hb Hn W Hx Hd [Hr Hr2] q. assert (Hn1 : Rabs (vdot (nrm a) (nrm a) - 1) <= / 1000) by (eapply Rle_trans; [exact Hn|]; lra). destruct (near_unit_len _ Hn1) as [N1 N2]. assert (N0 : vdot (nrm a) (nrm a) <> 0) by lra.
  assert (P0 : place b = pos b) by (unfold place; rewrite W; unfold vscale; destruct (pos b) as [p1 p2 p3]; cbn [vx vy vz]; apply vec_eq; cbn [vx vy vz]; field).
  destruct (C88_mirror a b r Ha Hb Hn1 ltac:(rewrite W, Rabs_R1; lra) ltac:(rewrite P0; exact Hx) Hd Hr) as (F & Q0 & S & Q). set (p := plane_on_point a b) in *. clearbody p. rewrite P0 in Q. rewrite W, Rmult_1_r in Q0.
  assert (r0 : 0 < r) by (eapply Rlt_le_trans; [|exact Hr]; apply Rinv_0_lt_compat; apply pow_lt; lra). assert (ur : u * r <= / 1000000 * r) by (apply Rmult_le_compat_r; [lra|unfold u; lra]).
  pose proof (mirrored_len (nrm a) (off a) (pos b) r Hn1 Hx Hd) as ML. set (M := mirrored (nrm a) (off a) (pos b)) in *.
  assert (PL : vlen (place p) <= 3004 / 1000 * r).
  { pose proof (vlen_tri (vsub (place p) M) M) as T. replace (vadd (vsub (place p) M) M) with (place p) in T by (unfold vadd, vsub; apply vec_eq; cbn [vx vy vz]; ring). lra. }
  assert (Wp : 998 / 1000 <= wt p <= 1002 / 1000) by (apply Rabs_le_inv in Q0; apply Rabs_le_inv in Hn; unfold u in Q0; lra).
  assert (Hp : bound (point_p3 p)).
  { assert (PP : vlen (pos p) <= 1048576).
    { replace (pos p) with (vscale (wt p) (place p)) by (unfold place, vscale; cbn [vx vy vz]; destruct (pos p) as [p1 p2 p3]; cbn [vx vy vz]; apply vec_eq; cbn [vx vy vz]; field; exact S).
      rewrite vlen_scale, Rabs_pos_eq by lra. pose proof (vlen_pos (place p)). apply (Rle_trans _ (1002 / 1000 * (3004 / 1000 * r))); [apply Rmult_le_compat; lra|]. replace (2 ^ 17) with 131072 in Hr2 by ring. lra. }
    assert (WB : Rabs (wt p) <= 1048576) by (rewrite Rabs_pos_eq; lra). assert (B20 : bpow radix2 20 = 1048576) by (cbn; lra). unfold bound, pos in *. destruct p as [[p0 p1 p2 p3]]. cbn [point_p3 reg_list l0 l1 l2 l3] in *. unfold wt in *. cbn [point_p3 l0] in *.
    inversion_clear F as [|? ? F0 F']. inversion_clear F' as [|? ? F1 F'']. inversion_clear F'' as [|? ? F2 F']. inversion_clear F' as [|? ? F3 _].
    assert (LE : forall v, v * v <= vdot (V (val p1) (val p2) (val p3)) (V (val p1) (val p2) (val p3)) -> Rabs v <= 1048576).
    { intros v Hv. eapply Rle_trans; [|exact PP]. rewrite <- (sqrt_Rsqr_abs v). unfold vlen. apply sqrt_le_1_alt. exact Hv. }
    unfold vdot in LE. cbn [vx vy vz] in LE. pose proof (Rle_0_sqr (val p1)). pose proof (Rle_0_sqr (val p2)). pose proof (Rle_0_sqr (val p3)). unfold Rsqr in *.
    repeat (apply Forall_cons; [split; [assumption|rewrite B20]|]); try apply Forall_nil; [exact WB| | | ]; apply LE; cbn [l1 l2 l3]; lra. }
  destruct (C88_mirror a p (3004 / 1000 * r) Ha Hp Hn1 ltac:(rewrite Rabs_pos_eq; lra) PL ltac:(lra) ltac:(lra)) as (F2 & _ & S2 & Q2). fold q in F2, S2, Q2. split; [exact F2|]. split; [exact S2|].
  pose proof (mirrored_iso (nrm a) (off a) (place p) M N0) as I. unfold M in I at 1. rewrite mirrored_twice in I by exact N0. 
  replace (vsub (place q) (pos b)) with (vadd (vsub (place q) (mirrored (nrm a) (off a) (place p))) (vsub (mirrored (nrm a) (off a) (place p)) (pos b))) by (unfold vadd, vsub; cbn [vx vy vz]; apply vec_eq; cbn [vx vy vz]; ring).
  eapply Rle_trans; [apply vlen_tri|]. rewrite I. assert (0 < u * r) by (apply Rmult_lt_0_compat; [unfold u; lra|exact r0]). lra.
Qed.
Print Assumptions C88_twice.
(** Incidence survives: the image of a point of a plane (line) lies on the image of the plane (line). *)
Lemma refl_len n v : vlen (vsub (vscale (2 * vdot n v) n) (vscale (vdot n n) v)) <= vdot n n * vlen v.
Proof.
  assert (0 <= vdot n n) by (rewrite <- vlen_sq; apply Rle_0_sqr). apply vlen_bound; [apply Rmult_le_pos; [assumption|apply vlen_pos]|].
  replace (vdot n n * vlen v * (vdot n n * vlen v)) with (vdot n n * vdot n n * (vlen v * vlen v)) by ring. rewrite (vlen_sq v). apply Req_le. unfold vdot, vsub, vscale. cbn [vx vy vz]. ring.
Qed.
Lemma on_plane_image N P o g y M e1 e2 e3 k : vdot P M + g = 0 -> vlen (vsub N P) <= e1 -> Rabs (o - g) <= e2 -> vlen (vsub y M) <= e3 -> vlen P <= k -> Rabs (vdot N y + o) <= e1 * vlen y + e2 + k * e3.
Proof.
  intros H H1 H2 H3 H4. replace (vdot N y + o) with (vdot (vsub N P) y + (o - g) + vdot P (vsub y M)).
  2: { replace (vdot (vsub N P) y) with (vdot N y - vdot P y) by (unfold vdot, vsub; cbn [vx vy vz]; ring). replace (vdot P (vsub y M)) with (vdot P y - vdot P M) by (unfold vdot, vsub; cbn [vx vy vz]; ring). lra. }
  eapply Rle_trans; [apply Rabs_triang|]. apply Rplus_le_compat; [eapply Rle_trans; [apply Rabs_triang|apply Rplus_le_compat; [|exact H2]]|].
  - eapply Rle_trans; [apply vdot_abs|]. apply Rmult_le_compat_r; [apply vlen_pos|exact H1].
  - eapply Rle_trans; [apply vdot_abs|]. apply Rmult_le_compat; try apply vlen_pos; assumption.
Qed.
Lemma on_line_image S P K G y M e1 e2 e3 k : vcross M P = G -> vlen (vsub S P) <= e1 -> vlen (vsub K G) <= e2 -> vlen (vsub y M) <= e3 -> vlen P <= k -> vlen (vsub (vcross y S) K) <= vlen y * e1 + e2 + e3 * k.
Proof.
  intros H H1 H2 H3 H4. replace (vsub (vcross y S) K) with (vadd (vadd (vcross y (vsub S P)) (vscale (- (1)) (vsub K G))) (vcross (vsub y M) P)).
  2: { rewrite <- H. unfold vcross, vadd, vsub, vscale. cbn [vx vy vz]. apply vec_eq; cbn [vx vy vz]; ring. }
  eapply Rle_trans; [apply vlen_tri|]. apply Rplus_le_compat; [eapply Rle_trans; [apply vlen_tri|apply Rplus_le_compat]|].
  - eapply Rle_trans; [apply vcross_len|]. apply Rmult_le_compat_l; [apply vlen_pos|exact H1].
  - rewrite vlen_scale, Rabs_Ropp, Rabs_R1. lra.
  - eapply Rle_trans; [apply vcross_len|]. apply Rmult_le_compat; try apply vlen_pos; assumption.
Qed.
Lemma place_one (b : point f32) : wt b = 1 -> place b = pos b.
Proof. intro W. unfold place. rewrite W. unfold vscale. destruct (pos b) as [p1 p2 p3]. cbn [vx vy vz]. apply vec_eq; cbn [vx vy vz]; field. Qed.
Lemma image_len (y M : vec) r : 0 < r -> vlen M <= 3003 / 1000 * r -> vlen (vsub y M) <= 49 * u * r -> vlen y <= 3004 / 1000 * r.
Proof.
  intros R0 H1 H2. pose proof (vlen_tri (vsub y M) M) as T. replace (vadd (vsub y M) M) with y in T by (unfold vadd, vsub; apply vec_eq; cbn [vx vy vz]; ring).
  assert (u * r <= / 1000000 * r) by (apply Rmult_le_compat_r; [lra|unfold u; lra]). lra.
Qed.
Theorem C88_on_plane : forall (a b : plane f32) (p : point f32) r, bound (plane_p0 a) -> bound (plane_p0 b) -> bound (point_p3 p) -> Rabs (vdot (nrm a) (nrm a) - 1) <= / 1000 -> wt p = 1 ->
  on_plane (nrm b) (off b) (pos p) -> vlen (pos p) <= r -> Rabs (off a) <= r -> / 2 ^ 60 <= r ->
  let q := plane_on_plane a b in Rabs (vdot (nrm q) (place (plane_on_point a p)) + off q) <= 113 * u * (vlen (nrm b) * r) + 8 * (1 + r) * tiny.
Proof.
  intros a b p r Ha Hb Hp Hn W Hon Hx Hd Hr q. destruct (C88_plane a b Ha Hb) as (_ & Q1 & Q2). fold q in Q1, Q2. destruct (C88_mirror a p r Ha Hp Hn ltac:(rewrite W, Rabs_R1; lra) ltac:(rewrite place_one by exact W; exact Hx) Hd Hr) as (_ & _ & _ & Q3). rewrite (place_one p W) in Q3.
  set (y := place (plane_on_point a p)) in *. clearbody y q. destruct (near_unit_len _ Hn) as [N1 N2]. destruct (C88_exact (nrm a) (off a) ltac:(lra)) as (_ & _ & _ & _ & EX & _). pose proof (proj1 (EX (nrm b) (off b) (pos p)) Hon) as EP.
  pose proof (mirrored_len (nrm a) (off a) (pos p) r Hn Hx Hd) as ML. assert (r0 : 0 < r) by (eapply Rlt_le_trans; [|exact Hr]; apply Rinv_0_lt_compat; apply pow_lt; lra). pose proof (image_len _ _ r r0 ML Q3) as YL.
  pose proof (on_plane_image _ _ _ _ _ _ _ _ _ _ EP Q2 Q1 Q3 (refl_len _ _)) as T. eapply Rle_trans; [exact T|]. clear T EP EX Q1 Q2 Q3 ML.
  assert (OB : Rabs (off b) <= vlen (nrm b) * r). { unfold on_plane in Hon. replace (off b) with (- vdot (nrm b) (pos p)) by lra. rewrite Rabs_Ropp. eapply Rle_trans; [apply vdot_abs|]. apply Rmult_le_compat_l; [apply vlen_pos|exact Hx]. }
  set (N := vdot (nrm a) (nrm a)) in *. set (l := vlen (nrm a)) in *. set (m := vlen (nrm b)) in *. set (d := Rabs (off a)) in *. set (e := Rabs (off b)) in *. set (Y := vlen y) in *.
  assert (m0 : 0 <= m) by apply vlen_pos. assert (d0 : 0 <= d) by apply Rabs_pos. assert (e0 : 0 <= e) by apply Rabs_pos. assert (Y0 : 0 <= Y) by apply vlen_pos. clearbody N l m d e Y. clear - N1 N2 m0 d0 e0 Y0 OB YL Hd r0.
  assert (t0 : 0 < tiny) by apply bpow_gt_0. assert (u0 : 0 < u) by (unfold u; lra). unfold unit_err. replace (INR 5) with 5 by (cbn; ring). replace (INR 6) with 6 by (cbn; ring).
  assert (A1 : N * m <= 1001 / 1000 * m) by (apply Rmult_le_compat_r; lra). assert (A2 : l * m * d <= 1001 / 1000 * m * r) by (repeat apply Rmult_le_compat; try lra; apply Rmult_le_pos; lra). assert (A3 : N * e <= 1001 / 1000 * (m * r)) by (apply Rmult_le_compat; lra).
  assert (A4 : (5 * u * (1 + / 100000) * (3 * (N * m)) + 2 * tiny) * Y <= (5 * u * (1 + / 100000) * (3 * (1001 / 1000 * m)) + 2 * tiny) * (3004 / 1000 * r)).
  { apply Rmult_le_compat; try lra. - assert (0 <= 5 * u * (1 + / 100000) * (3 * (N * m))) by (repeat apply Rmult_le_pos; lra). lra. - apply Rplus_le_compat_r. apply Rmult_le_compat_l; lra. }
  assert (A5 : 6 * u * (1 + / 100000) * (2 * (l * m) * d + N * e) <= 6 * u * (1 + / 100000) * (3003 / 1000 * (m * r))) by (apply Rmult_le_compat_l; lra).
  assert (ur : 0 <= u * r) by (apply Rmult_le_pos; lra). assert (A6 : N * m * (49 * u * r) <= 1001 / 1000 * m * (49 * u * r)) by (apply Rmult_le_compat_r; lra). assert (0 <= u * (m * r)) by (repeat apply Rmult_le_pos; lra). assert (0 <= r * tiny) by (apply Rmult_le_pos; lra). lra.
Qed.
Print Assumptions C88_on_plane.
Theorem C88_on_line : forall (a : plane f32) (b : line f32) (p : point f32) r, bound (plane_p0 a) -> bound (line_p1 b) -> bound (line_p2 b) -> val (l0 (line_p1 b)) = 0 -> val (l0 (line_p2 b)) = 0 -> bound (point_p3 p) -> Rabs (vdot (nrm a) (nrm a) - 1) <= / 1000 -> wt p = 1 ->
  on_line (dirn b) (mom b) (pos p) -> vlen (pos p) <= r -> Rabs (off a) <= r -> / 2 ^ 60 <= r ->
  let q := plane_on_line a b in let y := place (plane_on_point a p) in vlen (vsub (vcross y (dirn q)) (mom q)) <= 131 * u * (vlen (dirn b) * r) + 8 * (1 + r) * mote.
Proof.
  intros a b p r Ha Hb Hc Z1 Z2 Hp Hn W Hon Hx Hd Hr q y. destruct (C88_line a b Ha Hb Hc Z1 Z2) as (_ & _ & _ & Q2 & Q1). fold q in Q1, Q2. destruct (C88_mirror a p r Ha Hp Hn ltac:(rewrite W, Rabs_R1; lra) ltac:(rewrite place_one by exact W; exact Hx) Hd Hr) as (_ & _ & _ & Q3). rewrite (place_one p W) in Q3.
  fold y in Q3. clearbody y q. destruct (near_unit_len _ Hn) as [N1 N2]. destruct (C88_exact (nrm a) (off a) ltac:(lra)) as (_ & _ & _ & _ & _ & EX). pose proof (EX (dirn b) (mom b) (pos p) Hon) as EP.
  pose proof (mirrored_len (nrm a) (off a) (pos p) r Hn Hx Hd) as ML. assert (r0 : 0 < r) by (eapply Rlt_le_trans; [|exact Hr]; apply Rinv_0_lt_compat; apply pow_lt; lra). pose proof (image_len _ _ r r0 ML Q3) as YL.
  pose proof (on_line_image _ _ _ _ _ _ _ _ _ _ EP Q2 Q1 Q3 (refl_len _ _)) as T. eapply Rle_trans; [exact T|]. clear T EP EX Q1 Q2 Q3 ML.
  assert (OB : vlen (mom b) <= vlen (dirn b) * r). { unfold on_line in Hon. rewrite <- Hon. eapply Rle_trans; [apply vcross_len|]. rewrite Rmult_comm. apply Rmult_le_compat_l; [apply vlen_pos|exact Hx]. }
  set (N := vdot (nrm a) (nrm a)) in *. set (l := vlen (nrm a)) in *. set (m := vlen (dirn b)) in *. set (d := Rabs (off a)) in *. set (e := vlen (mom b)) in *. set (Y := vlen y) in *.
  assert (m0 : 0 <= m) by apply vlen_pos. assert (d0 : 0 <= d) by apply Rabs_pos. assert (e0 : 0 <= e) by apply vlen_pos. assert (Y0 : 0 <= Y) by apply vlen_pos. clearbody N l m d e Y. clear - N1 N2 m0 d0 e0 Y0 OB YL Hd r0.
  assert (t0 : 0 < mote) by apply bpow_gt_0. assert (u0 : 0 < u) by (unfold u; lra). unfold unit_err. replace (INR 5) with 5 by (cbn; ring). replace (INR 6) with 6 by (cbn; ring).
  assert (A1 : N * m <= 1001 / 1000 * m) by (apply Rmult_le_compat_r; lra). assert (A2 : d * (l * m) <= r * (1001 / 1000 * m)) by (repeat apply Rmult_le_compat; try lra; apply Rmult_le_pos; lra). assert (A3 : N * e <= 1001 / 1000 * (m * r)) by (apply Rmult_le_compat; lra).
  assert (A4 : Y * (5 * u * (1 + / 100000) * (3 * (N * m)) + 2 * mote) <= (3004 / 1000 * r) * (5 * u * (1 + / 100000) * (3 * (1001 / 1000 * m)) + 2 * mote)).
  { apply Rmult_le_compat; try lra. - assert (0 <= 5 * u * (1 + / 100000) * (3 * (N * m))) by (repeat apply Rmult_le_pos; lra). lra. - apply Rplus_le_compat_r. apply Rmult_le_compat_l; lra. }
  assert (A5 : 6 * u * (1 + / 100000) * (3 * (N * e) + 3 * (d * (l * m))) <= 6 * u * (1 + / 100000) * (6006 / 1000 * (m * r))) by (apply Rmult_le_compat_l; lra).
  assert (ur : 0 <= u * r) by (apply Rmult_le_pos; lra). assert (A6 : 49 * u * r * (N * m) <= 49 * u * r * (1001 / 1000 * m)) by (apply Rmult_le_compat_l; lra). assert (0 <= u * (m * r)) by (repeat apply Rmult_le_pos; lra). assert (0 <= r * mote) by (apply Rmult_le_pos; lra). lra.
Qed.
Print Assumptions C88_on_line.
(** A mirror that is not exactly normalized, x' = (3, 4, 0)/5 rounded, with a point on a plane and on a line. *)
Example C88_ex : let a := mkplane (mk4 (fz 5) (f32_of 10066330 (-24)) (f32_of 13421773 (-24)) (fz 0)) in let p := ipoint 7 (-3) 2 in let b := iplane 3 1 4 1 in
  let l := mkline (mk4 (fz 0) (fz 1) (fz 0) (fz 2)) (mk4 (fz 0) (fz (-6)) (fz (-12)) (fz 3)) in
  bound (plane_p0 a) /\ bound (plane_p0 b) /\ bound (point_p3 p) /\ bound (line_p1 l) /\ bound (line_p2 l) /\ val (l0 (line_p1 l)) = 0 /\ val (l0 (line_p2 l)) = 0 /\ Rabs (vdot (nrm a) (nrm a) - 1) <= / 1000 - / 2 ^ 20 /\ wt p = 1 /\
  on_plane (nrm b) (off b) (pos p) /\ on_line (dirn l) (mom l) (pos p) /\ vlen (pos p) <= 8 /\ Rabs (off a) <= 8.
Proof.
  intros a p b l. destruct (ipoint_ok 7 (-3) 2) as (P1 & P2 & P3); try lia. destruct (iplane_ok 3 1 4 1) as (B1 & B2 & B3); try lia. fold p in P1, P2, P3. fold b in B1, B2, B3.
  assert (J : forall m e, fin (f32_of m e) -> forall v, val (f32_of m e) = v -> Rabs v <= 1 -> bounded 20 (f32_of m e)).
  { intros m e F v V Hv. split; [exact F|]. rewrite V. eapply Rle_trans; [exact Hv|]. change 1 with (bpow radix2 0). apply bpow_le. lia. }
  assert (V1 : val (f32_of 10066330 (-24)) = 10066330 / 16777216) by (vm_compute; lra). assert (V2 : val (f32_of 13421773 (-24)) = 13421773 / 16777216) by (vm_compute; lra).
  assert (D1 := J _ _ (eq_refl : fin (f32_of 10066330 (-24))) _ V1 ltac:(rewrite Rabs_pos_eq; lra)). assert (D2 := J _ _ (eq_refl : fin (f32_of 13421773 (-24))) _ V2 ltac:(rewrite Rabs_pos_eq; lra)).
  assert (Z : forall k, (Z.abs k <= 2 ^ 20)%Z -> val (fz k) = IZR k) by (intros k Hk; apply fz_ok; lia).
  rewrite P3, B2, B3. repeat apply conj; try assumption.
  - repeat (apply Forall_cons; [first [assumption|apply int_bounded; lia]|]); apply Forall_nil.
  - repeat (apply Forall_cons; [apply int_bounded; lia|]); apply Forall_nil.
  - repeat (apply Forall_cons; [apply int_bounded; lia|]); apply Forall_nil.
  - apply (Z 0%Z). lia.
  - apply (Z 0%Z). lia.
  - unfold vdot, nrm, vval, a. cbn [plane_p0 l1 l2 l3 vx vy vz]. rewrite V1, V2, Z by lia. apply Rabs_le. lra.
  - unfold on_plane, vdot. cbn [vx vy vz]. ring.
  - unfold on_line, dirn, mom, vval, l, vcross. cbn [line_p1 line_p2 l1 l2 l3 vx vy vz]. rewrite !Z by lia. apply vec_eq; cbn [vx vy vz]; ring.
  - apply vlen_bound; [lra|]. unfold vdot. cbn [vx vy vz]. lra.
  - unfold off, a. cbn [plane_p0 l0]. rewrite Z by lia. rewrite Rabs_pos_eq; lra.
Qed.
