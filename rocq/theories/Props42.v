(** Property C90: planes, lines, branches, directions and points carried by rotors and translators in binary32. *)
From Coq Require Import ZArith Reals List Bool Lra Lia Psatz.
From Flocq Require Import Core BinarySingleNaN.
From Verif Require Import AlgTac SpecMass FloatMass Float32 FloatFacts ExprSyntax FloatErr FloatAbs FloatApx FloatNR FloatOps Props11 SpecGeom Props20 Props21 Props23 Props24 Props26 Props28 Props30 Props34 Props36 Props37 Props38 Props40.
Import ListNotations.
Local Open Scope R_scope.

(** ** The code *)
Section Gen.
Context {F : Type} {A : Arith F} {B : Build} (x : nat -> F).
Notation h := (map4 (eval x)).
Definition e_turn : plane expr := rotor_on_plane (mkrotor (vreg 0)) (mkplane (vreg 4)).
Definition e_tline : line expr := rotor_on_line (mkrotor (vreg 0)) (mkline (vreg 4) (vreg 8)).
Definition e_tbranch : branch expr := rotor_on_branch (mkrotor (vreg 0)) (mkbranch (vreg 4)).
Definition e_sline : line expr := translator_on_line (mktranslator (vreg 0)) (mkline (vreg 4) (vreg 8)).
Lemma turn_gen : plane_p0 (rotor_on_plane (mkrotor (h (vreg 0))) (mkplane (h (vreg 4)))) = h (plane_p0 e_turn). Proof. reflexivity. Qed.
Lemma tline_gen1 : line_p1 (rotor_on_line (mkrotor (h (vreg 0))) (mkline (h (vreg 4)) (h (vreg 8)))) = h (line_p1 e_tline). Proof. reflexivity. Qed.
Lemma tline_gen2 : line_p2 (rotor_on_line (mkrotor (h (vreg 0))) (mkline (h (vreg 4)) (h (vreg 8)))) = h (line_p2 e_tline). Proof. reflexivity. Qed.
Lemma tbranch_gen : branch_p1 (rotor_on_branch (mkrotor (h (vreg 0))) (mkbranch (h (vreg 4)))) = h (branch_p1 e_tbranch). Proof. reflexivity. Qed.
Lemma sline_gen : line_p2 (translator_on_line (mktranslator (h (vreg 0))) (mkline (h (vreg 4)) (h (vreg 8)))) = h (line_p2 e_sline). Proof. reflexivity. Qed.
End Gen.
Definition reg_turn (r : rotor f32) (v : m128 f32) : m128 f32 := plane_p0 (rotor_on_plane r (mkplane v)).
Lemma turn_code (r : rotor f32) (v : m128 f32) : reg_turn r v = map4 (eval (lanes12 (rotor_p1 r) v nought)) (plane_p0 e_turn).
Proof. destruct r as [[a0 a1 a2 a3]], v as [b0 b1 b2 b3]. exact (turn_gen (lanes12 (mk4 a0 a1 a2 a3) (mk4 b0 b1 b2 b3) nought)). Qed.
Lemma tline_code1 (r : rotor f32) (b : line f32) : line_p1 (rotor_on_line r b) = map4 (eval (lanes12 (rotor_p1 r) (line_p1 b) (line_p2 b))) (line_p1 e_tline).
Proof. destruct r as [[a0 a1 a2 a3]], b as [[b0 b1 b2 b3] [c0 c1 c2 c3]]. exact (tline_gen1 (lanes12 (mk4 a0 a1 a2 a3) (mk4 b0 b1 b2 b3) (mk4 c0 c1 c2 c3))). Qed.
Lemma tline_code2 (r : rotor f32) (b : line f32) : line_p2 (rotor_on_line r b) = map4 (eval (lanes12 (rotor_p1 r) (line_p1 b) (line_p2 b))) (line_p2 e_tline).
Proof. destruct r as [[a0 a1 a2 a3]], b as [[b0 b1 b2 b3] [c0 c1 c2 c3]]. exact (tline_gen2 (lanes12 (mk4 a0 a1 a2 a3) (mk4 b0 b1 b2 b3) (mk4 c0 c1 c2 c3))). Qed.
Lemma tbranch_code (r : rotor f32) (b : branch f32) : branch_p1 (rotor_on_branch r b) = map4 (eval (lanes12 (rotor_p1 r) (branch_p1 b) nought)) (branch_p1 e_tbranch).
Proof. destruct r as [[a0 a1 a2 a3]], b as [[b0 b1 b2 b3]]. exact (tbranch_gen (lanes12 (mk4 a0 a1 a2 a3) (mk4 b0 b1 b2 b3) nought)). Qed.
Lemma sline_code (t : translator f32) (b : line f32) : line_p2 (translator_on_line t b) = map4 (eval (lanes12 (translator_p2 t) (line_p1 b) (line_p2 b))) (line_p2 e_sline).
Proof. destruct t as [[a0 a1 a2 a3]], b as [[b0 b1 b2 b3] [c0 c1 c2 c3]]. exact (sline_gen (lanes12 (mk4 a0 a1 a2 a3) (mk4 b0 b1 b2 b3) (mk4 c0 c1 c2 c3))). Qed.

(** ** What it computes *)
Lemma turn_exact y : let p := r4 y 0 in let n := vy3 y 4 in eval (A := Arith_R) y (l0 (plane_p0 e_turn)) = q4 p p * y 4%nat /\ turn p n = ev3 y (plane_p0 e_turn).
Proof.
  intros p n. split.
  - unfold q4, p, r4. cbn [l0 l1 l2 l3]. rcbv. ring.
  - unfold n, vy3, turn, vpart, qm, rev4, lift, p, r4, ev3. cbn [vx vy vz l0 l1 l2 l3]. apply vec_eq; rcbv; ring.
Qed.
Lemma tline_exact y : let p := r4 y 0 in turn p (vy3 y 4) = ev3 y (line_p1 e_tline) /\ turn p (vy3 y 8) = ev3 y (line_p2 e_tline) /\ turn p (vy3 y 4) = ev3 y (branch_p1 e_tbranch).
Proof.
  intro p. unfold vy3, turn, vpart, qm, rev4, lift, p, r4, ev3. cbn [vx vy vz l0 l1 l2 l3]. split; [|split]; apply vec_eq; rcbv; ring.
Qed.
Lemma sline_exact y : y 0%nat = 0 -> let t := vy3 y 0 in vadd (vy3 y 8) (vcross (vscale (-2) t) (vy3 y 4)) = ev3 y (line_p2 e_sline).
Proof.
  intros Z t. unfold t, vy3, vadd, vcross, vscale, ev3. cbn [vx vy vz]. apply vec_eq; rcbv; rewrite ?Z; ring.
Qed.
Lemma block_rows y o : let p := r4 y 0 in let N := q4 p p in let a := Rabs (y 0%nat) in let b := Rabs (y 1%nat) in let c := Rabs (y 2%nat) in let d := Rabs (y 3%nat) in let x := y (1 + o)%nat in let z := y (2 + o)%nat in let w := y (3 + o)%nat in
  a * a + b * b + c * c + d * d = N /\
  N * Rabs x + 2 * (a * d + b * c) * Rabs z + 2 * (a * c + b * d) * Rabs w <= N * sum1 (vy3 y o) /\
  2 * (a * d + b * c) * Rabs x + N * Rabs z + 2 * (a * b + c * d) * Rabs w <= N * sum1 (vy3 y o) /\
  2 * (a * c + b * d) * Rabs x + 2 * (a * b + c * d) * Rabs z + N * Rabs w <= N * sum1 (vy3 y o).
Proof.
  intros p N a b c d x z w. destruct (block p) as (E & E1 & E2 & E3). split; [exact E|]. split; [|split]; apply row; try exact (Rle_refl N); assumption.
Qed.
Lemma turn_mass y : let p := r4 y 0 in absv y (l0 (plane_p0 e_turn)) <= 3 * (q4 p p * Rabs (y 4%nat)) /\ vle (av3 y (plane_p0 e_turn)) (v3 (q4 p p * sum1 (vy3 y 4))).
Proof.
  intro p. destruct (block_rows y 4) as (E & H1 & H2 & H3). fold p in E, H1, H2, H3. assert (Q : forall v, 0 <= Rabs v * Rabs v) by (intro v; apply Rle_0_sqr). split.
  - rewrite <- E. pose proof (Rabs_pos (y 4%nat)) as P. assert (X : forall v, 0 <= Rabs v * Rabs v * Rabs (y 4%nat)) by (intro v; apply Rmult_le_pos; [apply Q|exact P]). pose proof (X (y 0%nat)). pose proof (X (y 1%nat)). pose proof (X (y 2%nat)). pose proof (X (y 3%nat)). norm_abs. lra.
  - rewrite <- E in *. unfold vle, vy3, sum1, av3, v3 in *. cbn [vx vy vz Nat.add] in *. (split; [|split]); norm_abs; lra.
Qed.
Lemma tline_mass y : let p := r4 y 0 in vle (av3 y (line_p1 e_tline)) (v3 (q4 p p * sum1 (vy3 y 4))) /\ vle (av3 y (line_p2 e_tline)) (v3 (q4 p p * sum1 (vy3 y 8))) /\ vle (av3 y (branch_p1 e_tbranch)) (v3 (q4 p p * sum1 (vy3 y 4))).
Proof.
  intro p. destruct (block_rows y 4) as (E & H1 & H2 & H3). destruct (block_rows y 8) as (_ & K1 & K2 & K3). fold p in E, H1, H2, H3, K1, K2, K3. rewrite <- E in *. unfold vle, vy3, sum1, av3, v3 in *. cbn [vx vy vz Nat.add] in *.
  split; [|split]; (split; [|split]); norm_abs; lra.
Qed.
Lemma sline_mass y : y 0%nat = 0 -> vle (av3 y (line_p2 e_sline)) (vadd (vabs (vy3 y 8)) (vscale 2 (vmass (vabs (vy3 y 0)) (vabs (vy3 y 4))))).
Proof.
  intro Z. unfold vy3, vle, vadd, vmass, vabs, vscale, av3. cbn [vx vy vz]. (split; [|split]); norm_abs; rewrite ?Z, ?Rabs_R0; lra.
Qed.

(** the lane of offsets and weights: its last summand is x - x + x - x, exactly zero *)
Definition e_keep : expr := match l0 (plane_p0 e_turn) with EAdd e _ => e | _ => ECst 0 end.
Lemma keep_exact y : let p := r4 y 0 in eval (A := Arith_R) y e_keep = q4 p p * y 4%nat /\ absv y e_keep <= q4 p p * Rabs (y 4%nat).
Proof.
  intro p. destruct (block_rows y 4) as (E & _). fold p in E. split.
  - unfold q4, p, r4. cbn [l0 l1 l2 l3]. rcbv. ring.
  - rewrite <- E. norm_abs. lra.
Qed.
Lemma keep_lane (r : rotor f32) (v : m128 f32) : bound (rotor_p1 r) -> bound v -> let L := lanes12 (rotor_p1 r) v nought in fin (eval L e_keep) -> Rabs (val (eval L e_keep)) <= big -> fin (l0 (reg_turn r v)) /\ val (l0 (reg_turn r v)) = val (eval L e_keep).
Proof.
  intros Hr Hv L. destruct r as [[a0 a1 a2 a3]], v as [b0 b1 b2 b3]. cbn [rotor_p1] in *. destruct (lanes4 _ _ Hr) as ((Fa & Ha) & _). destruct (lanes4 _ _ Hv) as ((Fb & Hb) & _). cbn [l0] in *.
  change (l0 (reg_turn (mkrotor (mk4 a0 a1 a2 a3)) (mk4 b0 b1 b2 b3))) with (fadd (eval L e_keep) (fmul (fsub (fadd (fsub (fmul a0 a0) (fmul a0 a0)) (fmul a0 a0)) (fmul a0 a0)) b0)).
  set (w := eval L e_keep). clearbody w. clear L. intros Fw Hw.
  assert (P40 : bpow radix2 20 * bpow radix2 20 = bpow radix2 40) by (rewrite <- bpow_plus; reflexivity). assert (B41 : bpow radix2 40 + bpow radix2 40 <= big) by (replace (bpow radix2 40 + bpow radix2 40) with (bpow radix2 41) by (change 41%Z with (1 + 40)%Z; rewrite bpow_plus; change (bpow radix2 1) with 2; ring); apply bpow_le; lia).
  assert (X : Rabs (val a0 * val a0) <= bpow radix2 40) by (rewrite Rabs_mult, <- P40; apply Rmult_le_compat; try apply Rabs_pos; assumption). assert (P0 : 0 < bpow radix2 40) by apply bpow_gt_0.
  destruct (mul_ok a0 a0 Fa Fa ltac:(lra)) as [Fx Vx]. set (x := fmul a0 a0) in *. assert (Hx : Rabs (val x) <= big).
  { rewrite Vx. pose proof (rnd_err (val a0 * val a0) (bpow radix2 40) ltac:(apply bpow_le; lia) X) as K. replace (rnd (val a0 * val a0)) with ((rnd (val a0 * val a0) - val a0 * val a0) + val a0 * val a0) by ring. eapply Rle_trans; [apply Rabs_triang|]. assert (u * bpow radix2 40 <= bpow radix2 40) by (apply (Rle_trans _ (1 * bpow radix2 40)); [apply Rmult_le_compat_r; unfold u; lra|lra]). lra. }
  clearbody x. assert (G : rnd (val x) = val x) by (apply round_generic; [typeclasses eauto|apply generic_format_B2R]). assert (B0 : 0 <= big) by apply bpow_ge_0.
  destruct (sub_ok x x Fx Fx ltac:(rewrite Rminus_diag_eq, Rabs_R0 by reflexivity; exact B0)) as [F1 V1]. rewrite Rminus_diag_eq, (rnd_Z 0) in V1 by (reflexivity || lia). set (y1 := fsub x x) in *. clearbody y1.
  destruct (add_ok y1 x F1 Fx ltac:(rewrite V1, Rplus_0_l; exact Hx)) as [F2 V2]. rewrite V1, Rplus_0_l, G in V2. set (y2 := fadd y1 x) in *. clearbody y2.
  destruct (sub_ok y2 x F2 Fx ltac:(rewrite V2, Rminus_diag_eq, Rabs_R0 by reflexivity; exact B0)) as [F3 V3]. rewrite V2, Rminus_diag_eq, (rnd_Z 0) in V3 by (reflexivity || lia). set (y3 := fsub y2 x) in *. clearbody y3.
  destruct (mul_ok y3 b0 F3 Fb ltac:(rewrite V3, Rmult_0_l, Rabs_R0; exact B0)) as [F4 V4]. rewrite V3, Rmult_0_l, (rnd_Z 0) in V4 by lia. set (y4 := fmul y3 b0) in *. clearbody y4.
  destruct (add_ok w y4 Fw F4 ltac:(rewrite V4, Rplus_0_r; exact Hw)) as [F5 V5]. split; [exact F5|]. rewrite V5, V4, Rplus_0_r. apply round_generic; [typeclasses eauto|apply generic_format_B2R].
Qed.

(** ** The computed images against the polynomials *)
Lemma reg_turn_ok (r : rotor f32) (v : m128 f32) : bound (rotor_p1 r) -> bound v -> let p := rv r in let q := reg_turn r v in
  Forall fin (reg_list q) /\ Rabs (val (l0 q) - q4 p p * val (l0 v)) <= unit_err 5 * (q4 p p * Rabs (val (l0 v))) + tiny /\ vlen (vsub (vval q) (turn p (vval v))) <= unit_err 7 * (49 / 16 * (q4 p p * vlen (vval v))) + 2 * tiny.
Proof.
  intros Hr Hv p q. pose proof (lanes_ok3 _ _ _ Hr Hv nought_ok) as X. set (L := lanes12 (rotor_p1 r) v nought) in *. set (c := plane_p0 e_turn).
  assert (G0 : good 5 e_keep = true) by (vm_compute; reflexivity). assert (G : good 7 (l1 c) && good 7 (l2 c) && good 7 (l3 c) = true) by (vm_compute; reflexivity).
  destruct (keep_exact (fun k => val (L k))) as (E0 & M0). destruct (turn_exact (fun k => val (L k))) as (_ & E). destruct (turn_mass (fun k => val (L k))) as (_ & M). fold c in E, M.
  assert (C : q = map4 (eval L) c) by apply turn_code. destruct (term L e_keep _ _ 5 X G0 E0 M0) as [F0 Q0]. destruct (term3 L c _ _ 7 X G E M) as (F1 & F2 & F3 & Q).
  change (vy3 (fun k => val (L k)) 4) with (vval v) in *. change (r4 (fun k => val (L k)) 0) with p in *. change (val (L 4%nat)) with (val (l0 v)) in *.
  destruct (keep_lane r v Hr Hv F0) as [F5 V5]; [|fold L in V5; fold q in F5, V5; clearbody q c].
  - clear q C Q F1 F2 F3 G E M. destruct (lanes4 _ _ Hr) as ((_ & H0) & (_ & H1) & (_ & H2) & (_ & H3)). destruct (lanes4 _ _ Hv) as ((_ & H4) & _). assert (P20 : bpow radix2 20 = 1048576) by (cbn; ring). rewrite P20 in *. fold L. set (w := val (eval L e_keep)) in *. clearbody w.
    assert (SQ : forall z, Rabs z <= 1048576 -> z * z <= 1048576 * 1048576) by (intros z Hz; rewrite <- sq_abs; apply Rmult_le_compat; try apply Rabs_pos; exact Hz). assert (N : 0 <= q4 p p <= 4 * (1048576 * 1048576)) by (split; [apply q4_pos|]; unfold q4, p, rv, map4; cbn [l0 l1 l2 l3]; pose proof (SQ _ H0); pose proof (SQ _ H1); pose proof (SQ _ H2); pose proof (SQ _ H3); lra).
    set (n := q4 p p) in *. set (z := val (l0 v)) in *. clearbody n z. assert (K : n * Rabs z <= 4 * (1048576 * 1048576) * 1048576) by (apply Rmult_le_compat; try lra; apply Rabs_pos). pose proof (Rabs_mult n z) as R1. rewrite (Rabs_pos_eq n) in R1 by lra.
    assert (W : Rabs w <= Rabs (w - n * z) + Rabs (n * z)) by (replace w with ((w - n * z) + n * z) at 1 by ring; apply Rabs_triang). assert (BG : 2 ^ 70 <= big) by (replace (2 ^ 70) with (bpow radix2 70) by (cbn; ring); apply bpow_le; lia). assert (t1 : tiny <= 1) by (change 1 with (bpow radix2 0); apply bpow_le; lia).
    assert (UE : unit_err 5 * (n * Rabs z) <= 1 * (n * Rabs z)) by (apply Rmult_le_compat_r; [apply Rmult_le_pos; [lra|apply Rabs_pos]|unfold unit_err, u; cbn [INR]; lra]). apply (Rle_trans _ (2 ^ 70)); [|exact BG]. lra.
  - split; [|split].
    + rewrite C in F5 |- *. repeat (apply Forall_cons; [assumption|]). apply Forall_nil.
    + rewrite V5. exact Q0.
    + rewrite C. eapply Rle_trans; [exact Q|]. apply grow; [apply unit_err_pos|]. apply block_len. apply q4_pos.
Qed.
Lemma tline_ok (r : rotor f32) (b : line f32) : bound (rotor_p1 r) -> bound (line_p1 b) -> bound (line_p2 b) -> let p := rv r in let q := rotor_on_line r b in
  (Forall fin (coefs (k := KLine) q) /\ (val (l0 (line_p1 b)) = 0 -> val (l0 (line_p1 q)) = 0) /\ (val (l0 (line_p2 b)) = 0 -> val (l0 (line_p2 q)) = 0)) /\
  vlen (vsub (dirn q) (turn p (dirn b))) <= unit_err 6 * (49 / 16 * (q4 p p * vlen (dirn b))) + 2 * tiny /\ vlen (vsub (mom q) (turn p (mom b))) <= unit_err 6 * (49 / 16 * (q4 p p * vlen (mom b))) + 2 * tiny.
Proof.
  intros Hr Ha Hb p q. pose proof (lanes_ok3 _ _ _ Hr Ha Hb) as X. set (L := lanes12 (rotor_p1 r) (line_p1 b) (line_p2 b)) in *. set (c := e_tline).
  assert (G0 : good 9 (l0 (line_p1 c)) && good 9 (l0 (line_p2 c)) = true) by (vm_compute; reflexivity). apply andb_prop in G0. destruct G0 as [G0 G0'].
  assert (N0 : null (Nat.eqb 4) (l0 (line_p1 c)) && null (Nat.eqb 8) (l0 (line_p2 c)) = true) by (vm_compute; reflexivity). apply andb_prop in N0. destruct N0 as [N0 N0'].
  assert (G : good 6 (l1 (line_p1 c)) && good 6 (l2 (line_p1 c)) && good 6 (l3 (line_p1 c)) = true) by (vm_compute; reflexivity). assert (G' : good 6 (l1 (line_p2 c)) && good 6 (l2 (line_p2 c)) && good 6 (l3 (line_p2 c)) = true) by (vm_compute; reflexivity).
  destruct (tline_exact (fun k => val (L k))) as (E & E' & _). destruct (tline_mass (fun k => val (L k))) as (M & M' & _). fold c in E, E', M, M'.
  assert (C : line_p1 q = map4 (eval L) (line_p1 c)) by apply tline_code1. assert (C' : line_p2 q = map4 (eval L) (line_p2 c)) by apply tline_code2. clearbody q c.
  destruct (term L (l0 (line_p1 c)) _ _ 9 X G0 eq_refl (Rle_refl _)) as [F0 _]. destruct (term L (l0 (line_p2 c)) _ _ 9 X G0' eq_refl (Rle_refl _)) as [F0' _].
  destruct (term3 L (line_p1 c) _ _ 6 X G E M) as (F1 & F2 & F3 & Q). destruct (term3 L (line_p2 c) _ _ 6 X G' E' M') as (F4 & F5 & F6 & Q').
  change (vy3 (fun k => val (L k)) 4) with (dirn b) in *. change (vy3 (fun k => val (L k)) 8) with (mom b) in *. change (r4 (fun k => val (L k)) 0) with p in *. split; [split; [|split]|split].
  - change (coefs (k := KLine) q) with (reg_list (line_p1 q) ++ reg_list (line_p2 q)). rewrite C, C'. repeat (apply Forall_cons; [assumption|]). apply Forall_nil.
  - intro Z. rewrite C. apply (null_ok L (Nat.eqb 4) _ X); [|exact N0]. intros n Hn. apply Nat.eqb_eq in Hn. subst n. exact Z.
  - intro Z. rewrite C'. apply (null_ok L (Nat.eqb 8) _ X); [|exact N0']. intros n Hn. apply Nat.eqb_eq in Hn. subst n. exact Z.
  - unfold dirn. rewrite C. eapply Rle_trans; [exact Q|]. apply grow; [apply unit_err_pos|]. apply block_len. apply q4_pos.
  - unfold mom. rewrite C'. eapply Rle_trans; [exact Q'|]. apply grow; [apply unit_err_pos|]. apply block_len. apply q4_pos.
Qed.
Lemma tbranch_ok (r : rotor f32) (b : branch f32) : bound (rotor_p1 r) -> bound (branch_p1 b) -> let p := rv r in let q := rotor_on_branch r b in
  (Forall fin (reg_list (branch_p1 q)) /\ (val (l0 (branch_p1 b)) = 0 -> val (l0 (branch_p1 q)) = 0)) /\ vlen (vsub (vval (branch_p1 q)) (turn p (vval (branch_p1 b)))) <= unit_err 6 * (49 / 16 * (q4 p p * vlen (vval (branch_p1 b)))) + 2 * tiny.
Proof.
  intros Hr Hb p q. pose proof (lanes_ok3 _ _ _ Hr Hb nought_ok) as X. set (L := lanes12 (rotor_p1 r) (branch_p1 b) nought) in *. set (c := branch_p1 e_tbranch).
  assert (G0 : good 9 (l0 c) && null (Nat.eqb 4) (l0 c) = true) by (vm_compute; reflexivity). apply andb_prop in G0. destruct G0 as [G0 N0]. assert (G : good 6 (l1 c) && good 6 (l2 c) && good 6 (l3 c) = true) by (vm_compute; reflexivity).
  destruct (tline_exact (fun k => val (L k))) as (_ & _ & E). destruct (tline_mass (fun k => val (L k))) as (_ & _ & M). fold c in E, M.
  assert (C : branch_p1 q = map4 (eval L) c) by apply tbranch_code. clearbody q c. destruct (term L (l0 c) _ _ 9 X G0 eq_refl (Rle_refl _)) as [F0 _]. destruct (term3 L c _ _ 6 X G E M) as (F1 & F2 & F3 & Q).
  change (vy3 (fun k => val (L k)) 4) with (vval (branch_p1 b)) in *. change (r4 (fun k => val (L k)) 0) with p in *. rewrite C. split; [split|].
  - repeat (apply Forall_cons; [assumption|]). apply Forall_nil.
  - intro Z. apply (null_ok L (Nat.eqb 4) _ X); [|exact N0]. intros n Hn. apply Nat.eqb_eq in Hn. subst n. exact Z.
  - eapply Rle_trans; [exact Q|]. apply grow; [apply unit_err_pos|]. apply block_len. apply q4_pos.
Qed.
(** A translator leaves the direction of a line alone, bit by bit. *)
Lemma sline_ok (t : translator f32) (b : line f32) : bound (translator_p2 t) -> bound (line_p1 b) -> bound (line_p2 b) -> val (l0 (translator_p2 t)) = 0 -> let v := vscale (-2) (vval (translator_p2 t)) in let q := translator_on_line t b in
  line_p1 q = line_p1 b /\ (fin (l1 (line_p2 q)) /\ fin (l2 (line_p2 q)) /\ fin (l3 (line_p2 q))) /\ vlen (vsub (mom q) (vadd (mom b) (vcross v (dirn b)))) <= unit_err 5 * (vlen (mom b) + 3 / 2 * (vlen v * vlen (dirn b))) + 2 * tiny.
Proof.
  intros Ht Ha Hb Z v q. split; [reflexivity|]. pose proof (lanes_ok3 _ _ _ Ht Ha Hb) as X. set (L := lanes12 (translator_p2 t) (line_p1 b) (line_p2 b)) in *. set (c := line_p2 e_sline).
  assert (G : good 5 (l1 c) && good 5 (l2 c) && good 5 (l3 c) = true) by (vm_compute; reflexivity). pose proof (sline_exact (fun k => val (L k)) Z) as E. pose proof (sline_mass (fun k => val (L k)) Z) as M. fold c in E, M.
  assert (C : line_p2 q = map4 (eval L) c) by apply sline_code. clearbody q c. destruct (term3 L c _ _ 5 X G E M) as (F1 & F2 & F3 & Q).
  change (vy3 (fun k => val (L k)) 4) with (dirn b) in *. change (vy3 (fun k => val (L k)) 8) with (mom b) in *. change (vy3 (fun k => val (L k)) 0) with (vval (translator_p2 t)) in *. split; [rewrite C; auto|]. unfold mom. rewrite C. eapply Rle_trans; [exact Q|].
  apply grow; [apply unit_err_pos|]. eapply Rle_trans; [apply vlen_tri|]. rewrite vlen_vabs. apply Rplus_le_compat_l. rewrite vlen_scale_pos by lra. pose proof (vmass_len (vabs (vval (translator_p2 t))) (vabs (dirn b))) as K. rewrite !vlen_vabs in K.
  unfold v. rewrite vlen_scale, Rabs_left by lra. lra.
Qed.

(** ** The computed images, geometrically *)
Definition near_rotor (th : R) (r : rotor f32) (e : m128 R) : Prop := Forall fin (coefs (k := KRotor) r) /\ n4 e = 1 /\ n4 (sub4 (rv r) e) <= th.
Definition plain (e : m128 R) : motor R := mkmotor e (mk4 0 0 0 0).
Lemma plain_proper e : n4 e = 1 -> proper (plain e).
Proof. intro H. split; [exact H|]. destruct e as [a b c d]. unfold plain, study, q4, rev4. cbn [motor_p1 motor_p2 l0 l1 l2 l3]. ring. Qed.
Lemma plain_moved e x : moved (plain e) x = turn e x.
Proof. unfold moved, plain. cbn [motor_p1 motor_p2]. rewrite image_turn. destruct e as [a b c d]. destruct (turn _ x) as [x1 x2 x3]. unfold vsub, vscale, vpart, qm. cbn [l0 l1 l2 l3 vx vy vz]. apply vec_eq; cbn [vx vy vz]; ring. Qed.
Lemma plain_off e n d : moved_off (plain e) n d = d.
Proof. unfold moved_off. rewrite plain_moved. replace (turn e (V 0 0 0)) with (V 0 0 0) by (destruct e as [a b c d']; unfold turn, vpart, qm, lift, rev4; cbn [l0 l1 l2 l3 vx vy vz]; apply vec_eq; cbn [vx vy vz]; ring). unfold vdot. cbn [vx vy vz]. ring. Qed.
Lemma plain_mom e s k : moved_mom (plain e) s k = turn e k.
Proof.
  unfold moved_mom. rewrite plain_moved, !swung_turn. cbn [plain motor_p1]. replace (turn e (V 0 0 0)) with (V 0 0 0) by (destruct e as [a b c d']; unfold turn, vpart, qm, lift, rev4; cbn [l0 l1 l2 l3 vx vy vz]; apply vec_eq; cbn [vx vy vz]; ring).
  destruct (turn e k) as [x y z]. unfold vadd, vcross. cbn [vx vy vz]. apply vec_eq; cbn [vx vy vz]; ring.
Qed.
(** turning is a rotation: it keeps products, and turns compose *)
Theorem C90_exact : forall e, n4 e = 1 -> (forall x, motor_image e (mk4 0 0 0 0) 1 x = turn e x) /\ (forall a b, vdot (turn e a) (turn e b) = vdot a b) /\ (forall a b, vcross (turn e a) (turn e b) = turn e (vcross a b)) /\ (forall f x, turn (qm e f) x = turn e (turn f x)).
Proof.
  intros e H. pose proof (plain_proper e H) as P. split; [|split; [|split]].
  - apply (plain_moved e).
  - intros a b. pose proof (swung_dot _ a b P) as K. rewrite !swung_turn in K. exact K.
  - intros a b. pose proof (swung_cross _ a b P) as K. rewrite !swung_turn in K. exact K.
  - intros f x. apply turn_turn.
Qed.
Print Assumptions C90_exact.
Lemma rotor_facts th r e : near_rotor th r e -> th <= / 1000 -> bound (rotor_p1 r) /\ 0 <= th /\ n4 (rv r) <= 1001 / 1000 /\ Rabs (q4 (rv r) (rv r) - 1) <= 2001 / 1000 * th /\ 0 <= q4 (rv r) (rv r) <= 10021 / 10000 /\ n4 (sub4 (rv r) e) * (n4 (rv r) + 1) <= 2001 / 1000 * th.
Proof.
  intros (F & P & E) T. pose proof (n4_diff (rv r) e) as D. rewrite P in D. pose proof (n4_pos (sub4 (rv r) e)) as d0. pose proof (n4_pos (rv r)) as p0. assert (L : n4 (rv r) <= 1001 / 1000) by (apply Rabs_le_inv in D; lra).
  assert (X : n4 (sub4 (rv r) e) * (n4 (rv r) + 1) <= th * (2001 / 1000)) by (apply Rmult_le_compat; lra). repeat split; try lra.
  - unfold bound. rewrite Forall_forall in F |- *. intros x I. split; [apply F; exact I|]. assert (n4_lane : Rabs (val x) <= n4 (rv r)).
    { destruct r as [[a b c d]]. unfold rv, map4. cbn [rotor_p1 l0 l1 l2 l3]. unfold n4. rewrite <- sqrt_Rsqr_abs. apply sqrt_le_1_alt. unfold q4, Rsqr. cbn [l0 l1 l2 l3]. pose proof (Rle_0_sqr (val a)). pose proof (Rle_0_sqr (val b)). pose proof (Rle_0_sqr (val c)). pose proof (Rle_0_sqr (val d)). unfold Rsqr in *. change (In x [a; b; c; d]) in I. destruct I as [<-|[<-|[<-|[<-|[]]]]]; lra. }
    apply (Rle_trans _ 2); [lra|]. change 2 with (bpow radix2 1). apply bpow_le. lia.
  - rewrite <- n4_sq. replace (n4 (rv r) * n4 (rv r) - 1) with ((n4 (rv r) - 1) * (n4 (rv r) + 1)) by ring. rewrite Rabs_mult, (Rabs_pos_eq (n4 (rv r) + 1)) by lra. eapply Rle_trans; [apply Rmult_le_compat_r; [lra|exact D]|]. lra.
  - apply q4_pos.
  - rewrite <- n4_sq. apply (Rle_trans _ (1001 / 1000 * (1001 / 1000))); [apply Rmult_le_compat; lra|lra].
Qed.
Lemma turn_gap th r e (k : nat) c x y : near_rotor th r e -> th <= / 1000 -> INR k * (307 / 100) <= c -> vlen (vsub y (turn (rv r) x)) <= unit_err k * (49 / 16 * (q4 (rv r) (rv r) * vlen x)) + 2 * tiny -> vlen (vsub y (turn e x)) <= (2001 / 1000 * th + c * u) * vlen x + 2 * tiny.
Proof.
  intros N T C H. destruct (rotor_facts _ _ _ N T) as (_ & t0 & A & Q & [Q0 Q'] & D). destruct N as (_ & P & E). eapply Rle_trans; [apply (vlen_via _ (turn (rv r) x))|]. pose proof (turn_diff (rv r) e x) as K. rewrite P in K. pose proof (vlen_pos x) as x0. pose proof (Rmult_le_compat_r _ _ _ x0 D) as K1.
  pose proof (Rmult_le_compat_r _ _ _ x0 Q') as K2. assert (k0 : 0 <= INR k) by apply pos_INR. assert (u0 : 0 < u) by (unfold u; lra).
  assert (K3 : unit_err k * (49 / 16 * (q4 (rv r) (rv r) * vlen x)) <= c * u * vlen x). { eapply Rle_trans; [apply Rmult_le_compat_l; [apply unit_err_pos|apply Rmult_le_compat_l; [lra|exact K2]]|]. unfold unit_err. replace (INR k * u * (1 + / 100000) * (49 / 16 * (10021 / 10000 * vlen x))) with (INR k * ((1 + / 100000) * (49 / 16) * (10021 / 10000)) * (u * vlen x)) by ring. replace (c * u * vlen x) with (c * (u * vlen x)) by ring. apply Rmult_le_compat_r; [apply Rmult_le_pos; lra|]. eapply Rle_trans; [|exact C]. apply Rmult_le_compat_l; lra. }
  lra.
Qed.
Lemma keep_gap th r e x y : near_rotor th r e -> th <= / 1000 -> Rabs (y - q4 (rv r) (rv r) * x) <= unit_err 5 * (q4 (rv r) (rv r) * Rabs x) + tiny -> Rabs (y - x) <= (2001 / 1000 * th + 51 / 10 * u) * Rabs x + tiny.
Proof.
  intros N T H. destruct (rotor_facts _ _ _ N T) as (_ & t0 & A & Q & [Q0 Q'] & _). replace (y - x) with ((y - q4 (rv r) (rv r) * x) + (q4 (rv r) (rv r) - 1) * x) by ring. eapply Rle_trans; [apply Rabs_triang|]. rewrite Rabs_mult. pose proof (Rabs_pos x) as x0. pose proof (Rmult_le_compat_r _ _ _ x0 Q) as K1. pose proof (Rmult_le_compat_r _ _ _ x0 Q') as K2.
  assert (u0 : 0 < u) by (unfold u; lra). assert (K3 : unit_err 5 * (q4 (rv r) (rv r) * Rabs x) <= unit_err 5 * (10021 / 10000 * Rabs x)) by (apply Rmult_le_compat_l; [apply unit_err_pos|exact K2]). unfold unit_err in *. cbn [INR] in *. assert (0 <= u * Rabs x) by (apply Rmult_le_pos; lra). lra.
Qed.
Theorem C90_rotor : forall th (r : rotor f32) e, near_rotor th r e -> th <= / 1000 ->
  (forall b : plane f32, bound (plane_p0 b) -> let q := rotor_on_plane r b in Forall fin (reg_list (plane_p0 q)) /\ vlen (vsub (nrm q) (turn e (nrm b))) <= (2001 / 1000 * th + 22 * / 2 ^ 24) * vlen (nrm b) + 2 * tiny /\ Rabs (off q - off b) <= (2001 / 1000 * th + 51 / 10 * / 2 ^ 24) * Rabs (off b) + tiny) /\
  (forall b : line f32, bound (line_p1 b) -> bound (line_p2 b) -> let q := rotor_on_line r b in (Forall fin (coefs (k := KLine) q) /\ (val (l0 (line_p1 b)) = 0 -> val (l0 (line_p1 q)) = 0) /\ (val (l0 (line_p2 b)) = 0 -> val (l0 (line_p2 q)) = 0)) /\ vlen (vsub (dirn q) (turn e (dirn b))) <= (2001 / 1000 * th + 19 * / 2 ^ 24) * vlen (dirn b) + 2 * tiny /\ vlen (vsub (mom q) (turn e (mom b))) <= (2001 / 1000 * th + 19 * / 2 ^ 24) * vlen (mom b) + 2 * tiny) /\
  (forall b : branch f32, bound (branch_p1 b) -> let q := rotor_on_branch r b in (Forall fin (reg_list (branch_p1 q)) /\ (val (l0 (branch_p1 b)) = 0 -> val (l0 (branch_p1 q)) = 0)) /\ vlen (vsub (vval (branch_p1 q)) (turn e (vval (branch_p1 b)))) <= (2001 / 1000 * th + 19 * / 2 ^ 24) * vlen (vval (branch_p1 b)) + 2 * tiny) /\
  (forall b : direction f32, bound (direction_p3 b) -> let q := rotor_on_direction r b in Forall fin (reg_list (direction_p3 q)) /\ vlen (vsub (vval (direction_p3 q)) (turn e (vval (direction_p3 b)))) <= (2001 / 1000 * th + 22 * / 2 ^ 24) * vlen (vval (direction_p3 b)) + 2 * tiny) /\
  (forall b : point f32, bound (point_p3 b) -> let q := rotor_on_point r b in Forall fin (reg_list (point_p3 q)) /\ vlen (vsub (pos q) (turn e (pos b))) <= (2001 / 1000 * th + 22 * / 2 ^ 24) * vlen (pos b) + 2 * tiny /\ Rabs (wt q - wt b) <= (2001 / 1000 * th + 51 / 10 * / 2 ^ 24) * Rabs (wt b) + tiny).
Proof.
  intros th r e N T. destruct (rotor_facts _ _ _ N T) as (Hr & _). rewrite u_pow. split; [|split; [|split; [|split]]].
  - intros b Hb q. destruct (reg_turn_ok r (plane_p0 b) Hr Hb) as (F & Q0 & Q). split; [exact F|]. split; [exact (turn_gap th r e 7 22 _ _ N T ltac:(cbn [INR]; lra) Q)|exact (keep_gap th r e _ _ N T Q0)].
  - intros b Ha Hb q. destruct (tline_ok r b Hr Ha Hb) as (F & Q0 & Q). split; [exact F|]. split; [exact (turn_gap th r e 6 19 _ _ N T ltac:(cbn [INR]; lra) Q0)|exact (turn_gap th r e 6 19 _ _ N T ltac:(cbn [INR]; lra) Q)].
  - intros b Hb q. destruct (tbranch_ok r b Hr Hb) as (F & Q). split; [exact F|]. exact (turn_gap th r e 6 19 _ _ N T ltac:(cbn [INR]; lra) Q).
  - intros b Hb q. destruct (reg_turn_ok r (direction_p3 b) Hr Hb) as (F & _ & Q). split; [exact F|]. exact (turn_gap th r e 7 22 _ _ N T ltac:(cbn [INR]; lra) Q).
  - intros b Hb q. destruct (reg_turn_ok r (point_p3 b) Hr Hb) as (F & Q0 & Q). split; [exact F|]. split; [exact (turn_gap th r e 7 22 _ _ N T ltac:(cbn [INR]; lra) Q)|exact (keep_gap th r e _ _ N T Q0)].
Qed.
Print Assumptions C90_rotor.
(** what a point is on, its image is on *)
Theorem C90_rotor_on : forall th (r : rotor f32) e, near_rotor th r e -> th <= / 1000 -> forall p : point f32, bound (point_p3 p) -> wt p = 1 -> let x := pos p in let p' := rotor_on_point r p in
  (forall b : plane f32, bound (plane_p0 b) -> let n := nrm b in let d := off b in let b' := rotor_on_plane r b in
    Rabs (vdot (nrm b') (pos p') + off b' * wt p' - (vdot n x + d)) <= (402 / 100 * th + 45 * / 2 ^ 24) * (vlen n * vlen x) + (402 / 100 * th + 37 * / 2 ^ 24) * Rabs d + slop) /\
  (forall b : line f32, bound (line_p1 b) -> bound (line_p2 b) -> let s := dirn b in let k := mom b in let b' := rotor_on_line r b in
    vlen (vsub (vsub (vcross (pos p') (dirn b')) (vscale (wt p') (mom b'))) (turn e (vsub (vcross x s) k))) <= (402 / 100 * th + 42 * / 2 ^ 24) * (vlen s * vlen x) + (402 / 100 * th + 37 * / 2 ^ 24) * vlen k + slop).
Proof.
  intros th r e N T p Hp Hw x p'. destruct (C90_rotor th r e N T) as (PL & LI & _ & _ & PT). destruct (rotor_facts _ _ _ N T) as (_ & t0 & _). destruct (PT p Hp) as (_ & X1 & X2). fold p' in X1, X2. fold x in X1. rewrite Hw, Rabs_R1 in X2. pose proof (plain_proper e (proj1 (proj2 N))) as P.
  assert (Re : n4 (motor_p2 (plain e)) <= 0). { unfold plain, n4, q4. cbn [motor_p2 l0 l1 l2 l3]. replace (0 * 0 + 0 * 0 + 0 * 0 + 0 * 0) with 0 by ring. rewrite sqrt_0. lra. }
  assert (Z : 0 <= 0 <= 2 ^ 19) by (split; [lra|apply pow_le; lra]). destruct (bound_len _ Hp) as [Bx _]. rewrite u_pow in *. pose proof u_small as U. assert (ty : 0 < tiny) by apply bpow_gt_0. assert (tu : tiny <= u) by (unfold tiny, u; cbn; lra).
  assert (x0 : 0 <= vlen x) by apply vlen_pos. assert (ux : 0 <= u * vlen x) by (apply Rmult_le_pos; lra). clearbody p'. split.
  - intros b Hb n d b'. destruct (PL b Hb) as (_ & Y1 & Y2). fold b' in Y1, Y2. fold n in Y1. fold d in Y2. destruct (bound_len _ Hb) as [Bn _]. clearbody b'. assert (0 <= vlen n) by apply vlen_pos. assert (0 <= Rabs d) by apply Rabs_pos. assert (0 <= th * vlen n) by (apply Rmult_le_pos; lra). assert (0 <= th * Rabs d) by (apply Rmult_le_pos; lra). assert (0 <= u * Rabs d) by (apply Rmult_le_pos; lra).
    pose proof (on_plane_gen th 0 (plain e) n x (nrm b') (pos p') d (off b') (wt p') P Re (conj t0 T) Z Bn Bx) as G. rewrite swung_turn, plain_off, plain_moved in G. cbn [plain motor_p1] in G. specialize (G ltac:(lra) ltac:(lra) ltac:(lra) ltac:(lra)). lra.
  - intros b Ha Hb s k b'. destruct (LI b Ha Hb) as (_ & Y1 & Y2). fold b' in Y1, Y2. fold s in Y1. fold k in Y2. destruct (bound_len _ Ha) as [Bn _]. clearbody b'. assert (0 <= vlen s) by apply vlen_pos. assert (0 <= vlen k) by apply vlen_pos. assert (0 <= th * vlen s) by (apply Rmult_le_pos; lra). assert (0 <= th * vlen k) by (apply Rmult_le_pos; lra). assert (0 <= u * vlen k) by (apply Rmult_le_pos; lra).
    pose proof (on_line_gen th 0 (plain e) s k x (dirn b') (mom b') (pos p') (wt p') P Re (conj t0 T) Z Bn Bx) as G. rewrite !swung_turn, plain_mom, plain_moved in G. cbn [plain motor_p1] in G. specialize (G ltac:(lra) ltac:(lra) ltac:(lra) ltac:(lra)). lra.
Qed.
Print Assumptions C90_rotor_on.
(** every rotor that is normalized to 24 roundings, as the library's normalization and constructors leave it, is near a unit one *)
Lemma sub_scale (p : m128 R) k : sub4 p (scale4 k p) = scale4 (1 - k) p.
Proof. destruct p as [a b c d]. unfold sub4, scale4, map4. apply ext4; cbn [l0 l1 l2 l3]; ring. Qed.
Theorem C90_near_unit : forall r : rotor f32, near_unit r -> near_rotor (121 / 10 * / 2 ^ 24) r (scale4 (/ n4 (rv r)) (rv r)).
Proof.
  intros r [F H]. unfold near_rotor. rewrite u_pow in *. pose proof u_small as U. pose proof (n4_sq (rv r)) as S. pose proof (n4_pos (rv r)) as p0. set (p := rv r) in *. set (l := n4 p) in *. rewrite <- S in H. apply Rabs_le_inv in H.
  assert (L : 1 - 121 / 10 * u <= l <= 1 + 121 / 10 * u) by (split; unfold u in *; nra). assert (ln : l <> 0) by (unfold u in *; lra). split; [exact F|]. rewrite n4_scale_abs. fold l. rewrite Rabs_pos_eq by (left; apply Rinv_0_lt_compat; unfold u in *; lra). split; [field; exact ln|].
  clear S H. clearbody p. rewrite sub_scale. rewrite n4_scale_abs. fold l. replace (Rabs (1 - / l) * l) with (Rabs (l - 1)); [apply Rabs_le; lra|].
  replace (l - 1) with ((1 - / l) * l) by (field; exact ln). rewrite Rabs_mult, (Rabs_pos_eq l) by exact p0. reflexivity.
Qed.
Print Assumptions C90_near_unit.

(** ** Translators *)
Definition carried (t : translator f32) : vec := vscale (-2) (vval (translator_p2 t)).
Definition gliding (t : translator f32) : motor R := mkmotor (mk4 1 0 0 0) (map4 val (translator_p2 t)).
Lemma gliding_facts t : val (l0 (translator_p2 t)) = 0 -> proper (gliding t) /\ n4 (motor_p2 (gliding t)) = / 2 * vlen (carried t) /\ (forall x, moved (gliding t) x = vadd x (carried t)) /\ (forall x, swung (gliding t) x = x) /\ (forall n d, moved_off (gliding t) n d = d - vdot n (carried t)) /\ (forall s k, moved_mom (gliding t) s k = vadd k (vcross (carried t) s)).
Proof.
  intro Z. assert (M : forall x, moved (gliding t) x = vadd x (carried t)).
  { intro x. unfold moved, gliding. cbn [motor_p1 motor_p2]. rewrite image_turn. destruct x as [x y z]. unfold carried, turn, vpart, qm, lift, rev4, vsub, vadd, vscale, vval, map4. cbn [l0 l1 l2 l3 vx vy vz]. apply vec_eq; cbn [vx vy vz]; ring. }
  assert (S : forall x, swung (gliding t) x = x) by (intro x; unfold swung; rewrite !M; destruct x as [x y z], (carried t) as [a b c]; unfold vsub, vadd; cbn [vx vy vz]; apply vec_eq; cbn [vx vy vz]; ring).
  split; [split|split; [|split; [exact M|split; [exact S|split]]]].
  - unfold gliding, n4, q4. cbn [motor_p1 l0 l1 l2 l3]. replace (1 * 1 + 0 * 0 + 0 * 0 + 0 * 0) with 1 by ring. apply sqrt_1.
  - unfold gliding, study, q4, rev4, map4. cbn [motor_p1 motor_p2 l0 l1 l2 l3]. rewrite Z. ring.
  - unfold carried. rewrite vlen_scale, Rabs_left by lra. unfold gliding, n4, vlen. cbn [motor_p2]. replace (q4 (map4 val (translator_p2 t)) (map4 val (translator_p2 t))) with (vdot (vval (translator_p2 t)) (vval (translator_p2 t))); [field|]. unfold q4, vdot, vval, map4. cbn [l0 l1 l2 l3 vx vy vz]. rewrite Z. ring.
  - intros n d. unfold moved_off. rewrite S, M. unfold vdot, vadd. cbn [vx vy vz]. ring.
  - intros s k. unfold moved_mom. rewrite !S, M. destruct (carried t) as [a b c]. unfold vadd, vcross. cbn [vx vy vz]. apply vec_eq; cbn [vx vy vz]; ring.
Qed.
Theorem C90_translator : forall (B : Build) (M : machine), rcp_estimate M -> let FL := Flo_f32 M in forall t : translator f32, Forall (safe (-31) 20) (reg_list (translator_p2 t)) -> val (l0 (translator_p2 t)) = 0 -> let v := carried t in
  (forall b : plane f32, Forall (safe (-31) 20) (reg_list (plane_p0 b)) -> let q := translator_on_plane t b in nrm q = nrm b /\ Rabs (off q - (off b - vdot (nrm b) v)) <= / 2 ^ 24 * (14 * Rabs (off b) + 14 * (vlen (nrm b) * vlen v))) /\
  (forall b : line f32, bound (line_p1 b) -> bound (line_p2 b) -> let q := translator_on_line t b in line_p1 q = line_p1 b /\ (fin (l1 (line_p2 q)) /\ fin (l2 (line_p2 q)) /\ fin (l3 (line_p2 q))) /\ vlen (vsub (mom q) (vadd (mom b) (vcross v (dirn b)))) <= / 2 ^ 24 * (51 / 10 * vlen (mom b) + 76 / 10 * (vlen v * vlen (dirn b))) + 2 * tiny) /\
  (forall b : point f32, bound (point_p3 b) -> wt b = 1 -> let q := translator_on_point t b in vlen (vsub (pos q) (vadd (pos b) v)) <= / 2 ^ 24 * (10 * vlen (pos b) + 55 / 10 * vlen v) + 2 * tiny /\ Rabs (wt q - 1) <= 41 / 10 * / 2 ^ 24).
Proof.
  intros B M HM FL t Ht Zt v. destruct (gliding_facts t Zt) as (_ & GN & GM & _). fold v in GN, GM.
  assert (W : forall w : m128 f32, Forall (safe (-31) 20) (reg_list w) -> Forall (safe (-31) 31) (reg_list w) /\ bound w).
  { intros w H. split; eapply Forall_impl; try exact H; intros x [F [Z|[L1 L2]]]; (split; [exact F|]).
    - left. exact Z. - right. split; [exact L1|]. eapply Rle_trans; [exact L2|]. apply bpow_le. lia. - rewrite Z, Rabs_R0. apply bpow_ge_0. - exact L2. }
  destruct (W _ Ht) as [Ht31 Htb]. split; [|split].
  - intros b Hb q. destruct (C41_translator_on_plane B M HM t b Ht31 (proj1 (W _ Hb)) Zt) as [[_ Q] K]. fold FL in Q, K. change (translator_on_plane t b) with q in Q, K. clearbody q. split.
    + destruct (K l1 ltac:(cbn; tauto)) as [_ K1]. destruct (K l2 ltac:(cbn; tauto)) as [_ K2]. destruct (K l3 ltac:(cbn; tauto)) as [_ K3]. unfold nrm, vval. rewrite K1, K2, K3. reflexivity.
    + replace (off b - vdot (nrm b) v) with (val (l0 (plane_p0 b)) + 2 * d3 (plane_p0 b) (translator_p2 t)) by (unfold off, v, carried, vdot, nrm, vval, vscale, d3; cbn [vx vy vz]; ring). eapply Rle_trans; [exact Q|].
      assert (a3l : 2 * a3 (plane_p0 b) (translator_p2 t) <= vlen (nrm b) * vlen v).
      { unfold v, carried. rewrite vlen_scale, Rabs_left by lra. pose proof (vdot_abs (vabs (nrm b)) (vabs (vval (translator_p2 t)))) as C. rewrite !vlen_vabs in C. eapply Rle_trans in C; [|apply RRle_abs]. apply (Rle_trans _ (2 * vdot (vabs (nrm b)) (vabs (vval (translator_p2 t))))); [|lra]. apply Req_le. unfold a3, vdot, vabs, nrm, vval. cbn [vx vy vz]. ring. }
      unfold off. apply (Rmult_le_compat_l (14 * / 2 ^ 24)) in a3l; [|rewrite u_pow; unfold u; lra]. lra.
  - intros b Ha Hb q. destruct (sline_ok t b Htb Ha Hb Zt) as (E & F & Q). fold q in E, F, Q. split; [exact E|]. split; [exact F|]. fold (carried t) in Q. fold v in Q. clearbody q. eapply Rle_trans; [exact Q|]. rewrite u_pow. unfold unit_err. cbn [INR]. pose proof (vlen_pos (mom b)) as m0. assert (s0 : 0 <= vlen v * vlen (dirn b)) by (apply Rmult_le_pos; apply vlen_pos). unfold u in *. lra.
  - intros b Hb Hw q. rewrite <- GM. pose proof (translator_moves B t b Htb Zt Hb Hw) as Q. destruct (weights B) as (_ & Q' & _). specialize (Q' t b Zt Htb Hb). fold q in Q, Q'. rewrite Hw, Rabs_R1 in Q'. clearbody q. rewrite u_pow. cbv zeta in Q. change (map4 val (translator_p2 t)) with (motor_p2 (gliding t)) in Q. rewrite GN in Q.
    replace (2 * tiny) with (bpow radix2 (-121)) by (unfold tiny; change (-121)%Z with (1 + -122)%Z; rewrite bpow_plus; reflexivity). split; [unfold moved; cbn [gliding motor_p1]; lra|]. assert (bpow radix2 (-122) <= / 10 * u) by (unfold u; cbn; lra). lra.
Qed.
Print Assumptions C90_translator.
Theorem C90_translator_on : forall (B : Build) (M : machine), rcp_estimate M -> let FL := Flo_f32 M in forall t : translator f32, Forall (safe (-31) 20) (reg_list (translator_p2 t)) -> val (l0 (translator_p2 t)) = 0 -> vlen (carried t) <= 2 ^ 20 -> let v := carried t in
  forall p : point f32, bound (point_p3 p) -> wt p = 1 -> let x := pos p in let p' := translator_on_point t p in
  (forall b : plane f32, Forall (safe (-31) 20) (reg_list (plane_p0 b)) -> let n := nrm b in let d := off b in let b' := translator_on_plane t b in
    Rabs (vdot (nrm b') (pos p') + off b' * wt p' - (vdot n x + d)) <= / 2 ^ 24 * (45 * (vlen n * vlen x) + 59 * (vlen v * vlen n) + 37 * Rabs d) + slop) /\
  (forall b : line f32, bound (line_p1 b) -> bound (line_p2 b) -> let s := dirn b in let k := mom b in let b' := translator_on_line t b in
    vlen (vsub (vsub (vcross (pos p') (dirn b')) (vscale (wt p') (mom b'))) (vsub (vcross x s) k)) <= / 2 ^ 24 * (42 * (vlen s * vlen x) + 68 * (vlen v * vlen s) + 37 * vlen k) + slop).
Proof.
  intros B M HM FL t Ht Zt Hv v p Hp Hw x p'. destruct (C90_translator B M HM t Ht Zt) as (PL & LI & PT). fold FL in PL. fold v in PL, LI, PT. destruct (PT p Hp Hw) as (X1 & X2). fold p' in X1, X2. fold x in X1. destruct (gliding_facts t Zt) as (P & GN & GM & GS & GO & GK). fold v in GN, GM, GO, GK, Hv.
  destruct (bound_len _ Hp) as [Bx _]. rewrite u_pow in *. pose proof u_small as U. assert (ty : 0 < tiny) by apply bpow_gt_0. assert (x0 : 0 <= vlen x) by apply vlen_pos. assert (v0 : 0 <= vlen v) by apply vlen_pos. assert (ux : 0 <= u * vlen x) by (apply Rmult_le_pos; lra). assert (uv : 0 <= u * vlen v) by (apply Rmult_le_pos; lra).
  set (r := / 2 * vlen v) in *. assert (Hr : 0 <= r <= 2 ^ 19) by (unfold r; replace (2 ^ 19) with (/ 2 * 2 ^ 20) by field; lra). assert (T : 0 <= 0 <= / 1000) by lra. assert (Re : n4 (motor_p2 (gliding t)) <= r) by lra. assert (ur : u * vlen v = 2 * (u * r)) by (unfold r; field). clearbody p'.
  assert (BW : forall w : m128 f32, Forall (safe (-31) 20) (reg_list w) -> bound w) by (intros w H; eapply Forall_impl; try exact H; intros z [F [Z|[L1 L2]]]; (split; [exact F|]); [rewrite Z, Rabs_R0; apply bpow_ge_0|exact L2]). split.
  - intros b Hb n d b'. destruct (PL b Hb) as (Y1 & Y2). fold b' in Y1, Y2. fold n d in Y1, Y2. destruct (bound_len _ (BW _ Hb)) as [Bn _]. clearbody b'. assert (n0 : 0 <= vlen n) by apply vlen_pos. assert (d0 : 0 <= Rabs d) by apply Rabs_pos. assert (0 <= u * Rabs d) by (apply Rmult_le_pos; lra). assert (un : 0 <= u * vlen n) by (apply Rmult_le_pos; lra).
    assert (rn : u * (vlen n * vlen v) = 2 * (u * (r * vlen n))) by (unfold r; field). assert (0 <= u * (r * vlen n)) by (apply Rmult_le_pos; [lra|apply Rmult_le_pos; lra]).
    pose proof (on_plane_gen 0 r (gliding t) n x (nrm b') (pos p') d (off b') (wt p') P Re T Hr Bn Bx) as G. rewrite GS, GO, GM in G.
    assert (N0 : vlen (vsub (nrm b') n) = 0) by (rewrite Y1; replace (vsub n n) with (vscale 0 n) by (unfold vsub, vscale; apply vec_eq; cbn [vx vy vz]; ring); rewrite vlen_scale, Rabs_R0; ring). specialize (G ltac:(lra) ltac:(lra) ltac:(lra) ltac:(lra)). lra.
  - intros b Ha Hb s k b'. destruct (LI b Ha Hb) as (Y0 & _ & Y2). fold b' in Y0, Y2. fold s k in Y2. assert (Y1 : dirn b' = s) by (unfold s, dirn; rewrite Y0; reflexivity). destruct (bound_len _ Ha) as [Bn _]. clearbody b'. assert (n0 : 0 <= vlen s) by apply vlen_pos. assert (k0 : 0 <= vlen k) by apply vlen_pos. assert (0 <= u * vlen k) by (apply Rmult_le_pos; lra). assert (un : 0 <= u * vlen s) by (apply Rmult_le_pos; lra).
    assert (rn : u * (vlen v * vlen s) = 2 * (u * (r * vlen s))) by (unfold r; field). assert (0 <= u * (r * vlen s)) by (apply Rmult_le_pos; [lra|apply Rmult_le_pos; lra]).
    pose proof (on_line_gen 0 r (gliding t) s k x (dirn b') (mom b') (pos p') (wt p') P Re T Hr Bn Bx) as G. rewrite !GS, GK, GM in G.
    assert (N0 : vlen (vsub (dirn b') s) = 0) by (rewrite Y1; replace (vsub s s) with (vscale 0 s) by (unfold vsub, vscale; apply vec_eq; cbn [vx vy vz]; ring); rewrite vlen_scale, Rabs_R0; ring). specialize (G ltac:(lra) ltac:(lra) ltac:(lra) ltac:(lra)). lra.
Qed.
Print Assumptions C90_translator_on.
(** A rotor that is not exactly normalized, (3/5, 4/5, 0, 0) rounded, a translator, and a point with a plane and a line through it. *)
Example C90_ex : let r := mkrotor (mk4 (f32_of 10066330 (-24)) (f32_of 13421773 (-24)) (fz 0) (fz 0)) in let t := mktranslator (mk4 (fz 0) (fz 1) (fz (-2)) (fz 3)) in let p := ipoint 7 (-3) 2 in let b := iplane 3 1 4 1 in
  let l := mkline (mk4 (fz 0) (fz 1) (fz 0) (fz 2)) (mk4 (fz 0) (fz (-6)) (fz (-12)) (fz 3)) in
  near_rotor (/ 2 ^ 24) r (mk4 (3 / 5) (4 / 5) 0 0) /\ ~ n4 (rv r) = 1 /\ Forall (safe (-31) 20) (reg_list (translator_p2 t)) /\ val (l0 (translator_p2 t)) = 0 /\ vlen (carried t) <= 2 ^ 20 /\
  bound (point_p3 p) /\ wt p = 1 /\ Forall (safe (-31) 20) (reg_list (plane_p0 b)) /\ bound (plane_p0 b) /\ bound (line_p1 l) /\ bound (line_p2 l) /\ on_plane (nrm b) (off b) (pos p) /\ on_line (dirn l) (mom l) (pos p).
Proof.
  intros r t p b l. destruct (ipoint_ok 7 (-3) 2) as (P1 & P2 & P3); try lia. destruct (iplane_ok 3 1 4 1) as (B1 & B2 & B3); try lia. fold p in P1, P2, P3. fold b in B1, B2, B3.
  assert (V1 : val (f32_of 10066330 (-24)) = 10066330 / 16777216) by (vm_compute; lra). assert (V2 : val (f32_of 13421773 (-24)) = 13421773 / 16777216) by (vm_compute; lra).
  assert (Z : forall k, (Z.abs k <= 2 ^ 20)%Z -> val (fz k) = IZR k) by (intros k Hk; apply fz_ok; lia).
  assert (S : forall k, (Z.abs k < 8)%Z -> safe (-31) 20 (fz k)).
  { intros k Hk. destruct (fz_ok k ltac:(lia)) as [F E]. split; [exact F|]. destruct (Z.eq_dec k 0) as [K0|K0]; [left; rewrite E, K0; reflexivity|right]. rewrite E, <- abs_IZR. split.
    - apply (Rle_trans _ (bpow radix2 0)); [apply bpow_le; lia|]. change (bpow radix2 0) with 1. apply IZR_le. lia.
    - apply (Rle_trans _ (bpow radix2 3)); [|apply bpow_le; lia]. change (bpow radix2 3) with 8. apply IZR_le. lia. }
  assert (RV : rv r = mk4 (10066330 / 16777216) (13421773 / 16777216) 0 0). { unfold rv, r, map4. cbn [rotor_p1 l0 l1 l2 l3]. rewrite V1, V2, !Z by lia. reflexivity. }
  split; [|split; [|split; [|split; [|split; [|split; [|split; [|split; [|split; [|split; [|split; [|split]]]]]]]]]]]; try assumption.
  - split; [|split].
    + change (Forall fin [f32_of 10066330 (-24); f32_of 13421773 (-24); fz 0; fz 0]). repeat (apply Forall_cons; [reflexivity|]). apply Forall_nil.
    + unfold n4, q4. cbn [l0 l1 l2 l3]. replace (3 / 5 * (3 / 5) + 4 / 5 * (4 / 5) + 0 * 0 + 0 * 0) with 1 by field. apply sqrt_1.
    + rewrite u_pow, RV. unfold n4. apply (Rle_trans _ (sqrt (u * u))); [|rewrite sqrt_square by (unfold u; lra); apply Rle_refl]. apply sqrt_le_1_alt. unfold q4, sub4, u. cbn [l0 l1 l2 l3]. lra.
  - intro H. pose proof (n4_sq (rv r)) as K. rewrite H, RV in K. unfold q4 in K. cbn [l0 l1 l2 l3] in K. lra.
  - repeat (apply Forall_cons; [apply S; cbn; lia|]). apply Forall_nil.
  - apply (Z 0%Z). lia.
  - apply (Rle_trans _ 10); [|replace 10 with (10 * 1) by ring; replace (2 ^ 20) with (2 ^ 4 * 2 ^ 16) by ring; apply Rmult_le_compat; try lra; apply pow_R1_Rle; lra]. apply vlen_bound; [lra|]. unfold carried, vdot, vscale, vval, t. cbn [translator_p2 l1 l2 l3 vx vy vz]. rewrite !Z by lia. lra.
  - repeat (apply Forall_cons; [apply S; cbn; lia|]). apply Forall_nil.
  - repeat (apply Forall_cons; [apply int_bounded; lia|]); apply Forall_nil.
  - repeat (apply Forall_cons; [apply int_bounded; lia|]); apply Forall_nil.
  - rewrite B2, B3, P3. unfold on_plane, vdot. cbn [vx vy vz]. ring.
  - rewrite P3. unfold on_line, dirn, mom, vval, l, vcross. cbn [line_p1 line_p2 l1 l2 l3 vx vy vz]. rewrite !Z by lia. apply vec_eq; cbn [vx vy vz]; ring.
Qed.
