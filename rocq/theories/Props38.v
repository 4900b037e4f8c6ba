(** Property C86: joins, meets and metric readings in binary32. *)
From Coq Require Import ZArith Reals List Bool Lra Lia Psatz.
From Flocq Require Import Core BinarySingleNaN.
From Verif Require Import AlgTac SpecMass FloatMass Float32 FloatFacts ExprSyntax FloatErr FloatAbs FloatApx FloatNR FloatOps FloatIdeal Props11 SpecGeom Props20 Props23 Props24 Props26 Props34 Props35 Props36 Props37.
Import ListNotations.
Local Open Scope R_scope.

(** ** The code *)
Section Gen.
Context {F : Type} {A : Arith F} {B : Build} (x : nat -> F).
Notation h := (map4 (eval x)).
Definition e_pp : line expr := point_join_point (mkpoint (vreg 0)) (mkpoint (vreg 4)).
Definition e_pl : plane expr := point_join_line (mkpoint (vreg 0)) (mkline (vreg 4) (vreg 8)).
Definition e_ppp : plane expr := line_join_point e_pp (mkpoint (vreg 8)).
Definition e_nn : line expr := plane_ext_plane (mkplane (vreg 0)) (mkplane (vreg 4)).
Definition e_nl : point expr := plane_ext_line (mkplane (vreg 0)) (mkline (vreg 4) (vreg 8)).
Definition e_nnn : point expr := line_ext_plane e_nn (mkplane (vreg 8)).
Lemma jpp_gen1 : line_p1 (point_join_point (mkpoint (h (vreg 0))) (mkpoint (h (vreg 4)))) = h (line_p1 e_pp). Proof. reflexivity. Qed.
Lemma jpp_gen2 : line_p2 (point_join_point (mkpoint (h (vreg 0))) (mkpoint (h (vreg 4)))) = h (line_p2 e_pp). Proof. reflexivity. Qed.
Lemma jnn_gen1 : line_p1 (plane_ext_plane (mkplane (h (vreg 0))) (mkplane (h (vreg 4)))) = h (line_p1 e_nn). Proof. reflexivity. Qed.
Lemma jnn_gen2 : line_p2 (plane_ext_plane (mkplane (h (vreg 0))) (mkplane (h (vreg 4)))) = h (line_p2 e_nn). Proof. reflexivity. Qed.
Lemma jpl_gen : plane_p0 (point_join_line (mkpoint (h (vreg 0))) (mkline (h (vreg 4)) (h (vreg 8)))) = h (plane_p0 e_pl). Proof. unfold e_pl. destruct B as [[|]]; reflexivity. Qed.
Lemma jnl_gen : point_p3 (plane_ext_line (mkplane (h (vreg 0))) (mkline (h (vreg 4)) (h (vreg 8)))) = h (point_p3 e_nl). Proof. unfold e_nl. destruct B as [[|]]; reflexivity. Qed.
Lemma jppp_gen : plane_p0 (line_join_point (point_join_point (mkpoint (h (vreg 0))) (mkpoint (h (vreg 4)))) (mkpoint (h (vreg 8)))) = h (plane_p0 e_ppp). Proof. unfold e_ppp, e_pp. destruct B as [[|]]; reflexivity. Qed.
Lemma jnnn_gen : point_p3 (line_ext_plane (plane_ext_plane (mkplane (h (vreg 0))) (mkplane (h (vreg 4)))) (mkplane (h (vreg 8)))) = h (point_p3 e_nnn). Proof. unfold e_nnn, e_nn. destruct B as [[|]]; reflexivity. Qed.
Definition e_np : expr := dual_p (point_join_plane (mkpoint (vreg 0)) (mkplane (vreg 4))).
Definition e_pn : expr := dual_p (plane_join_point (mkplane (vreg 4)) (mkpoint (vreg 0))).
Definition e_cos : expr := plane_dot_plane (mkplane (vreg 0)) (mkplane (vreg 4)).
Lemma jnp_gen : dual_p (point_join_plane (mkpoint (h (vreg 0))) (mkplane (h (vreg 4)))) = eval x e_np. Proof. unfold e_np. destruct B as [[|]]; reflexivity. Qed.
Lemma jpn_gen : dual_p (plane_join_point (mkplane (h (vreg 4))) (mkpoint (h (vreg 0)))) = eval x e_pn. Proof. unfold e_pn. destruct B as [[|]]; reflexivity. Qed.
Lemma jcos_gen : plane_dot_plane (mkplane (h (vreg 0))) (mkplane (h (vreg 4))) = eval x e_cos. Proof. unfold e_cos. destruct B as [[|]]; reflexivity. Qed.
Definition e_ll : expr := dual_q (line_ext_line (mkline (vreg 0) (vreg 4)) (mkline (vreg 8) (vreg 12))).
Lemma jll_gen : dual_q (line_ext_line (mkline (h (vreg 0)) (h (vreg 4))) (mkline (h (vreg 8)) (h (vreg 12)))) = eval x e_ll. Proof. reflexivity. Qed.
End Gen.
Lemma lanes_ok2 a b : bound a -> bound b -> okx (lanes12 a b nought).
Proof. intros Ha Hb. apply lanes_ok3; [exact Ha|exact Hb|apply nought_ok]. Qed.
(** ** What the code computes in real numbers, and the sums of magnitudes *)
Lemma jpp_exact y : let x := vy3 y 0 in let x' := vy3 y 4 in let w := y 0%nat in let w' := y 4%nat in
  vsub (vscale w x') (vscale w' x) = ev3 y (line_p1 e_pp) /\ vcross x x' = ev3 y (line_p2 e_pp) /\
  vle (av3 y (line_p1 e_pp)) (vadd (vscale (Rabs w) (vabs x')) (vscale (Rabs w') (vabs x))) /\ vle (av3 y (line_p2 e_pp)) (vmass (vabs x) (vabs x')).
Proof.
  intros x x' w w'. unfold x, x', w, w', vy3. split; [|split; [|split]].
  1,2: unfold vcross, vsub, vscale, ev3; cbn [vx vy vz]; apply vec_eq; rcbv; ring.
  all: unfold vle, vabs, vmass, vadd, vscale, av3; cbn [vx vy vz]; (split; [|split]); norm_abs; lra.
Qed.
Lemma jnn_exact y : let n := vy3 y 0 in let n' := vy3 y 4 in let d := y 0%nat in let d' := y 4%nat in
  vcross n n' = ev3 y (line_p1 e_nn) /\ vsub (vscale d n') (vscale d' n) = ev3 y (line_p2 e_nn) /\
  vle (av3 y (line_p1 e_nn)) (vmass (vabs n) (vabs n')) /\ vle (av3 y (line_p2 e_nn)) (vadd (vscale (Rabs d) (vabs n')) (vscale (Rabs d') (vabs n))).
Proof.
  intros n n' d d'. unfold n, n', d, d', vy3. split; [|split; [|split]].
  1,2: unfold vcross, vsub, vscale, ev3; cbn [vx vy vz]; apply vec_eq; rcbv; ring.
  all: unfold vle, vabs, vmass, vadd, vscale, av3; cbn [vx vy vz]; (split; [|split]); norm_abs; lra.
Qed.
Lemma jpl_exact (B : Build) y : let x := vy3 y 0 in let s := vy3 y 4 in let m := vy3 y 8 in let w := y 0%nat in
  eval (A := Arith_R) y (l0 (plane_p0 e_pl)) = vdot x m /\ vsub (vcross x s) (vscale w m) = ev3 y (plane_p0 e_pl) /\
  absv y (l0 (plane_p0 e_pl)) <= vdot (vabs x) (vabs m) /\ vle (av3 y (plane_p0 e_pl)) (vadd (vmass (vabs x) (vabs s)) (vscale (Rabs w) (vabs m))).
Proof.
  intros x s m w. unfold x, s, m, w, vy3. split; [|split; [|split]].
  - unfold vdot; cbn [vx vy vz]. destruct B as [[|]]; rcbv; ring.
  - unfold vcross, vsub, vscale, ev3; cbn [vx vy vz]. destruct B as [[|]]; apply vec_eq; rcbv; ring.
  - unfold vdot, vabs; cbn [vx vy vz]. destruct B as [[|]]; norm_abs; lra.
  - unfold vle, vabs, vmass, vadd, vscale, av3; cbn [vx vy vz]. destruct B as [[|]]; (split; [|split]); norm_abs; lra.
Qed.
Lemma jnl_exact (B : Build) y : let n := vy3 y 0 in let s := vy3 y 4 in let m := vy3 y 8 in let d := y 0%nat in
  eval (A := Arith_R) y (l0 (point_p3 e_nl)) = vdot n s /\ vsub (vcross n m) (vscale d s) = ev3 y (point_p3 e_nl) /\
  absv y (l0 (point_p3 e_nl)) <= vdot (vabs n) (vabs s) /\ vle (av3 y (point_p3 e_nl)) (vadd (vmass (vabs n) (vabs m)) (vscale (Rabs d) (vabs s))).
Proof.
  intros n s m d. unfold n, s, m, d, vy3. split; [|split; [|split]].
  - unfold vdot; cbn [vx vy vz]. destruct B as [[|]]; rcbv; ring.
  - unfold vcross, vsub, vscale, ev3; cbn [vx vy vz]. destruct B as [[|]]; apply vec_eq; rcbv; ring.
  - unfold vdot, vabs; cbn [vx vy vz]. destruct B as [[|]]; norm_abs; lra.
  - unfold vle, vabs, vmass, vadd, vscale, av3; cbn [vx vy vz]. destruct B as [[|]]; (split; [|split]); norm_abs; lra.
Qed.
Lemma jppp_exact (B : Build) y : let a := vy3 y 0 in let b := vy3 y 4 in let c := vy3 y 8 in let w := y 0%nat in let w' := y 4%nat in let w'' := y 8%nat in
  eval (A := Arith_R) y (l0 (plane_p0 e_ppp)) = vdot (vcross a b) c /\
  vsub (vcross c (vsub (vscale w b) (vscale w' a))) (vscale w'' (vcross a b)) = ev3 y (plane_p0 e_ppp) /\
  absv y (l0 (plane_p0 e_ppp)) <= vdot (vmass (vabs a) (vabs b)) (vabs c) /\
  vle (av3 y (plane_p0 e_ppp)) (vadd (vadd (vscale (Rabs w) (vmass (vabs c) (vabs b))) (vscale (Rabs w') (vmass (vabs c) (vabs a)))) (vscale (Rabs w'') (vmass (vabs a) (vabs b)))).
Proof.
  intros a b c w w' w''. unfold a, b, c, w, w', w'', vy3. split; [|split; [|split]].
  - unfold vdot, vcross; cbn [vx vy vz]. destruct B as [[|]]; rcbv; ring.
  - unfold vcross, vsub, vscale, ev3; cbn [vx vy vz]. destruct B as [[|]]; apply vec_eq; rcbv; ring.
  - unfold vdot, vabs, vmass; cbn [vx vy vz]. destruct B as [[|]]; norm_abs; lra.
  - unfold vle, vabs, vmass, vadd, vscale, av3; cbn [vx vy vz]. destruct B as [[|]]; (split; [|split]); norm_abs; lra.
Qed.
Lemma jnnn_exact (B : Build) y : let a := vy3 y 0 in let b := vy3 y 4 in let c := vy3 y 8 in let w := y 0%nat in let w' := y 4%nat in let w'' := y 8%nat in
  eval (A := Arith_R) y (l0 (point_p3 e_nnn)) = vdot (vcross a b) c /\
  vsub (vcross c (vsub (vscale w b) (vscale w' a))) (vscale w'' (vcross a b)) = ev3 y (point_p3 e_nnn) /\
  absv y (l0 (point_p3 e_nnn)) <= vdot (vmass (vabs a) (vabs b)) (vabs c) /\
  vle (av3 y (point_p3 e_nnn)) (vadd (vadd (vscale (Rabs w) (vmass (vabs c) (vabs b))) (vscale (Rabs w') (vmass (vabs c) (vabs a)))) (vscale (Rabs w'') (vmass (vabs a) (vabs b)))).
Proof.
  intros a b c w w' w''. unfold a, b, c, w, w', w'', vy3. split; [|split; [|split]].
  - unfold vdot, vcross; cbn [vx vy vz]. destruct B as [[|]]; rcbv; ring.
  - unfold vcross, vsub, vscale, ev3; cbn [vx vy vz]. destruct B as [[|]]; apply vec_eq; rcbv; ring.
  - unfold vdot, vabs, vmass; cbn [vx vy vz]. destruct B as [[|]]; norm_abs; lra.
  - unfold vle, vabs, vmass, vadd, vscale, av3; cbn [vx vy vz]. destruct B as [[|]]; (split; [|split]); norm_abs; lra.
Qed.
Lemma jread_exact (B : Build) y : let x := vy3 y 0 in let n := vy3 y 4 in let w := y 0%nat in let d := y 4%nat in
  let D := vdot n x + d * w in let Q := vdot (vabs n) (vabs x) + Rabs d * Rabs w in
  (eval (A := Arith_R) y e_np = D /\ absv y e_np <= Q) /\ (eval (A := Arith_R) y e_pn = - D /\ absv y e_pn <= Q) /\ (eval (A := Arith_R) y e_cos = vdot x n /\ absv y e_cos <= vdot (vabs x) (vabs n)).
Proof.
  intros x n w d D Q. unfold D, Q, x, n, w, d, vy3, vdot, vabs. cbn [vx vy vz]. destruct B as [[|]]; (repeat split); norm_abs; first [ring|lra].
Qed.
Lemma jll_exact y : let s := vy3 y 0 in let m := vy3 y 4 in let s' := vy3 y 8 in let m' := vy3 y 12 in
  eval (A := Arith_R) y e_ll = vdot s m' + vdot s' m /\ absv y e_ll <= vdot (vabs s) (vabs m') + vdot (vabs s') (vabs m).
Proof. intros s m s' m'. unfold s, m, s', m', vy3, vdot, vabs. cbn [vx vy vz]. split; norm_abs; first [ring|lra]. Qed.
Lemma jpp_code1 (a b : point f32) : line_p1 (point_join_point a b) = map4 (eval (lanes12 (point_p3 a) (point_p3 b) nought)) (line_p1 e_pp).
Proof. destruct a as [[a0 a1 a2 a3]], b as [[b0 b1 b2 b3]]. exact (jpp_gen1 (lanes12 (mk4 a0 a1 a2 a3) (mk4 b0 b1 b2 b3) nought)). Qed.
Lemma jpp_code2 (a b : point f32) : line_p2 (point_join_point a b) = map4 (eval (lanes12 (point_p3 a) (point_p3 b) nought)) (line_p2 e_pp).
Proof. destruct a as [[a0 a1 a2 a3]], b as [[b0 b1 b2 b3]]. exact (jpp_gen2 (lanes12 (mk4 a0 a1 a2 a3) (mk4 b0 b1 b2 b3) nought)). Qed.
Lemma jnn_code1 (a b : plane f32) : line_p1 (plane_ext_plane a b) = map4 (eval (lanes12 (plane_p0 a) (plane_p0 b) nought)) (line_p1 e_nn).
Proof. destruct a as [[a0 a1 a2 a3]], b as [[b0 b1 b2 b3]]. exact (jnn_gen1 (lanes12 (mk4 a0 a1 a2 a3) (mk4 b0 b1 b2 b3) nought)). Qed.
Lemma jnn_code2 (a b : plane f32) : line_p2 (plane_ext_plane a b) = map4 (eval (lanes12 (plane_p0 a) (plane_p0 b) nought)) (line_p2 e_nn).
Proof. destruct a as [[a0 a1 a2 a3]], b as [[b0 b1 b2 b3]]. exact (jnn_gen2 (lanes12 (mk4 a0 a1 a2 a3) (mk4 b0 b1 b2 b3) nought)). Qed.
Lemma jpl_code (B : Build) (a : point f32) (b : line f32) : plane_p0 (point_join_line a b) = map4 (eval (lanes12 (point_p3 a) (line_p1 b) (line_p2 b))) (plane_p0 e_pl).
Proof. destruct a as [[a0 a1 a2 a3]], b as [[b0 b1 b2 b3] [c0 c1 c2 c3]]. exact (jpl_gen (lanes12 (mk4 a0 a1 a2 a3) (mk4 b0 b1 b2 b3) (mk4 c0 c1 c2 c3))). Qed.
Lemma jnl_code (B : Build) (a : plane f32) (b : line f32) : point_p3 (plane_ext_line a b) = map4 (eval (lanes12 (plane_p0 a) (line_p1 b) (line_p2 b))) (point_p3 e_nl).
Proof. destruct a as [[a0 a1 a2 a3]], b as [[b0 b1 b2 b3] [c0 c1 c2 c3]]. exact (jnl_gen (lanes12 (mk4 a0 a1 a2 a3) (mk4 b0 b1 b2 b3) (mk4 c0 c1 c2 c3))). Qed.
Lemma jppp_code (B : Build) (a b c : point f32) : plane_p0 (line_join_point (point_join_point a b) c) = map4 (eval (lanes12 (point_p3 a) (point_p3 b) (point_p3 c))) (plane_p0 e_ppp).
Proof. destruct a as [[a0 a1 a2 a3]], b as [[b0 b1 b2 b3]], c as [[c0 c1 c2 c3]]. exact (jppp_gen (lanes12 (mk4 a0 a1 a2 a3) (mk4 b0 b1 b2 b3) (mk4 c0 c1 c2 c3))). Qed.
Lemma jnnn_code (B : Build) (a b c : plane f32) : point_p3 (line_ext_plane (plane_ext_plane a b) c) = map4 (eval (lanes12 (plane_p0 a) (plane_p0 b) (plane_p0 c))) (point_p3 e_nnn).
Proof. destruct a as [[a0 a1 a2 a3]], b as [[b0 b1 b2 b3]], c as [[c0 c1 c2 c3]]. exact (jnnn_gen (lanes12 (mk4 a0 a1 a2 a3) (mk4 b0 b1 b2 b3) (mk4 c0 c1 c2 c3))). Qed.
Lemma jnp_code (B : Build) (a : point f32) (b : plane f32) : dual_p (point_join_plane a b) = eval (lanes12 (point_p3 a) (plane_p0 b) nought) e_np.
Proof. destruct a as [[a0 a1 a2 a3]], b as [[b0 b1 b2 b3]]. exact (jnp_gen (lanes12 (mk4 a0 a1 a2 a3) (mk4 b0 b1 b2 b3) nought)). Qed.
Lemma jpn_code (B : Build) (a : point f32) (b : plane f32) : dual_p (plane_join_point b a) = eval (lanes12 (point_p3 a) (plane_p0 b) nought) e_pn.
Proof. destruct a as [[a0 a1 a2 a3]], b as [[b0 b1 b2 b3]]. exact (jpn_gen (lanes12 (mk4 a0 a1 a2 a3) (mk4 b0 b1 b2 b3) nought)). Qed.
Lemma jcos_code (B : Build) (a b : plane f32) : plane_dot_plane a b = eval (lanes12 (plane_p0 a) (plane_p0 b) nought) e_cos.
Proof. destruct a as [[a0 a1 a2 a3]], b as [[b0 b1 b2 b3]]. exact (jcos_gen (lanes12 (mk4 a0 a1 a2 a3) (mk4 b0 b1 b2 b3) nought)). Qed.
Lemma jll_code (a b : line f32) : dual_q (line_ext_line a b) = eval (lanes16 (line_p1 a) (line_p2 a) (line_p1 b) (line_p2 b)) e_ll.
Proof. destruct a as [[a0 a1 a2 a3] [d0 d1 d2 d3]], b as [[b0 b1 b2 b3] [c0 c1 c2 c3]]. exact (jll_gen (lanes16 (mk4 a0 a1 a2 a3) (mk4 d0 d1 d2 d3) (mk4 b0 b1 b2 b3) (mk4 c0 c1 c2 c3))). Qed.

(** ** The line through two points *)
Theorem C86_two_points : forall a b : point f32, bound (point_p3 a) -> bound (point_p3 b) ->
  let x := pos a in let w := wt a in let x' := pos b in let w' := wt b in let q := point_join_point a b in
  Forall fin (reg_list (line_p1 q) ++ reg_list (line_p2 q)) /\ val (l0 (line_p1 q)) = 0 /\ val (l0 (line_p2 q)) = 0 /\
  vlen (vsub (dirn q) (vsub (vscale w x') (vscale w' x))) <= unit_err 2 * (Rabs w * vlen x' + Rabs w' * vlen x) + 2 * tiny /\
  vlen (vsub (mom q) (vcross x x')) <= unit_err 2 * (3 / 2 * (vlen x * vlen x')) + 2 * tiny.
Proof.
  intros a b Ha Hb x w x' w' q. pose proof (lanes_ok2 _ _ Ha Hb) as X. set (L := lanes12 (point_p3 a) (point_p3 b) nought) in *.
  set (c := line_p1 e_pp). set (e := line_p2 e_pp).
  assert (G1 : good 2 (l1 c) && good 2 (l2 c) && good 2 (l3 c) = true) by (vm_compute; reflexivity).
  assert (G2 : good 2 (l1 e) && good 2 (l2 e) && good 2 (l3 e) = true) by (vm_compute; reflexivity).
  assert (G3 : dead (l0 c) && dead (l0 e) = true) by (vm_compute; reflexivity). apply andb_prop in G3. destruct G3 as [G3 G4].
  destruct (jpp_exact (fun k => val (L k))) as (E1 & E2 & M1 & M2). fold c in E1, M1. fold e in E2, M2.
  assert (C1 : line_p1 q = map4 (eval L) c) by apply jpp_code1. assert (C2 : line_p2 q = map4 (eval L) e) by apply jpp_code2. clearbody q c e.
  destruct (dead_ok L _ X G3) as [F0 V0]. destruct (dead_ok L _ X G4) as [F4 V4].
  destruct (term3 L c _ _ 2 X G1 E1 M1) as (F1 & F2 & F3 & Q1). destruct (term3 L e _ _ 2 X G2 E2 M2) as (F5 & F6 & F7 & Q2).
  change (vy3 (fun k => val (L k)) 4) with x' in *. change (vy3 (fun k => val (L k)) 0) with x in *. change (val (L 0%nat)) with w in *. change (val (L 4%nat)) with w' in *.
  split; [|split; [|split; [|split]]].
  - rewrite C1, C2. repeat (apply Forall_cons; [assumption|]). apply Forall_nil.
  - rewrite C1. exact V0.
  - rewrite C2. exact V4.
  - unfold dirn. rewrite C1. eapply Rle_trans; [exact Q1|]. apply grow; [apply unit_err_pos|]. eapply Rle_trans; [apply vlen_tri|]. rewrite !vlen_scale_pos, !vlen_vabs by apply Rabs_pos. lra.
  - unfold mom. rewrite C2. eapply Rle_trans; [exact Q2|]. apply grow; [apply unit_err_pos|]. apply vmass_abs.
Qed.
Print Assumptions C86_two_points.
(** ** The line in which two planes meet *)
Theorem C86_two_planes : forall a b : plane f32, bound (plane_p0 a) -> bound (plane_p0 b) ->
  let n := nrm a in let d := off a in let n' := nrm b in let d' := off b in let q := plane_ext_plane a b in
  Forall fin (reg_list (line_p1 q) ++ reg_list (line_p2 q)) /\ val (l0 (line_p1 q)) = 0 /\ val (l0 (line_p2 q)) = 0 /\
  vlen (vsub (dirn q) (vcross n n')) <= unit_err 2 * (3 / 2 * (vlen n * vlen n')) + 2 * tiny /\
  vlen (vsub (mom q) (vsub (vscale d n') (vscale d' n))) <= unit_err 2 * (Rabs d * vlen n' + Rabs d' * vlen n) + 2 * tiny.
Proof.
  intros a b Ha Hb x w x' w' q. pose proof (lanes_ok2 _ _ Ha Hb) as X. set (L := lanes12 (plane_p0 a) (plane_p0 b) nought) in *.
  set (c := line_p1 e_nn). set (e := line_p2 e_nn).
  assert (G1 : good 2 (l1 c) && good 2 (l2 c) && good 2 (l3 c) = true) by (vm_compute; reflexivity).
  assert (G2 : good 2 (l1 e) && good 2 (l2 e) && good 2 (l3 e) = true) by (vm_compute; reflexivity).
  assert (G3 : dead (l0 c) && dead (l0 e) = true) by (vm_compute; reflexivity). apply andb_prop in G3. destruct G3 as [G3 G4].
  destruct (jnn_exact (fun k => val (L k))) as (E1 & E2 & M1 & M2). fold c in E1, M1. fold e in E2, M2.
  assert (C1 : line_p1 q = map4 (eval L) c) by apply jnn_code1. assert (C2 : line_p2 q = map4 (eval L) e) by apply jnn_code2. clearbody q c e.
  destruct (dead_ok L _ X G3) as [F0 V0]. destruct (dead_ok L _ X G4) as [F4 V4].
  destruct (term3 L c _ _ 2 X G1 E1 M1) as (F1 & F2 & F3 & Q1). destruct (term3 L e _ _ 2 X G2 E2 M2) as (F5 & F6 & F7 & Q2).
  change (vy3 (fun k => val (L k)) 4) with x' in *. change (vy3 (fun k => val (L k)) 0) with x in *. change (val (L 0%nat)) with w in *. change (val (L 4%nat)) with w' in *.
  split; [|split; [|split; [|split]]].
  - rewrite C1, C2. repeat (apply Forall_cons; [assumption|]). apply Forall_nil.
  - rewrite C1. exact V0.
  - rewrite C2. exact V4.
  - unfold dirn. rewrite C1. eapply Rle_trans; [exact Q1|]. apply grow; [apply unit_err_pos|]. apply vmass_abs.
  - unfold mom. rewrite C2. eapply Rle_trans; [exact Q2|]. apply grow; [apply unit_err_pos|]. eapply Rle_trans; [apply vlen_tri|]. rewrite !vlen_scale_pos, !vlen_vabs by apply Rabs_pos. lra.
Qed.
Print Assumptions C86_two_planes.
(** ** The plane through a point and a line, the point in which a plane meets a line *)
Theorem C86_point_line : forall (B : Build) (a : point f32) (b : line f32), bound (point_p3 a) -> bound (line_p1 b) -> bound (line_p2 b) ->
  let x := pos a in let w := wt a in let s := dirn b in let m := mom b in let q := point_join_line a b in
  Forall fin (reg_list (plane_p0 q)) /\
  vlen (vsub (nrm q) (vsub (vcross x s) (vscale w m))) <= unit_err 3 * (3 / 2 * (vlen x * vlen s) + Rabs w * vlen m) + 2 * tiny /\
  Rabs (off q - vdot x m) <= unit_err 5 * (vlen x * vlen m) + tiny.
Proof.
  intros B a b Ha Hb Hc x w s m q. pose proof (lanes_ok3 _ _ _ Ha Hb Hc) as X. set (L := lanes12 (point_p3 a) (line_p1 b) (line_p2 b)) in *.
  set (c := plane_p0 e_pl).
  assert (G0 : good 5 (l0 c) = true) by (unfold c; destruct B as [[|]]; vm_compute; reflexivity).
  assert (G : good 3 (l1 c) && good 3 (l2 c) && good 3 (l3 c) = true) by (unfold c; destruct B as [[|]]; vm_compute; reflexivity).
  destruct (jpl_exact B (fun k => val (L k))) as (E0 & E & M0 & M). fold c in E0, E, M0, M.
  assert (C : plane_p0 q = map4 (eval L) c) by apply jpl_code. clearbody q c.
  destruct (term L (l0 c) _ _ 5 X G0 E0 M0) as [F0 Q0]. destruct (term3 L c _ _ 3 X G E M) as (F1 & F2 & F3 & Q).
  change (vy3 (fun k => val (L k)) 8) with m in *. change (vy3 (fun k => val (L k)) 4) with s in *. change (vy3 (fun k => val (L k)) 0) with x in *. change (val (L 0%nat)) with w in *.
  split; [|split].
  - rewrite C. repeat (apply Forall_cons; [assumption|]). apply Forall_nil.
  - unfold nrm. rewrite C. eapply Rle_trans; [exact Q|]. apply grow; [apply unit_err_pos|]. eapply Rle_trans; [apply vlen_tri|]. rewrite vlen_scale_pos, vlen_vabs by apply Rabs_pos. apply Rplus_le_compat_r. apply vmass_abs.
  - unfold off. rewrite C. eapply Rle_trans; [exact Q0|]. apply grow; [apply unit_err_pos|]. apply vdot_abs_len.
Qed.
Print Assumptions C86_point_line.
Theorem C86_plane_line : forall (B : Build) (a : plane f32) (b : line f32), bound (plane_p0 a) -> bound (line_p1 b) -> bound (line_p2 b) ->
  let n := nrm a in let d := off a in let s := dirn b in let m := mom b in let q := plane_ext_line a b in
  Forall fin (reg_list (point_p3 q)) /\
  vlen (vsub (pos q) (vsub (vcross n m) (vscale d s))) <= unit_err 3 * (3 / 2 * (vlen n * vlen m) + Rabs d * vlen s) + 2 * tiny /\
  Rabs (wt q - vdot n s) <= unit_err 5 * (vlen n * vlen s) + tiny.
Proof.
  intros B a b Ha Hb Hc x w s m q. pose proof (lanes_ok3 _ _ _ Ha Hb Hc) as X. set (L := lanes12 (plane_p0 a) (line_p1 b) (line_p2 b)) in *.
  set (c := point_p3 e_nl).
  assert (G0 : good 5 (l0 c) = true) by (unfold c; destruct B as [[|]]; vm_compute; reflexivity).
  assert (G : good 3 (l1 c) && good 3 (l2 c) && good 3 (l3 c) = true) by (unfold c; destruct B as [[|]]; vm_compute; reflexivity).
  destruct (jnl_exact B (fun k => val (L k))) as (E0 & E & M0 & M). fold c in E0, E, M0, M.
  assert (C : point_p3 q = map4 (eval L) c) by apply jnl_code. clearbody q c.
  destruct (term L (l0 c) _ _ 5 X G0 E0 M0) as [F0 Q0]. destruct (term3 L c _ _ 3 X G E M) as (F1 & F2 & F3 & Q).
  change (vy3 (fun k => val (L k)) 8) with m in *. change (vy3 (fun k => val (L k)) 4) with s in *. change (vy3 (fun k => val (L k)) 0) with x in *. change (val (L 0%nat)) with w in *.
  split; [|split].
  - rewrite C. repeat (apply Forall_cons; [assumption|]). apply Forall_nil.
  - unfold pos. rewrite C. eapply Rle_trans; [exact Q|]. apply grow; [apply unit_err_pos|]. eapply Rle_trans; [apply vlen_tri|]. rewrite vlen_scale_pos, vlen_vabs by apply Rabs_pos. apply Rplus_le_compat_r. apply vmass_abs.
  - unfold wt. rewrite C. eapply Rle_trans; [exact Q0|]. apply grow; [apply unit_err_pos|]. apply vdot_abs_len.
Qed.
Print Assumptions C86_plane_line.
(** ** The plane through three points, the point in which three planes meet *)
Lemma three_mass a b c w w' w'' : vlen (vadd (vadd (vscale (Rabs w) (vmass (vabs c) (vabs b))) (vscale (Rabs w') (vmass (vabs c) (vabs a)))) (vscale (Rabs w'') (vmass (vabs a) (vabs b)))) <=
  3 / 2 * (Rabs w * (vlen b * vlen c) + Rabs w' * (vlen a * vlen c) + Rabs w'' * (vlen a * vlen b)).
Proof.
  eapply Rle_trans; [apply vlen_tri|]. pose proof (vlen_tri (vscale (Rabs w) (vmass (vabs c) (vabs b))) (vscale (Rabs w') (vmass (vabs c) (vabs a)))) as T. rewrite !vlen_scale_pos in * by apply Rabs_pos.
  pose proof (Rmult_le_compat_l _ _ _ (Rabs_pos w) (vmass_abs c b)). pose proof (Rmult_le_compat_l _ _ _ (Rabs_pos w') (vmass_abs c a)). pose proof (Rmult_le_compat_l _ _ _ (Rabs_pos w'') (vmass_abs a b)). lra.
Qed.
Lemma three_dot a b c : vdot (vmass (vabs a) (vabs b)) (vabs c) <= 3 / 2 * (vlen a * vlen b * vlen c).
Proof. eapply Rle_trans; [apply vdot_len; [apply vmass_pos; apply vabs_pos|apply vabs_pos]|]. rewrite vlen_vabs. pose proof (Rmult_le_compat_r (vlen c) _ _ (vlen_pos c) (vmass_abs a b)). lra. Qed.
Theorem C86_three_points : forall (B : Build) (p1 p2 p3 : point f32), bound (point_p3 p1) -> bound (point_p3 p2) -> bound (point_p3 p3) ->
  let a := pos p1 in let b := pos p2 in let c := pos p3 in let w := wt p1 in let w' := wt p2 in let w'' := wt p3 in let q := line_join_point (point_join_point p1 p2) p3 in
  Forall fin (reg_list (plane_p0 q)) /\
  vlen (vsub (nrm q) (vsub (vcross c (vsub (vscale w b) (vscale w' a))) (vscale w'' (vcross a b)))) <= unit_err 5 * (3 / 2 * (Rabs w * (vlen b * vlen c) + Rabs w' * (vlen a * vlen c) + Rabs w'' * (vlen a * vlen b))) + 2 * tiny /\
  Rabs (off q - vdot (vcross a b) c) <= unit_err 7 * (3 / 2 * (vlen a * vlen b * vlen c)) + tiny.
Proof.
  intros B p1 p2 p3 Ha Hb Hc a b c w w' w'' q. pose proof (lanes_ok3 _ _ _ Ha Hb Hc) as X. set (L := lanes12 (point_p3 p1) (point_p3 p2) (point_p3 p3)) in *.
  set (g := plane_p0 e_ppp).
  assert (G0 : good 7 (l0 g) = true) by (unfold g; destruct B as [[|]]; vm_compute; reflexivity).
  assert (G : good 5 (l1 g) && good 5 (l2 g) && good 5 (l3 g) = true) by (unfold g; destruct B as [[|]]; vm_compute; reflexivity).
  destruct (jppp_exact B (fun k => val (L k))) as (E0 & E & M0 & M). fold g in E0, E, M0, M.
  assert (C : plane_p0 q = map4 (eval L) g) by apply jppp_code. clearbody q g.
  destruct (term L (l0 g) _ _ 7 X G0 E0 M0) as [F0 Q0]. destruct (term3 L g _ _ 5 X G E M) as (F1 & F2 & F3 & Q).
  change (vy3 (fun k => val (L k)) 8) with c in *. change (vy3 (fun k => val (L k)) 4) with b in *. change (vy3 (fun k => val (L k)) 0) with a in *. change (val (L 0%nat)) with w in *. change (val (L 4%nat)) with w' in *. change (val (L 8%nat)) with w'' in *.
  split; [|split].
  - rewrite C. repeat (apply Forall_cons; [assumption|]). apply Forall_nil.
  - unfold nrm. rewrite C. eapply Rle_trans; [exact Q|]. apply grow; [apply unit_err_pos|]. apply three_mass.
  - unfold off. rewrite C. eapply Rle_trans; [exact Q0|]. apply grow; [apply unit_err_pos|]. apply three_dot.
Qed.
Print Assumptions C86_three_points.
Theorem C86_three_planes : forall (B : Build) (p1 p2 p3 : plane f32), bound (plane_p0 p1) -> bound (plane_p0 p2) -> bound (plane_p0 p3) ->
  let a := nrm p1 in let b := nrm p2 in let c := nrm p3 in let d := off p1 in let d' := off p2 in let d'' := off p3 in let q := line_ext_plane (plane_ext_plane p1 p2) p3 in
  Forall fin (reg_list (point_p3 q)) /\
  vlen (vsub (pos q) (vsub (vcross c (vsub (vscale d b) (vscale d' a))) (vscale d'' (vcross a b)))) <= unit_err 5 * (3 / 2 * (Rabs d * (vlen b * vlen c) + Rabs d' * (vlen a * vlen c) + Rabs d'' * (vlen a * vlen b))) + 2 * tiny /\
  Rabs (wt q - vdot (vcross a b) c) <= unit_err 7 * (3 / 2 * (vlen a * vlen b * vlen c)) + tiny.
Proof.
  intros B p1 p2 p3 Ha Hb Hc a b c w w' w'' q. pose proof (lanes_ok3 _ _ _ Ha Hb Hc) as X. set (L := lanes12 (plane_p0 p1) (plane_p0 p2) (plane_p0 p3)) in *.
  set (g := point_p3 e_nnn).
  assert (G0 : good 7 (l0 g) = true) by (unfold g; destruct B as [[|]]; vm_compute; reflexivity).
  assert (G : good 5 (l1 g) && good 5 (l2 g) && good 5 (l3 g) = true) by (unfold g; destruct B as [[|]]; vm_compute; reflexivity).
  destruct (jnnn_exact B (fun k => val (L k))) as (E0 & E & M0 & M). fold g in E0, E, M0, M.
  assert (C : point_p3 q = map4 (eval L) g) by apply jnnn_code. clearbody q g.
  destruct (term L (l0 g) _ _ 7 X G0 E0 M0) as [F0 Q0]. destruct (term3 L g _ _ 5 X G E M) as (F1 & F2 & F3 & Q).
  change (vy3 (fun k => val (L k)) 8) with c in *. change (vy3 (fun k => val (L k)) 4) with b in *. change (vy3 (fun k => val (L k)) 0) with a in *. change (val (L 0%nat)) with w in *. change (val (L 4%nat)) with w' in *. change (val (L 8%nat)) with w'' in *.
  split; [|split].
  - rewrite C. repeat (apply Forall_cons; [assumption|]). apply Forall_nil.
  - unfold pos. rewrite C. eapply Rle_trans; [exact Q|]. apply grow; [apply unit_err_pos|]. apply three_mass.
  - unfold wt. rewrite C. eapply Rle_trans; [exact Q0|]. apply grow; [apply unit_err_pos|]. apply three_dot.
Qed.
Print Assumptions C86_three_planes.
(** ** Readings: signed distances, cosines and the moment of two lines *)
Theorem C86_readings : forall B : Build,
  (forall (a : point f32) (b : plane f32), bound (point_p3 a) -> bound (plane_p0 b) -> let D := vdot (nrm b) (pos a) + off b * wt a in let e := unit_err 3 * (vlen (nrm b) * vlen (pos a) + Rabs (off b) * Rabs (wt a)) + tiny in
    fin (dual_p (point_join_plane a b)) /\ Rabs (val (dual_p (point_join_plane a b)) - D) <= e /\ fin (dual_p (plane_join_point b a)) /\ Rabs (val (dual_p (plane_join_point b a)) + D) <= e) /\
  (forall a b : plane f32, bound (plane_p0 a) -> bound (plane_p0 b) -> fin (plane_dot_plane a b) /\ Rabs (val (plane_dot_plane a b) - vdot (nrm a) (nrm b)) <= unit_err 3 * (vlen (nrm a) * vlen (nrm b)) + tiny) /\
  (forall a b : line f32, bound (line_p1 a) -> bound (line_p2 a) -> bound (line_p1 b) -> bound (line_p2 b) -> let q := dual_q (line_ext_line a b) in
    fin q /\ Rabs (val q - (vdot (dirn a) (mom b) + vdot (dirn b) (mom a))) <= unit_err 4 * (vlen (dirn a) * vlen (mom b) + vlen (dirn b) * vlen (mom a)) + tiny).
Proof.
  intro B. split; [|split].
  - intros a b Ha Hb D e. pose proof (lanes_ok2 _ _ Ha Hb) as X. set (L := lanes12 (point_p3 a) (plane_p0 b) nought) in *.
    assert (C1 : dual_p (point_join_plane a b) = eval L e_np) by exact (jnp_code B a b). assert (C2 : dual_p (plane_join_point b a) = eval L e_pn) by exact (jpn_code B a b).
    destruct (jread_exact B (fun k => val (L k))) as ((E1 & M1) & (E2 & M2) & _).
    assert (G : good 3 e_np && good 3 e_pn = true) by (destruct B as [[|]]; vm_compute; reflexivity). apply andb_prop in G. destruct G as [G1 G2].
    destruct (term L e_np _ _ 3 X G1 E1 M1) as [F1 Q1]. destruct (term L e_pn _ _ 3 X G2 E2 M2) as [F2 Q2]. clear M1 M2 E1 E2. rewrite C1, C2.
    change (vy3 (fun k => val (L k)) 4) with (nrm b) in *. change (vy3 (fun k => val (L k)) 0) with (pos a) in *. change (val (L 0%nat)) with (wt a) in *. change (val (L 4%nat)) with (off b) in *. fold D in Q1, Q2.
    assert (W : unit_err 3 * (vdot (vabs (nrm b)) (vabs (pos a)) + Rabs (off b) * Rabs (wt a)) + tiny <= e) by (apply grow; [apply unit_err_pos|apply Rplus_le_compat_r, vdot_abs_len]).
    unfold Rminus in Q2. rewrite Ropp_involutive in Q2. split; [exact F1|split; [lra|split; [exact F2|lra]]].
  - intros a b Ha Hb. pose proof (lanes_ok2 _ _ Ha Hb) as X. set (L := lanes12 (plane_p0 a) (plane_p0 b) nought) in *.
    assert (C : plane_dot_plane a b = eval L e_cos) by exact (jcos_code B a b). destruct (jread_exact B (fun k => val (L k))) as (_ & _ & E & M).
    assert (G : good 3 e_cos = true) by (destruct B as [[|]]; vm_compute; reflexivity). destruct (term L e_cos _ _ 3 X G E M) as [F Q]. clear E M. rewrite C. split; [exact F|].
    change (vy3 (fun k => val (L k)) 4) with (nrm b) in *. change (vy3 (fun k => val (L k)) 0) with (nrm a) in *. eapply Rle_trans; [exact Q|]. apply grow; [apply unit_err_pos|apply vdot_abs_len].
  - intros a b Ha Hc Hb Hd q. pose proof (lanes16_ok _ _ _ _ Ha Hc Hb Hd) as X. set (L := lanes16 (line_p1 a) (line_p2 a) (line_p1 b) (line_p2 b)) in *.
    assert (C : q = eval L e_ll) by exact (jll_code a b). destruct (jll_exact (fun k => val (L k))) as (E & M).
    assert (G : good 4 e_ll = true) by (vm_compute; reflexivity). destruct (term L e_ll _ _ 4 X G E M) as [F Q]. clear E M. rewrite C. split; [exact F|].
    change (vy3 (fun k => val (L k)) 4) with (mom a) in *. change (vy3 (fun k => val (L k)) 0) with (dirn a) in *. change (vy3 (fun k => val (L k)) 8) with (dirn b) in *. change (vy3 (fun k => val (L k)) 12) with (mom b) in *.
    eapply Rle_trans; [exact Q|]. apply grow; [apply unit_err_pos|apply Rplus_le_compat; apply vdot_abs_len].
Qed.
Print Assumptions C86_readings.
(** ** Where these results are *)
(** For two points of weight 1 the direction is the correctly rounded difference of the positions, so that its length is
    their distance up to one rounding, and the line passes through both points up to the rounding of its moment. *)
Lemma diff_lane x y : bounded 20 x -> bounded 20 y -> val (fsub y x) - (val y - val x) = rnd (val y - val x) - (val y - val x) /\ Rabs (val (fsub y x) - (val y - val x)) <= u * Rabs (val y - val x).
Proof.
  intros [Fx Hx] [Fy Hy]. destruct (sub_ok y x Fy Fx) as [_ V].
  { unfold Rminus. eapply Rle_trans; [apply Rabs_triang|]. rewrite Rabs_Ropp. apply (Rle_trans _ (bpow radix2 20 + bpow radix2 20)); [apply Rplus_le_compat; assumption|]. replace (bpow radix2 20 + bpow radix2 20) with (bpow radix2 21) by (cbn; lra). apply bpow_le. lia. }
  rewrite V. split; [reflexivity|]. apply rnd_rel. apply onto_sub; apply val_onto149.
Qed.
Lemma vlen_scaled k a b : 0 <= k -> vle (vabs a) (vscale k (vabs b)) -> vlen a <= k * vlen b.
Proof. intros K H. rewrite <- vlen_vabs. eapply Rle_trans; [apply vlen_le; [apply vabs_pos|exact H]|]. rewrite vlen_scale_pos, vlen_vabs by exact K. lra. Qed.
Lemma segment_gen D M d y e x x' k : vcross y d = vcross x x' -> vlen (vsub D d) <= k * vlen d -> vlen (vsub M (vcross x x')) <= e -> vlen (vsub (vcross y D) M) <= k * (vlen y * vlen d) + e.
Proof.
  intros Hy H1 H2. replace (vsub (vcross y D) M) with (vadd (vcross y (vsub D d)) (vscale (- (1)) (vsub M (vcross x x')))).
  2: { rewrite <- Hy. unfold vadd, vcross, vsub, vscale. cbn [vx vy vz]. apply vec_eq; cbn [vx vy vz]; ring. }
  eapply Rle_trans; [apply vlen_tri|]. rewrite vlen_scale, Rabs_Ropp, Rabs_R1. pose proof (vcross_len y (vsub D d)). pose proof (Rmult_le_compat_l _ _ _ (vlen_pos y) H1). lra.
Qed.
Lemma vlen_diff a b e : vlen (vsub a b) <= e -> Rabs (vlen a - vlen b) <= e.
Proof.
  intro H. pose proof (vlen_tri (vsub a b) b) as T1. replace (vadd (vsub a b) b) with a in T1 by (unfold vadd, vsub; cbn [vx vy vz]; apply vec_eq; cbn [vx vy vz]; ring).
  pose proof (vlen_tri (vscale (- (1)) (vsub a b)) a) as T2. replace (vadd (vscale (- (1)) (vsub a b)) a) with b in T2 by (unfold vadd, vsub, vscale; cbn [vx vy vz]; apply vec_eq; cbn [vx vy vz]; ring).
  rewrite vlen_scale, Rabs_Ropp, Rabs_R1 in T2. apply Rabs_le. lra.
Qed.
Theorem C86_segment : forall a b : point f32, bound (point_p3 a) -> bound (point_p3 b) -> wt a = 1 -> wt b = 1 ->
  let x := pos a in let x' := pos b in let d := vsub x' x in let q := point_join_point a b in
  vlen (vsub (dirn q) d) <= u * vlen d /\ Rabs (vlen (dirn q) - vlen d) <= u * vlen d /\
  forall y, y = x \/ y = x' -> vlen (vsub (vcross y (dirn q)) (mom q)) <= u * (vlen y * vlen d) + (unit_err 2 * (3 / 2 * (vlen x * vlen x')) + 2 * tiny).
Proof.
  intros a b Ha Hb Wa Wb x x' d q. destruct (C86_two_points a b Ha Hb) as (_ & _ & _ & _ & Q). fold q x x' in Q.
  assert (D : vlen (vsub (dirn q) d) <= u * vlen d).
  { apply vlen_scaled; [unfold u; lra|]. unfold d, x, x', q, dirn, vval, pos, bound, wt in *. destruct a as [[a0 a1 a2 a3]], b as [[b0 b1 b2 b3]]. cbn [point_p3 l0 l1 l2 l3 reg_list] in *.
    inversion_clear Ha as [|? ? A0 Ha1]. inversion_clear Ha1 as [|? ? A1 Ha2]. inversion_clear Ha2 as [|? ? A2 Ha3]. inversion_clear Ha3 as [|? ? A3 _].
    inversion_clear Hb as [|? ? B0 Hb1]. inversion_clear Hb1 as [|? ? B1 Hb2]. inversion_clear Hb2 as [|? ? B2 Hb3]. inversion_clear Hb3 as [|? ? B3 _].
    assert (a0 = FloatIdeal.one) as -> by (apply is_one; split; [apply A0|exact Wa]). assert (b0 = FloatIdeal.one) as -> by (apply is_one; split; [apply B0|exact Wb]).
    change (line_p1 (point_join_point (mkpoint (mk4 FloatIdeal.one a1 a2 a3)) (mkpoint (mk4 FloatIdeal.one b1 b2 b3)))) with (mk4 (fsub (fmul FloatIdeal.one FloatIdeal.one) (fmul FloatIdeal.one FloatIdeal.one)) (fsub (fmul FloatIdeal.one b1) (fmul a1 FloatIdeal.one)) (fsub (fmul FloatIdeal.one b2) (fmul a2 FloatIdeal.one)) (fsub (fmul FloatIdeal.one b3) (fmul a3 FloatIdeal.one))).
    cbn [l1 l2 l3]. rewrite !(mul_comm_f32 FloatIdeal.one), !fmul_one. split; [|split]; cbn [vx vy vz vabs vsub vscale]; apply diff_lane; assumption. }
  split; [exact D|]. split; [apply vlen_diff; exact D|].
  intros y Hy. apply (segment_gen _ _ d y _ x x' u); [|exact D|exact Q].
  destruct Hy as [-> | ->]; unfold d, vcross, vsub; cbn [vx vy vz]; apply vec_eq; cbn [vx vy vz]; ring.
Qed.
Print Assumptions C86_segment.
(** The plane of a triangle contains its vertices, and its normal is twice the vector area, up to the rounding of the
    products of the positions. *)
Lemma incident_gen N G y o g e1 e2 : vdot G y + g = 0 -> vlen (vsub N G) <= e1 -> Rabs (o - g) <= e2 -> Rabs (vdot N y + o) <= e1 * vlen y + e2.
Proof.
  intros H H1 H2. replace (vdot N y + o) with (vdot (vsub N G) y + (o - g)) by (replace (vdot (vsub N G) y) with (vdot N y - vdot G y) by (unfold vdot, vsub; cbn [vx vy vz]; ring); lra).
  eapply Rle_trans; [apply Rabs_triang|]. apply Rplus_le_compat; [|exact H2]. eapply Rle_trans; [apply vdot_abs|]. apply Rmult_le_compat_r; [apply vlen_pos|exact H1].
Qed.
Theorem C86_triangle : forall (B : Build) (p1 p2 p3 : point f32), bound (point_p3 p1) -> bound (point_p3 p2) -> bound (point_p3 p3) -> wt p1 = 1 -> wt p2 = 1 -> wt p3 = 1 ->
  let a := pos p1 in let b := pos p2 in let c := pos p3 in let q := line_join_point (point_join_point p1 p2) p3 in
  let e := unit_err 5 * (3 / 2 * (vlen b * vlen c + vlen a * vlen c + vlen a * vlen b)) + 2 * tiny in
  vlen (vadd (nrm q) (vcross (vsub b a) (vsub c a))) <= e /\ Rabs (vlen (nrm q) - vlen (vcross (vsub b a) (vsub c a))) <= e /\
  forall y, y = a \/ y = b \/ y = c -> Rabs (vdot (nrm q) y + off q) <= e * vlen y + (unit_err 7 * (3 / 2 * (vlen a * vlen b * vlen c)) + tiny).
Proof.
  intros B p1 p2 p3 Ha Hb Hc W1 W2 W3 a b c q e. destruct (C86_three_points B p1 p2 p3 Ha Hb Hc) as (_ & Q1 & Q2). fold q a b c in Q1, Q2. rewrite W1, W2, W3, Rabs_R1, !Rmult_1_l in Q1. fold e in Q1. clearbody q a b c e.
  set (G := vsub (vcross c (vsub (vscale 1 b) (vscale 1 a))) (vscale 1 (vcross a b))) in *.
  assert (EG : G = vscale (- (1)) (vcross (vsub b a) (vsub c a))) by (unfold G, vcross, vsub, vscale; cbn [vx vy vz]; apply vec_eq; cbn [vx vy vz]; ring).
  split; [|split].
  - replace (vadd (nrm q) (vcross (vsub b a) (vsub c a))) with (vsub (nrm q) G); [exact Q1|]. rewrite EG. unfold vadd, vsub, vscale. cbn [vx vy vz]. apply vec_eq; cbn [vx vy vz]; ring.
  - replace (vlen (vcross (vsub b a) (vsub c a))) with (vlen G); [apply vlen_diff; exact Q1|]. rewrite EG, vlen_scale, Rabs_Ropp, Rabs_R1. ring.
  - intros y Hy. apply (incident_gen _ G _ _ (vdot (vcross a b) c)); [|exact Q1|exact Q2]. destruct Hy as [-> |[-> | ->]]; unfold G, vdot, vcross, vsub, vscale; cbn [vx vy vz]; ring.
Qed.
Print Assumptions C86_triangle.
(** The plane through a point of weight 1 and a line contains the point, and every point of the line. *)
Theorem C86_contains : forall (B : Build) (a : point f32) (b : line f32) y, bound (point_p3 a) -> bound (line_p1 b) -> bound (line_p2 b) -> wt a = 1 ->
  y = pos a \/ on_line (dirn b) (mom b) y -> let q := point_join_line a b in
  Rabs (vdot (nrm q) y + off q) <= (unit_err 3 * (3 / 2 * (vlen (pos a) * vlen (dirn b)) + vlen (mom b)) + 2 * tiny) * vlen y + (unit_err 5 * (vlen (pos a) * vlen (mom b)) + tiny).
Proof.
  intros B a b y Ha Hb Hc W Hy q. destruct (C86_point_line B a b Ha Hb Hc) as (_ & Q1 & Q2). fold q in Q1, Q2. rewrite W, Rabs_R1, Rmult_1_l in Q1. clearbody q. set (x := pos a) in *. set (s := dirn b) in *. set (m := mom b) in *. clearbody x s m.
  apply (incident_gen _ (vsub (vcross x s) (vscale 1 m)) _ _ (vdot x m)); [|exact Q1|exact Q2]. destruct Hy as [-> |Hy]; [|unfold on_line in Hy; rewrite <- Hy]; unfold vdot, vcross, vsub, vscale; cbn [vx vy vz]; ring.
Qed.
Print Assumptions C86_contains.
(** Every common point of two planes lies on their meet. *)
Theorem C86_meet_line : forall (a b : plane f32) y, bound (plane_p0 a) -> bound (plane_p0 b) -> on_plane (nrm a) (off a) y -> on_plane (nrm b) (off b) y ->
  let q := plane_ext_plane a b in vlen (vsub (vcross y (dirn q)) (mom q)) <=
  vlen y * (unit_err 2 * (3 / 2 * (vlen (nrm a) * vlen (nrm b))) + 2 * tiny) + (unit_err 2 * (Rabs (off a) * vlen (nrm b) + Rabs (off b) * vlen (nrm a)) + 2 * tiny).
Proof.
  intros a b y Ha Hb Ya Yb q. destruct (C86_two_planes a b Ha Hb) as (_ & _ & _ & Q1 & Q2). fold q in Q1, Q2. clearbody q. set (n := nrm a) in *. set (n' := nrm b) in *. set (d := off a) in *. set (d' := off b) in *. clearbody n n' d d'.
  unfold on_plane in *. set (M := vsub (vscale d n') (vscale d' n)) in *.
  replace (vsub (vcross y (dirn q)) (mom q)) with (vadd (vcross y (vsub (dirn q) (vcross n n'))) (vscale (- (1)) (vsub (mom q) M))).
  2: { unfold M. replace d with (- vdot n y) by lra. replace d' with (- vdot n' y) by lra. unfold vadd, vdot, vcross, vsub, vscale. cbn [vx vy vz]. apply vec_eq; cbn [vx vy vz]; ring. }
  eapply Rle_trans; [apply vlen_tri|]. rewrite vlen_scale, Rabs_Ropp, Rabs_R1. pose proof (vcross_len y (vsub (dirn q) (vcross n n'))). pose proof (Rmult_le_compat_l _ _ _ (vlen_pos y) Q1). lra.
Qed.
Print Assumptions C86_meet_line.
(** The meet of a plane and a line, or of three planes, is their common point [y]; the error of its position is divided by
    the weight, which is small when they are nearly parallel. *)
Lemma spot_gen P W K y e1 e2 : vlen (vsub P (vscale K y)) <= e1 -> Rabs (W - K) <= e2 ->
  vlen (vsub P (vscale W y)) <= e1 + e2 * vlen y /\ (e2 < Rabs K -> W <> 0 /\ vlen (vsub (vscale (/ W) P) y) <= (e1 + e2 * vlen y) / (Rabs K - e2)).
Proof.
  intros H1 H2. assert (T : vlen (vsub P (vscale W y)) <= e1 + e2 * vlen y).
  { replace (vsub P (vscale W y)) with (vadd (vsub P (vscale K y)) (vscale (K - W) y)) by (unfold vadd, vsub, vscale; cbn [vx vy vz]; apply vec_eq; cbn [vx vy vz]; ring).
    eapply Rle_trans; [apply vlen_tri|]. rewrite vlen_scale, (Rabs_minus_sym K W). pose proof (Rmult_le_compat_r _ _ _ (vlen_pos y) H2). lra. }
  split; [exact T|]. intro H3. assert (W1 : Rabs K - e2 <= Rabs W). { pose proof (Rabs_triang_inv K (K - W)) as I. replace (K - (K - W)) with W in I by ring. rewrite (Rabs_minus_sym K W) in I. lra. }
  assert (W0 : W <> 0) by (intros ->; rewrite Rabs_R0 in W1; lra). split; [exact W0|].
  replace (vsub (vscale (/ W) P) y) with (vscale (/ W) (vsub P (vscale W y))) by (unfold vscale, vsub; cbn [vx vy vz]; apply vec_eq; cbn [vx vy vz]; field; exact W0).
  rewrite vlen_scale, Rmult_comm. unfold Rdiv. apply Rmult_le_compat; [apply vlen_pos|apply Rabs_pos|exact T|]. rewrite Rabs_inv. apply Rinv_le_contravar; lra.
Qed.
Theorem C86_meet_point : forall (B : Build) (a : plane f32) (b : line f32) y, bound (plane_p0 a) -> bound (line_p1 b) -> bound (line_p2 b) -> on_plane (nrm a) (off a) y -> on_line (dirn b) (mom b) y ->
  let n := nrm a in let d := off a in let s := dirn b in let m := mom b in let q := plane_ext_line a b in
  let e := unit_err 3 * (3 / 2 * (vlen n * vlen m) + Rabs d * vlen s) + 2 * tiny in let f := unit_err 5 * (vlen n * vlen s) + tiny in
  vlen (vsub (pos q) (vscale (wt q) y)) <= e + f * vlen y /\ (f < Rabs (vdot n s) -> wt q <> 0 /\ vlen (vsub (place q) y) <= (e + f * vlen y) / (Rabs (vdot n s) - f)).
Proof.
  intros B a b y Ha Hb Hc Ya Yb n d s m q e f. destruct (C86_plane_line B a b Ha Hb Hc) as (_ & Q1 & Q2). fold q n d s m in Q1, Q2. fold e in Q1. fold f in Q2. apply spot_gen; [|exact Q2].
  replace (vscale (vdot n s) y) with (vsub (vcross n m) (vscale d s)); [exact Q1|]. unfold on_plane, on_line in *. fold n d in Ya. fold s m in Yb. rewrite <- Yb. replace d with (- vdot n y) by lra.
  clear. clearbody n s. unfold vdot, vcross, vsub, vscale. cbn [vx vy vz]. apply vec_eq; cbn [vx vy vz]; ring.
Qed.
Print Assumptions C86_meet_point.
Theorem C86_corner : forall (B : Build) (p1 p2 p3 : plane f32) y, bound (plane_p0 p1) -> bound (plane_p0 p2) -> bound (plane_p0 p3) -> on_plane (nrm p1) (off p1) y -> on_plane (nrm p2) (off p2) y -> on_plane (nrm p3) (off p3) y ->
  let a := nrm p1 in let b := nrm p2 in let c := nrm p3 in let K := vdot (vcross a b) c in let q := line_ext_plane (plane_ext_plane p1 p2) p3 in
  let e := unit_err 5 * (3 / 2 * (Rabs (off p1) * (vlen b * vlen c) + Rabs (off p2) * (vlen a * vlen c) + Rabs (off p3) * (vlen a * vlen b))) + 2 * tiny in let f := unit_err 7 * (3 / 2 * (vlen a * vlen b * vlen c)) + tiny in
  vlen (vsub (pos q) (vscale (wt q) y)) <= e + f * vlen y /\ (f < Rabs K -> wt q <> 0 /\ vlen (vsub (place q) y) <= (e + f * vlen y) / (Rabs K - f)).
Proof.
  intros B p1 p2 p3 y Ha Hb Hc Y1 Y2 Y3 a b c K q e f. destruct (C86_three_planes B p1 p2 p3 Ha Hb Hc) as (_ & Q1 & Q2). fold q a b c in Q1, Q2. fold e in Q1. fold f K in Q2. apply spot_gen; [|exact Q2].
  match goal with H : vlen (vsub (pos q) ?g) <= e |- _ => replace (vscale K y) with g; [exact H|] end. unfold on_plane in *. fold a in Y1. fold b in Y2. fold c in Y3.
  replace (off p1) with (- vdot a y) by lra. replace (off p2) with (- vdot b y) by lra. replace (off p3) with (- vdot c y) by lra.
  unfold K. clear. clearbody a b c. unfold vdot, vcross, vsub, vscale. cbn [vx vy vz]. apply vec_eq; cbn [vx vy vz]; ring.
Qed.
Print Assumptions C86_corner.
(** Points and planes that meet the hypotheses; the three planes x = 1, x + 2 y = 7, x - z = -4 meet in (1, 3, 5). *)
Lemma int_bounded k : (Z.abs k <= 2 ^ 20)%Z -> bounded 20 (fz k) /\ val (fz k) = IZR k.
Proof. intro Hk. destruct (fz_ok k ltac:(lia)) as [F V]. split; [split; [exact F|]|exact V]. rewrite V, <- abs_IZR. rewrite <- (IZR_Zpower radix2) by lia. apply IZR_le. exact Hk. Qed.
Definition ipoint (i j k : Z) : point f32 := mkpoint (mk4 (fz 1) (fz i) (fz j) (fz k)).
Definition iplane (d i j k : Z) : plane f32 := mkplane (mk4 (fz d) (fz i) (fz j) (fz k)).
Lemma ipoint_ok i j k : (Z.abs i <= 2 ^ 20)%Z -> (Z.abs j <= 2 ^ 20)%Z -> (Z.abs k <= 2 ^ 20)%Z -> bound (point_p3 (ipoint i j k)) /\ wt (ipoint i j k) = 1 /\ pos (ipoint i j k) = V (IZR i) (IZR j) (IZR k).
Proof.
  intros Hi Hj Hk. split; [|split].
  - repeat (apply Forall_cons; [apply int_bounded; lia|]). apply Forall_nil.
  - apply (int_bounded 1). lia.
  - unfold pos, ipoint. cbn [point_p3 l1 l2 l3]. f_equal; apply int_bounded; assumption.
Qed.
Lemma iplane_ok d i j k : (Z.abs d <= 2 ^ 20)%Z -> (Z.abs i <= 2 ^ 20)%Z -> (Z.abs j <= 2 ^ 20)%Z -> (Z.abs k <= 2 ^ 20)%Z -> bound (plane_p0 (iplane d i j k)) /\ off (iplane d i j k) = IZR d /\ nrm (iplane d i j k) = V (IZR i) (IZR j) (IZR k).
Proof.
  intros Hd Hi Hj Hk. split; [|split].
  - repeat (apply Forall_cons; [apply int_bounded; lia|]). apply Forall_nil.
  - apply (int_bounded d). lia.
  - unfold nrm, vval, iplane. cbn [plane_p0 l1 l2 l3]. f_equal; apply int_bounded; assumption.
Qed.
Example C86_ex : let p1 := iplane (-1) 1 0 0 in let p2 := iplane (-7) 1 2 0 in let p3 := iplane 4 1 0 (-1) in let y := V 1 3 5 in
  bound (plane_p0 p1) /\ bound (plane_p0 p2) /\ bound (plane_p0 p3) /\ on_plane (nrm p1) (off p1) y /\ on_plane (nrm p2) (off p2) y /\ on_plane (nrm p3) (off p3) y /\ vdot (vcross (nrm p1) (nrm p2)) (nrm p3) = -2.
Proof.
  intros p1 p2 p3 y. destruct (iplane_ok (-1) 1 0 0) as (A1 & A2 & A3); try lia. destruct (iplane_ok (-7) 1 2 0) as (B1 & B2 & B3); try lia. destruct (iplane_ok 4 1 0 (-1)) as (D1 & D2 & D3); try lia.
  fold p1 in A1, A2, A3. fold p2 in B1, B2, B3. fold p3 in D1, D2, D3. rewrite A2, A3, B2, B3, D2, D3. unfold on_plane, vdot, vcross, y. cbn [vx vy vz]. repeat split; try assumption; lra.
Qed.

(** ** Property C87: three points far from the origin *)
(** False as stated: the normal is formed from products of the positions and not of the edges, so that the plane through
    three points that are not on a line can be the null plane.  The points below are the corners of a right-angled triangle
    with legs of length 2, 17370 away from the origin. *)
Theorem C87_refuted : exists p1 p2 p3 : point f32, bound (point_p3 p1) /\ bound (point_p3 p2) /\ bound (point_p3 p3) /\ wt p1 = 1 /\ wt p2 = 1 /\ wt p3 = 1 /\
  vcross (vsub (pos p2) (pos p1)) (vsub (pos p3) (pos p1)) = V 0 0 (-4) /\ forall B : Build, nrm (line_join_point (point_join_point p1 p2) p3) = V 0 0 0.
Proof.
  exists (ipoint 9870 10198 10004), (ipoint 9870 10200 10004), (ipoint 9872 10198 10004).
  destruct (ipoint_ok 9870 10198 10004) as (A1 & A2 & A3); try lia. destruct (ipoint_ok 9870 10200 10004) as (B1 & B2 & B3); try lia. destruct (ipoint_ok 9872 10198 10004) as (D1 & D2 & D3); try lia.
  repeat (split; [assumption|]). rewrite A3, B3, D3. split; [unfold vcross, vsub; cbn [vx vy vz]; apply vec_eq; cbn [vx vy vz]; ring|].
  intros [[|]]; vm_compute; apply vec_eq; cbn [vx vy vz]; lra.
Qed.
Print Assumptions C87_refuted.
(** What holds: when the triangle is not too small for its distance from the origin, the normal is not null and deviates
    from the vector area by a known fraction of it. *)
Theorem C87_partial : forall (B : Build) (p1 p2 p3 : point f32) r k, bound (point_p3 p1) -> bound (point_p3 p2) -> bound (point_p3 p3) -> wt p1 = 1 -> wt p2 = 1 -> wt p3 = 1 ->
  vlen (pos p1) <= r -> vlen (pos p2) <= r -> vlen (pos p3) <= r -> / 2 ^ 40 <= r -> 0 <= k < 1 ->
  let G := vcross (vsub (pos p2) (pos p1)) (vsub (pos p3) (pos p1)) in 23 * u * (r * r) <= k * vlen G -> 
  let q := line_join_point (point_join_point p1 p2) p3 in vlen (vadd (nrm q) G) <= k * vlen G /\ (1 - k) * vlen G <= vlen (nrm q).
Proof.
  intros B p1 p2 p3 r k Ha Hb Hc W1 W2 W3 R1 R2 R3 Hr Hk G HG q. destruct (C86_triangle B p1 p2 p3 Ha Hb Hc W1 W2 W3) as (Q1 & Q2 & _). fold q G in Q1, Q2.
  set (e := unit_err 5 * (3 / 2 * (vlen (pos p2) * vlen (pos p3) + vlen (pos p1) * vlen (pos p3) + vlen (pos p1) * vlen (pos p2))) + 2 * tiny) in *.
  assert (E : e <= 23 * u * (r * r)).
  { unfold e. pose proof (vlen_pos (pos p1)). pose proof (vlen_pos (pos p2)). pose proof (vlen_pos (pos p3)). assert (r0 : 0 < r) by (eapply Rlt_le_trans; [|exact Hr]; apply Rinv_0_lt_compat, pow_lt; lra).
    pose proof (Rmult_le_compat (vlen (pos p2)) r (vlen (pos p3)) r ltac:(assumption) ltac:(assumption) R2 R3). pose proof (Rmult_le_compat (vlen (pos p1)) r (vlen (pos p3)) r ltac:(assumption) ltac:(assumption) R1 R3). pose proof (Rmult_le_compat (vlen (pos p1)) r (vlen (pos p2)) r ltac:(assumption) ltac:(assumption) R1 R2).
    set (S := vlen (pos p2) * vlen (pos p3) + vlen (pos p1) * vlen (pos p3) + vlen (pos p1) * vlen (pos p2)) in *. assert (SS : S <= 3 * (r * r)) by (unfold S; lra).
    assert (T : 2 * tiny <= / 100 * u * (r * r)).
    { assert (RR : / 2 ^ 40 * / 2 ^ 40 <= r * r) by (apply Rmult_le_compat; try exact Hr; apply Rlt_le, Rinv_0_lt_compat, pow_lt; lra). unfold tiny, u. apply (Rle_trans _ (/ 100 * / 16777216 * (/ 2 ^ 40 * / 2 ^ 40))); [cbn; lra|apply Rmult_le_compat_l; lra]. }
    unfold unit_err. replace (INR 5) with 5 by (cbn; ring). assert (5 * u * (1 + / 100000) * (3 / 2 * S) <= 5 * u * (1 + / 100000) * (3 / 2 * (3 * (r * r)))) by (apply Rmult_le_compat_l; [unfold u; lra|lra]).
    assert (0 <= u * (r * r)) by (apply Rmult_le_pos; [unfold u; lra|nra]). lra. }
  split; [lra|]. apply Rabs_le_inv in Q2. lra.
Qed.
Print Assumptions C87_partial.
(** Joining after moving the first vertex to the origin avoids the loss. *)
Theorem C87_near : forall (B : Build) (p1 p2 p3 : point f32), bound (point_p3 p1) -> bound (point_p3 p2) -> bound (point_p3 p3) -> wt p1 = 1 -> wt p2 = 1 -> wt p3 = 1 -> pos p1 = V 0 0 0 ->
  let q := line_join_point (point_join_point p1 p2) p3 in vlen (vadd (nrm q) (vcross (pos p2) (pos p3))) <= unit_err 5 * (3 / 2 * (vlen (pos p2) * vlen (pos p3))) + 2 * tiny.
Proof.
  intros B p1 p2 p3 Ha Hb Hc W1 W2 W3 Z q. destruct (C86_triangle B p1 p2 p3 Ha Hb Hc W1 W2 W3) as (Q1 & _ & _). fold q in Q1. rewrite Z in Q1. clearbody q.
  assert (V0 : forall v, vsub v (V 0 0 0) = v) by (intro v; unfold vsub; apply vec_eq; cbn [vx vy vz]; ring). rewrite !V0 in Q1.
  assert (L0 : vlen (V 0 0 0) = 0) by (unfold vlen, vdot; cbn [vx vy vz]; replace (0 * 0 + 0 * 0 + 0 * 0) with 0 by ring; apply sqrt_0). rewrite L0, !Rmult_0_l, !Rplus_0_r in Q1. exact Q1.
Qed.
Print Assumptions C87_near.
Example C87_ex : let p1 := ipoint 0 0 0 in let p2 := ipoint 0 2 0 in let p3 := ipoint 2 0 0 in bound (point_p3 p1) /\ bound (point_p3 p2) /\ bound (point_p3 p3) /\ wt p1 = 1 /\ wt p2 = 1 /\ wt p3 = 1 /\ pos p1 = V 0 0 0 /\
  vlen (pos p1) <= 2 /\ vlen (pos p2) <= 2 /\ vlen (pos p3) <= 2 /\ let G := vcross (vsub (pos p2) (pos p1)) (vsub (pos p3) (pos p1)) in 23 * u * (2 * 2) <= / 100000 * vlen G.
Proof.
  intros p1 p2 p3. destruct (ipoint_ok 0 0 0) as (A1 & A2 & A3); try lia. destruct (ipoint_ok 0 2 0) as (B1 & B2 & B3); try lia. destruct (ipoint_ok 2 0 0) as (D1 & D2 & D3); try lia.
  fold p1 in A1, A2, A3. fold p2 in B1, B2, B3. fold p3 in D1, D2, D3. repeat (split; [assumption|]). rewrite A3, B3, D3.
  split; [apply vlen_bound; [lra|unfold vdot; cbn [vx vy vz]; lra]|]. split; [apply vlen_bound; [lra|unfold vdot; cbn [vx vy vz]; lra]|]. split; [apply vlen_bound; [lra|unfold vdot; cbn [vx vy vz]; lra]|].
  intro G. assert (L : vlen G = 4).
  { unfold vlen. replace (vdot G G) with (4 * 4); [apply sqrt_square; lra|]. unfold G, vdot, vcross, vsub. cbn [vx vy vz]. ring. }
  rewrite L. unfold u. lra.
Qed.
