(** Property C84: projections in binary32. *)
From Coq Require Import ZArith Reals List Bool Lra Lia Psatz.
From Flocq Require Import Core BinarySingleNaN.
From Verif Require Import AlgTac SpecMass FloatMass Float32 FloatFacts ExprSyntax FloatErr FloatAbs FloatApx FloatNR FloatOps Props11 SpecGeom Props23 Props26 Props34.
Import ListNotations.
Local Open Scope R_scope.

(** ** Vectors of magnitudes *)
Definition vabs (a : vec) : vec := V (Rabs (vx a)) (Rabs (vy a)) (Rabs (vz a)).
(** what a cross product sums up, without signs *)
Definition vmass (a b : vec) : vec := V (vy a * vz b + vz a * vy b) (vz a * vx b + vx a * vz b) (vx a * vy b + vy a * vx b).
Definition vpos (a : vec) : Prop := 0 <= vx a /\ 0 <= vy a /\ 0 <= vz a.
Definition vle (a b : vec) : Prop := vx a <= vx b /\ vy a <= vy b /\ vz a <= vz b.
Lemma vabs_pos a : vpos (vabs a). Proof. repeat split; apply Rabs_pos. Qed.
Lemma vlen_vabs a : vlen (vabs a) = vlen a.
Proof. unfold vlen, vdot, vabs. cbn [vx vy vz]. rewrite <- !Rabs_mult, !Rabs_pos_eq by apply Rle_0_sqr. reflexivity. Qed.
Lemma vlen_pos a : 0 <= vlen a. Proof. apply sqrt_pos. Qed.
Lemma vlen_sq a : vlen a * vlen a = vdot a a. Proof. apply sqrt_sqrt. unfold vdot. nra. Qed.
Lemma vlen_le a b : vpos a -> vle a b -> vlen a <= vlen b.
Proof. intros (A & B & C) (D & E & F). unfold vlen. apply sqrt_le_1_alt. unfold vdot. repeat apply Rplus_le_compat; apply Rmult_le_compat; lra. Qed.
Lemma vlen_bound a k : 0 <= k -> vdot a a <= k * k -> vlen a <= k.
Proof. intros K H. unfold vlen. rewrite <- (sqrt_square k K). apply sqrt_le_1_alt. exact H. Qed.
Lemma vmass_sq a b : vdot (vmass a b) (vmass a b) <= 2 * (vdot a a * vdot b b).
Proof.
  unfold vmass, vdot. cbn [vx vy vz]. destruct a as [a1 a2 a3], b as [b1 b2 b3]. cbn [vx vy vz].
  assert (Q : forall s t, (s + t) * (s + t) <= 2 * (s * s + t * t)) by (intros s t; pose proof (Rle_0_sqr (s - t)); unfold Rsqr in *; lra).
  pose proof (Q (a2 * b3) (a3 * b2)). pose proof (Q (a3 * b1) (a1 * b3)). pose proof (Q (a1 * b2) (a2 * b1)).
  pose proof (Rle_0_sqr (a1 * b1)). pose proof (Rle_0_sqr (a2 * b2)). pose proof (Rle_0_sqr (a3 * b3)). unfold Rsqr in *. lra.
Qed.
Lemma vmass_len a b : vlen (vmass a b) <= 3 / 2 * (vlen a * vlen b).
Proof.
  pose proof (vlen_pos a). pose proof (vlen_pos b). assert (0 <= vlen a * vlen b) by (apply Rmult_le_pos; assumption). apply vlen_bound; [lra|].
  pose proof (vmass_sq a b) as Q. rewrite <- !vlen_sq in Q. rewrite <- vlen_sq. set (p := vlen a * vlen b) in *.
  replace (2 * (vlen a * vlen a * (vlen b * vlen b))) with (2 * (p * p)) in Q by (unfold p; ring). pose proof (Rle_0_sqr p). unfold Rsqr in *. lra.
Qed.
Lemma vmass_len2 a b c : vlen (vmass (vmass a b) c) <= 2 * (vlen a * vlen b * vlen c).
Proof.
  pose proof (vlen_pos a). pose proof (vlen_pos b). pose proof (vlen_pos c). assert (H2 : 0 <= vlen a * vlen b) by (apply Rmult_le_pos; assumption). assert (0 <= vlen a * vlen b * vlen c) by (apply Rmult_le_pos; assumption).
  apply vlen_bound; [lra|]. eapply Rle_trans; [apply vmass_sq|].
  pose proof (vmass_sq a b) as Q. assert (0 <= vdot c c) by (unfold vdot; nra). assert (H9 : vdot (vmass a b) (vmass a b) * vdot c c <= 2 * (vdot a a * vdot b b) * vdot c c) by (apply Rmult_le_compat_r; assumption).
  rewrite <- (vlen_sq a), <- (vlen_sq b) in H9. rewrite <- (vlen_sq c) in H9 |- *. lra.
Qed.
Lemma vdot_len a b : vpos a -> vpos b -> vdot a b <= vlen a * vlen b.
Proof. intros A B. eapply Rle_trans; [apply Rle_abs|apply vdot_abs]. Qed.
Lemma vlen_scale_pos k a : 0 <= k -> vlen (vscale k a) = k * vlen a.
Proof. intro K. unfold vlen. replace (vdot (vscale k a) (vscale k a)) with (k * k * vdot a a) by (unfold vdot, vscale; cbn [vx vy vz]; ring). rewrite sqrt_mult_alt by nra. rewrite sqrt_square by exact K. reflexivity. Qed.

(** ** Expressions on up to three registers *)
Definition lanes12 (a b c : m128 f32) (n : nat) : f32 := nth n (reg_list a ++ reg_list b ++ reg_list c) (B754_zero false).
Definition unit_err (d : nat) : R := INR d * u * (1 + / 100000).
Definition tiny : R := bpow radix2 (-122).
Lemma unit_err_pos d : 0 <= unit_err d. Proof. unfold unit_err, u. pose proof (pos_INR d). nra. Qed.
Definition okx (x : nat -> f32) : Prop := forall n, fin (x n) /\ Rabs (val (x n)) <= IZR (2 ^ 20).
Lemma lanes12_ok a b c : Forall (bounded 20) (reg_list a ++ reg_list b ++ reg_list c) -> okx (lanes12 a b c).
Proof.
  intros H n. rewrite (IZR_Zpower radix2) by lia. change (bounded 20 (lanes12 a b c n)). unfold lanes12. rewrite Forall_forall in H.
  destruct (nth_in_or_default n (reg_list a ++ reg_list b ++ reg_list c) (B754_zero false)) as [I|I]; [apply H; exact I|rewrite I; apply bounded_zero].
Qed.
Definition good (d : nat) (e : expr) : bool := fits_any 20 (-122) e && (dep e <=? d)%nat && (d <=? 64)%nat.
Lemma term (x : nat -> f32) e V Q d : okx x -> good d e = true -> eval (A := Arith_R) (fun n => val (x n)) e = V -> absv (fun n => val (x n)) e <= Q ->
  fin (eval x e) /\ Rabs (val (eval x e) - V) <= unit_err d * Q + tiny.
Proof.
  intros X G HV HQ. unfold good in G. apply andb_prop in G. destruct G as [G D64]. apply andb_prop in G. destruct G as [C D]. apply Nat.leb_le in D. apply Nat.leb_le in D64.
  unfold fits_any in C. apply andb_prop in C. destruct C as [C C3]. apply andb_prop in C. destruct C as [C1 C2]. apply Z.leb_le in C2.
  destruct (rounding_any x (2 ^ 20) e ltac:(lia) X C1 ltac:(lia)) as (F & E). split; [exact F|]. rewrite HV in E. eapply Rle_trans; [exact E|].
  pose proof (P_lin (dep e) ltac:(lia)) as PL. pose proof (absv_nonneg (fun n => val (x n)) e) as A0. apply Rplus_le_compat.
  - assert (INR (dep e) <= INR d) by (apply le_INR; exact D). assert (0 <= INR (dep e)) by apply pos_INR. assert (INR (dep e) * u <= INR d * u) by (apply Rmult_le_compat_r; [unfold u; lra|assumption]).
    unfold unit_err. apply Rmult_le_compat; [pose proof (P_pos (dep e)); pose proof (P_mono 0 (dep e) ltac:(lia)) as P0; cbn in P0; lra|exact A0| |exact HQ]. lra.
  - assert (L : IZR (slack (2 ^ 20) e) <= bpow radix2 (149 + -122)) by (rewrite <- IZR_Zpower by lia; apply IZR_le; exact C2).
    assert (Q2 : P (dep e) <= 2). { assert (INR (dep e) <= 64) by (rewrite INR_IZR_INZ; apply IZR_le; lia). pose proof (pos_INR (dep e)). unfold u in PL. nra. }
    unfold tiny. replace (bpow radix2 (-122)) with (2 * (eta * bpow radix2 (149 + -122))).
    2: { unfold eta. rewrite <- bpow_plus. change 2 with (bpow radix2 1). rewrite <- bpow_plus. f_equal. }
    pose proof (P_pos (dep e)). pose proof eta_pos. pose proof (IZR_le _ _ (slack_nonneg (2 ^ 20) e ltac:(lia))).
    apply Rmult_le_compat; [lra|apply Rmult_le_pos; lra|exact Q2|]. apply Rmult_le_compat_l; [lra|exact L].
Qed.
(** three expressions as a vector *)
Definition vval (v : m128 f32) : vec := V (val (l1 v)) (val (l2 v)) (val (l3 v)).
Lemma term3 (x : nat -> f32) (e : m128 expr) (E A : vec) d : okx x -> good d (l1 e) && good d (l2 e) && good d (l3 e) = true ->
  let y := fun n => val (x n) in let ev := eval (A := Arith_R) y in E = V (ev (l1 e)) (ev (l2 e)) (ev (l3 e)) -> vle (V (absv y (l1 e)) (absv y (l2 e)) (absv y (l3 e))) A ->
  let v := map4 (eval x) e in fin (l1 v) /\ fin (l2 v) /\ fin (l3 v) /\ vlen (vsub (vval v) E) <= unit_err d * vlen A + 2 * tiny.
Proof.
  intros X G y ev HE (A1 & A2 & A3) v. cbn [vx vy vz] in *. apply andb_prop in G. destruct G as [G G3]. apply andb_prop in G. destruct G as [G1 G2].
  destruct (term x (l1 e) _ _ d X G1 eq_refl A1) as [F1 B1]. destruct (term x (l2 e) _ _ d X G2 eq_refl A2) as [F2 B2]. destruct (term x (l3 e) _ _ d X G3 eq_refl A3) as [F3 B3].
  split; [exact F1|split; [exact F2|split; [exact F3|]]]. subst E.
  rewrite <- vlen_vabs. set (D := vabs (vsub (vval v) (V (ev (l1 e)) (ev (l2 e)) (ev (l3 e))))).
  assert (0 <= tiny) by apply bpow_ge_0. pose proof (unit_err_pos d).
  apply (Rle_trans _ (vlen (vadd (vscale (unit_err d) A) (V tiny tiny tiny)))).
  - apply vlen_le; [apply vabs_pos|]. split; [|split]; cbn [vx vy vz vadd vscale D vabs vsub vval v map4 l1 l2 l3]; assumption.
  - eapply Rle_trans; [apply vlen_tri|]. rewrite vlen_scale_pos by assumption. apply Rplus_le_compat_l. apply vlen_bound; [lra|]. unfold vdot. cbn [vx vy vz]. nra.
Qed.

(** ** The code of the six projections *)
Section Gen.
Context {F : Type} {A : Arith F} {B : Build} (x : nat -> F).
Notation h := (map4 (eval x)).
Lemma pp_gen : point_p3 (project_point_plane (mkpoint (h (vreg 0))) (mkplane (h (vreg 4)))) = h (point_p3 (project_point_plane (mkpoint (vreg 0)) (mkplane (vreg 4)))).
Proof. destruct B as [[|]]; reflexivity. Qed.
Lemma pl_gen : point_p3 (project_point_line (mkpoint (h (vreg 0))) (mkline (h (vreg 4)) (h (vreg 8)))) = h (point_p3 (project_point_line (mkpoint (vreg 0)) (mkline (vreg 4) (vreg 8)))).
Proof. destruct B as [[|]]; reflexivity. Qed.
Lemma lp_gen1 : line_p1 (project_line_plane (mkline (h (vreg 4)) (h (vreg 8))) (mkplane (h (vreg 0)))) = h (line_p1 (project_line_plane (mkline (vreg 4) (vreg 8)) (mkplane (vreg 0)))).
Proof. reflexivity. Qed.
Lemma lp_gen2 : line_p2 (project_line_plane (mkline (h (vreg 4)) (h (vreg 8))) (mkplane (h (vreg 0)))) = h (line_p2 (project_line_plane (mkline (vreg 4) (vreg 8)) (mkplane (vreg 0)))).
Proof. reflexivity. Qed.
Lemma np_gen : plane_p0 (project_plane_point (mkplane (h (vreg 0))) (mkpoint (h (vreg 4)))) = h (plane_p0 (project_plane_point (mkplane (vreg 0)) (mkpoint (vreg 4)))).
Proof. destruct B as [[|]]; reflexivity. Qed.
Lemma lq_gen1 : line_p1 (project_line_point (mkline (h (vreg 4)) (h (vreg 8))) (mkpoint (h (vreg 0)))) = h (line_p1 (project_line_point (mkline (vreg 4) (vreg 8)) (mkpoint (vreg 0)))).
Proof. destruct B as [[|]]; reflexivity. Qed.
Lemma lq_gen2 : line_p2 (project_line_point (mkline (h (vreg 4)) (h (vreg 8))) (mkpoint (h (vreg 0)))) = h (line_p2 (project_line_point (mkline (vreg 4) (vreg 8)) (mkpoint (vreg 0)))).
Proof. destruct B as [[|]]; reflexivity. Qed.
Lemma nl_gen : plane_p0 (project_plane_line (mkplane (h (vreg 0))) (mkline (h (vreg 4)) (h (vreg 8)))) = h (plane_p0 (project_plane_line (mkplane (vreg 0)) (mkline (vreg 4) (vreg 8)))).
Proof. reflexivity. Qed.
End Gen.

Definition ev3 (y : nat -> R) (c : m128 expr) : vec := let ev := eval (A := Arith_R) y in V (ev (l1 c)) (ev (l2 c)) (ev (l3 c)).
Definition av3 (y : nat -> R) (c : m128 expr) : vec := V (absv y (l1 c)) (absv y (l2 c)) (absv y (l3 c)).
Definition vy3 (y : nat -> R) (o : nat) : vec := V (y (1 + o)%nat) (y (2 + o)%nat) (y (3 + o)%nat).
Ltac rcbv := cbv -[Rplus Rmult Ropp Rminus Rabs IZR Rle].
Ltac norm_abs := rcbv; change (IZR 0) with 0; rewrite ?Rabs_R0.
Lemma triple a b c : 0 <= Rabs a * Rabs b * Rabs c. Proof. repeat apply Rmult_le_pos; apply Rabs_pos. Qed.
Lemma sq_abs a : Rabs a * Rabs a = a * a. Proof. rewrite <- Rabs_mult, Rabs_pos_eq by apply Rle_0_sqr. reflexivity. Qed.
Lemma pp_exact (B : Build) y : let c := point_p3 (project_point_plane (mkpoint (vreg 0)) (mkplane (vreg 4))) in let x := vy3 y 0 in let n := vy3 y 4 in let w := y 0%nat in let d := y 4%nat in
  eval (A := Arith_R) y (l0 c) = vdot n n * w /\ vsub (vscale (vdot n n) x) (vscale (vdot n x + d * w) n) = ev3 y c /\
  absv y (l0 c) <= vdot n n * Rabs w /\ vle (av3 y c) (vadd (vscale (vdot n n) (vabs x)) (vadd (vscale (vdot (vabs n) (vabs x)) (vabs n)) (vscale (Rabs d * Rabs w) (vabs n)))).
Proof.
  intros c x n w d. unfold c. split; [|split; [|split]].
  - unfold vdot, n, w, vy3. cbn [vx vy vz]. destruct B as [[|]]; rcbv; ring.
  - unfold vdot, n, w, d, x, vy3, vsub, vscale, ev3. cbn [vx vy vz]. destruct B as [[|]]; apply vec_eq; rcbv; ring.
  - unfold vdot, n, w, vy3. cbn [vx vy vz]. destruct B as [[|]]; norm_abs; try rewrite <- (sq_abs (y 5%nat)); try rewrite <- (sq_abs (y 6%nat)); try rewrite <- (sq_abs (y 7%nat)); lra.
  - unfold vle, vdot, n, w, d, x, vy3, vadd, vabs, vscale, av3. cbn [vx vy vz].
    pose proof (triple (y 5%nat) (y 5%nat) (y 1%nat)). pose proof (triple (y 6%nat) (y 6%nat) (y 2%nat)). pose proof (triple (y 7%nat) (y 7%nat) (y 3%nat)).
    destruct B as [[|]]; (split; [|split]); norm_abs; try rewrite <- (sq_abs (y 5%nat)); try rewrite <- (sq_abs (y 6%nat)); try rewrite <- (sq_abs (y 7%nat)); lra.
Qed.
Lemma pl_exact (B : Build) y : let c := point_p3 (project_point_line (mkpoint (vreg 0)) (mkline (vreg 4) (vreg 8))) in let x := vy3 y 0 in let s := vy3 y 4 in let m := vy3 y 8 in let w := y 0%nat in y 4%nat = 0 ->
  eval (A := Arith_R) y (l0 c) = - (vdot s s * w) /\ vopp (vadd (vscale (vdot s x) s) (vscale w (vcross s m))) = ev3 y c /\
  absv y (l0 c) <= vdot s s * Rabs w /\ vle (av3 y c) (vadd (vscale (vdot (vabs s) (vabs x)) (vabs s)) (vscale (Rabs w) (vmass (vabs s) (vabs m)))).
Proof.
  intros c x s m w Z. unfold c. split; [|split; [|split]].
  - unfold vdot, s, w, vy3. cbn [vx vy vz]. destruct B as [[|]]; rcbv; rewrite ?Z; ring.
  - unfold vdot, s, w, m, x, vy3, vopp, vadd, vcross, vscale, ev3. cbn [vx vy vz]. destruct B as [[|]]; apply vec_eq; rcbv; rewrite ?Z; ring.
  - unfold vdot, s, w, vy3. cbn [vx vy vz]. destruct B as [[|]]; norm_abs; try rewrite <- (sq_abs (y 5%nat)); try rewrite <- (sq_abs (y 6%nat)); try rewrite <- (sq_abs (y 7%nat)); rewrite ?Z, ?Rabs_R0; lra.
  - unfold vle, vdot, s, w, m, x, vy3, vadd, vabs, vscale, vmass, av3. cbn [vx vy vz].
    destruct B as [[|]]; (split; [|split]); norm_abs; rewrite ?Z, ?Rabs_R0; lra.
Qed.
Lemma lp_exact y : let r := project_line_plane (mkline (vreg 4) (vreg 8)) (mkplane (vreg 0)) in let n := vy3 y 0 in let s := vy3 y 4 in let m := vy3 y 8 in let d := y 0%nat in
  vcross (vcross n s) n = ev3 y (line_p1 r) /\ vsub (vscale (vdot n m) n) (vscale d (vcross n s)) = ev3 y (line_p2 r) /\
  vle (av3 y (line_p1 r)) (vmass (vmass (vabs n) (vabs s)) (vabs n)) /\ vle (av3 y (line_p2 r)) (vadd (vscale (vdot (vabs n) (vabs m)) (vabs n)) (vscale (Rabs d) (vmass (vabs n) (vabs s)))).
Proof.
  intros r n s m d. unfold r. split; [|split; [|split]].
  - unfold vdot, s, n, vy3, vcross, ev3. cbn [vx vy vz]. apply vec_eq; rcbv; ring.
  - unfold vdot, s, n, m, d, vy3, vsub, vcross, vscale, ev3. cbn [vx vy vz]. apply vec_eq; rcbv; ring.
  - unfold vle, s, n, vy3, vabs, vmass, av3. cbn [vx vy vz]. (split; [|split]); norm_abs; lra.
  - unfold vle, vdot, s, d, n, m, vy3, vadd, vabs, vscale, vmass, av3. cbn [vx vy vz]. (split; [|split]); norm_abs; lra.
Qed.
Lemma np_exact (B : Build) y : let c := plane_p0 (project_plane_point (mkplane (vreg 0)) (mkpoint (vreg 4))) in let n := vy3 y 0 in let x := vy3 y 4 in let w := y 4%nat in
  eval (A := Arith_R) y (l0 c) = w * vdot n x /\ vscale (- (w * w)) n = ev3 y c /\ absv y (l0 c) <= Rabs w * vdot (vabs n) (vabs x) /\ vle (av3 y c) (vscale (w * w) (vabs n)).
Proof.
  intros c n x w. unfold c. split; [|split; [|split]].
  - unfold vdot, n, x, w, vy3. cbn [vx vy vz]. destruct B as [[|]]; rcbv; ring.
  - unfold n, w, vy3, vscale, ev3. cbn [vx vy vz]. destruct B as [[|]]; apply vec_eq; rcbv; ring.
  - unfold vdot, n, x, w, vabs, vy3. cbn [vx vy vz]. destruct B as [[|]]; norm_abs; lra.
  - unfold vle, n, w, vy3, vabs, vscale, av3. cbn [vx vy vz]. destruct B as [[|]]; (split; [|split]); norm_abs; try rewrite <- (sq_abs (y 4%nat)); lra.
Qed.
Lemma lq_exact (B : Build) y : let r := project_line_point (mkline (vreg 4) (vreg 8)) (mkpoint (vreg 0)) in let x := vy3 y 0 in let s := vy3 y 4 in let w := y 0%nat in y 4%nat = 0 ->
  vscale (- (w * w)) s = ev3 y (line_p1 r) /\ vscale (- w) (vcross x s) = ev3 y (line_p2 r) /\
  vle (av3 y (line_p1 r)) (vscale (w * w) (vabs s)) /\ vle (av3 y (line_p2 r)) (vscale (Rabs w) (vmass (vabs x) (vabs s))).
Proof.
  intros r x s w Z. unfold r. split; [|split; [|split]].
  - unfold s, w, vy3, vscale, ev3. cbn [vx vy vz]. destruct B as [[|]]; apply vec_eq; rcbv; rewrite ?Z; ring.
  - unfold s, w, x, vy3, vcross, vscale, ev3. cbn [vx vy vz]. destruct B as [[|]]; apply vec_eq; rcbv; rewrite ?Z; ring.
  - unfold vle, s, w, vy3, vabs, vscale, av3. cbn [vx vy vz]. destruct B as [[|]]; (split; [|split]); norm_abs; try rewrite <- (sq_abs (y 0%nat)); lra.
  - unfold vle, s, w, x, vy3, vabs, vscale, vmass, av3. cbn [vx vy vz]. destruct B as [[|]]; (split; [|split]); norm_abs; lra.
Qed.
Lemma nl_exact y : let c := plane_p0 (project_plane_line (mkplane (vreg 0)) (mkline (vreg 4) (vreg 8))) in let n := vy3 y 0 in let s := vy3 y 4 in let m := vy3 y 8 in
  eval (A := Arith_R) y (l0 c) = vdot (vcross n s) m /\ vcross s (vcross s n) = ev3 y c /\ absv y (l0 c) <= vdot (vmass (vabs n) (vabs s)) (vabs m) /\ vle (av3 y c) (vmass (vmass (vabs n) (vabs s)) (vabs s)).
Proof.
  intros c n s m. unfold c. split; [|split; [|split]].
  - unfold vdot, n, s, m, vcross, vy3. cbn [vx vy vz]. rcbv; ring.
  - unfold n, s, vy3, vcross, ev3. cbn [vx vy vz]. apply vec_eq; rcbv; ring.
  - unfold vdot, n, s, m, vmass, vabs, vy3. cbn [vx vy vz]. norm_abs; lra.
  - unfold vle, n, s, vy3, vabs, vmass, av3. cbn [vx vy vz]. (split; [|split]); norm_abs; lra.
Qed.

(** ** The computed projections.  A plane has normal [nrm] and offset [off], a line direction [dirn] and moment [mom]. *)
Definition nrm (p : plane f32) : vec := vval (plane_p0 p).
Definition off (p : plane f32) : R := val (l0 (plane_p0 p)).
Definition dirn (l : line f32) : vec := vval (line_p1 l).
Definition mom (l : line f32) : vec := vval (line_p2 l).
Definition nought : m128 f32 := mk4 (B754_zero false) (B754_zero false) (B754_zero false) (B754_zero false).
Lemma nought_ok : Forall (bounded 20) (reg_list nought).
Proof. repeat (apply Forall_cons; [apply bounded_zero|]). apply Forall_nil. Qed.
Lemma lanes_ok3 a b c : Forall (bounded 20) (reg_list a) -> Forall (bounded 20) (reg_list b) -> Forall (bounded 20) (reg_list c) -> okx (lanes12 a b c).
Proof. intros H1 H2 H3. apply lanes12_ok. apply Forall_app. split; [exact H1|]. apply Forall_app. split; assumption. Qed.
Lemma pp_code (B : Build) (a : point f32) (b : plane f32) : point_p3 (project_point_plane a b) = map4 (eval (lanes12 (point_p3 a) (plane_p0 b) nought)) (point_p3 (project_point_plane (mkpoint (vreg 0)) (mkplane (vreg 4)))).
Proof. destruct a as [[a0 a1 a2 a3]], b as [[b0 b1 b2 b3]]. exact (pp_gen (lanes12 (mk4 a0 a1 a2 a3) (mk4 b0 b1 b2 b3) nought)). Qed.
Lemma pl_code (B : Build) (a : point f32) (b : line f32) : point_p3 (project_point_line a b) = map4 (eval (lanes12 (point_p3 a) (line_p1 b) (line_p2 b))) (point_p3 (project_point_line (mkpoint (vreg 0)) (mkline (vreg 4) (vreg 8)))).
Proof. destruct a as [[a0 a1 a2 a3]], b as [[b0 b1 b2 b3] [c0 c1 c2 c3]]. exact (pl_gen (lanes12 (mk4 a0 a1 a2 a3) (mk4 b0 b1 b2 b3) (mk4 c0 c1 c2 c3))). Qed.
Lemma lp_code1 (a : line f32) (b : plane f32) : line_p1 (project_line_plane a b) = map4 (eval (lanes12 (plane_p0 b) (line_p1 a) (line_p2 a))) (line_p1 (project_line_plane (mkline (vreg 4) (vreg 8)) (mkplane (vreg 0)))).
Proof. destruct b as [[a0 a1 a2 a3]], a as [[b0 b1 b2 b3] [c0 c1 c2 c3]]. exact (lp_gen1 (lanes12 (mk4 a0 a1 a2 a3) (mk4 b0 b1 b2 b3) (mk4 c0 c1 c2 c3))). Qed.
Lemma lp_code2 (a : line f32) (b : plane f32) : line_p2 (project_line_plane a b) = map4 (eval (lanes12 (plane_p0 b) (line_p1 a) (line_p2 a))) (line_p2 (project_line_plane (mkline (vreg 4) (vreg 8)) (mkplane (vreg 0)))).
Proof. destruct b as [[a0 a1 a2 a3]], a as [[b0 b1 b2 b3] [c0 c1 c2 c3]]. exact (lp_gen2 (lanes12 (mk4 a0 a1 a2 a3) (mk4 b0 b1 b2 b3) (mk4 c0 c1 c2 c3))). Qed.
Lemma np_code (B : Build) (a : plane f32) (b : point f32) : plane_p0 (project_plane_point a b) = map4 (eval (lanes12 (plane_p0 a) (point_p3 b) nought)) (plane_p0 (project_plane_point (mkplane (vreg 0)) (mkpoint (vreg 4)))).
Proof. destruct a as [[a0 a1 a2 a3]], b as [[b0 b1 b2 b3]]. exact (np_gen (lanes12 (mk4 a0 a1 a2 a3) (mk4 b0 b1 b2 b3) nought)). Qed.
Lemma lq_code1 (B : Build) (a : line f32) (b : point f32) : line_p1 (project_line_point a b) = map4 (eval (lanes12 (point_p3 b) (line_p1 a) (line_p2 a))) (line_p1 (project_line_point (mkline (vreg 4) (vreg 8)) (mkpoint (vreg 0)))).
Proof. destruct b as [[a0 a1 a2 a3]], a as [[b0 b1 b2 b3] [c0 c1 c2 c3]]. exact (lq_gen1 (lanes12 (mk4 a0 a1 a2 a3) (mk4 b0 b1 b2 b3) (mk4 c0 c1 c2 c3))). Qed.
Lemma lq_code2 (B : Build) (a : line f32) (b : point f32) : line_p2 (project_line_point a b) = map4 (eval (lanes12 (point_p3 b) (line_p1 a) (line_p2 a))) (line_p2 (project_line_point (mkline (vreg 4) (vreg 8)) (mkpoint (vreg 0)))).
Proof. destruct b as [[a0 a1 a2 a3]], a as [[b0 b1 b2 b3] [c0 c1 c2 c3]]. exact (lq_gen2 (lanes12 (mk4 a0 a1 a2 a3) (mk4 b0 b1 b2 b3) (mk4 c0 c1 c2 c3))). Qed.
Lemma nl_code (a : plane f32) (b : line f32) : plane_p0 (project_plane_line a b) = map4 (eval (lanes12 (plane_p0 a) (line_p1 b) (line_p2 b))) (plane_p0 (project_plane_line (mkplane (vreg 0)) (mkline (vreg 4) (vreg 8)))).
Proof. destruct a as [[a0 a1 a2 a3]], b as [[b0 b1 b2 b3] [c0 c1 c2 c3]]. exact (nl_gen (lanes12 (mk4 a0 a1 a2 a3) (mk4 b0 b1 b2 b3) (mk4 c0 c1 c2 c3))). Qed.

Lemma vdot_abs_pos a b : 0 <= vdot (vabs a) (vabs b).
Proof. destruct (vabs_pos a) as (N1 & N2 & N3), (vabs_pos b) as (X1 & X2 & X3). unfold vdot. repeat apply Rplus_le_le_0_compat; apply Rmult_le_pos; assumption. Qed.
Lemma vdot_abs_len a b : vdot (vabs a) (vabs b) <= vlen a * vlen b.
Proof. rewrite <- (vlen_vabs a), <- (vlen_vabs b). apply vdot_len; apply vabs_pos. Qed.
Lemma vmass_abs a b : vlen (vmass (vabs a) (vabs b)) <= 3 / 2 * (vlen a * vlen b).
Proof. rewrite <- (vlen_vabs a), <- (vlen_vabs b). apply vmass_len. Qed.
Lemma vmass_abs2 a b c : vlen (vmass (vmass (vabs a) (vabs b)) (vabs c)) <= 2 * (vlen a * vlen b * vlen c).
Proof. rewrite <- (vlen_vabs a), <- (vlen_vabs b), <- (vlen_vabs c). apply vmass_len2. Qed.
Lemma vmass_pos a b : vpos a -> vpos b -> vpos (vmass a b).
Proof. intros (A1 & A2 & A3) (B1 & B2 & B3). unfold vmass, vpos. cbn [vx vy vz]. repeat split; apply Rplus_le_le_0_compat; apply Rmult_le_pos; assumption. Qed.
Lemma grow k b c : 0 <= k -> b <= c -> forall z, k * b + z <= k * c + z. Proof. intros. apply Rplus_le_compat_r, Rmult_le_compat_l; assumption. Qed.
Definition bound (v : m128 f32) := Forall (bounded 20) (reg_list v).
Theorem C84_point_plane : forall (B : Build) (a : point f32) (b : plane f32), bound (point_p3 a) -> bound (plane_p0 b) ->
  let x := pos a in let w := wt a in let n := nrm b in let d := off b in let q := project_point_plane a b in
  Forall fin (reg_list (point_p3 q)) /\
  Rabs (wt q - vdot n n * w) <= unit_err 6 * (vlen n * vlen n * Rabs w) + tiny /\
  vlen (vsub (pos q) (vsub (vscale (vdot n n) x) (vscale (vdot n x + d * w) n))) <= unit_err 5 * (2 * (vlen n * vlen n * vlen x) + Rabs (d * w) * vlen n) + 2 * tiny.
Proof.
  intros B a b Ha Hb x w n d q. pose proof (lanes_ok3 _ _ _ Ha Hb nought_ok) as X. set (L := lanes12 (point_p3 a) (plane_p0 b) nought) in *.
  set (c := point_p3 (project_point_plane (A := Arith_expr) (mkpoint (vreg 0)) (mkplane (vreg 4)))).
  assert (G0 : good 6 (l0 c) = true) by (unfold c; destruct B as [[|]]; vm_compute; reflexivity).
  assert (G : good 5 (l1 c) && good 5 (l2 c) && good 5 (l3 c) = true) by (unfold c; destruct B as [[|]]; vm_compute; reflexivity).
  destruct (pp_exact B (fun k => val (L k))) as (E0 & E & M0 & M). fold c in E0, E, M0, M.
  assert (C : point_p3 q = map4 (eval L) c) by apply pp_code. clearbody q c.
  destruct (term L (l0 c) _ _ 6 X G0 E0 M0) as [F0 Q0].
  destruct (term3 L c _ _ 5 X G E M) as (F1 & F2 & F3 & Q).
  change (vy3 (fun k => val (L k)) 4) with n in *. change (vy3 (fun k => val (L k)) 0) with x in *. change (val (L 0%nat)) with w in *. change (val (L 4%nat)) with d in *.
  split; [|split].
  - rewrite C. repeat (apply Forall_cons; [assumption|]). apply Forall_nil.
  - unfold wt. rewrite C, vlen_sq. exact Q0.
  - change (pos q) with (vval (point_p3 q)). rewrite C. eapply Rle_trans; [exact Q|]. apply grow; [apply unit_err_pos|].
    eapply Rle_trans; [apply vlen_tri|]. pose proof (vlen_tri (vscale (vdot (vabs n) (vabs x)) (vabs n)) (vscale (Rabs d * Rabs w) (vabs n))) as T.
    assert (D0 : 0 <= vdot (vabs n) (vabs x)) by (destruct (vabs_pos n) as (N1 & N2 & N3), (vabs_pos x) as (X1 & X2 & X3); unfold vdot; repeat apply Rplus_le_le_0_compat; apply Rmult_le_pos; assumption).
    assert (D1 : 0 <= Rabs d * Rabs w) by (apply Rmult_le_pos; apply Rabs_pos). assert (D2 : 0 <= vdot n n) by (unfold vdot; nra).
    rewrite !vlen_scale_pos in * by assumption. rewrite !vlen_vabs in *. pose proof (vdot_len _ _ (vabs_pos n) (vabs_pos x)) as D3. rewrite !vlen_vabs in D3.
    pose proof (Rmult_le_compat_r (vlen n) _ _ (vlen_pos n) D3). rewrite <- vlen_sq, Rabs_mult. lra.
Qed.
Print Assumptions C84_point_plane.

Theorem C84_point_line : forall (B : Build) (a : point f32) (b : line f32), bound (point_p3 a) -> bound (line_p1 b) -> bound (line_p2 b) -> val (l0 (line_p1 b)) = 0 ->
  let x := pos a in let w := wt a in let s := dirn b in let m := mom b in let q := project_point_line a b in
  Forall fin (reg_list (point_p3 q)) /\
  Rabs (wt q + vdot s s * w) <= unit_err 7 * (vlen s * vlen s * Rabs w) + tiny /\
  vlen (vadd (pos q) (vadd (vscale (vdot s x) s) (vscale w (vcross s m)))) <= unit_err 7 * (vlen s * vlen s * vlen x + 3 / 2 * (Rabs w * (vlen s * vlen m))) + 2 * tiny.
Proof.
  intros B a b Ha Hb Hc Z x w s m q. pose proof (lanes_ok3 _ _ _ Ha Hb Hc) as X. set (L := lanes12 (point_p3 a) (line_p1 b) (line_p2 b)) in *.
  set (c := point_p3 (project_point_line (A := Arith_expr) (mkpoint (vreg 0)) (mkline (vreg 4) (vreg 8)))).
  assert (G0 : good 7 (l0 c) = true) by (unfold c; destruct B as [[|]]; vm_compute; reflexivity).
  assert (G : good 7 (l1 c) && good 7 (l2 c) && good 7 (l3 c) = true) by (unfold c; destruct B as [[|]]; vm_compute; reflexivity).
  destruct (pl_exact B (fun k => val (L k)) Z) as (E0 & E & M0 & M). fold c in E0, E, M0, M.
  assert (C : point_p3 q = map4 (eval L) c) by apply pl_code. clearbody q c.
  destruct (term L (l0 c) _ _ 7 X G0 E0 M0) as [F0 Q0].
  destruct (term3 L c _ _ 7 X G E M) as (F1 & F2 & F3 & Q).
  change (vy3 (fun k => val (L k)) 8) with m in *. change (vy3 (fun k => val (L k)) 4) with s in *. change (vy3 (fun k => val (L k)) 0) with x in *. change (val (L 0%nat)) with w in *.
  split; [|split].
  - rewrite C. repeat (apply Forall_cons; [assumption|]). apply Forall_nil.
  - unfold wt. rewrite C, vlen_sq. unfold Rminus in Q0. rewrite Ropp_involutive in Q0. exact Q0.
  - change (pos q) with (vval (point_p3 q)). rewrite C. set (z := vadd (vscale (vdot s x) s) (vscale w (vcross s m))) in *.
    replace (vadd (vval (map4 (eval L) c)) z) with (vsub (vval (map4 (eval L) c)) (vopp z)) by (unfold vsub, vadd, vopp; apply vec_eq; cbn [vx vy vz]; ring).
    eapply Rle_trans; [exact Q|]. apply grow; [apply unit_err_pos|].
    eapply Rle_trans; [apply vlen_tri|]. pose proof (Rabs_pos w) as W. pose proof (vdot_abs_pos s x) as D0.
    rewrite !vlen_scale_pos by assumption. rewrite vlen_vabs. pose proof (Rmult_le_compat_r (vlen s) _ _ (vlen_pos s) (vdot_abs_len s x)).
    pose proof (Rmult_le_compat_l (Rabs w) _ _ W (vmass_abs s m)). lra.
Qed.
Print Assumptions C84_point_line.
Theorem C84_line_plane : forall (a : line f32) (b : plane f32), bound (line_p1 a) -> bound (line_p2 a) -> bound (plane_p0 b) ->
  let s := dirn a in let m := mom a in let n := nrm b in let d := off b in let q := project_line_plane a b in
  Forall fin (reg_list (line_p1 q) ++ reg_list (line_p2 q)) /\
  vlen (vsub (dirn q) (vcross (vcross n s) n)) <= unit_err 4 * (2 * (vlen n * vlen n * vlen s)) + 2 * tiny /\
  vlen (vsub (mom q) (vsub (vscale (vdot n m) n) (vscale d (vcross n s)))) <= unit_err 6 * (vlen n * vlen n * vlen m + 3 / 2 * (Rabs d * (vlen n * vlen s))) + 2 * tiny.
Proof.
  intros a b Ha Hc Hb s m n d q. pose proof (lanes_ok3 _ _ _ Hb Ha Hc) as X. set (L := lanes12 (plane_p0 b) (line_p1 a) (line_p2 a)) in *.
  set (r := project_line_plane (A := Arith_expr) (mkline (vreg 4) (vreg 8)) (mkplane (vreg 0))). set (c := line_p1 r). set (e := line_p2 r).
  assert (G1 : good 4 (l1 c) && good 4 (l2 c) && good 4 (l3 c) = true) by (vm_compute; reflexivity).
  assert (G2 : good 6 (l1 e) && good 6 (l2 e) && good 6 (l3 e) = true) by (vm_compute; reflexivity).
  assert (G3 : good 6 (l0 c) && good 6 (l0 e) = true) by (vm_compute; reflexivity). apply andb_prop in G3. destruct G3 as [G3 G4].
  destruct (lp_exact (fun k => val (L k))) as (E1 & E2 & M1 & M2). fold r in E1, E2, M1, M2. fold c in E1, M1. fold e in E2, M2.
  assert (C1 : line_p1 q = map4 (eval L) c) by apply lp_code1. assert (C2 : line_p2 q = map4 (eval L) e) by apply lp_code2. clearbody q c e. clear r.
  destruct (term L (l0 c) _ _ 6 X G3 eq_refl (Rle_refl _)) as [F0 _]. destruct (term L (l0 e) _ _ 6 X G4 eq_refl (Rle_refl _)) as [F4 _].
  destruct (term3 L c _ _ 4 X G1 E1 M1) as (F1 & F2 & F3 & Q1). destruct (term3 L e _ _ 6 X G2 E2 M2) as (F5 & F6 & F7 & Q2).
  change (vy3 (fun k => val (L k)) 8) with m in *. change (vy3 (fun k => val (L k)) 4) with s in *. change (vy3 (fun k => val (L k)) 0) with n in *. change (val (L 0%nat)) with d in *.
  split; [|split].
  - rewrite C1, C2. repeat (apply Forall_cons; [assumption|]). apply Forall_nil.
  - unfold dirn. rewrite C1. eapply Rle_trans; [exact Q1|]. apply grow; [apply unit_err_pos|]. pose proof (vmass_abs2 n s n). lra.
  - unfold mom. rewrite C2. eapply Rle_trans; [exact Q2|]. apply grow; [apply unit_err_pos|]. eapply Rle_trans; [apply vlen_tri|].
    pose proof (Rabs_pos d) as D. pose proof (vdot_abs_pos n m) as D0. rewrite !vlen_scale_pos by assumption. rewrite vlen_vabs.
    pose proof (Rmult_le_compat_r (vlen n) _ _ (vlen_pos n) (vdot_abs_len n m)). pose proof (Rmult_le_compat_l (Rabs d) _ _ D (vmass_abs n s)). lra.
Qed.
Print Assumptions C84_line_plane.
Theorem C84_plane_point : forall (B : Build) (a : plane f32) (b : point f32), bound (plane_p0 a) -> bound (point_p3 b) ->
  let n := nrm a in let x := pos b in let w := wt b in let q := project_plane_point a b in
  Forall fin (reg_list (plane_p0 q)) /\
  vlen (vsub (nrm q) (vscale (- (w * w)) n)) <= unit_err 2 * (w * w * vlen n) + 2 * tiny /\
  Rabs (off q - w * vdot n x) <= unit_err 6 * (Rabs w * (vlen n * vlen x)) + tiny.
Proof.
  intros B a b Ha Hb n x w q. pose proof (lanes_ok3 _ _ _ Ha Hb nought_ok) as X. set (L := lanes12 (plane_p0 a) (point_p3 b) nought) in *.
  set (c := plane_p0 (project_plane_point (A := Arith_expr) (mkplane (vreg 0)) (mkpoint (vreg 4)))).
  assert (G0 : good 6 (l0 c) = true) by (unfold c; destruct B as [[|]]; vm_compute; reflexivity).
  assert (G : good 2 (l1 c) && good 2 (l2 c) && good 2 (l3 c) = true) by (unfold c; destruct B as [[|]]; vm_compute; reflexivity).
  destruct (np_exact B (fun k => val (L k))) as (E0 & E & M0 & M). fold c in E0, E, M0, M.
  assert (C : plane_p0 q = map4 (eval L) c) by apply np_code. clearbody q c.
  destruct (term L (l0 c) _ _ 6 X G0 E0 M0) as [F0 Q0].
  destruct (term3 L c _ _ 2 X G E M) as (F1 & F2 & F3 & Q).
  change (vy3 (fun k => val (L k)) 4) with x in *. change (vy3 (fun k => val (L k)) 0) with n in *. change (val (L 4%nat)) with w in *.
  split; [|split].
  - rewrite C. repeat (apply Forall_cons; [assumption|]). apply Forall_nil.
  - unfold nrm. rewrite C. eapply Rle_trans; [exact Q|]. apply grow; [apply unit_err_pos|]. rewrite vlen_scale_pos, vlen_vabs by nra. lra.
  - unfold off. rewrite C. eapply Rle_trans; [exact Q0|]. apply grow; [apply unit_err_pos|]. apply Rmult_le_compat_l; [apply Rabs_pos|apply vdot_abs_len].
Qed.
Print Assumptions C84_plane_point.
Theorem C84_line_point : forall (B : Build) (a : line f32) (b : point f32), bound (line_p1 a) -> bound (line_p2 a) -> bound (point_p3 b) -> val (l0 (line_p1 a)) = 0 ->
  let s := dirn a in let x := pos b in let w := wt b in let q := project_line_point a b in
  Forall fin (reg_list (line_p1 q) ++ reg_list (line_p2 q)) /\
  vlen (vsub (dirn q) (vscale (- (w * w)) s)) <= unit_err 2 * (w * w * vlen s) + 2 * tiny /\
  vlen (vsub (mom q) (vscale (- w) (vcross x s))) <= unit_err 3 * (3 / 2 * (Rabs w * (vlen x * vlen s))) + 2 * tiny.
Proof.
  intros B a b Ha Hc Hb Z s x w q. pose proof (lanes_ok3 _ _ _ Hb Ha Hc) as X. set (L := lanes12 (point_p3 b) (line_p1 a) (line_p2 a)) in *.
  set (r := project_line_point (A := Arith_expr) (mkline (vreg 4) (vreg 8)) (mkpoint (vreg 0))). set (c := line_p1 r). set (e := line_p2 r).
  assert (G1 : good 2 (l1 c) && good 2 (l2 c) && good 2 (l3 c) = true) by (unfold c, r; destruct B as [[|]]; vm_compute; reflexivity).
  assert (G2 : good 3 (l1 e) && good 3 (l2 e) && good 3 (l3 e) = true) by (unfold e, r; destruct B as [[|]]; vm_compute; reflexivity).
  assert (G3 : good 9 (l0 c) && good 9 (l0 e) = true) by (unfold c, e, r; destruct B as [[|]]; vm_compute; reflexivity). apply andb_prop in G3. destruct G3 as [G3 G4].
  destruct (lq_exact B (fun k => val (L k)) Z) as (E1 & E2 & M1 & M2). fold r in E1, E2, M1, M2. fold c in E1, M1. fold e in E2, M2.
  assert (C1 : line_p1 q = map4 (eval L) c) by apply lq_code1. assert (C2 : line_p2 q = map4 (eval L) e) by apply lq_code2. clearbody q c e. clear r.
  destruct (term L (l0 c) _ _ 9 X G3 eq_refl (Rle_refl _)) as [F0 _]. destruct (term L (l0 e) _ _ 9 X G4 eq_refl (Rle_refl _)) as [F4 _].
  destruct (term3 L c _ _ 2 X G1 E1 M1) as (F1 & F2 & F3 & Q1). destruct (term3 L e _ _ 3 X G2 E2 M2) as (F5 & F6 & F7 & Q2).
  change (vy3 (fun k => val (L k)) 4) with s in *. change (vy3 (fun k => val (L k)) 0) with x in *. change (val (L 0%nat)) with w in *.
  split; [|split].
  - rewrite C1, C2. repeat (apply Forall_cons; [assumption|]). apply Forall_nil.
  - unfold dirn. rewrite C1. eapply Rle_trans; [exact Q1|]. apply grow; [apply unit_err_pos|]. rewrite vlen_scale_pos, vlen_vabs by nra. lra.
  - unfold mom. rewrite C2. eapply Rle_trans; [exact Q2|]. apply grow; [apply unit_err_pos|]. rewrite vlen_scale_pos by apply Rabs_pos.
    pose proof (Rmult_le_compat_l (Rabs w) _ _ (Rabs_pos w) (vmass_abs x s)). lra.
Qed.
Print Assumptions C84_line_point.
Theorem C84_plane_line : forall (a : plane f32) (b : line f32), bound (plane_p0 a) -> bound (line_p1 b) -> bound (line_p2 b) ->
  let n := nrm a in let s := dirn b in let m := mom b in let q := project_plane_line a b in
  Forall fin (reg_list (plane_p0 q)) /\
  vlen (vsub (nrm q) (vcross s (vcross s n))) <= unit_err 4 * (2 * (vlen n * (vlen s * vlen s))) + 2 * tiny /\
  Rabs (off q - vdot (vcross n s) m) <= unit_err 7 * (3 / 2 * (vlen n * vlen s * vlen m)) + tiny.
Proof.
  intros a b Ha Hb Hc n s m q. pose proof (lanes_ok3 _ _ _ Ha Hb Hc) as X. set (L := lanes12 (plane_p0 a) (line_p1 b) (line_p2 b)) in *.
  set (c := plane_p0 (project_plane_line (A := Arith_expr) (mkplane (vreg 0)) (mkline (vreg 4) (vreg 8)))).
  assert (G0 : good 7 (l0 c) = true) by (vm_compute; reflexivity).
  assert (G : good 4 (l1 c) && good 4 (l2 c) && good 4 (l3 c) = true) by (vm_compute; reflexivity).
  destruct (nl_exact (fun k => val (L k))) as (E0 & E & M0 & M). fold c in E0, E, M0, M.
  assert (C : plane_p0 q = map4 (eval L) c) by apply nl_code. clearbody q c.
  destruct (term L (l0 c) _ _ 7 X G0 E0 M0) as [F0 Q0].
  destruct (term3 L c _ _ 4 X G E M) as (F1 & F2 & F3 & Q).
  change (vy3 (fun k => val (L k)) 8) with m in *. change (vy3 (fun k => val (L k)) 4) with s in *. change (vy3 (fun k => val (L k)) 0) with n in *.
  split; [|split].
  - rewrite C. repeat (apply Forall_cons; [assumption|]). apply Forall_nil.
  - unfold nrm. rewrite C. eapply Rle_trans; [exact Q|]. apply grow; [apply unit_err_pos|]. pose proof (vmass_abs2 n s s). lra.
  - unfold off. rewrite C. eapply Rle_trans; [exact Q0|]. apply grow; [apply unit_err_pos|].
    eapply Rle_trans; [apply vdot_len; [apply vmass_pos; apply vabs_pos|apply vabs_pos]|]. rewrite vlen_vabs. pose proof (Rmult_le_compat_r (vlen m) _ _ (vlen_pos m) (vmass_abs n s)). lra.
Qed.
Print Assumptions C84_plane_line.

(** ** Where the projected points are.  [place] is the position of a point once divided by its weight. *)
Definition place (q : point f32) : vec := vscale (/ wt q) (pos q).
Lemma vcross_len a b : vlen (vcross a b) <= vlen a * vlen b.
Proof.
  apply vlen_bound; [apply Rmult_le_pos; apply vlen_pos|]. replace (vlen a * vlen b * (vlen a * vlen b)) with (vlen a * vlen a * (vlen b * vlen b)) by ring. rewrite !vlen_sq.
  assert (E : vdot (vcross a b) (vcross a b) = vdot a a * vdot b b - vdot a b * vdot a b) by (unfold vdot, vcross; cbn [vx vy vz]; ring). rewrite E. pose proof (Rle_0_sqr (vdot a b)). unfold Rsqr in *. lra.
Qed.
Lemma divide_place K W P y a E : 999 / 1000 <= Rabs K -> Rabs (W - K) <= a -> a <= / 1000 -> vlen (vsub P (vscale K y)) <= E -> W <> 0 /\ vlen (vsub (vscale (/ W) P) y) <= 501 / 500 * (1 + / 100000) * (E + a * vlen y).
Proof.
  intros HK HW Ha HE. assert (W1 : 998 / 1000 <= Rabs W). { pose proof (Rabs_triang_inv K (K - W)) as T. replace (K - (K - W)) with W in T by ring. rewrite (Rabs_minus_sym K W) in T. lra. }
  assert (W0 : W <> 0) by (intros ->; rewrite Rabs_R0 in W1; lra). split; [exact W0|].
  replace (vsub (vscale (/ W) P) y) with (vscale (/ W) (vadd (vsub P (vscale K y)) (vscale (K - W) y))).
  2: { unfold vscale, vadd, vsub. cbn [vx vy vz]. apply vec_eq; cbn [vx vy vz]; field; exact W0. }
  rewrite vlen_scale. pose proof (vlen_pos y) as Y0. pose proof (Rabs_pos (W - K)).
  assert (T : vlen (vadd (vsub P (vscale K y)) (vscale (K - W) y)) <= E + a * vlen y).
  { eapply Rle_trans; [apply vlen_tri|]. rewrite vlen_scale, (Rabs_minus_sym K W). apply Rplus_le_compat; [exact HE|]. apply Rmult_le_compat_r; assumption. }
  apply Rmult_le_compat; [apply Rabs_pos|apply vlen_pos| |exact T]. rewrite Rabs_inv. apply (Rle_trans _ (/ (998 / 1000))); [apply Rinv_le_contravar; lra|]. lra.
Qed.
Lemma near_unit_len n : Rabs (vdot n n - 1) <= / 1000 -> 999 / 1000 <= vdot n n <= 1001 / 1000 /\ 999 / 1000 <= vlen n <= 1001 / 1000.
Proof.
  intro H. apply Rabs_le_inv in H. split; [lra|]. pose proof (vlen_pos n). pose proof (vlen_sq n) as S. split; nra.
Qed.
Lemma tiny_small r : / 2 ^ 60 <= r -> 0 <= tiny <= / 4000 * u * r.
Proof.
  intro H. split; [apply bpow_ge_0|]. pose proof (tiny_r r H) as T. unfold tiny. replace (bpow radix2 (-122)) with (/ 4 * bpow radix2 (-120)); [lra|].
  change (/ 4) with (bpow radix2 (-2)). rewrite <- bpow_plus. reflexivity.
Qed.
(** A point projected on a normalized plane lies within 34 roundings of the foot of its perpendicular. *)
Theorem C84_foot_plane : forall (B : Build) (a : point f32) (b : plane f32) r, bound (point_p3 a) -> bound (plane_p0 b) ->
  wt a = 1 -> Rabs (vdot (nrm b) (nrm b) - 1) <= / 1000 -> vlen (pos a) <= r -> Rabs (off b) <= r -> / 2 ^ 60 <= r ->
  let q := project_point_plane a b in Forall fin (reg_list (point_p3 q)) /\ wt q <> 0 /\
  exists y, on_plane (nrm b) (off b) y /\ (exists t, vsub (pos a) y = vscale t (nrm b)) /\ vlen (vsub (place q) y) <= 34 * u * r.
Proof.
  intros B a b r Ha Hb W Hn Hx Hd Hr q. destruct (C84_point_plane B a b Ha Hb) as (F & Q0 & Q). fold q in F, Q0, Q. clearbody q. split; [exact F|].
  rewrite W in Q0, Q. set (n := nrm b) in *. set (x := pos a) in *. set (d := off b) in *. destruct (near_unit_len n Hn) as [N1 N2]. set (N := vdot n n) in *. set (l := vlen n) in *.
  pose proof (vlen_sq n) as LS. fold l N in LS. pose proof (tiny_small r Hr) as TS. assert (r0 : 0 < r) by (eapply Rlt_le_trans; [|exact Hr]; apply Rinv_0_lt_compat; apply pow_lt; lra).
  set (t := (vdot n x + d) / N). set (y := vsub x (vscale t n)).
  assert (Y : vlen y <= 3003 / 1000 * r).
  { unfold y. apply (Rle_trans _ (vlen x + Rabs t * vlen n)).
    { replace (vsub x (vscale t n)) with (vadd x (vscale (- t) n)) by (unfold vsub, vadd, vscale; cbn [vx vy vz]; apply vec_eq; cbn [vx vy vz]; ring). eapply Rle_trans; [apply vlen_tri|]. rewrite vlen_scale, Rabs_Ropp. lra. }
    fold l. assert (T : Rabs t * l <= 2002 / 1000 * r); [|lra]. unfold t, Rdiv. rewrite Rabs_mult, Rabs_inv, (Rabs_pos_eq N) by lra. rewrite <- LS, Rinv_mult.
    replace (Rabs (vdot n x + d) * (/ l * / l) * l) with (Rabs (vdot n x + d) * / l) by (field; lra).
    assert (Z : Rabs (vdot n x + d) <= l * r + r). { eapply Rle_trans; [apply Rabs_triang|]. apply Rplus_le_compat; [|exact Hd]. eapply Rle_trans; [apply vdot_abs|]. fold l. apply Rmult_le_compat_l; lra. }
    apply (Rle_trans _ ((l * r + r) * / l)); [apply Rmult_le_compat_r; [apply Rlt_le, Rinv_0_lt_compat; lra|exact Z]|]. replace ((l * r + r) * / l) with (r + r * / l) by (field; lra).
    assert (I : / l <= 1002 / 1000) by (apply (Rle_trans _ (/ (999 / 1000))); [apply Rinv_le_contravar; lra|lra]). pose proof (Rmult_le_compat_l r _ _ (Rlt_le _ _ r0) I). lra. }
  assert (u0 : 0 < u) by (unfold u; lra). assert (ur : 0 < u * r) by (apply Rmult_lt_0_compat; assumption).
  assert (E0 : Rabs (wt q - N) <= 601 / 100 * u).
  { replace (N * 1) with N in Q0 by ring. eapply Rle_trans; [exact Q0|]. rewrite Rabs_R1, LS. unfold unit_err. replace (INR 6) with 6 by (cbn; ring).
    pose proof (tiny_small 1 ltac:(apply (Rle_trans _ (/ 1)); [apply Rinv_le_contravar; [lra|apply pow_R1_Rle; lra]|lra])) as T1. assert (6 * u * (1 + / 100000) * (N * 1) <= u * (6007 / 1000)) by (replace (6 * u * (1 + / 100000) * (N * 1)) with (u * (6 * (1 + / 100000) * N)) by ring; apply Rmult_le_compat_l; lra). lra. }
  assert (E1 : vlen (vsub (pos q) (vscale N y)) <= 1502 / 100 * u * r).
  { replace (vscale N y) with (vsub (vscale N x) (vscale (vdot n x + d * 1) n)).
    2: { unfold y, t, vsub, vscale. cbn [vx vy vz]. apply vec_eq; cbn [vx vy vz]; field; lra. }
    eapply Rle_trans; [exact Q|]. unfold unit_err. replace (INR 5) with 5 by (cbn; ring). rewrite LS, Rmult_1_r. pose proof (vlen_pos x). pose proof (Rabs_pos d).
    assert (N * vlen x <= 1001 / 1000 * r) by (apply Rmult_le_compat; lra). assert (Rabs d * l <= r * (1001 / 1000)) by (apply Rmult_le_compat; lra).
    assert (5 * u * (1 + / 100000) * (2 * (N * vlen x) + Rabs d * l) <= 5 * u * (1 + / 100000) * (3003 / 1000 * r)) by (apply Rmult_le_compat_l; lra). lra. }
  destruct (divide_place N (wt q) (pos q) y _ _ ltac:(rewrite Rabs_pos_eq; lra) E0 ltac:(unfold u; lra) E1) as [Z D]. split; [exact Z|]. exists y. split; [|split].
  - unfold on_plane, y. replace (vdot n (vsub x (vscale t n))) with (vdot n x - t * N) by (unfold N, vdot, vsub, vscale; cbn [vx vy vz]; ring). unfold t. field. lra.
  - exists t. unfold y, vsub, vscale. cbn [vx vy vz]. apply vec_eq; cbn [vx vy vz]; ring.
  - unfold place. eapply Rle_trans; [exact D|]. pose proof (vlen_pos y). assert (601 / 100 * u * vlen y <= 601 / 100 * u * (3003 / 1000 * r)) by (apply Rmult_le_compat_l; lra). lra.
Qed.
Print Assumptions C84_foot_plane.
(** A point projected on a line with a normalized direction lies within 33 roundings of the foot of its perpendicular on the
    line (whose moment, if it has a part along the direction, has that part taken off). *)
Theorem C84_foot_line : forall (B : Build) (a : point f32) (b : line f32) r, bound (point_p3 a) -> bound (line_p1 b) -> bound (line_p2 b) -> val (l0 (line_p1 b)) = 0 ->
  wt a = 1 -> Rabs (vdot (dirn b) (dirn b) - 1) <= / 1000 -> vlen (pos a) <= r -> vlen (mom b) <= r -> / 2 ^ 60 <= r ->
  let q := project_point_line a b in let s := dirn b in let m := mom b in Forall fin (reg_list (point_p3 q)) /\ wt q <> 0 /\
  exists y, on_line s (vsub m (vscale (vdot s m / vdot s s) s)) y /\ vdot (vsub (pos a) y) s = 0 /\ vlen (vsub (place q) y) <= 33 * u * r.
Proof.
  intros B a b r Ha Hb Hc Z W Hn Hx Hd Hr q s m. destruct (C84_point_line B a b Ha Hb Hc Z) as (F & Q0 & Q). fold q in F, Q0, Q. clearbody q. split; [exact F|].
  rewrite W in Q0, Q. fold s m in Q0, Q, Hn, Hd. set (x := pos a) in *. clearbody s m x. destruct (near_unit_len s Hn) as [N1 N2]. set (N := vdot s s) in *. set (l := vlen s) in *.
  pose proof (vlen_sq s) as LS. fold l N in LS. pose proof (tiny_small r Hr) as TS. assert (r0 : 0 < r) by (eapply Rlt_le_trans; [|exact Hr]; apply Rinv_0_lt_compat; apply pow_lt; lra).
  set (v := vadd (vscale (vdot s x) s) (vscale 1 (vcross s m))) in *. set (y := vscale (/ N) v).
  assert (I : / N <= 10011 / 10000) by (apply (Rle_trans _ (/ (999 / 1000))); [apply Rinv_le_contravar; lra|lra]). assert (I0 : 0 < / N) by (apply Rinv_0_lt_compat; lra).
  assert (Y : vlen y <= 2005 / 1000 * r).
  { unfold y. rewrite vlen_scale_pos by lra. assert (VL : vlen v <= 2002 / 1000 * r).
    { unfold v. eapply Rle_trans; [apply vlen_tri|]. rewrite !vlen_scale, Rabs_R1. fold l. pose proof (vdot_abs s x) as D. fold l in D. pose proof (vcross_len s m) as C. fold l in C. pose proof (Rabs_pos (vdot s x)). pose proof (vlen_pos x). pose proof (vlen_pos m).
      assert (Rabs (vdot s x) * l <= l * vlen x * l) by (apply Rmult_le_compat_r; lra). assert (l * l * vlen x <= 1001 / 1000 * r) by (rewrite LS; apply Rmult_le_compat; lra). assert (l * vlen m <= 1001 / 1000 * r) by (apply Rmult_le_compat; lra). lra. }
    pose proof (vlen_pos v). assert (/ N * vlen v <= 10011 / 10000 * (2002 / 1000 * r)) by (apply Rmult_le_compat; lra). lra. }
  assert (u0 : 0 < u) by (unfold u; lra). assert (ur : 0 < u * r) by (apply Rmult_lt_0_compat; assumption).
  assert (E0 : Rabs (wt q - - N) <= 701 / 100 * u).
  { unfold Rminus. rewrite Ropp_involutive. replace (N * 1) with N in Q0 by ring. eapply Rle_trans; [exact Q0|]. rewrite Rabs_R1, LS. unfold unit_err. replace (INR 7) with 7 by (cbn; ring).
    pose proof (tiny_small 1 ltac:(apply (Rle_trans _ (/ 1)); [apply Rinv_le_contravar; [lra|apply pow_R1_Rle; lra]|lra])) as T1. assert (7 * u * (1 + / 100000) * (N * 1) <= u * (7008 / 1000)) by (replace (7 * u * (1 + / 100000) * (N * 1)) with (u * (7 * (1 + / 100000) * N)) by ring; apply Rmult_le_compat_l; lra). lra. }
  assert (E1 : vlen (vsub (pos q) (vscale (- N) y)) <= 1754 / 100 * u * r).
  { replace (vsub (pos q) (vscale (- N) y)) with (vadd (pos q) v).
    2: { unfold y, vsub, vadd, vscale. cbn [vx vy vz]. apply vec_eq; cbn [vx vy vz]; field; lra. }
    eapply Rle_trans; [exact Q|]. unfold unit_err. replace (INR 7) with 7 by (cbn; ring). rewrite LS, Rabs_R1. pose proof (vlen_pos x). pose proof (vlen_pos m).
    assert (N * vlen x <= 1001 / 1000 * r) by (apply Rmult_le_compat; lra). assert (l * vlen m <= 1001 / 1000 * r) by (apply Rmult_le_compat; lra).
    assert (7 * u * (1 + / 100000) * (N * vlen x + 3 / 2 * (1 * (l * vlen m))) <= 7 * u * (1 + / 100000) * (25025 / 10000 * r)) by (apply Rmult_le_compat_l; lra). lra. }
  destruct (divide_place (- N) (wt q) (pos q) y _ _ ltac:(rewrite Rabs_Ropp, Rabs_pos_eq; lra) E0 ltac:(unfold u; lra) E1) as [Z0 D]. split; [exact Z0|]. exists y. split; [|split].
  - unfold on_line, y, v. apply vec_eq; unfold vcross, vsub, vadd, vscale; cbn [vx vy vz]; (apply (Rmult_eq_reg_l N); [|lra]); field_simplify; try lra; unfold N, vdot; cbn [vx vy vz]; ring.
  - replace (vdot (vsub x y) s) with (vdot s x - vdot y s) by (unfold vdot, vsub; cbn [vx vy vz]; ring).
    replace (vdot y s) with (/ N * (vdot s x * N)) by (unfold y, v, N, vdot, vscale, vadd, vcross; cbn [vx vy vz]; ring). field. lra.
  - unfold place. eapply Rle_trans; [exact D|]. pose proof (vlen_pos y). assert (701 / 100 * u * vlen y <= 701 / 100 * u * (2005 / 1000 * r)) by (apply Rmult_le_compat_l; lra). lra.
Qed.
Print Assumptions C84_foot_line.
(** The line the projection of a line on a plane is compared with passes through the foot of the perpendicular of every
    point of the line, and the plane the projection of a plane on a line is compared with contains the line. *)
Theorem C84_line_plane_geometry : forall n d s m c y t, on_line s m c -> on_plane n d y -> vsub c y = vscale t n ->
  on_line (vcross (vcross n s) n) (vsub (vscale (vdot n m) n) (vscale d (vcross n s))) y.
Proof.
  intros n d s m c y t Hm Hy Hc. unfold on_line, on_plane in *. subst m. assert (Ec : c = vadd y (vscale t n)).
  { assert (X1 := f_equal vx Hc). assert (X2 := f_equal vy Hc). assert (X3 := f_equal vz Hc). unfold vsub, vscale, vadd in *. cbn [vx vy vz] in *. apply vec_eq; cbn [vx vy vz]; lra. }
  subst c. replace d with (- vdot n y) by lra. clear. unfold vdot, vcross, vsub, vscale, vadd. cbn [vx vy vz]. apply vec_eq; cbn [vx vy vz]; ring.
Qed.
Theorem C84_plane_line_geometry : forall n s m c, on_line s m c -> on_plane (vcross s (vcross s n)) (vdot (vcross n s) m) c.
Proof. intros n s m c H. unfold on_line, on_plane in *. subst m. unfold vdot, vcross. cbn [vx vy vz]. ring. Qed.
(** The computed plane, or line, through a point passes through it up to rounding. *)
Theorem C84_through_point : forall (B : Build) (b : point f32), bound (point_p3 b) -> wt b = 1 ->
  (forall a : plane f32, bound (plane_p0 a) -> let q := project_plane_point a b in Rabs (vdot (nrm q) (pos b) + off q) <= 9 * u * (vlen (nrm a) * vlen (pos b)) + (1 + 2 * vlen (pos b)) * tiny) /\
  (forall a : line f32, bound (line_p1 a) -> bound (line_p2 a) -> val (l0 (line_p1 a)) = 0 -> let q := project_line_point a b in
    vlen (vsub (vcross (pos b) (dirn q)) (mom q)) <= 7 * u * (vlen (dirn a) * vlen (pos b)) + (2 + 2 * vlen (pos b)) * tiny).
Proof.
  intros B b Hb W. set (x := pos b). pose proof (vlen_pos x) as X0. assert (u0 : 0 < u) by (unfold u; lra). split.
  - intros a Ha q. destruct (C84_plane_point B a b Ha Hb) as (_ & Q1 & Q2). fold q x in Q1, Q2. rewrite W in Q1, Q2. set (n := nrm a) in *. set (e := vsub (nrm q) (vscale (- (1 * 1)) n)) in *.
    replace (vdot (nrm q) x + off q) with (vdot e x + (off q - 1 * vdot n x)) by (unfold e, vdot, vsub, vscale; cbn [vx vy vz]; ring).
    eapply Rle_trans; [apply Rabs_triang|]. pose proof (vdot_abs e x) as D. pose proof (Rmult_le_compat_r _ _ _ X0 Q1) as D2. rewrite Rabs_R1 in Q2. unfold unit_err in *. cbn [INR] in Q2, D2.
    assert (0 <= u * (vlen n * vlen x)) by (apply Rmult_le_pos; [lra|apply Rmult_le_pos; [apply vlen_pos|exact X0]]). lra.
  - intros a Ha Hc Z q. destruct (C84_line_point B a b Ha Hc Hb Z) as (_ & Q1 & Q2). fold q x in Q1, Q2. rewrite W in Q1, Q2. set (s := dirn a) in *. set (e := vsub (dirn q) (vscale (- (1 * 1)) s)) in *.
    set (f := vsub (mom q) (vscale (- (1)) (vcross x s))) in *.
    replace (vsub (vcross x (dirn q)) (mom q)) with (vadd (vcross x e) (vscale (- (1)) f)) by (unfold e, f, vadd, vcross, vsub, vscale; cbn [vx vy vz]; apply vec_eq; cbn [vx vy vz]; ring).
    eapply Rle_trans; [apply vlen_tri|]. rewrite vlen_scale, Rabs_Ropp, Rabs_R1. pose proof (vcross_len x e) as D. pose proof (Rmult_le_compat_l _ _ _ X0 Q1) as D2. rewrite Rabs_R1 in Q2. unfold unit_err in *. cbn [INR] in Q2, D2.
    assert (0 <= u * (vlen s * vlen x)) by (apply Rmult_le_pos; [lra|apply Rmult_le_pos; [apply vlen_pos|exact X0]]). lra.
Qed.
Print Assumptions C84_through_point.
(** A point and a plane that meet the hypotheses and whose coordinates are not exact: normal (3/5, 4/5, 0) rounded. *)
Example C84_ex : let a := mkpoint (mk4 (fz 1) (fz 7) (fz (-3)) (f32_of 1 (-2))) in let b := mkplane (mk4 (fz 5) (f32_of 10066330 (-24)) (f32_of 13421773 (-24)) (fz 0)) in
  let l := mkline (mk4 (fz 0) (f32_of 10066330 (-24)) (f32_of 13421773 (-24)) (fz 0)) (mk4 (fz 0) (fz 4) (fz (-3)) (fz 2)) in
  bound (point_p3 a) /\ bound (plane_p0 b) /\ bound (line_p1 l) /\ bound (line_p2 l) /\ wt a = 1 /\ Rabs (vdot (nrm b) (nrm b) - 1) <= / 1000 /\ vlen (pos a) <= 8 /\ Rabs (off b) <= 8 /\
  Rabs (vdot (dirn l) (dirn l) - 1) <= / 1000 /\ vlen (mom l) <= 8 /\ val (l0 (line_p1 l)) = 0.
Proof.
  assert (I : forall k, (Z.abs k <= 2 ^ 20)%Z -> bounded 20 (fz k)).
  { intros k Hk. destruct (fz_ok k ltac:(lia)) as [F V]. split; [exact F|]. rewrite V, <- abs_IZR. rewrite <- (IZR_Zpower radix2) by lia. apply IZR_le. exact Hk. }
  assert (J : forall m e, fin (f32_of m e) -> forall v, val (f32_of m e) = v -> Rabs v <= 1 -> bounded 20 (f32_of m e)).
  { intros m e F v V Hv. split; [exact F|]. rewrite V. eapply Rle_trans; [exact Hv|]. change 1 with (bpow radix2 0). apply bpow_le. lia. }
  assert (V1 : val (f32_of 10066330 (-24)) = 10066330 / 16777216) by (vm_compute; lra). assert (V2 : val (f32_of 13421773 (-24)) = 13421773 / 16777216) by (vm_compute; lra). assert (V3 : val (f32_of 1 (-2)) = / 4) by (vm_compute; lra).
  assert (Z : forall k, (Z.abs k <= 2 ^ 20)%Z -> val (fz k) = IZR k) by (intros k Hk; apply fz_ok; lia).
  assert (B1 := J _ _ (eq_refl : fin (f32_of 10066330 (-24))) _ V1 ltac:(rewrite Rabs_pos_eq; lra)). assert (B2 := J _ _ (eq_refl : fin (f32_of 13421773 (-24))) _ V2 ltac:(rewrite Rabs_pos_eq; lra)). assert (B3 := J _ _ (eq_refl : fin (f32_of 1 (-2))) _ V3 ltac:(rewrite Rabs_pos_eq; lra)).
  intros a b l. repeat apply conj.
  1-4: repeat (apply Forall_cons; [first [assumption|apply I; lia]|]); apply Forall_nil.
  - apply (Z 1%Z). lia.
  - unfold vdot, nrm, vval, b. cbn [plane_p0 l1 l2 l3 vx vy vz]. rewrite V1, V2, Z by lia. apply Rabs_le. lra.
  - apply vlen_bound; [lra|]. unfold vdot, pos, a. cbn [point_p3 l1 l2 l3 vx vy vz]. rewrite V3, !Z by lia. lra.
  - unfold off, b. cbn [plane_p0 l0]. rewrite Z by lia. rewrite Rabs_pos_eq; lra.
  - unfold vdot, dirn, vval, l. cbn [line_p1 l1 l2 l3 vx vy vz]. rewrite V1, V2, Z by lia. apply Rabs_le. lra.
  - apply vlen_bound; [lra|]. unfold vdot, mom, vval, l. cbn [line_p2 l1 l2 l3 vx vy vz]. rewrite !Z by lia. lra.
  - apply (Z 0%Z). lia.
Qed.
(** The lanes no accessor reads: the real and the pseudoscalar lane of a projected line are exact zeros, so that it can be
    used as an operand again. *)
Definition dead (e : expr) : bool := match e with ESub a b => cancels a b && mild (2 ^ 20) a && (dep a <=? 64)%nat | ECst z => (z =? 0)%Z | _ => false end.
Lemma dead_ok x e : okx x -> dead e = true -> fin (eval x e) /\ val (eval x e) = 0.
Proof.
  intros X D. destruct e as [n|z|a b|a b|a b|a]; try discriminate D; cbn [dead eval] in *.
  - apply Z.eqb_eq in D. subst z. apply (fz_ok 0). lia.
  - apply andb_prop in D. destruct D as [D D3]. apply andb_prop in D. destruct D as [D1 D2]. apply Nat.leb_le in D3. rewrite <- (cancels_eval mul_comm_f32 x a b D1).
    destruct (rounding_any x (2 ^ 20) a ltac:(lia) X D2 ltac:(lia)) as [F _].
    destruct (sub_ok _ _ F F) as [F2 V]; [rewrite Rminus_diag_eq, Rabs_R0 by reflexivity; apply bpow_ge_0|]. split; [exact F2|]. rewrite V, Rminus_diag_eq by reflexivity. apply (rnd_Z 0). lia.
Qed.
Theorem C84_hidden : forall (B : Build) (a : line f32), bound (line_p1 a) -> bound (line_p2 a) ->
  (forall b : plane f32, bound (plane_p0 b) -> let q := project_line_plane a b in val (l0 (line_p1 q)) = 0 /\ val (l0 (line_p2 q)) = 0) /\
  (forall b : point f32, bound (point_p3 b) -> let q := project_line_point a b in val (l0 (line_p1 q)) = 0 /\ val (l0 (line_p2 q)) = 0).
Proof.
  intros B a Ha Hc. split; intros b Hb q.
  - pose proof (lanes_ok3 _ _ _ Hb Ha Hc) as X. set (r := project_line_plane (A := Arith_expr) (mkline (vreg 4) (vreg 8)) (mkplane (vreg 0))).
    assert (G : dead (l0 (line_p1 r)) && dead (l0 (line_p2 r)) = true) by (vm_compute; reflexivity). apply andb_prop in G. destruct G as [G1 G2].
    assert (C1 := lp_code1 a b). assert (C2 := lp_code2 a b). fold r q in C1, C2. clearbody q r. rewrite C1, C2. split; apply dead_ok; assumption.
  - pose proof (lanes_ok3 _ _ _ Hb Ha Hc) as X. set (r := project_line_point (A := Arith_expr) (mkline (vreg 4) (vreg 8)) (mkpoint (vreg 0))).
    assert (G : dead (l0 (line_p1 r)) && dead (l0 (line_p2 r)) = true) by (unfold r; destruct B as [[|]]; vm_compute; reflexivity). apply andb_prop in G. destruct G as [G1 G2].
    assert (C1 := lq_code1 B a b). assert (C2 := lq_code2 B a b). fold r q in C1, C2. clearbody q r. rewrite C1, C2. split; apply dead_ok; assumption.
Qed.
Print Assumptions C84_hidden.
