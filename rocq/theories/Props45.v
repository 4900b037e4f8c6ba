(** Property C93: many motors applied one after the other, in binary32. *)
From Coq Require Import ZArith Reals List Bool Lra Lia Psatz.
From Flocq Require Import Core BinarySingleNaN.
From Verif Require Import AlgTac SpecMass FloatMass Float32 FloatFacts ExprSyntax FloatErr FloatAbs FloatApx FloatNR FloatOps FloatIdeal Props11 SpecGeom Props20 Props21 Props22 Props23 Props24 Props26 Props28 Props30 Props31 Props34 Props36 Props37 Props38 Props44.
Import ListNotations.
Local Open Scope R_scope.

(** ** One more step: a purely real lemma *)
Lemma step_up k a b c A Y r ea ec ea' ec' : 0 <= k -> 0 <= a -> 0 <= b -> 0 <= c -> k * a <= / 100 -> k * b <= / 100 -> k * c <= / 100 -> 0 <= A -> 0 <= Y -> 0 <= r ->
  0 <= ea <= 102 / 100 * (k * a * A) + 3 * (k * tiny) -> 0 <= ec <= 103 / 100 * (k * (b * Y + c * (r * A))) + 103 / 100 * (k * k * a * (r * A)) + 4 * (k * tiny) + 4 * (k * k * (r * tiny)) ->
  ea' <= ea + (a * (A + ea) + 2 * tiny) -> ec' <= ec + 2 * (r * ea) + (b * (Y + ec) + c * (r * (A + ea)) + 2 * tiny) ->
  ea' <= 102 / 100 * ((k + 1) * a * A) + 3 * ((k + 1) * tiny) /\
  ec' <= 103 / 100 * ((k + 1) * (b * Y + c * (r * A))) + 103 / 100 * ((k + 1) * (k + 1) * a * (r * A)) + 4 * ((k + 1) * tiny) + 4 * ((k + 1) * (k + 1) * (r * tiny)).
Proof.
  intros k0 a0 b0 c0 Ka Kb Kc A0 Y0 r0 [ea0 Ea] [ec0 Ec] Ea' Ec'. assert (t0 : 0 < tiny) by apply bpow_gt_0. set (t := tiny) in *. clearbody t.
  set (rA := r * A) in *. assert (rA0 : 0 <= rA) by (apply Rmult_le_pos; assumption). set (rt := r * t) in *. assert (rt0 : 0 <= rt) by (apply Rmult_le_pos; lra).
  assert (aA : 0 <= a * A) by (apply Rmult_le_pos; lra). assert (arA : 0 <= a * rA) by (apply Rmult_le_pos; lra). assert (crA : 0 <= c * rA) by (apply Rmult_le_pos; lra). assert (bY : 0 <= b * Y) by (apply Rmult_le_pos; lra).
  assert (kaA : 0 <= k * a * A) by (apply Rmult_le_pos; [apply Rmult_le_pos|]; lra). assert (kt : 0 <= k * t) by (apply Rmult_le_pos; lra). assert (krt : 0 <= k * rt) by (apply Rmult_le_pos; lra). assert (karA : 0 <= k * (a * rA)) by (apply Rmult_le_pos; lra).
  assert (R1 : r * ea <= 102 / 100 * (k * (a * rA)) + 3 * (k * rt)). { pose proof (Rmult_le_compat_l r _ _ r0 Ea) as Q. unfold rA, rt. lra. }
  assert (M1 : a * ea <= 102 / 100 * (/ 100 * (a * A)) + 3 * (/ 100 * t)).
  { apply (Rle_trans _ (a * (102 / 100 * (k * a * A) + 3 * (k * t)))); [apply Rmult_le_compat_l; assumption|]. pose proof (Rmult_le_compat_r _ _ _ aA Ka) as Q1. pose proof (Rmult_le_compat_r t _ _ ltac:(lra) Ka) as Q2. lra. }
  split; [lra|].
  assert (M2 : c * (r * ea) <= 102 / 100 * (/ 100 * (c * rA) * 1) + 3 * (/ 100 * rt)).
  { apply (Rle_trans _ (c * (102 / 100 * (k * (a * rA)) + 3 * (k * rt)))); [apply Rmult_le_compat_l; assumption|]. pose proof (Rmult_le_compat_r _ _ _ crA Ka) as Q1. pose proof (Rmult_le_compat_r _ _ _ rt0 Kc) as Q2. lra. }
  assert (M3 : b * ec <= 103 / 100 * (/ 100 * (b * Y + c * rA)) + 103 / 100 * (/ 100 * (k * (a * rA))) + 4 * (/ 100 * t) + 4 * (/ 100 * (k * rt))).
  { eapply Rle_trans; [apply Rmult_le_compat_l; [exact b0|exact Ec]|]. pose proof (Rmult_le_compat_r (b * Y + c * rA) _ _ ltac:(lra) Kb) as Q1. pose proof (Rmult_le_compat_r _ _ _ karA Kb) as Q2. pose proof (Rmult_le_compat_r t _ _ ltac:(lra) Kb) as Q3. pose proof (Rmult_le_compat_r _ _ _ krt Kb) as Q4. lra. }
  assert (E : (k + 1) * (k + 1) * a * rA = k * k * a * rA + 2 * (k * (a * rA)) + a * rA) by ring. assert (E' : (k + 1) * (k + 1) * rt = k * k * rt + 2 * (k * rt) + rt) by ring. rewrite E, E'.
  replace (r * (A + ea)) with (rA + r * ea) in Ec' by (unfold rA; ring). lra.
Qed.
Definition D1 (a A j : R) : R := 102 / 100 * (j * a * A) + 3 * (j * tiny).
Definition D2 (a b c A Y r j : R) : R := 103 / 100 * (j * (b * Y + c * (r * A))) + 103 / 100 * (j * j * a * (r * A)) + 4 * (j * tiny) + 4 * (j * j * (r * tiny)).
(** while j c <= 1/100 and j r A <= 2^18 the errors stay below 2^18 *)
Lemma in_range a b c A Y r j : 0 <= a <= c -> 0 <= b <= c -> 25 * u <= c -> c <= / 100 -> 0 <= A <= 2 ^ 18 -> 0 <= Y <= 2 ^ 18 -> 0 <= r <= 2 ^ 19 -> 0 <= j -> j * c <= / 100 -> j * (r * A) <= 2 ^ 18 -> D1 a A j <= 2 ^ 18 /\ D2 a b c A Y r j <= 2 ^ 18.
Proof.
  intros [a0 Ha] [b0 Hb] Hc Hc' [A0 HA] [Y0 HY] [r0 Hr] j0 Jc Jr. assert (t0 : 0 < tiny) by apply bpow_gt_0. assert (T : tiny <= / 2 ^ 40 * u) by (unfold tiny, u; change (-122)%Z with (-40 + -82)%Z; rewrite bpow_plus; replace (bpow radix2 (-40)) with (/ 2 ^ 40) by (cbn; field); apply Rmult_le_compat_l; [apply Rlt_le, Rinv_0_lt_compat, pow_lt; lra|]; apply (Rle_trans _ (bpow radix2 (-24))); [apply bpow_le; lia|apply Req_le; cbn; lra]).
  pose proof u_small as U. assert (Ja : j * a <= / 100) by (eapply Rle_trans; [apply Rmult_le_compat_l; [exact j0|exact Ha]|exact Jc]). assert (Jb : j * b <= / 100) by (eapply Rle_trans; [apply Rmult_le_compat_l; [exact j0|exact Hb]|exact Jc]).
  assert (Ju : j * u <= / 2500) by (pose proof (Rmult_le_compat_l j _ _ j0 Hc); lra). assert (j1 : j <= 10000) by (unfold u in Ju; lra).
  assert (Q40 : / 2 ^ 40 = / 1099511627776) by (f_equal; ring). assert (Q18 : 2 ^ 18 = 262144) by ring. assert (Q19 : 2 ^ 19 = 524288) by ring. rewrite Q18, Q19, Q40 in *.
  assert (Jt : 0 <= j * tiny <= / 1000000) by (split; [apply Rmult_le_pos; lra|]; pose proof (Rmult_le_compat_l j _ _ j0 T); lra).
  assert (Jrt : j * j * (r * tiny) <= 1). { assert (j * r <= 10000 * 524288) by (apply Rmult_le_compat; lra). assert (j * r * (j * tiny) <= 10000 * 524288 * (/ 1099511627776 * (/ 2500))). { apply Rmult_le_compat; [apply Rmult_le_pos; lra|lra|lra|]. pose proof (Rmult_le_compat_l j _ _ j0 T). lra. } lra. }
  assert (c1 : 0 <= c) by lra. assert (rA0 : 0 <= r * A) by (apply Rmult_le_pos; lra).
  unfold D1, D2. split.
  - pose proof (Rmult_le_compat_r A _ _ A0 Ja) as P1. lra.
  - pose proof (Rmult_le_compat_r Y _ _ Y0 Jb) as P2. assert (P3 : c * (j * (r * A)) <= / 100 * 262144) by (apply Rmult_le_compat; try lra; apply Rmult_le_pos; lra).
    assert (P4 : j * a * (j * (r * A)) <= / 100 * 262144) by (apply Rmult_le_compat; try lra; apply Rmult_le_pos; lra). lra.
Qed.
(** ** Many steps *)
Section Many.
Context {K X E : Type} (mv : K -> X -> X) (mx : K -> E -> E) (ok : X -> Prop) (inn : E -> Prop) (d1 d2 : X -> E -> R) (a b c A Y r : R).
Definition one_step (k : K) : Prop := forall x e, ok x -> inn e -> d1 x e <= 2 ^ 18 -> d2 x e <= 2 ^ 18 ->
  ok (mv k x) /\ d1 (mv k x) (mx k e) <= d1 x e + (a * (A + d1 x e) + 2 * tiny) /\ d2 (mv k x) (mx k e) <= d2 x e + 2 * (r * d1 x e) + (b * (Y + d2 x e) + c * (r * (A + d1 x e)) + 2 * tiny).
Lemma many : 0 <= a <= c -> 0 <= b <= c -> 25 * u <= c <= / 100 -> 0 <= A <= 2 ^ 18 -> 0 <= Y <= 2 ^ 18 -> 0 <= r <= 2 ^ 19 -> (forall x e, 0 <= d1 x e /\ 0 <= d2 x e) ->
  forall ls, Forall one_step ls -> forall j x e, 0 <= j -> (j + INR (length ls)) * c <= / 100 -> (j + INR (length ls)) * (r * A) <= 2 ^ 18 ->
  ok x -> d1 x e <= D1 a A j -> d2 x e <= D2 a b c A Y r j -> (forall pre suf, ls = pre ++ suf -> inn (fold_left (fun e k => mx k e) pre e)) ->
  let x' := fold_left (fun x k => mv k x) ls x in let e' := fold_left (fun e k => mx k e) ls e in
  ok x' /\ d1 x' e' <= D1 a A (j + INR (length ls)) /\ d2 x' e' <= D2 a b c A Y r (j + INR (length ls)).
Proof.
  intros Ha Hb Hc HA HY Hr Hd ls Hls. induction Hls as [|k ls Hk Hls IH]; intros j x e j0 Jc Jr Ok E1 E2 In.
  - cbn [length INR fold_left] in *. rewrite Rplus_0_r. split; [exact Ok|]. split; assumption.
  - assert (L0 : 0 <= INR (length ls)) by apply pos_INR. assert (LS : INR (length (k :: ls)) = INR (length ls) + 1) by (cbn [length]; apply S_INR). rewrite LS in *. assert (c0 : 0 <= c) by (pose proof u_small; lra). assert (rA0 : 0 <= r * A) by (apply Rmult_le_pos; lra).
    assert (Jc' : j * c <= / 100) by (assert (0 <= (INR (length ls) + 1) * c) by (apply Rmult_le_pos; lra); lra). assert (Jr' : j * (r * A) <= 2 ^ 18) by (assert (0 <= (INR (length ls) + 1) * (r * A)) by (apply Rmult_le_pos; lra); lra).
    destruct (in_range a b c A Y r j Ha Hb (proj1 Hc) (proj2 Hc) HA HY Hr j0 Jc' Jr') as [R1 R2]. destruct (Hk x e Ok (In nil (k :: ls) eq_refl) ltac:(lra) ltac:(lra)) as (Ok' & S1 & S2). destruct (Hd x e) as [p1 p2].
    assert (Ja : j * a <= / 100) by (eapply Rle_trans; [apply Rmult_le_compat_l; [exact j0|exact (proj2 Ha)]|exact Jc']). assert (Jb : j * b <= / 100) by (eapply Rle_trans; [apply Rmult_le_compat_l; [exact j0|exact (proj2 Hb)]|exact Jc']).
    destruct (step_up j a b c A Y r (d1 x e) (d2 x e) _ _ j0 (proj1 Ha) (proj1 Hb) c0 Ja Jb Jc' (proj1 HA) (proj1 HY) (proj1 Hr) (conj p1 E1) (conj p2 E2) S1 S2) as [T1 T2].
    specialize (IH (j + 1) (mv k x) (mx k e)). replace (j + 1 + INR (length ls)) with (j + (INR (length ls) + 1)) in IH by ring. cbn [fold_left]. apply IH; try assumption; [lra|].
    intros pre suf Hp. exact (In (k :: pre) suf (f_equal (cons k) Hp)).
Qed.
End Many.
(** ** The four entities *)
Lemma lane_le v : Rabs (vx v) <= vlen v /\ Rabs (vy v) <= vlen v /\ Rabs (vz v) <= vlen v.
Proof.
  assert (G : forall x, x * x <= vdot v v -> Rabs x <= vlen v). { intros x Hx. apply Rsqr_le_abs_0 in Hx || idtac. rewrite <- (Rabs_pos_eq (vlen v) (vlen_pos v)). apply Rsqr_le_abs_0. unfold Rsqr. rewrite vlen_sq. exact Hx. }
  pose proof (Rle_0_sqr (vx v)). pose proof (Rle_0_sqr (vy v)). pose proof (Rle_0_sqr (vz v)). unfold Rsqr in *. repeat split; apply G; unfold vdot; lra.
Qed.
Lemma small_bound v : Forall fin (reg_list v) -> Rabs (val (l0 v)) <= 2 ^ 20 -> vlen (vval v) <= 2 ^ 20 -> bound v.
Proof.
  intros F H0 H. destruct (lane_le (vval v)) as (H1 & H2 & H3). destruct v as [v0 v1 v2 v3]. unfold vval in *. cbn [vx vy vz l0 l1 l2 l3 reg_list] in *. assert (P20 : bpow radix2 20 = 2 ^ 20) by (cbn; ring).
  unfold bound. cbn [reg_list]. inversion F as [|? ? F0 F']; subst. inversion F' as [|? ? F1 F'']; subst. inversion F'' as [|? ? F2 F3']; subst. inversion F3' as [|? ? F3 _]; subst. do 4 (apply Forall_cons; [split; [assumption|rewrite P20; cbn [l0 l1 l2 l3]; lra]|]). apply Forall_nil.
Qed.
(** a stored motor and the motion it stands for *)
Definition stage (th r : R) (k : motor f32 * motor R) : Prop := near_motor th r (fst k) (snd k).
Definition plane_path (ls : list (motor f32 * motor R)) (e : vec * R) : vec * R := fold_left (fun e k => (swung (snd k) (fst e), moved_off (snd k) (fst e) (snd e))) ls e.
Definition line_path (ls : list (motor f32 * motor R)) (e : vec * vec) : vec * vec := fold_left (fun e k => (swung (snd k) (fst e), moved_mom (snd k) (fst e) (snd e))) ls e.
Definition point_path (ls : list (motor f32 * motor R)) (w : R) (x : vec) : vec := fold_left (fun x k => brought (snd k) w x) ls x.
Lemma plane_step (B : Build) th r A Y k : stage th r k -> th <= / 1000 -> r <= 2 ^ 19 -> 0 <= A <= 2 ^ 18 -> 0 <= Y <= 2 ^ 18 ->
  one_step (fun k x => motor_on_plane (fst k) x) (fun (k : motor f32 * motor R) (e : vec * R) => (swung (snd k) (fst e), moved_off (snd k) (fst e) (snd e))) (fun x => Forall fin (reg_list (plane_p0 x))) (fun e => vlen (fst e) = A /\ Rabs (snd e) <= Y)
    (fun x e => vlen (vsub (nrm x) (fst e))) (fun x e => Rabs (off x - snd e)) (201 / 100 * th + 22 * u) (201 / 100 * th + 28 * u) (401 / 100 * th + 32 * u) A Y r k.
Proof.
  intros N T H HA HY x [n d] Fx [In1 In2] R1 R2. cbn [fst snd] in *. destruct k as [m e]. unfold stage in N. cbn [fst snd] in *. destruct (near_facts _ _ _ _ N T H) as (_ & t0 & r0 & _). assert (P : proper e) by (destruct N as (_ & Q & _); exact Q).
  destruct (moved_len e r (V 0 0 0) P ltac:(destruct N as (_ & _ & Q & _); exact Q)) as [S _]. pose proof u_small as U.
  pose proof (vlen_grow (nrm x) n) as G1. assert (G2 : Rabs (off x) <= Rabs d + Rabs (off x - d)) by (replace (off x) with (d + (off x - d)) at 1 by ring; apply Rabs_triang).
  assert (Q : 2 ^ 20 = 4 * 2 ^ 18) by ring. assert (Q' : 0 < 2 ^ 18) by (apply pow_lt; lra).
  assert (Bx : bound (plane_p0 x)). { apply small_bound; [exact Fx| |]. - change (val (l0 (plane_p0 x))) with (off x). lra. - change (vval (plane_p0 x)) with (nrm x). lra. }
  destruct (C85_plane B th r m e x N T H Bx) as (F & E1 & E2). rewrite u_pow in *. split; [exact F|]. set (q := motor_on_plane m x) in *. clearbody q. clear F Bx Fx. set (n1 := nrm x) in *. set (d1 := off x) in *. clearbody n1 d1.
  assert (a0 : 0 <= 201 / 100 * th + 22 * u) by lra. assert (b0 : 0 <= 201 / 100 * th + 28 * u) by lra. assert (c0 : 0 <= 401 / 100 * th + 32 * u) by lra. set (a := 201 / 100 * th + 22 * u) in *. set (b := 201 / 100 * th + 28 * u) in *. set (c := 401 / 100 * th + 32 * u) in *. clearbody a b c. assert (ty : 0 < tiny) by apply bpow_gt_0.
  rewrite In1 in G1. assert (X1 : a * vlen n1 <= a * (A + vlen (vsub n1 n))) by (apply Rmult_le_compat_l; lra). assert (X2 : b * Rabs d1 <= b * (Y + Rabs (d1 - d))) by (apply Rmult_le_compat_l; lra). assert (X3 : c * (r * vlen n1) <= c * (r * (A + vlen (vsub n1 n)))) by (apply Rmult_le_compat_l; [lra|]; apply Rmult_le_compat_l; lra).
  split.
  - eapply Rle_trans; [apply (vlen_via _ (swung e n1))|]. rewrite <- swung_lin, (swung_len e _ P). lra.
  - replace (off q - moved_off e n d) with ((off q - moved_off e n1 d1) + ((d1 - d) + - vdot (swung e (vsub n1 n)) (moved e (V 0 0 0)))) by (unfold moved_off; rewrite swung_lin; unfold vdot, vsub; cbn [vx vy vz]; ring).
    eapply Rle_trans; [apply Rabs_triang|]. pose proof (Rabs_triang (d1 - d) (- vdot (swung e (vsub n1 n)) (moved e (V 0 0 0)))) as K1. rewrite Rabs_Ropp in K1. pose proof (vdot_abs (swung e (vsub n1 n)) (moved e (V 0 0 0))) as K2. rewrite (swung_len e _ P) in K2. pose proof (Rmult_le_compat_l _ _ _ (vlen_pos (vsub n1 n)) S) as K3. lra.
Qed.
Lemma D_zero a b c A Y r : D1 a A 0 = 0 /\ D2 a b c A Y r 0 = 0. Proof. unfold D1, D2. split; ring. Qed.
Theorem C93_plane : forall (B : Build) (th r Y : R) (ls : list (motor f32 * motor R)) (p : plane f32), 0 <= th <= / 1000 -> 0 <= r <= 2 ^ 19 -> Forall (stage th r) ls -> Forall fin (reg_list (plane_p0 p)) ->
  let j := INR (length ls) in let A := vlen (nrm p) in let e := plane_path ls (nrm p, off p) in let q := fold_left (fun x k => motor_on_plane (fst k) x) ls p in
  A <= 2 ^ 18 -> Y <= 2 ^ 18 -> (forall pre suf, ls = pre ++ suf -> Rabs (snd (plane_path pre (nrm p, off p))) <= Y) -> j * (401 / 100 * th + 32 * / 2 ^ 24) <= / 100 -> j * (r * A) <= 2 ^ 18 ->
  Forall fin (reg_list (plane_p0 q)) /\
  vlen (vsub (nrm q) (fst e)) <= 102 / 100 * (j * (201 / 100 * th + 22 * / 2 ^ 24) * A) + 3 * (j * tiny) /\
  Rabs (off q - snd e) <= 103 / 100 * (j * ((201 / 100 * th + 28 * / 2 ^ 24) * Y + (401 / 100 * th + 32 * / 2 ^ 24) * (r * A))) + 103 / 100 * (j * j * (201 / 100 * th + 22 * / 2 ^ 24) * (r * A)) + 4 * (j * tiny) + 4 * (j * j * (r * tiny)).
Proof.
  intros B th r Y ls p Ht Hr Hls Fp j A e q HA HY Hin Hj Hjr. rewrite u_pow in *. pose proof u_small as U. assert (A0 : 0 <= A) by apply vlen_pos.
  assert (Y0 : 0 <= Y) by (eapply Rle_trans; [apply Rabs_pos|exact (Hin nil ls eq_refl)]).
  assert (P : Forall (fun k : motor f32 * motor R => proper (snd k)) ls) by (eapply Forall_impl; [|exact Hls]; intros k (_ & Q & _); exact Q).
  destruct (D_zero (201 / 100 * th + 22 * u) (201 / 100 * th + 28 * u) (401 / 100 * th + 32 * u) A Y r) as [Z1 Z2].
  pose proof (many (fun k x => motor_on_plane (fst k) x) (fun (k : motor f32 * motor R) (e : vec * R) => (swung (snd k) (fst e), moved_off (snd k) (fst e) (snd e))) (fun x => Forall fin (reg_list (plane_p0 x))) (fun e => vlen (fst e) = A /\ Rabs (snd e) <= Y)
    (fun x e => vlen (vsub (nrm x) (fst e))) (fun x e => Rabs (off x - snd e)) (201 / 100 * th + 22 * u) (201 / 100 * th + 28 * u) (401 / 100 * th + 32 * u) A Y r
    ltac:(lra) ltac:(lra) ltac:(lra) ltac:(lra) ltac:(lra) Hr ltac:(intros; split; [apply vlen_pos|apply Rabs_pos]) ls) as M.
  assert (Hst : Forall (one_step (fun k x => motor_on_plane (fst k) x) (fun (k : motor f32 * motor R) (e : vec * R) => (swung (snd k) (fst e), moved_off (snd k) (fst e) (snd e))) (fun x => Forall fin (reg_list (plane_p0 x))) (fun e => vlen (fst e) = A /\ Rabs (snd e) <= Y)
    (fun x e => vlen (vsub (nrm x) (fst e))) (fun x e => Rabs (off x - snd e)) (201 / 100 * th + 22 * u) (201 / 100 * th + 28 * u) (401 / 100 * th + 32 * u) A Y r) ls) by (eapply Forall_impl; [|exact Hls]; intros k Hk; apply plane_step; lra || assumption).
  specialize (M Hst 0 p (nrm p, off p) (Rle_refl 0)). fold j in M. rewrite !Rplus_0_l in M. apply M; clear M; try assumption.
  - cbn [fst]. rewrite Z1. apply Req_le. replace (vsub (nrm p) (nrm p)) with (V 0 0 0) by (unfold vsub; apply vec_eq; cbn [vx vy vz]; ring). unfold vlen, vdot. cbn [vx vy vz]. rewrite !Rmult_0_l, !Rplus_0_l. apply sqrt_0.
  - cbn [snd]. rewrite Z2. unfold Rminus. rewrite Rplus_opp_r, Rabs_R0. apply Rle_refl.
  - intros pre suf Hp. split; [|exact (Hin pre suf Hp)]. assert (Pp : Forall (fun k : motor f32 * motor R => proper (snd k)) pre) by (rewrite Hp in P; apply Forall_app in P; exact (proj1 P)).
    unfold A. clear - Pp. generalize (off p). generalize (nrm p). induction Pp as [|k pre Pk _ IH]; intros n d; [reflexivity|]. cbn [fold_left fst snd]. rewrite IH. apply swung_len. exact Pk.
Qed.
Print Assumptions C93_plane.

Lemma point_step (B : Build) th r w Y k : stage th r k -> th <= / 1000 -> r <= 2 ^ 19 -> 0 <= Rabs w <= 2 ^ 18 -> 0 <= Y <= 2 ^ 18 ->
  one_step (fun k x => motor_on_point (fst k) x) (fun (k : motor f32 * motor R) (e : vec) => brought (snd k) w e) (fun x => Forall fin (reg_list (point_p3 x))) (fun e => vlen e <= Y)
    (fun x e => Rabs (wt x - w)) (fun x e => vlen (vsub (pos x) e)) (2001 / 1000 * th + 71 / 10 * u) (2001 / 1000 * th + 221 / 10 * u) (4002 / 1000 * th + 251 / 10 * u) (Rabs w) Y r k.
Proof.
  intros N T H HA HY x y Fx In R1 R2. cbn [fst snd] in *. destruct k as [m e]. unfold stage in N. cbn [fst snd] in *. destruct (near_facts _ _ _ _ N T H) as (_ & t0 & r0 & _). assert (P : proper e) by (destruct N as (_ & Q & _); exact Q).
  destruct (moved_len e r (V 0 0 0) P ltac:(destruct N as (_ & _ & Q & _); exact Q)) as [S _]. pose proof u_small as U.
  pose proof (vlen_grow (pos x) y) as G1. assert (G2 : Rabs (wt x) <= Rabs w + Rabs (wt x - w)) by (replace (wt x) with (w + (wt x - w)) at 1 by ring; apply Rabs_triang).
  assert (Q : 2 ^ 20 = 4 * 2 ^ 18) by ring. assert (Q' : 0 < 2 ^ 18) by (apply pow_lt; lra).
  assert (Bx : bound (point_p3 x)). { apply small_bound; [exact Fx| |]. - change (val (l0 (point_p3 x))) with (wt x). lra. - change (vval (point_p3 x)) with (pos x). lra. }
  destruct (C92_point B th r m e x N T H Bx) as (F & _ & E2 & E1). rewrite u_pow in *. split; [exact F|]. set (q := motor_on_point m x) in *. clearbody q. clear F Bx Fx. set (w1 := wt x) in *. set (y1 := pos x) in *. clearbody w1 y1.
  assert (a0 : 0 <= 2001 / 1000 * th + 71 / 10 * u) by lra. assert (b0 : 0 <= 2001 / 1000 * th + 221 / 10 * u) by lra. assert (c0 : 0 <= 4002 / 1000 * th + 251 / 10 * u) by lra. set (a := 2001 / 1000 * th + 71 / 10 * u) in *. set (b := 2001 / 1000 * th + 221 / 10 * u) in *. set (c := 4002 / 1000 * th + 251 / 10 * u) in *. clearbody a b c. assert (ty : 0 < tiny) by apply bpow_gt_0.
  assert (X1 : a * Rabs w1 <= a * (Rabs w + Rabs (w1 - w))) by (apply Rmult_le_compat_l; lra). assert (X2 : b * vlen y1 <= b * (Y + vlen (vsub y1 y))) by (apply Rmult_le_compat_l; lra). assert (X3 : c * (r * Rabs w1) <= c * (r * (Rabs w + Rabs (w1 - w)))) by (apply Rmult_le_compat_l; [lra|]; apply Rmult_le_compat_l; lra).
  split.
  - replace (wt q - w) with ((wt q - w1) + (w1 - w)) by ring. eapply Rle_trans; [apply Rabs_triang|]. lra.
  - eapply Rle_trans; [apply (vlen_via _ (brought e w1 y1))|].
    replace (vsub (brought e w1 y1) (brought e w y)) with (vadd (swung e (vsub y1 y)) (vscale (w1 - w) (moved e (V 0 0 0)))) by (unfold brought; rewrite swung_lin; unfold vsub, vadd, vscale; cbn [vx vy vz]; apply vec_eq; cbn [vx vy vz]; ring).
    pose proof (vlen_tri (swung e (vsub y1 y)) (vscale (w1 - w) (moved e (V 0 0 0)))) as K1. rewrite (swung_len e _ P), vlen_scale in K1. pose proof (Rmult_le_compat_l _ _ _ (Rabs_pos (w1 - w)) S) as K3. lra.
Qed.
Lemma vsub_self v : vlen (vsub v v) = 0.
Proof. replace (vsub v v) with (V 0 0 0) by (unfold vsub; apply vec_eq; cbn [vx vy vz]; ring). unfold vlen, vdot. cbn [vx vy vz]. rewrite !Rmult_0_l, !Rplus_0_l. apply sqrt_0. Qed.
Theorem C93_point : forall (B : Build) (th r Y : R) (ls : list (motor f32 * motor R)) (p : point f32), 0 <= th <= / 1000 -> 0 <= r <= 2 ^ 19 -> Forall (stage th r) ls -> Forall fin (reg_list (point_p3 p)) ->
  let j := INR (length ls) in let A := Rabs (wt p) in let y := point_path ls (wt p) (pos p) in let q := fold_left (fun x k => motor_on_point (fst k) x) ls p in
  A <= 2 ^ 18 -> Y <= 2 ^ 18 -> (forall pre suf, ls = pre ++ suf -> vlen (point_path pre (wt p) (pos p)) <= Y) -> j * (4002 / 1000 * th + 251 / 10 * / 2 ^ 24) <= / 100 -> j * (r * A) <= 2 ^ 18 ->
  Forall fin (reg_list (point_p3 q)) /\
  Rabs (wt q - wt p) <= 102 / 100 * (j * (2001 / 1000 * th + 71 / 10 * / 2 ^ 24) * A) + 3 * (j * tiny) /\
  vlen (vsub (pos q) y) <= 103 / 100 * (j * ((2001 / 1000 * th + 221 / 10 * / 2 ^ 24) * Y + (4002 / 1000 * th + 251 / 10 * / 2 ^ 24) * (r * A))) + 103 / 100 * (j * j * (2001 / 1000 * th + 71 / 10 * / 2 ^ 24) * (r * A)) + 4 * (j * tiny) + 4 * (j * j * (r * tiny)).
Proof.
  intros B th r Y ls p Ht Hr Hls Fp j A y q HA HY Hin Hj Hjr. rewrite u_pow in *. pose proof u_small as U. assert (A0 : 0 <= A) by apply Rabs_pos.
  assert (Y0 : 0 <= Y) by (eapply Rle_trans; [apply vlen_pos|exact (Hin nil ls eq_refl)]).
  destruct (D_zero (2001 / 1000 * th + 71 / 10 * u) (2001 / 1000 * th + 221 / 10 * u) (4002 / 1000 * th + 251 / 10 * u) A Y r) as [Z1 Z2].
  pose proof (many (fun k x => motor_on_point (fst k) x) (fun (k : motor f32 * motor R) (e : vec) => brought (snd k) (wt p) e) (fun x => Forall fin (reg_list (point_p3 x))) (fun e => vlen e <= Y)
    (fun x e => Rabs (wt x - wt p)) (fun x e => vlen (vsub (pos x) e)) (2001 / 1000 * th + 71 / 10 * u) (2001 / 1000 * th + 221 / 10 * u) (4002 / 1000 * th + 251 / 10 * u) A Y r
    ltac:(lra) ltac:(lra) ltac:(lra) ltac:(lra) ltac:(lra) Hr ltac:(intros; split; [apply Rabs_pos|apply vlen_pos]) ls) as M.
  assert (Hst : Forall (one_step (fun k x => motor_on_point (fst k) x) (fun (k : motor f32 * motor R) (e : vec) => brought (snd k) (wt p) e) (fun x => Forall fin (reg_list (point_p3 x))) (fun e => vlen e <= Y)
    (fun x e => Rabs (wt x - wt p)) (fun x e => vlen (vsub (pos x) e)) (2001 / 1000 * th + 71 / 10 * u) (2001 / 1000 * th + 221 / 10 * u) (4002 / 1000 * th + 251 / 10 * u) A Y r) ls) by (eapply Forall_impl; [|exact Hls]; intros k Hk; exact (point_step B th r (wt p) Y k Hk ltac:(lra) ltac:(lra) (conj A0 HA) ltac:(lra))).
  specialize (M Hst 0 p (pos p) (Rle_refl 0)). fold j in M. rewrite !Rplus_0_l in M. apply M; clear M; try assumption.
  - rewrite Z1. unfold Rminus. rewrite Rplus_opp_r, Rabs_R0. apply Rle_refl.
  - rewrite Z2, vsub_self. apply Rle_refl.
Qed.
Print Assumptions C93_point.
Definition line_fine (x : line f32) : Prop := Forall fin (coefs (k := KLine) x) /\ val (l0 (line_p1 x)) = 0 /\ val (l0 (line_p2 x)) = 0.
Lemma line_step th r A Y k : stage th r k -> th <= / 1000 -> r <= 2 ^ 19 -> 0 <= A <= 2 ^ 18 -> 0 <= Y <= 2 ^ 18 ->
  one_step (fun k x => motor_on_line (fst k) x) (fun (k : motor f32 * motor R) (e : vec * vec) => (swung (snd k) (fst e), moved_mom (snd k) (fst e) (snd e))) line_fine (fun e => vlen (fst e) = A /\ vlen (snd e) <= Y)
    (fun x e => vlen (vsub (dirn x) (fst e))) (fun x e => vlen (vsub (mom x) (snd e))) (201 / 100 * th + 19 * u) (201 / 100 * th + 28 * u) (401 / 100 * th + 56 * u) A Y r k.
Proof.
  intros N T H HA HY x [n d] (Fx & Z1 & Z2) [In1 In2] R1 R2. cbn [fst snd] in *. destruct k as [m e]. unfold stage in N. cbn [fst snd] in *. destruct (near_facts _ _ _ _ N T H) as (Hm & t0 & r0 & _). assert (P : proper e) by (destruct N as (_ & Q & _); exact Q).
  destruct (moved_len e r (V 0 0 0) P ltac:(destruct N as (_ & _ & Q & _); exact Q)) as [S _]. pose proof u_small as U.
  pose proof (vlen_grow (dirn x) n) as G1. pose proof (vlen_grow (mom x) d) as G2.
  assert (Q : 2 ^ 20 = 4 * 2 ^ 18) by ring. assert (Q' : 0 < 2 ^ 18) by (apply pow_lt; lra).
  change (coefs (k := KLine) x) with (reg_list (line_p1 x) ++ reg_list (line_p2 x)) in Fx. apply Forall_app in Fx. destruct Fx as [Fx1 Fx2].
  assert (B1 : bound (line_p1 x)). { apply small_bound; [exact Fx1| |]. - rewrite Z1, Rabs_R0. lra. - change (vval (line_p1 x)) with (dirn x). lra. }
  assert (B2 : bound (line_p2 x)). { apply small_bound; [exact Fx2| |]. - rewrite Z2, Rabs_R0. lra. - change (vval (line_p2 x)) with (mom x). lra. }
  pose proof (C85_hidden m x Hm B1 B2 Z1 Z2) as Hh.
  destruct (C85_line th r m e x N T H B1 B2) as (F & E1 & E2). rewrite u_pow in *. split; [split; [exact F|exact Hh]|]. set (q := motor_on_line m x) in *. clearbody q. clear F B1 B2 Fx1 Fx2 Hh Z1 Z2. set (n1 := dirn x) in *. set (d1 := mom x) in *. clearbody n1 d1.
  assert (a0 : 0 <= 201 / 100 * th + 19 * u) by lra. assert (b0 : 0 <= 201 / 100 * th + 28 * u) by lra. assert (c0 : 0 <= 401 / 100 * th + 56 * u) by lra. set (a := 201 / 100 * th + 19 * u) in *. set (b := 201 / 100 * th + 28 * u) in *. set (c := 401 / 100 * th + 56 * u) in *. clearbody a b c. assert (ty : 0 < tiny) by apply bpow_gt_0.
  rewrite In1 in G1. assert (X1 : a * vlen n1 <= a * (A + vlen (vsub n1 n))) by (apply Rmult_le_compat_l; lra). assert (X2 : b * vlen d1 <= b * (Y + vlen (vsub d1 d))) by (apply Rmult_le_compat_l; lra). assert (X3 : c * (r * vlen n1) <= c * (r * (A + vlen (vsub n1 n)))) by (apply Rmult_le_compat_l; [lra|]; apply Rmult_le_compat_l; lra).
  split.
  - eapply Rle_trans; [apply (vlen_via _ (swung e n1))|]. rewrite <- swung_lin, (swung_len e _ P). lra.
  - eapply Rle_trans; [apply (vlen_via _ (moved_mom e n1 d1))|].
    replace (vsub (moved_mom e n1 d1) (moved_mom e n d)) with (vadd (swung e (vsub d1 d)) (vcross (moved e (V 0 0 0)) (swung e (vsub n1 n)))) by (unfold moved_mom; rewrite !swung_lin; unfold vsub, vadd, vcross; cbn [vx vy vz]; apply vec_eq; cbn [vx vy vz]; ring).
    pose proof (vlen_tri (swung e (vsub d1 d)) (vcross (moved e (V 0 0 0)) (swung e (vsub n1 n)))) as K1. rewrite (swung_len e (vsub d1 d) P) in K1. pose proof (vcross_len (moved e (V 0 0 0)) (swung e (vsub n1 n))) as K2. rewrite (swung_len e _ P) in K2. pose proof (Rmult_le_compat_r _ _ _ (vlen_pos (vsub n1 n)) S) as K3. lra.
Qed.
Theorem C93_line : forall (th r Y : R) (ls : list (motor f32 * motor R)) (p : line f32), 0 <= th <= / 1000 -> 0 <= r <= 2 ^ 19 -> Forall (stage th r) ls -> line_fine p ->
  let j := INR (length ls) in let A := vlen (dirn p) in let e := line_path ls (dirn p, mom p) in let q := fold_left (fun x k => motor_on_line (fst k) x) ls p in
  A <= 2 ^ 18 -> Y <= 2 ^ 18 -> (forall pre suf, ls = pre ++ suf -> vlen (snd (line_path pre (dirn p, mom p))) <= Y) -> j * (401 / 100 * th + 56 * / 2 ^ 24) <= / 100 -> j * (r * A) <= 2 ^ 18 ->
  line_fine q /\
  vlen (vsub (dirn q) (fst e)) <= 102 / 100 * (j * (201 / 100 * th + 19 * / 2 ^ 24) * A) + 3 * (j * tiny) /\
  vlen (vsub (mom q) (snd e)) <= 103 / 100 * (j * ((201 / 100 * th + 28 * / 2 ^ 24) * Y + (401 / 100 * th + 56 * / 2 ^ 24) * (r * A))) + 103 / 100 * (j * j * (201 / 100 * th + 19 * / 2 ^ 24) * (r * A)) + 4 * (j * tiny) + 4 * (j * j * (r * tiny)).
Proof.
  intros th r Y ls p Ht Hr Hls Fp j A e q HA HY Hin Hj Hjr. rewrite u_pow in *. pose proof u_small as U. assert (A0 : 0 <= A) by apply vlen_pos.
  assert (Y0 : 0 <= Y) by (eapply Rle_trans; [apply vlen_pos|exact (Hin nil ls eq_refl)]).
  assert (P : Forall (fun k : motor f32 * motor R => proper (snd k)) ls) by (eapply Forall_impl; [|exact Hls]; intros k (_ & Q & _); exact Q).
  destruct (D_zero (201 / 100 * th + 19 * u) (201 / 100 * th + 28 * u) (401 / 100 * th + 56 * u) A Y r) as [Z1 Z2].
  pose proof (many (fun k x => motor_on_line (fst k) x) (fun (k : motor f32 * motor R) (e : vec * vec) => (swung (snd k) (fst e), moved_mom (snd k) (fst e) (snd e))) line_fine (fun e => vlen (fst e) = A /\ vlen (snd e) <= Y)
    (fun x e => vlen (vsub (dirn x) (fst e))) (fun x e => vlen (vsub (mom x) (snd e))) (201 / 100 * th + 19 * u) (201 / 100 * th + 28 * u) (401 / 100 * th + 56 * u) A Y r
    ltac:(lra) ltac:(lra) ltac:(lra) ltac:(lra) ltac:(lra) Hr ltac:(intros; split; apply vlen_pos) ls) as M.
  assert (Hst : Forall (one_step (fun k x => motor_on_line (fst k) x) (fun (k : motor f32 * motor R) (e : vec * vec) => (swung (snd k) (fst e), moved_mom (snd k) (fst e) (snd e))) line_fine (fun e => vlen (fst e) = A /\ vlen (snd e) <= Y)
    (fun x e => vlen (vsub (dirn x) (fst e))) (fun x e => vlen (vsub (mom x) (snd e))) (201 / 100 * th + 19 * u) (201 / 100 * th + 28 * u) (401 / 100 * th + 56 * u) A Y r) ls) by (eapply Forall_impl; [|exact Hls]; intros k Hk; exact (line_step th r A Y k Hk ltac:(lra) ltac:(lra) ltac:(lra) ltac:(lra))).
  specialize (M Hst 0 p (dirn p, mom p) (Rle_refl 0)). fold j in M. rewrite !Rplus_0_l in M. apply M; clear M; try assumption.
  - cbn [fst]. rewrite Z1, vsub_self. apply Rle_refl.
  - cbn [snd]. rewrite Z2, vsub_self. apply Rle_refl.
  - intros pre suf Hp. split; [|exact (Hin pre suf Hp)]. assert (Pp : Forall (fun k : motor f32 * motor R => proper (snd k)) pre) by (rewrite Hp in P; apply Forall_app in P; exact (proj1 P)).
    unfold A. clear - Pp. generalize (mom p). generalize (dirn p). induction Pp as [|k pre Pk _ IH]; intros n d; [reflexivity|]. cbn [fold_left fst snd]. rewrite IH. apply swung_len. exact Pk.
Qed.
Print Assumptions C93_line.
(** the exact paths belong to each other: what lies on the plane or line at the start lies on it all the way *)
Theorem C93_exact : forall ls, Forall (fun k : motor f32 * motor R => proper (snd k)) ls -> forall x,
  (forall n d, vdot (fst (plane_path ls (n, d))) (point_path ls 1 x) + snd (plane_path ls (n, d)) = vdot n x + d) /\
  (forall s k, vcross x s = k -> vcross (point_path ls 1 x) (fst (line_path ls (s, k))) = snd (line_path ls (s, k))) /\ (forall z, vlen (vsub (point_path ls 1 x) (point_path ls 1 z)) = vlen (vsub x z)).
Proof.
  induction 1 as [|k ls Pk _ IH]; intro x; [split; [reflexivity|split; [intros s k E; exact E|reflexivity]]|]. unfold plane_path, line_path, point_path. cbn [fold_left fst snd]. fold (plane_path ls) (line_path ls) (point_path ls 1).
  assert (E : brought (snd k) 1 x = moved (snd k) x) by (unfold brought; rewrite (moved_swung (snd k) x); unfold vadd, vscale; apply vec_eq; cbn [vx vy vz]; ring).
  destruct (IH (brought (snd k) 1 x)) as (I1 & I2 & I3). destruct (C85_exact (snd k) Pk x) as [Q1 Q2]. rewrite E in *. split; [|split].
  - intros n d. rewrite I1. apply Q1.
  - intros s m Hm. apply I2. specialize (Q2 s m). rewrite Hm in Q2. assert (Z : swung (snd k) (vsub m m) = V 0 0 0) by (rewrite swung_lin; destruct (swung (snd k) m) as [z1 z2 z3]; unfold vsub; apply vec_eq; cbn [vx vy vz]; ring). rewrite Z in Q2.
    destruct (vcross (moved (snd k) x) (swung (snd k) s)) as [a1 a2 a3], (moved_mom (snd k) s m) as [b1 b2 b3]. unfold vsub in Q2. cbn [vx vy vz] in Q2. injection Q2 as H1 H2 H3. apply vec_eq; cbn [vx vy vz]; lra.
  - intro z. assert (E' : brought (snd k) 1 z = moved (snd k) z) by (unfold brought; rewrite (moved_swung (snd k) z); unfold vadd, vscale; apply vec_eq; cbn [vx vy vz]; ring). etransitivity; [exact (I3 (brought (snd k) 1 z))|]. rewrite E', (moved_swung (snd k) x), (moved_swung (snd k) z).
    replace (vsub (vadd (swung (snd k) x) (moved (snd k) (V 0 0 0))) (vadd (swung (snd k) z) (moved (snd k) (V 0 0 0)))) with (swung (snd k) (vsub x z)); [apply swung_len; exact Pk|]. rewrite swung_lin. unfold vsub, vadd. apply vec_eq; cbn [vx vy vz]; ring.
Qed.
Print Assumptions C93_exact.
(** the exact paths go no farther than 2 r per step, so Y = (start) + 2 j r A always serves *)
Theorem C93_reach : forall th r ls, Forall (stage th r) ls -> let j := INR (length ls) in
  (forall n d, Rabs (snd (plane_path ls (n, d))) <= Rabs d + 2 * (j * (r * vlen n))) /\ (forall s k, vlen (snd (line_path ls (s, k))) <= vlen k + 2 * (j * (r * vlen s))) /\ (forall w x, vlen (point_path ls w x) <= vlen x + 2 * (j * (r * Rabs w))).
Proof.
  intros th r ls H. induction H as [|[m e] ls N _ IH]; intro j.
  - unfold j. cbn. split; [|split]; intros; lra.
  - unfold stage in N. cbn [fst snd] in N. assert (P : proper e) by (destruct N as (_ & Q & _); exact Q). destruct (moved_len e r (V 0 0 0) P ltac:(destruct N as (_ & _ & Q & _); exact Q)) as [S _].
    assert (J : j = INR (length ls) + 1) by (unfold j; cbn [length]; apply S_INR). rewrite J. clear j J. cbv zeta in IH. destruct IH as (I1 & I2 & I3). set (j := INR (length ls)) in *. clearbody j. split; [|split].
    + intros n d. eapply Rle_trans; [exact (I1 (swung e n) (moved_off e n d))|]. rewrite (swung_len e n P). assert (Rabs (moved_off e n d) <= Rabs d + 2 * (r * vlen n)); [|lra].
      unfold moved_off. eapply Rle_trans; [apply Rabs_triang|]. rewrite Rabs_Ropp. apply Rplus_le_compat_l. eapply Rle_trans; [apply vdot_abs|]. rewrite (swung_len e n P). pose proof (Rmult_le_compat_l _ _ _ (vlen_pos n) S). lra.
    + intros n d. eapply Rle_trans; [exact (I2 (swung e n) (moved_mom e n d))|]. rewrite (swung_len e n P). assert (vlen (moved_mom e n d) <= vlen d + 2 * (r * vlen n)); [|lra].
      unfold moved_mom. eapply Rle_trans; [apply vlen_tri|]. rewrite (swung_len e d P). apply Rplus_le_compat_l. eapply Rle_trans; [apply vcross_len|]. rewrite (swung_len e n P). pose proof (Rmult_le_compat_r _ _ _ (vlen_pos n) S). lra.
    + intros w x. eapply Rle_trans; [exact (I3 w (brought e w x))|]. assert (vlen (brought e w x) <= vlen x + 2 * (r * Rabs w)); [|lra].
      unfold brought. eapply Rle_trans; [apply vlen_tri|]. rewrite (swung_len e x P), vlen_scale. pose proof (Rmult_le_compat_l _ _ _ (Rabs_pos w) S). lra.
Qed.
Print Assumptions C93_reach.
(** two points carried along by the same motors keep their distance *)
Theorem C93_distance : forall (B : Build) (th r Y : R) (ls : list (motor f32 * motor R)) (p p' : point f32), 0 <= th <= / 1000 -> 0 <= r <= 2 ^ 19 -> Forall (stage th r) ls -> Forall fin (reg_list (point_p3 p)) -> Forall fin (reg_list (point_p3 p')) -> wt p = 1 -> wt p' = 1 ->
  let j := INR (length ls) in let walk := fun p => fold_left (fun x k => motor_on_point (fst k) x) ls p in
  vlen (pos p) <= Y -> vlen (pos p') <= Y -> Y + 2 * (j * r) <= 2 ^ 18 -> j * (4002 / 1000 * th + 251 / 10 * / 2 ^ 24) <= / 100 ->
  Rabs (vlen (vsub (pos (walk p)) (pos (walk p'))) - vlen (vsub (pos p) (pos p'))) <=
    206 / 100 * (j * ((2001 / 1000 * th + 221 / 10 * / 2 ^ 24) * (Y + 2 * (j * r)) + (4002 / 1000 * th + 251 / 10 * / 2 ^ 24) * r)) + 206 / 100 * (j * j * (2001 / 1000 * th + 71 / 10 * / 2 ^ 24) * r) + 8 * (j * tiny) + 8 * (j * j * (r * tiny)).
Proof.
  intros B th r Y ls p p' Ht Hr Hls Fp Fp' W W' j walk HY HY' HB Hj.
  assert (Q : forall q, wt q = 1 -> vlen (pos q) <= Y -> forall pre suf, ls = pre ++ suf -> vlen (point_path pre (wt q) (pos q)) <= Y + 2 * (j * r)).
  { intros q Wq Hq pre suf E. assert (Sp : Forall (stage th r) pre) by (rewrite E in Hls; apply Forall_app in Hls; exact (proj1 Hls)). destruct (C93_reach th r pre Sp) as (_ & _ & R3). eapply Rle_trans; [apply R3|]. rewrite Wq, Rabs_R1, Rmult_1_r.
    assert (INR (length pre) <= j) by (unfold j; rewrite E, app_length, plus_INR; pose proof (pos_INR (length suf)); lra). pose proof (Rmult_le_compat_r r _ _ (proj1 Hr) H). lra. }
  assert (Y0 : 0 <= Y) by (eapply Rle_trans; [apply vlen_pos|exact HY]). assert (one : 1 <= 2 ^ 18) by (apply pow_R1_Rle; lra).
  pose proof (C93_point B th r (Y + 2 * (j * r)) ls p Ht Hr Hls Fp) as C. pose proof (C93_point B th r (Y + 2 * (j * r)) ls p' Ht Hr Hls Fp') as C'. cbv zeta in C, C'. rewrite W, Rabs_R1 in C. rewrite W', Rabs_R1 in C'. fold j in C, C'. rewrite Rmult_1_r in C, C'.
  assert (jr : 0 <= j * r) by (apply Rmult_le_pos; [apply pos_INR|lra]).
  destruct (C one HB ltac:(rewrite <- W; apply Q; assumption) Hj ltac:(lra)) as (_ & _ & E1). destruct (C' one HB ltac:(rewrite <- W'; apply Q; assumption) Hj ltac:(lra)) as (_ & _ & E2). clear C C' Q.
  assert (P : Forall (fun k : motor f32 * motor R => proper (snd k)) ls) by (eapply Forall_impl; [|exact Hls]; intros k (_ & K & _); exact K). destruct (C93_exact ls P (pos p)) as (_ & _ & I). specialize (I (pos p')). rewrite <- I.
  fold (walk p) in E1. fold (walk p') in E2. set (a := pos (walk p)) in *. set (b := pos (walk p')) in *. set (y := point_path ls 1 (pos p)) in *. set (z := point_path ls 1 (pos p')) in *. clearbody a b y z.
  assert (K : Rabs (vlen (vsub a b) - vlen (vsub y z)) <= vlen (vsub a y) + vlen (vsub b z)).
  { pose proof (vlen_grow (vsub a b) (vsub y z)) as G1. pose proof (vlen_grow (vsub y z) (vsub a b)) as G2.
    assert (T1 : vlen (vsub (vsub a b) (vsub y z)) <= vlen (vsub a y) + vlen (vsub b z)). { replace (vsub (vsub a b) (vsub y z)) with (vadd (vsub a y) (vscale (-1) (vsub b z))) by (unfold vsub, vadd, vscale; apply vec_eq; cbn [vx vy vz]; ring). eapply Rle_trans; [apply vlen_tri|]. rewrite vlen_scale, (Rabs_left (-1)) by lra. lra. }
    assert (T2 : vlen (vsub (vsub y z) (vsub a b)) = vlen (vsub (vsub a b) (vsub y z))) by (replace (vsub (vsub y z) (vsub a b)) with (vscale (-1) (vsub (vsub a b) (vsub y z))) by (unfold vsub, vscale; apply vec_eq; cbn [vx vy vz]; ring); rewrite vlen_scale, (Rabs_left (-1)) by lra; ring).
    apply Rabs_le. lra. }
  lra.
Qed.
Print Assumptions C93_distance.
(** directions: only the rotation acts, and the hidden weight stays exactly zero *)
Lemma direction_hidden (B : Build) (m : motor f32) (b : direction f32) : motor_bound m -> bound (direction_p3 b) -> val (l0 (direction_p3 b)) = 0 ->
  fin (l0 (direction_p3 (motor_on_direction m b))) /\ val (l0 (direction_p3 (motor_on_direction m b))) = 0.
Proof.
  intros [Hm1 Hm2] Hb Z1. pose proof (lanes16_ok _ _ _ _ Hm1 Hm2 Hb nought_ok) as X. set (L := lanes16 (motor_p1 m) (motor_p2 m) (direction_p3 b) nought) in *.
  set (c := direction_p3 (motor_on_direction (A := Arith_expr) (mkmotor (vreg 0) (vreg 4)) (mkdirection (vreg 8)))). set (z := fun n => (n =? 8)%nat).
  assert (G : null z (l0 c) = true) by (unfold c; destruct B as [[|]]; vm_compute; reflexivity).
  assert (Z : forall n, z n = true -> val (L n) = 0) by (intros n Hn; apply Nat.eqb_eq in Hn; subst n; exact Z1).
  assert (C : direction_p3 (motor_on_direction m b) = map4 (eval L) c) by exact (md_code B m b). rewrite C. clearbody c. exact (null_ok L z (l0 c) X Z G).
Qed.
Definition direction_fine (x : direction f32) : Prop := Forall fin (reg_list (direction_p3 x)) /\ val (l0 (direction_p3 x)) = 0.
Definition direction_path (ls : list (motor f32 * motor R)) (n : vec) : vec := fold_left (fun n k => swung (snd k) n) ls n.
Theorem C93_direction : forall (B : Build) (th r : R) (ls : list (motor f32 * motor R)) (p : direction f32), 0 <= th <= / 1000 -> 0 <= r <= 2 ^ 19 -> Forall (stage th r) ls -> direction_fine p ->
  let j := INR (length ls) in let n := vval (direction_p3 p) in let q := fold_left (fun x k => motor_on_direction (fst k) x) ls p in
  vlen n <= 2 ^ 18 -> j * (401 / 100 * th + 32 * / 2 ^ 24) <= / 100 ->
  direction_fine q /\ vlen (vsub (vval (direction_p3 q)) (direction_path ls n)) <= 102 / 100 * (j * (201 / 100 * th + 22 * / 2 ^ 24) * vlen n) + 3 * (j * tiny).
Proof.
  intros B th r ls p Ht Hr Hls Fp j n q HA Hj. rewrite u_pow in *. pose proof u_small as U. set (A := vlen n) in *. assert (A0 : 0 <= A) by apply vlen_pos. assert (ty : 0 < tiny) by apply bpow_gt_0. assert (Q18 : 0 < 2 ^ 18) by (apply pow_lt; lra).
  assert (P : Forall (fun k : motor f32 * motor R => proper (snd k)) ls) by (eapply Forall_impl; [|exact Hls]; intros k (_ & Q & _); exact Q).
  set (a := 201 / 100 * th + 22 * u) in *. set (c := 401 / 100 * th + 32 * u) in *.
  assert (Hst : Forall (one_step (fun k x => motor_on_direction (fst k) x) (fun (k : motor f32 * motor R) (e : vec) => swung (snd k) e) direction_fine (fun e => vlen e = A) (fun x e => vlen (vsub (vval (direction_p3 x)) e)) (fun x e => 0) a 0 c A 0 0) ls).
  { eapply Forall_impl; [|exact Hls]. intros [m e] N x y [Fx Zx] In R1 _. unfold stage in N. cbn [fst snd] in *. destruct (near_facts _ _ _ _ N (proj2 Ht) (proj2 Hr)) as (Hm & _). assert (Pe : proper e) by (destruct N as (_ & Q & _); exact Q).
    pose proof (vlen_grow (vval (direction_p3 x)) y) as G1. assert (Q : 2 ^ 20 = 4 * 2 ^ 18) by ring.
    assert (Bx : bound (direction_p3 x)) by (apply small_bound; [exact Fx|rewrite Zx, Rabs_R0; lra|lra]).
    destruct (direction_hidden B m x Hm Bx Zx) as [F0 V0]. destruct (C85_direction B th r m e x N (proj2 Ht) (proj2 Hr) Bx) as ((F1 & F2 & F3) & E1). rewrite u_pow in E1. fold a in E1. split; [split; [repeat (apply Forall_cons; [assumption|]); apply Forall_nil|exact V0]|].
    assert (a0 : 0 <= a) by (unfold a; lra). clearbody a. set (v := vval (direction_p3 x)) in *. clearbody v. assert (X1 : a * vlen v <= a * (A + vlen (vsub v y))) by (apply Rmult_le_compat_l; lra).
    split; [|lra]. eapply Rle_trans; [apply (vlen_via _ (swung e v))|]. rewrite <- swung_lin, (swung_len e _ Pe). lra. }
  pose proof (many (fun k x => motor_on_direction (fst k) x) (fun (k : motor f32 * motor R) (e : vec) => swung (snd k) e) direction_fine (fun e => vlen e = A) (fun x e => vlen (vsub (vval (direction_p3 x)) e)) (fun x e => 0) a 0 c A 0 0
    ltac:(unfold a, c; lra) ltac:(unfold c; lra) ltac:(unfold c; lra) ltac:(lra) ltac:(lra) ltac:(lra) ltac:(intros; split; [apply vlen_pos|lra]) ls Hst 0 p n (Rle_refl 0)) as M.
  fold j in M. rewrite !Rplus_0_l in M. destruct (D_zero a 0 c A 0 0) as [Z1 Z2]. destruct M as (O & E & _); try assumption.
  - lra.
  - rewrite Z1. unfold n. rewrite vsub_self. apply Rle_refl.
  - rewrite Z2. apply Rle_refl.
  - intros pre suf Hp. assert (Pp : Forall (fun k : motor f32 * motor R => proper (snd k)) pre) by (rewrite Hp in P; apply Forall_app in P; exact (proj1 P)).
    unfold A. clear - Pp. generalize n. induction Pp as [|k pre Pk _ IH]; intro v; [reflexivity|]. cbn [fold_left]. rewrite IH. apply swung_len. exact Pk.
  - split; [exact O|exact E].
Qed.
Print Assumptions C93_direction.
(** a thousand steps of a third of a turn about (1, 1, 1) with a shift *)
Example C93_ex : let ls := repeat (third, third_e) 1000 in let j := INR (length ls) in
  let b := mkplane (mk4 (fz (-9)) (fz 1) (fz 2) (fz 2)) in let p := mkpoint (mk4 (fz 1) (fz 1) (fz 3) (fz 1)) in let l := mkline (mk4 (fz 0) (fz 1) (fz 2) (fz 2)) (mk4 (fz 0) (fz 4) (fz (-1)) (fz (-1))) in
  Forall (stage 0 4) ls /\ j = 1000 /\ j * (401 / 100 * 0 + 56 * / 2 ^ 24) <= / 100 /\
  (Forall fin (reg_list (plane_p0 b)) /\ vlen (nrm b) = 3 /\ forall pre suf, ls = pre ++ suf -> Rabs (snd (plane_path pre (nrm b, off b))) <= 30000) /\
  (Forall fin (reg_list (point_p3 p)) /\ wt p = 1 /\ forall pre suf, ls = pre ++ suf -> vlen (point_path pre (wt p) (pos p)) <= 30000) /\
  (line_fine l /\ vlen (dirn l) = 3 /\ forall pre suf, ls = pre ++ suf -> vlen (snd (line_path pre (dirn l, mom l))) <= 30000).
Proof.
  assert (Z : forall k, (Z.abs k <= 2 ^ 20)%Z -> val (fz k) = IZR k) by (intros k Hk; apply fz_ok; lia). assert (Fz : forall k, (Z.abs k <= 2 ^ 20)%Z -> fin (fz k)) by (intros k Hk; apply fz_ok; lia).
  assert (L : forall v k, 0 <= k -> vdot v v = k * k -> vlen v = k) by (intros v k Hk E; unfold vlen; rewrite E; apply sqrt_square; exact Hk).
  assert (L' : forall v k, 0 <= k -> vdot v v <= k * k -> vlen v <= k) by (intros v k Hk E; apply vlen_bound; assumption).
  intros ls j b p l. assert (J : j = 1000) by (unfold j, ls; rewrite repeat_length, INR_IZR_INZ; reflexivity).
  assert (St : Forall (stage 0 4) ls) by (apply Forall_forall; intros k Hk; apply repeat_spec in Hk; rewrite Hk; exact near_third).
  assert (Pre : forall pre suf, ls = pre ++ suf -> Forall (stage 0 4) pre /\ 0 <= INR (length pre) <= 1000).
  { intros pre suf E. split; [rewrite E in St; apply Forall_app in St; exact (proj1 St)|]. split; [apply pos_INR|]. rewrite <- J. unfold j. rewrite E, app_length, plus_INR. pose proof (pos_INR (length suf)). lra. }
  assert (Nb : vlen (nrm b) = 3). { apply L; [lra|]. unfold vdot, nrm, vval, b. cbn [plane_p0 l0 l1 l2 l3 vx vy vz]. rewrite !Z by lia. lra. }
  assert (Nl : vlen (dirn l) = 3). { apply L; [lra|]. unfold vdot, dirn, vval, l. cbn [line_p1 l0 l1 l2 l3 vx vy vz]. rewrite !Z by lia. lra. }
  assert (Wp : wt p = 1) by (apply (Z 1%Z); lia).
  split; [exact St|]. split; [exact J|]. split; [rewrite J, u_pow; unfold u; lra|]. split; [|split].
  - split; [repeat (apply Forall_cons; [apply Fz; lia|]); apply Forall_nil|]. split; [exact Nb|]. intros pre suf E. destruct (Pre pre suf E) as [Sp Jp]. destruct (C93_reach 0 4 pre Sp) as (R1 & _). eapply Rle_trans; [apply R1|]. rewrite Nb. assert (Ob : off b = -9) by (apply (Z (-9)%Z); lia). rewrite Ob, Rabs_left by lra. lra.
  - split; [repeat (apply Forall_cons; [apply Fz; lia|]); apply Forall_nil|]. split; [exact Wp|]. intros pre suf E. destruct (Pre pre suf E) as [Sp Jp]. destruct (C93_reach 0 4 pre Sp) as (_ & _ & R3). eapply Rle_trans; [apply R3|]. rewrite Wp, Rabs_R1. assert (vlen (pos p) <= 4) by (apply L'; [lra|]; unfold vdot, pos, p; cbn [point_p3 l0 l1 l2 l3 vx vy vz]; rewrite !Z by lia; lra). lra.
  - split; [split; [repeat (apply Forall_cons; [apply Fz; lia|]); apply Forall_nil|split; apply (Z 0%Z); lia]|]. split; [exact Nl|]. intros pre suf E. destruct (Pre pre suf E) as [Sp Jp]. destruct (C93_reach 0 4 pre Sp) as (_ & R2 & _). eapply Rle_trans; [apply R2|]. rewrite Nl. assert (vlen (mom l) <= 5) by (apply L'; [lra|]; unfold vdot, mom, vval, l; cbn [line_p2 l0 l1 l2 l3 vx vy vz]; rewrite !Z by lia; lra). lra.
Qed.
Example C93_direction_ex : let v := mkdirection (mk4 (fz 0) (fz 1) (fz 2) (fz 2)) in direction_fine v /\ vval (direction_p3 v) = V 1 2 2.
Proof.
  assert (Z : forall k, (Z.abs k <= 2 ^ 20)%Z -> fin (fz k) /\ val (fz k) = IZR k) by (intros k Hk; apply fz_ok; lia).
  intro v. split; [split; [repeat (apply Forall_cons; [apply Z; lia|]); apply Forall_nil|apply (Z 0%Z); lia]|]. unfold vval, v. cbn [direction_p3 l1 l2 l3]. apply vec_eq; cbn [vx vy vz]; apply Z; lia.
Qed.
