(** Property C89, continued: the documented meaning of products of points, in binary32. *)
From Coq Require Import ZArith Reals List Bool Lra Lia Psatz.
From Flocq Require Import Core BinarySingleNaN.
From Verif Require Import AlgTac SpecMass FloatMass Float32 FloatFacts ExprSyntax FloatErr FloatAbs FloatApx FloatNR FloatOps FloatIdeal Props11 SpecGeom Props20 Props21 Props23 Props24 Props26 Props28 Props30 Props31 Props32 Props33 Props34 Props35 Props36 Props37 Props38 Props40.
Import ListNotations.
Local Open Scope R_scope.

(** ** Points *)
Lemma half_near x : fin x -> Rabs (val x) <= big -> let h := fmul x (f32_of 1 (-1)) in fin h /\ Rabs (val h - val x / 2) <= tiny /\ (val x = 0 -> val h = 0).
Proof.
  intros F H h. assert (t0 : 0 < tiny) by apply bpow_gt_0. assert (E : val x = 0 \/ bpow radix2 (-125) <= Rabs (val x) \/ Rabs (val x) < bpow radix2 (-125)) by (destruct (Rle_lt_dec (bpow radix2 (-125)) (Rabs (val x))); tauto). destruct E as [E|[E|E]].
  - destruct (half_exact x F (or_introl E) H) as ((A & V) & _). fold h in A, V. split; [exact A|]. rewrite V, E. split; [replace (0 / 2 - 0 / 2) with 0 by field; rewrite Rabs_R0; lra|intros _; field].
  - destruct (half_exact x F (or_intror E) H) as ((A & V) & _). fold h in A, V. split; [exact A|]. rewrite V. split; [replace (val x / 2 - val x / 2) with 0 by ring; rewrite Rabs_R0; lra|intros ->; field].
  - assert (Vh : val (f32_of 1 (-1)) = / 2) by (vm_compute; lra). assert (X : Rabs (val x * / 2) <= bpow radix2 (-126)). { rewrite Rabs_mult, (Rabs_pos_eq (/ 2)) by lra. change (-126)%Z with (-125 + -1)%Z. rewrite bpow_plus. change (bpow radix2 (-1)) with (/ 2). lra. }
    assert (L : bpow radix2 (-126) <= big) by (apply bpow_le; lia). destruct (mul_ok x (f32_of 1 (-1)) F eq_refl) as [Fh Eh]; [rewrite Vh; lra|]. fold h in Fh, Eh. split; [exact Fh|]. rewrite Eh, Vh. split.
    + pose proof (rnd_err (val x * / 2) _ (Rle_refl _) X) as K. eapply Rle_trans; [exact K|]. apply (Rle_trans _ (1 * bpow radix2 (-126))); [apply Rmult_le_compat_r; [apply bpow_ge_0|unfold u; lra]|]. rewrite Rmult_1_l. apply bpow_le. lia.
    + intros ->. rewrite Rmult_0_l. apply (rnd_Z 0). lia.
Qed.
Lemma lanewise (e a b : vec) c k : 0 <= c -> 0 <= k -> (forall i : vec -> R, In i [vx; vy; vz] -> Rabs (i e) <= c * (Rabs (i b) + Rabs (i a)) + k) -> vlen e <= c * (vlen a + vlen b) + 2 * k.
Proof.
  intros C K H. rewrite <- vlen_vabs. apply (Rle_trans _ (vlen (vadd (vscale c (vadd (vabs a) (vabs b))) (V k k k)))).
  - apply vlen_le; [apply vabs_pos|]. unfold vle, vabs, vadd, vscale. cbn [vx vy vz]. pose proof (H vx ltac:(cbn; tauto)). pose proof (H vy ltac:(cbn; tauto)). pose proof (H vz ltac:(cbn; tauto)). lra.
  - eapply Rle_trans; [apply vlen_tri|]. rewrite vlen_scale_pos by exact C. apply Rplus_le_compat.
    + apply Rmult_le_compat_l; [exact C|]. eapply Rle_trans; [apply vlen_tri|]. rewrite !vlen_vabs. lra.
    + apply vlen_bound; [lra|]. unfold vdot. cbn [vx vy vz]. nra.
Qed.
Lemma shift_image p2 x : motor_image (mk4 1 0 0 0) p2 1 x = vsub x (vscale 2 (vpart p2)).
Proof. rewrite image_turn. destruct p2 as [a b c d], x as [x y z]. unfold turn, vpart, qm, lift, rev4, vsub, vscale. cbn [l0 l1 l2 l3 vx vy vz]. apply vec_eq; cbn [vx vy vz]; ring. Qed.
Lemma div1 x : x / 1 = x.
Proof. field. Qed.
Theorem C89_points : forall (B : Build) (M : machine), rcp_estimate M -> let FL := Flo_f32 M in forall a b : point f32,
  Forall (safe (-31) 19) (coefs (k := KPoint) a) -> Forall (safe (-31) 19) (coefs (k := KPoint) b) -> wt a = 1 -> wt b = 1 ->
  let q := translator_on_point (translator_sqrt (point_mul_point a b)) b in
  vlen (vsub (pos q) (pos a)) <= / 2 ^ 24 * (19 * vlen (pos a) + 29 * vlen (pos b)) + / 2 ^ 117 /\ Rabs (wt q - 1) <= 5 * / 2 ^ 24.
Proof.
  intros B M HR FL a b Ha Hb Wa Wb q. assert (Wk : forall p : point f32, Forall (safe (-31) 19) (coefs (k := KPoint) p) -> Forall (safe (-31) 31) (coefs (k := KPoint) p) /\ Forall (bounded 20) (coefs (k := KPoint) p)).
  { intros p H. split; eapply Forall_impl; try exact H; intros x [F [Z|[L1 L2]]]; (split; [exact F|]).
    - left. exact Z. - right. split; [exact L1|]. eapply Rle_trans; [exact L2|]. apply bpow_le. lia. - rewrite Z, Rabs_R0. apply bpow_ge_0. - eapply Rle_trans; [exact L2|]. apply bpow_le. lia. }
  destruct (Wk a Ha) as [Sa Ba]. destruct (Wk b Hb) as [Sb Bb].
  destruct (C41_point_mul_point B M HR a b Sa Sb) as [[F0 Z0] G]; [change (wt a <> 0); lra|change (wt b <> 0); lra|]. fold FL in F0, Z0, G. change (val (l0 (point_p3 b))) with (wt b) in G. change (val (l0 (point_p3 a))) with (wt a) in G. rewrite Wa, Wb in G.
  set (t := point_mul_point a b) in *. clearbody t. rewrite u_pow in *. pose proof u_small as U.
  assert (CB : forall x : f32, (In x (reg_list (point_p3 a)) \/ In x (reg_list (point_p3 b))) -> Rabs (val x) <= bpow radix2 19).
  { intros x [I|I]; [rewrite Forall_forall in Ha; apply Ha in I|rewrite Forall_forall in Hb; apply Hb in I]; destruct I as [_ [Z|[_ L]]]; try exact L; rewrite Z, Rabs_R0; apply bpow_ge_0. }
  assert (X : forall i : m128 f32 -> f32, In i upper -> fin (i (translator_p2 t)) /\ Rabs (val (i (translator_p2 t)) - (val (i (point_p3 b)) - val (i (point_p3 a)))) <= 12 * u * (Rabs (val (i (point_p3 b))) + Rabs (val (i (point_p3 a)))) /\ Rabs (val (i (point_p3 b))) <= bpow radix2 19 /\ Rabs (val (i (point_p3 a))) <= bpow radix2 19).
  { intros i I. destruct (G i I) as [F E]. rewrite u_pow, !div1 in E. split; [exact F|split; [exact E|]]. split; apply CB; [right|left]; destruct I as [<-|[<-|[<-|[]]]]; cbn; tauto. } clear G CB.
  assert (P19 : bpow radix2 19 = 524288) by (cbn; ring). assert (P20 : bpow radix2 20 = 1048576) by (cbn; ring). assert (BG : 4194304 <= big) by (replace 4194304 with (bpow radix2 22) by (cbn; ring); apply bpow_le; lia). assert (t0 : 0 < tiny) by apply bpow_gt_0.
  assert (t1 : tiny <= 1) by (change 1 with (bpow radix2 0); apply bpow_le; lia).
  assert (Y : forall i : m128 f32 -> f32, In i upper -> let h := fmul (i (translator_p2 t)) (f32_of 1 (-1)) in bounded 20 h /\ Rabs (2 * val h - (val (i (point_p3 b)) - val (i (point_p3 a)))) <= 12 * u * (Rabs (val (i (point_p3 b))) + Rabs (val (i (point_p3 a)))) + 2 * tiny).
  { intros i I h. destruct (X i I) as (F & E & C1 & C2). rewrite P19 in C1, C2. set (x := i (translator_p2 t)) in *. set (p := val (i (point_p3 b))) in *. set (r := val (i (point_p3 a))) in *. clearbody x p r.
    assert (E' : 12 * u * (Rabs p + Rabs r) <= 12 * u * (1048576)) by (apply Rmult_le_compat_l; lra). assert (XB : Rabs (val x) <= 1048600). { replace (val x) with ((val x - (p - r)) + (p + - r)) by ring. eapply Rle_trans; [apply Rabs_triang|]. pose proof (Rabs_triang p (- r)) as Q. rewrite Rabs_Ropp in Q. unfold u in *. lra. }
    destruct (half_near x F ltac:(lra)) as (Fh & Eh & _). fold h in Fh, Eh. apply Rabs_le_inv in Eh. apply Rabs_le_inv in XB. apply Rabs_le_inv in E. split; [split; [exact Fh|rewrite P20; apply Rabs_le; lra]|apply Rabs_le; lra]. }
  destruct (half_near _ F0 ltac:(rewrite Z0, Rabs_R0; lra)) as (Fh & _ & Zh). specialize (Zh Z0). destruct (Y l1 ltac:(cbn; tauto)) as [B1 E1]. destruct (Y l2 ltac:(cbn; tauto)) as [B2 E2]. destruct (Y l3 ltac:(cbn; tauto)) as [B3 E3]. clear X Y.
  set (s := translator_sqrt t) in *. assert (Es : translator_p2 s = mk4 (fmul (l0 (translator_p2 t)) (f32_of 1 (-1))) (fmul (l1 (translator_p2 t)) (f32_of 1 (-1))) (fmul (l2 (translator_p2 t)) (f32_of 1 (-1))) (fmul (l3 (translator_p2 t)) (f32_of 1 (-1)))) by reflexivity.
  cbv zeta in B1, B2, B3, E1, E2, E3. set (h0 := fmul (l0 (translator_p2 t)) (f32_of 1 (-1))) in *. set (h1 := fmul (l1 (translator_p2 t)) (f32_of 1 (-1))) in *. set (h2 := fmul (l2 (translator_p2 t)) (f32_of 1 (-1))) in *. set (h3 := fmul (l3 (translator_p2 t)) (f32_of 1 (-1))) in *. clearbody s h0 h1 h2 h3. clear F0 Z0.
  assert (Bs : Forall (bounded 20) (coefs (k := KTranslator) s)). { change (coefs (k := KTranslator) s) with (reg_list (translator_p2 s)). rewrite Es. change (Forall (bounded 20) [h0; h1; h2; h3]). repeat (apply Forall_cons; [first [assumption|split; [exact Fh|rewrite Zh, Rabs_R0; apply bpow_ge_0]]|]). apply Forall_nil. }
  assert (Z : val (l0 (translator_p2 s)) = 0) by (rewrite Es; exact Zh). pose proof (translator_moves B s b Bs Z Bb Wb) as Q. destruct (weights B) as (_ & Q' & _). specialize (Q' s b Z Bs Bb). fold q in Q, Q'. rewrite Wb, Rabs_R1 in Q'. clearbody q.
  assert (T5 : bpow radix2 (-122) <= u) by (unfold u; cbn; lra). split; [|lra]. cbv zeta in Q. rewrite shift_image in Q. set (D := vsub (vscale 2 (vpart (map4 val (translator_p2 s)))) (vsub (pos b) (pos a))).
  assert (DL : vlen D <= 12 * u * (vlen (pos a) + vlen (pos b)) + 2 * (2 * tiny)).
  { apply lanewise; [lra|lra|]. unfold D. rewrite Es. intros i [<-|[<-|[<-|[]]]]; cbn [vsub vscale vpart vx vy vz map4 l0 l1 l2 l3]; [exact E1|exact E2|exact E3]. }
  assert (N2 : n4 (map4 val (translator_p2 s)) <= / 2 * (vlen D + (vlen (pos a) + vlen (pos b)))).
  { eapply Rle_trans; [apply n4_parts|]. cbn [map4 l0]. rewrite Z, Rabs_R0, Rplus_0_l. replace (vpart (map4 val (translator_p2 s))) with (vscale (/ 2) (vadd D (vadd (pos b) (vscale (- (1)) (pos a))))).
    - rewrite vlen_scale_pos by lra. apply Rmult_le_compat_l; [lra|]. eapply Rle_trans; [apply vlen_tri|]. apply Rplus_le_compat_l. eapply Rle_trans; [apply vlen_tri|]. rewrite vlen_scale, Rabs_Ropp, Rabs_R1. lra.
    - unfold D, vadd, vsub, vscale. cbn [vx vy vz]. apply vec_eq; cbn [vx vy vz]; field. }
  assert (K : vlen (vsub (pos q) (pos a)) <= 10 * u * vlen (pos b) + 11 * u * n4 (map4 val (translator_p2 s)) + bpow radix2 (-121) + vlen D).
  { apply (shift_plane _ (vsub (pos b) (vscale 2 (vpart (map4 val (translator_p2 s)))))); [exact Q|]. replace (vsub (vsub (pos b) (vscale 2 (vpart (map4 val (translator_p2 s))))) (pos a)) with (vscale (- (1)) D) by (unfold D, vsub, vscale; cbn [vx vy vz]; apply vec_eq; cbn [vx vy vz]; ring). rewrite vlen_scale, Rabs_Ropp, Rabs_R1. lra. }
  eapply Rle_trans; [exact K|]. clear K Q Es E1 E2 E3. pose proof (vlen_pos (pos a)) as a0. pose proof (vlen_pos (pos b)) as b0. pose proof (vlen_pos D) as d0. set (x := vlen (pos a)) in *. set (y := vlen (pos b)) in *. set (N := n4 (map4 val (translator_p2 s))) in *. set (W := vlen D) in *. clearbody x y N W.
  assert (UN : 11 * u * N <= 11 * u * (/ 2 * (W + (x + y)))) by (apply Rmult_le_compat_l; lra). assert (UW : u * W <= / 1000000 * W) by (apply Rmult_le_compat_r; [exact d0|lra]).
  assert (T7 : bpow radix2 (-121) = 2 * tiny) by (unfold tiny; change (-121)%Z with (1 + -122)%Z; rewrite bpow_plus; reflexivity). rewrite T7. assert (T8 : / 2 ^ 117 = 32 * tiny) by (unfold tiny; cbn; lra). rewrite T8. nra.
Qed.
Print Assumptions C89_points.
(** The plane x' = (3, 4, 0)/5 rounded at offset 5 and the plane x = -2, whose product is a rotation; two points. *)
Lemma len_near n k : 0 <= k -> Rabs (vdot n n - 1) <= k -> Rabs (vlen n - 1) <= k.
Proof. intros K H. pose proof (vlen_pos n). pose proof (vlen_sq n). apply Rabs_le_inv in H. apply Rabs_le. split; nra. Qed.
Example C89_ex : let a := mkplane (mk4 (fz 5) (f32_of 10066330 (-24)) (f32_of 13421773 (-24)) (fz 0)) in let b := iplane 2 1 0 0 in let p := ipoint 7 (-3) 2 in let q := ipoint 1 4 (-5) in
  bound (plane_p0 a) /\ bound (plane_p0 b) /\ Rabs (vlen (nrm a) - 1) <= / 20000 /\ Rabs (vlen (nrm b) - 1) <= / 20000 /\ Rabs (uoff a) + Rabs (uoff b) <= 8 /\ 0 <= vdot (unrm a) (unrm b) /\
  Forall (safe (-31) 19) (coefs (k := KPoint) p) /\ Forall (safe (-31) 19) (coefs (k := KPoint) q) /\ wt p = 1 /\ wt q = 1.
Proof.
  intros a b p q. destruct (ipoint_ok 7 (-3) 2) as (_ & P2 & _); try lia. destruct (ipoint_ok 1 4 (-5)) as (_ & Q2 & _); try lia. destruct (iplane_ok 2 1 0 0) as (B1 & B2 & B3); try lia. fold p in P2. fold q in Q2. fold b in B1, B2, B3.
  assert (J : forall m e, fin (f32_of m e) -> forall v, val (f32_of m e) = v -> Rabs v <= 1 -> bounded 20 (f32_of m e)).
  { intros m e F v E Hv. split; [exact F|]. rewrite E. eapply Rle_trans; [exact Hv|]. change 1 with (bpow radix2 0). apply bpow_le. lia. }
  assert (V1 : val (f32_of 10066330 (-24)) = 10066330 / 16777216) by (vm_compute; lra). assert (V2 : val (f32_of 13421773 (-24)) = 13421773 / 16777216) by (vm_compute; lra).
  assert (D1 := J _ _ (eq_refl : fin (f32_of 10066330 (-24))) _ V1 ltac:(rewrite Rabs_pos_eq; lra)). assert (D2 := J _ _ (eq_refl : fin (f32_of 13421773 (-24))) _ V2 ltac:(rewrite Rabs_pos_eq; lra)).
  assert (Z : forall k, (Z.abs k <= 2 ^ 20)%Z -> val (fz k) = IZR k) by (intros k Hk; apply fz_ok; lia).
  assert (Na : nrm a = V (10066330 / 16777216) (13421773 / 16777216) 0). { unfold nrm, vval, a. cbn [plane_p0 l1 l2 l3]. rewrite V1, V2, Z by lia. reflexivity. }
  assert (Oa : off a = 5) by (unfold off, a; cbn [plane_p0 l0]; apply Z; lia).
  assert (La : Rabs (vlen (nrm a) - 1) <= / 20000). { apply len_near; [lra|]. rewrite Na. unfold vdot. cbn [vx vy vz]. apply Rabs_le. lra. }
  assert (Lb : Rabs (vlen (nrm b) - 1) <= / 20000). { apply len_near; [lra|]. rewrite B3. unfold vdot. cbn [vx vy vz]. apply Rabs_le. lra. }
  assert (I : forall x y, Rabs (y - 1) <= / 20000 -> 0 <= x -> Rabs (x / y) <= x * (1001 / 1000)).
  { intros x y Hy Hx. apply Rabs_le_inv in Hy. assert (/ y <= 1001 / 1000) by (replace (1001 / 1000) with (/ (1000 / 1001)) by field; apply Rinv_le_contravar; lra). assert (0 < / y) by (apply Rinv_0_lt_compat; lra). rewrite Rabs_pos_eq; [apply Rmult_le_compat_l; assumption|apply Rmult_le_pos; lra]. }
  assert (S : forall k, (0 < Z.abs k < 8)%Z -> safe (-31) 19 (fz k)).
  { intros k Hk. destruct (fz_ok k ltac:(lia)) as [F E]. split; [exact F|right]. rewrite E, <- abs_IZR. split.
    - apply (Rle_trans _ (bpow radix2 0)); [apply bpow_le; lia|]. change (bpow radix2 0) with 1. apply IZR_le. lia.
    - apply (Rle_trans _ (bpow radix2 3)); [|apply bpow_le; lia]. change (bpow radix2 3) with 8. apply IZR_le. lia. }
  split; [|split; [|split; [|split; [|split; [|split; [|split; [|split; [|split]]]]]]]]; try assumption.
  - repeat (apply Forall_cons; [first [assumption|apply int_bounded; lia]|]); apply Forall_nil.
  - unfold uoff. rewrite Oa, B2. pose proof (I 5 _ La ltac:(lra)). pose proof (I (IZR 2) _ Lb ltac:(lra)). lra.
  - unfold unrm. assert (X : 0 < / vlen (nrm a)) by (apply Rinv_0_lt_compat; apply Rabs_le_inv in La; lra). assert (Y : 0 < / vlen (nrm b)) by (apply Rinv_0_lt_compat; apply Rabs_le_inv in Lb; lra). generalize dependent (/ vlen (nrm a)). intros x X. generalize dependent (/ vlen (nrm b)). intros y Y. rewrite Na, B3. unfold vdot, vscale. cbn [vx vy vz]. assert (0 <= x * y) by (apply Rmult_le_pos; lra). lra.
  - change (Forall (safe (-31) 19) [fz 1; fz 7; fz (-3); fz 2]). repeat (apply Forall_cons; [apply S; cbn; lia|]). apply Forall_nil.
  - change (Forall (safe (-31) 19) [fz 1; fz 1; fz 4; fz (-5)]). repeat (apply Forall_cons; [apply S; cbn; lia|]). apply Forall_nil.
Qed.
