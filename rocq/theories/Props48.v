(** Property C96: a motor built up by multiplying rotors, translators and motors onto it, on either side, in binary32. *)
From Coq Require Import ZArith Reals List Bool Lra Lia Psatz.
From Flocq Require Import Core BinarySingleNaN.
From Verif Require Import AlgTac SpecMass FloatMass Float32 FloatFacts ExprSyntax FloatErr FloatAbs FloatApx FloatNR FloatOps FloatIdeal Props11 SpecGeom Props20 Props21 Props22 Props23 Props24 Props26 Props28 Props30 Props31 Props34 Props36 Props37 Props38 Props42 Props44 Props47.
Import ListNotations.
Local Open Scope R_scope.

(** ** Single products, from C95 *)
Lemma p60 : 0 < / 2 ^ 60 <= 1.
Proof. split; [apply Rinv_0_lt_compat, pow_lt; lra|]. rewrite <- Rinv_1. apply Rinv_le_contravar; [lra|apply pow_R1_Rle; lra]. Qed.
Definition still : translator f32 := mktranslator (mk4 (fz 0) (fz 0) (fz 0) (fz 0)).
Lemma still_good : good_translator 1 still.
Proof.
  destruct (fz_ok 0 ltac:(lia)) as [F V0]. split; [repeat (apply Forall_cons; [exact F|]); apply Forall_nil|]. split; [exact V0|]. unfold still, map4. cbn [translator_p2 l0 l1 l2 l3]. rewrite V0, n4_0. lra.
Qed.
Definition unturned : rotor f32 := mkrotor (mk4 (fz 1) (fz 0) (fz 0) (fz 0)).
Lemma unturned_near : near_rotor 0 unturned (mk4 1 0 0 0).
Proof.
  destruct (fz_ok 1 ltac:(lia)) as [F1 V1]. destruct (fz_ok 0 ltac:(lia)) as [F0 V0]. split; [repeat (apply Forall_cons; [assumption|]); apply Forall_nil|]. split; [unfold n4, q4; cbn [l0 l1 l2 l3]; replace (1 * 1 + 0 * 0 + 0 * 0 + 0 * 0) with 1 by ring; apply sqrt_1|]. unfold rv, unturned, map4. cbn [rotor_p1 l0 l1 l2 l3]. rewrite V0, V1, sub4_self. lra.
Qed.
Lemma one50 : 1 <= 2 ^ 50. Proof. apply pow_R1_Rle. lra. Qed.
Lemma onto_rotor (B : Build) th th' r (a : rotor f32) e m f : near_rotor th a e -> near_motor th' r m f -> th <= 1 -> th' <= 1 -> / 2 ^ 60 <= r <= 2 ^ 50 ->
  near_motor ((1 + th) * (1 + th') * (1 + 84 / 10 * / 2 ^ 24) - 1) r (rotor_mul_motor a m) (mmul (plain e) f) /\ near_motor ((1 + th) * (1 + th') * (1 + 84 / 10 * / 2 ^ 24) - 1) r (motor_mul_rotor m a) (mmul f (plain e)).
Proof. intros Na Nm T T' L. pose proof p60. pose proof one50. destruct (C95_mixed B th th' 1 r a e still m f Na Nm still_good T T' ltac:(lra) L) as (_ & K & _). exact K. Qed.
Lemma onto_translator (B : Build) th r r' (t : translator f32) m f : good_translator r t -> near_motor th r' m f -> th <= 1 -> / 2 ^ 60 <= r <= 2 ^ 50 -> / 2 ^ 60 <= r' <= 2 ^ 50 ->
  near_motor ((1 + th) * (1 + 84 / 10 * / 2 ^ 24) - 1) (r + r') (translator_mul_motor t m) (mmul (gliding t) f) /\ near_motor ((1 + th) * (1 + 84 / 10 * / 2 ^ 24) - 1) (r + r') (motor_mul_translator m t) (mmul f (gliding t)).
Proof. intros G Nm T L L'. destruct (C95_mixed B 0 th r r' unturned _ t m f unturned_near Nm G ltac:(lra) T L L') as (_ & _ & H). exact H. Qed.
(** ** Any mixture *)
Inductive step := SR (a : rotor f32) (e : m128 R) | ST (t : translator f32) (r : R) | SM (m : motor f32) (e : motor R) (r : R).
Definition step_ok (th : R) (s : step) : Prop := match s with SR a e => near_rotor th a e | ST t r => good_translator r t /\ / 2 ^ 60 <= r | SM m e r => near_motor th r m e /\ / 2 ^ 60 <= r end.
Definition step_r (s : step) : R := match s with SR _ _ => 0 | ST _ r => r | SM _ _ r => r end.
Definition step_e (s : step) : motor R := match s with SR _ e => plain e | ST t _ => gliding t | SM _ e _ => e end.
(** what the step does to a point *)
Definition step_does (s : step) (x : vec) : vec := match s with SR _ e => turn e x | ST t _ => vadd x (carried t) | SM _ e _ => moved e x end.
(** m * s and s * m, by the operator for the kind of s *)
Definition mul_right (B : Build) (m : motor f32) (s : step) : motor f32 := match s with SR a _ => motor_mul_rotor m a | ST t _ => motor_mul_translator m t | SM n _ _ => motor_mul_motor m n end.
Definition mul_left (B : Build) (m : motor f32) (s : step) : motor f32 := match s with SR a _ => rotor_mul_motor a m | ST t _ => translator_mul_motor t m | SM n _ _ => motor_mul_motor n m end.
Lemma step_r_pos th s : step_ok th s -> 0 <= step_r s.
Proof. pose proof p60. destruct s as [a e|t r|m e r]; cbn [step_ok step_r]; [lra|intros [_ H1]; lra|intros [_ H1]; lra]. Qed.
Lemma step_proper th s : step_ok th s -> proper (step_e s).
Proof. destruct s as [a e|t r|m e r]; cbn [step_ok step_e]; [intros (_ & P & _); apply plain_proper; exact P|intros ((_ & Z & _) & _); apply gliding_facts; exact Z|intros ((_ & P & _) & _); exact P]. Qed.
Lemma step_moved th s x : step_ok th s -> moved (step_e s) x = step_does s x.
Proof. destruct s as [a e|t r|m e r]; cbn [step_ok step_e step_does]; [intros _; apply plain_moved|intros ((_ & Z & _) & _); apply gliding_facts; exact Z|reflexivity]. Qed.
Lemma one_more (B : Build) th g r m f s : near_motor (g - 1) r m f -> step_ok th s -> 0 <= th -> 1 <= g -> g * ((1 + th) * (1 + 11 * u)) <= 2 -> / 2 ^ 60 <= r -> r + step_r s <= 2 ^ 50 ->
  near_motor (g * ((1 + th) * (1 + 11 * u)) - 1) (r + step_r s) (mul_right B m s) (mmul f (step_e s)) /\ near_motor (g * ((1 + th) * (1 + 11 * u)) - 1) (r + step_r s) (mul_left B m s) (mmul (step_e s) f).
Proof.
  intros N S t0 g1 G L H. pose proof u_small as U. pose proof (step_r_pos _ _ S) as s0. pose proof p60 as P60. assert (x1 : 1 + th <= (1 + th) * (1 + 11 * u)) by (rewrite <- (Rmult_1_r (1 + th)) at 1; apply Rmult_le_compat_l; lra).
  assert (gl : forall y, 1 <= y -> g <= g * y) by (intros y Hy; rewrite <- (Rmult_1_r g) at 1; apply Rmult_le_compat_l; lra). assert (G2 : g <= 2) by (pose proof (gl ((1 + th) * (1 + 11 * u)) ltac:(lra)); lra).
  assert (T2 : 1 + th <= 2). { eapply Rle_trans; [exact x1|]. eapply Rle_trans; [|exact G]. rewrite <- (Rmult_1_l ((1 + th) * (1 + 11 * u))) at 1. apply Rmult_le_compat_r; lra. }
  destruct s as [a e|t q|n e q]; cbn [step_ok step_r step_e mul_right mul_left] in *.
  - rewrite Rplus_0_r in *. destruct (onto_rotor B th (g - 1) r a e m f S N ltac:(lra) ltac:(lra) ltac:(lra)) as [K1 K2]. rewrite u_pow in *. assert (W : (1 + th) * (1 + (g - 1)) * (1 + 84 / 10 * u) - 1 <= g * ((1 + th) * (1 + 11 * u)) - 1). { replace ((1 + th) * (1 + (g - 1)) * (1 + 84 / 10 * u)) with (g * ((1 + th) * (1 + 84 / 10 * u))) by ring. assert (g * ((1 + th) * (1 + 84 / 10 * u)) <= g * ((1 + th) * (1 + 11 * u))) by (apply Rmult_le_compat_l; [lra|apply Rmult_le_compat_l; lra]). lra. }
    split; eapply near_motor_weak; eassumption.
  - destruct S as [Gt Lt]. destruct (onto_translator B (g - 1) q r t m f Gt N ltac:(lra) ltac:(lra) ltac:(lra)) as [K1 K2]. rewrite u_pow, (Rplus_comm q r) in *. assert (W : (1 + (g - 1)) * (1 + 84 / 10 * u) - 1 <= g * ((1 + th) * (1 + 11 * u)) - 1).
    { replace (1 + (g - 1)) with g by ring. assert (1 + 84 / 10 * u <= (1 + th) * (1 + 11 * u)) by (assert (0 <= th * (1 + 11 * u)) by (apply Rmult_le_pos; lra); lra). assert (g * (1 + 84 / 10 * u) <= g * ((1 + th) * (1 + 11 * u))) by (apply Rmult_le_compat_l; lra). lra. }
    split; eapply near_motor_weak; eassumption.
  - destruct S as [Nn Ln]. pose proof (C79_multiply B (g - 1) th r q m n f e N Nn ltac:(lra) ltac:(lra) ltac:(lra) ltac:(lra) ltac:(lra)) as K1. pose proof (C79_multiply B th (g - 1) q r n m e f Nn N ltac:(lra) ltac:(lra) ltac:(lra) ltac:(lra) ltac:(lra)) as K2. rewrite u_pow in *. rewrite (Rplus_comm q r) in K2.
    split; [replace (g * ((1 + th) * (1 + 11 * u)) - 1) with ((1 + (g - 1)) * (1 + th) * (1 + 11 * u) - 1) by ring; exact K1|replace (g * ((1 + th) * (1 + 11 * u)) - 1) with ((1 + th) * (1 + (g - 1)) * (1 + 11 * u) - 1) by ring; exact K2].
Qed.
(** a list of steps, each with the side it is multiplied on: [true] for m = m * s, [false] for m = s * m *)
Definition built (B : Build) (m : motor f32) (ls : list (bool * step)) : motor f32 := fold_left (fun m (k : bool * step) => if fst k then mul_right B m (snd k) else mul_left B m (snd k)) ls m.
Definition built_e (f : motor R) (ls : list (bool * step)) : motor R := fold_left (fun f (k : bool * step) => if fst k then mmul f (step_e (snd k)) else mmul (step_e (snd k)) f) ls f.
(** the motion that results: a step on the right comes before what is there already, a step on the left after it *)
Definition built_does (h : vec -> vec) (ls : list (bool * step)) : vec -> vec := fold_left (fun h (k : bool * step) => if fst k then (fun x => h (step_does (snd k) x)) else (fun x => step_does (snd k) (h x))) ls h.
Definition reach (ls : list (bool * step)) : R := fold_right (fun (k : bool * step) s => step_r (snd k) + s) 0 ls.
Lemma built_step (B : Build) th ls : Forall (fun k : bool * step => step_ok th (snd k)) ls -> 0 <= th -> forall g r m f, near_motor (g - 1) r m f -> 1 <= g -> g * ((1 + th) * (1 + 11 * u)) ^ length ls <= 2 -> / 2 ^ 60 <= r -> r + reach ls <= 2 ^ 50 ->
  near_motor (g * ((1 + th) * (1 + 11 * u)) ^ length ls - 1) (r + reach ls) (built B m ls) (built_e f ls).
Proof.
  intros H t0. pose proof u_small as U. set (x := (1 + th) * (1 + 11 * u)). assert (x1 : 1 <= x). { assert (0 <= th * u) by (apply Rmult_le_pos; lra). unfold x. lra. }
  induction H as [|[d s] ls S H IH]; intros g r m f N g1 G L R50; cbn [length pow built built_e reach fold_left fold_right snd fst] in *; [rewrite Rmult_1_r, Rplus_0_r in *; exact N|]. fold (reach ls) in *.
  assert (q0 : 0 <= reach ls). { clear - H. induction H as [|[d s] ls S H IH]; cbn [reach fold_right snd]; [lra|]. fold (reach ls). pose proof (step_r_pos _ _ S). cbn [snd] in *. lra. }
  pose proof (step_r_pos _ _ S) as s0. assert (Px : 1 <= x ^ length ls) by (apply pow_R1_Rle; lra). assert (G1 : g * x <= 2). { eapply Rle_trans; [|exact G]. rewrite <- Rmult_assoc. rewrite <- (Rmult_1_r (g * x)) at 1. apply Rmult_le_compat_l; [apply Rmult_le_pos; lra|exact Px]. }
  destruct (one_more B th g r m f s N S t0 g1 G1 L ltac:(lra)) as [KR KL]. fold x in KR, KL. assert (g2 : 1 <= g * x) by (rewrite <- (Rmult_1_r 1) at 1; apply Rmult_le_compat; lra).
  rewrite <- (Rmult_assoc g x), <- (Rplus_assoc r). rewrite <- (Rmult_assoc g x) in G. destruct d.
  - exact (IH (g * x) (r + step_r s) _ _ KR g2 G ltac:(lra) ltac:(lra)).
  - exact (IH (g * x) (r + step_r s) _ _ KL g2 G ltac:(lra) ltac:(lra)).
Qed.
Lemma built_moves th ls : Forall (fun k : bool * step => step_ok th (snd k)) ls -> forall f h, proper f -> (forall x, moved f x = h x) -> proper (built_e f ls) /\ forall x, moved (built_e f ls) x = built_does h ls x.
Proof.
  assert (M : forall a b y, proper a -> proper b -> moved (mmul a b) y = moved a (moved b y)) by (intros a b y Ha Hb; unfold moved; apply mmul_image; assumption).
  induction 1 as [|[d s] ls S H IH]; intros f h P E; cbn [built_e built_does fold_left fst snd] in *; [split; assumption|]. pose proof (step_proper _ _ S) as Ps. destruct d.
  - apply (IH _ (fun x => h (step_does s x))); [apply mmul_proper; assumption|]. intro x. rewrite M, E, (step_moved _ _ _ S) by assumption. reflexivity.
  - apply (IH _ (fun x => step_does s (h x))); [apply mmul_proper; assumption|]. intro x. rewrite M, (step_moved _ _ _ S), E by assumption. reflexivity.
Qed.
Theorem C96_built : forall (B : Build) th r (m : motor f32) f (ls : list (bool * step)), near_motor th r m f -> / 2 ^ 60 <= r -> Forall (fun k : bool * step => step_ok th (snd k)) ls ->
  let n := 1 + INR (length ls) in n * (th + 12 * / 2 ^ 24) <= / 1100 -> r + reach ls <= 2 ^ 50 ->
  near_motor (1001 / 1000 * (n * (th + 12 * / 2 ^ 24))) (r + reach ls) (built B m ls) (built_e f ls) /\ forall x, moved (built_e f ls) x = built_does (moved f) ls x.
Proof.
  intros B th r m f ls N L H n S R50. destruct (near_motor_len _ _ _ _ N) as (_ & _ & t0 & _). split; [|apply (built_moves th ls H f (moved f)); [exact (proj1 (proj2 N))|reflexivity]].
  pose proof u_small as U. rewrite u_pow in *. pose proof (pos_INR (length ls)) as n0. set (y := th + 12 * u) in *. assert (Y0 : 0 < y) by (unfold y; lra). assert (YS : y <= / 1100). { eapply Rle_trans; [|exact S]. rewrite <- (Rmult_1_l y) at 1. apply Rmult_le_compat_r; unfold n; lra. }
  set (x := (1 + th) * (1 + 11 * u)). assert (XY : x <= 1 + y). { unfold x, y in *. assert (th * (11 * u) <= / 1100 * (11 * u)) by (apply Rmult_le_compat_r; lra). lra. }
  assert (X1 : 1 + th <= x) by (unfold x; rewrite <- (Rmult_1_r (1 + th)) at 1; apply Rmult_le_compat_l; lra).
  assert (nS : n = INR (Datatypes.S (length ls))) by (unfold n; rewrite S_INR; ring).
  assert (P : (1 + y) ^ Datatypes.S (length ls) <= 1 + 1001 / 1000 * (n * y)).
  { eapply Rle_trans; [apply pow_up; [lra|rewrite <- nS; lra]|]. rewrite <- nS. assert (0 <= n * y) by (apply Rmult_le_pos; unfold n; lra). assert (n * y * (n * y) <= n * y * / 1100) by (apply Rmult_le_compat_l; assumption). lra. }
  assert (Q : (1 + th) * x ^ length ls <= (1 + y) ^ Datatypes.S (length ls)). { cbn [pow]. apply Rmult_le_compat; [lra|apply pow_le; lra|lra|apply pow_incr; lra]. }
  eapply near_motor_weak; [apply (built_step B th ls H t0 (1 + th) r m f); [replace (1 + th - 1) with th by ring; exact N|lra|fold x; lra|exact L|exact R50]|]. fold x. lra.
Qed.
Print Assumptions C96_built.
(** and a point moved by the result *)
Theorem C96_point : forall (B : Build) th r (m : motor f32) f (ls : list (bool * step)) (p : point f32), near_motor th r m f -> / 2 ^ 60 <= r -> Forall (fun k : bool * step => step_ok th (snd k)) ls ->
  let n := 1 + INR (length ls) in n * (th + 12 * / 2 ^ 24) <= / 1100 -> let q := r + reach ls in q <= 2 ^ 19 -> bound (point_p3 p) -> wt p = 1 -> let s := motor_on_point (built B m ls) p in
  Forall fin (reg_list (point_p3 s)) /\ vlen (vsub (pos s) (built_does (moved f) ls (pos p))) <= (2004 / 1000 * (n * (th + 12 * / 2 ^ 24)) + 221 / 10 * / 2 ^ 24) * vlen (pos p) + (4007 / 1000 * (n * (th + 12 * / 2 ^ 24)) + 251 / 10 * / 2 ^ 24) * q + 2 * tiny.
Proof.
  intros B th r m f ls p N L H n S q Q19 Hp Hw s. assert (Y50 : 2 ^ 19 <= 2 ^ 50) by (apply Rle_pow; [lra|lia]). destruct (C96_built B th r m f ls N L H S ltac:(fold q; lra)) as [K W]. fold n q in K.
  destruct (near_motor_len _ _ _ _ K) as (_ & _ & T0 & q0). set (T := n * (th + 12 * / 2 ^ 24)) in *. destruct (C92_point B (1001 / 1000 * T) q (built B m ls) (built_e f ls) p K ltac:(lra) Q19 Hp) as (F & V & E & _). fold s in F, E. rewrite Hw in V, E. specialize (V R1_neq_R0). rewrite V in E.
  replace (vscale 1 (moved (built_e f ls) (vscale (/ 1) (pos p)))) with (moved (built_e f ls) (pos p)) in E. 2: { rewrite Rinv_1. assert (V1 : forall v, vscale 1 v = v) by (intros [v1 v2 v3]; unfold vscale; apply vec_eq; cbn [vx vy vz]; ring). rewrite !V1. reflexivity. }
  rewrite W in E. rewrite u_pow, Rabs_R1, Rmult_1_r in *. split; [exact F|]. eapply Rle_trans; [exact E|]. pose proof (vlen_pos (pos p)). clearbody T. apply Rplus_le_compat_r, Rplus_le_compat; (apply Rmult_le_compat_r; [assumption|lra]).
Qed.
Print Assumptions C96_point.
(** Three hundred rounds of a rotor on the right and a translator on the left, onto their product. *)
Example C96_ex : forall B : Build, let a := mkrotor (mk4 (f32_of 10066330 (-24)) (f32_of 13421773 (-24)) (fz 0) (fz 0)) in let e := mk4 (3 / 5) (4 / 5) 0 0 in let t := mktranslator (mk4 (fz 0) (fz 1) (fz (-2)) (fz 3)) in
  let ls := repeat (true, SR a e) 300 ++ repeat (false, ST t 4) 300 in let m := rotor_mul_translator a t in let f := mmul (plain e) (gliding t) in
  near_motor (8 * / 2 ^ 24) 4 m f /\ / 2 ^ 60 <= 4 /\ Forall (fun k : bool * step => step_ok (8 * / 2 ^ 24) (snd k)) ls /\ (1 + INR (length ls)) * (8 * / 2 ^ 24 + 12 * / 2 ^ 24) <= / 1100 /\ 4 + reach ls <= 2 ^ 19 /\ bound (point_p3 (ipoint 7 (-3) 2)) /\ wt (ipoint 7 (-3) 2) = 1.
Proof.
  intros B a e t ls m f. destruct (C95_ex B) as (N & Gt & _ & Bp & Wp & _). fold a e in N. fold t in Gt. pose proof u_small as U. pose proof p60 as P60. pose proof one50 as P50. rewrite u_pow in *.
  assert (Four : 4 <= 2 ^ 50) by (replace (2 ^ 50) with (4 * 2 ^ 48) by ring; assert (1 <= 2 ^ 48) by (apply pow_R1_Rle; lra); lra).
  assert (Nid : near_motor 0 1 (mkmotor (mk4 (fz 1) (fz 0) (fz 0) (fz 0)) (mk4 (fz 0) (fz 0) (fz 0) (fz 0))) (plain (mk4 1 0 0 0))).
  { destruct (fz_ok 1 ltac:(lia)) as [F1 V1]. destruct (fz_ok 0 ltac:(lia)) as [F0 V0]. split; [repeat (apply Forall_cons; [assumption|]); apply Forall_nil|].
    split; [apply plain_proper; unfold n4, q4; cbn [l0 l1 l2 l3]; replace (1 * 1 + 0 * 0 + 0 * 0 + 0 * 0) with 1 by ring; apply sqrt_1|]. unfold mv1, mv2, map4, plain. cbn [motor_p1 motor_p2 l0 l1 l2 l3]. rewrite V0, V1, !sub4_self, n4_0. lra. }
  destruct (C95_mixed B u 0 4 1 a e t _ _ N Nid Gt ltac:(lra) ltac:(lra) ltac:(lra) ltac:(lra)) as ((K & _) & _). rewrite u_pow in K.
  split; [eapply near_motor_weak; [exact K|unfold u; lra]|]. split; [lra|]. split; [|split; [|split; [|split; assumption]]].
  - apply Forall_app. split; apply Forall_forall; intros k Hk; apply repeat_spec in Hk; rewrite Hk; cbn [snd step_ok]; [destruct N as (F & P & E); split; [exact F|split; [exact P|lra]]|split; [exact Gt|lra]].
  - replace (INR (length ls)) with 600 by (unfold ls; rewrite app_length, !repeat_length, INR_IZR_INZ; reflexivity). unfold u. lra.
  - assert (RA : forall k l, reach (repeat k l) = INR l * step_r (snd k)). { intros k l. induction l as [|l IH]; [cbn; ring|]. rewrite S_INR. cbn [repeat reach fold_right]. fold (reach (repeat k l)). rewrite IH. ring. }
    assert (AP : forall k l, reach (k ++ l) = reach k + reach l). { intros k l. induction k as [|c k IH]; [symmetry; apply Rplus_0_l|]. cbn [app reach fold_right]. fold (reach (k ++ l)) (reach k). rewrite IH. ring. }
    unfold ls. rewrite AP, !RA. cbn [snd step_r]. replace (INR 300) with 300 by (rewrite INR_IZR_INZ; reflexivity). replace (2 ^ 19) with (2 ^ 12 * 2 ^ 7) by ring. lra.
Qed.
(** what a point is on, its image under the result is on *)
Theorem C96_on : forall (B : Build) th r (m : motor f32) f (ls : list (bool * step)) (p : point f32), near_motor th r m f -> / 2 ^ 60 <= r -> Forall (fun k : bool * step => step_ok th (snd k)) ls ->
  let n := 1 + INR (length ls) in let T := n * (th + 12 * / 2 ^ 24) in T <= / 1100 -> let q := r + reach ls in q <= 2 ^ 19 -> bound (point_p3 p) -> wt p = 1 -> let x := pos p in let M := built B m ls in let p' := motor_on_point M p in
  (forall b : plane f32, bound (plane_p0 b) -> on_plane (nrm b) (off b) x -> let b' := motor_on_plane M b in
    Rabs (vdot (nrm b') (pos p') + off b' * wt p') <= (403 / 100 * T + 45 * / 2 ^ 24) * (vlen (nrm b) * vlen x) + (162 / 10 * T + 118 * / 2 ^ 24) * (q * vlen (nrm b)) + (403 / 100 * T + 37 * / 2 ^ 24) * Rabs (off b) + slop) /\
  (forall b : line f32, bound (line_p1 b) -> bound (line_p2 b) -> on_line (dirn b) (mom b) x -> let b' := motor_on_line M b in
    vlen (vsub (vcross (pos p') (dirn b')) (vscale (wt p') (mom b'))) <= (403 / 100 * T + 42 * / 2 ^ 24) * (vlen (dirn b) * vlen x) + (162 / 10 * T + 136 * / 2 ^ 24) * (q * vlen (dirn b)) + (403 / 100 * T + 37 * / 2 ^ 24) * vlen (mom b) + slop).
Proof.
  intros B th r m f ls p N L H n T S q Q19 Hp Hw x M p'. assert (Y50 : 2 ^ 19 <= 2 ^ 50) by (apply Rle_pow; [lra|lia]). destruct (C96_built B th r m f ls N L H S ltac:(fold q; lra)) as [K _]. fold n q M in K. fold T in K. clearbody M.
  destruct (near_motor_len _ _ _ _ K) as (_ & _ & T0 & q0). assert (x0 : 0 <= vlen x) by apply vlen_pos. clearbody T. set (g := built_e f ls) in *. clearbody g q. split.
  - intros b Hb Hon b'. pose proof (C85_on_plane B _ q M g b p K ltac:(lra) Q19 Hb Hp Hw) as E. cbv zeta in E. fold x p' b' in E. unfold on_plane in Hon. rewrite Hon, Rminus_0_r in E. clearbody b' p'. pose proof (vlen_pos (nrm b)) as n0. pose proof (Rabs_pos (off b)) as d0.
    assert (A1 : 0 <= T * (vlen (nrm b) * vlen x)) by (apply Rmult_le_pos; [lra|apply Rmult_le_pos; assumption]). assert (A2 : 0 <= T * (q * vlen (nrm b))) by (apply Rmult_le_pos; [lra|apply Rmult_le_pos; assumption]). assert (A3 : 0 <= T * Rabs (off b)) by (apply Rmult_le_pos; lra). lra.
  - intros b Ha Hb Hon b'. pose proof (C85_on_line B _ q M g b p K ltac:(lra) Q19 Ha Hb Hp Hw) as E. cbv zeta in E. fold x p' b' in E. unfold on_line in Hon. replace (swung g (vsub (vcross x (dirn b)) (mom b))) with (V 0 0 0) in E.
    2: { rewrite Hon, swung_turn. replace (vsub (mom b) (mom b)) with (V 0 0 0) by (unfold vsub; apply vec_eq; cbn [vx vy vz]; ring). unfold turn, vpart, qm, lift, rev4. cbn [l0 l1 l2 l3 vx vy vz]. apply vec_eq; cbn [vx vy vz]; ring. }
    replace (vsub (vsub (vcross (pos p') (dirn b')) (vscale (wt p') (mom b'))) (V 0 0 0)) with (vsub (vcross (pos p') (dirn b')) (vscale (wt p') (mom b'))) in E by (unfold vsub; apply vec_eq; cbn [vx vy vz]; ring). clearbody b' p'. pose proof (vlen_pos (dirn b)) as n0. pose proof (vlen_pos (mom b)) as d0.
    assert (A1 : 0 <= T * (vlen (dirn b) * vlen x)) by (apply Rmult_le_pos; [lra|apply Rmult_le_pos; assumption]). assert (A2 : 0 <= T * (q * vlen (dirn b))) by (apply Rmult_le_pos; [lra|apply Rmult_le_pos; assumption]). assert (A3 : 0 <= T * vlen (mom b)) by (apply Rmult_le_pos; lra). lra.
Qed.
Print Assumptions C96_on.
