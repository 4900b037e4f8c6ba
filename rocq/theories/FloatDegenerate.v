(** Degenerate inputs in binary32: where an estimate is taken of zero or of a
    subnormal number. *)
From Coq Require Import ZArith Reals Bool List Lia Lra.
From Flocq Require Import Core BinarySingleNaN.
From Verif Require Import AlgTac KernelExpLog Float32 FloatFacts.
Import ListNotations.
Local Open Scope R_scope.

Notation pzero := (B754_zero false : f32).
Notation pinf := (B754_infinity false : f32).
Notation minf := (B754_infinity true : f32).
Notation nan := (B754_nan : f32).
Definition nonfinite (x : f32) : Prop := is_finite x = false.
(** zero or subnormal, without sign bit *)
Definition flushed (x : f32) : Prop := fin x /\ Bsign x = false /\ val x < bpow radix2 (-126).
(** what the Intel manual (RCPPS, RSQRTPS: subnormal sources count as zero) and the
    C standard (annex F) say *)
Record ieee_specials (M : machine) : Prop := {
  sp_rcp : m_rcp M pzero = pinf;
  sp_rsqrt : forall x, flushed x -> m_rsqrt M x = pinf;
  sp_acos : m_acos M (f32_of 1 0) = pzero;
  sp_sin0 : m_sin M pzero = pzero;
  sp_sin : m_sin M nan = nan /\ m_sin M minf = nan;
  sp_cos : m_cos M nan = nan /\ m_cos M minf = nan }.

(** no sign bit, at most 2^k *)
Definition upto (k : Z) (x : f32) : Prop := fin x /\ Bsign x = false /\ 0 <= val x <= bpow radix2 k.
Lemma upto_pzero k : upto k pzero. Proof. split; [reflexivity|split; [reflexivity|]]. pose proof (bpow_ge_0 radix2 k). cbn. lra. Qed.
Lemma upto_le j k x : (j <= k)%Z -> upto j x -> upto k x.
Proof. intros L (F & S & V). split; [exact F|split; [exact S|]]. apply (bpow_le radix2) in L. lra. Qed.
Lemma rnd_range k x : (-149 <= k)%Z -> 0 <= x <= bpow radix2 k -> 0 <= rnd x <= bpow radix2 k.
Proof.
  intros K [P Q]. assert (0 <= rnd x). { rewrite <- (rnd_Z 0) by lia. apply round_le; [apply FLT_exp_valid; reflexivity|typeclasses eauto|exact P]. }
  split; [assumption|]. rewrite <- (Rabs_pos_eq (rnd x)) by assumption. apply rnd_le_bpow; [exact K|]. rewrite Rabs_pos_eq; assumption.
Qed.
Lemma upto_add k x y : (-149 <= k <= 100)%Z -> upto k x -> upto k y -> upto (k + 1) (fadd x y).
Proof.
  intros K (Fx & Sx & Vx) (Fy & Sy & Vy).
  assert (R : 0 <= val x + val y <= bpow radix2 (k + 1)) by (rewrite bpow_plus; change (bpow radix2 1) with 2; lra).
  assert (L : bpow radix2 (k + 1) <= big) by (apply bpow_le; lia).
  destruct (add_ok x y Fx Fy) as [F V]; [rewrite Rabs_pos_eq; lra|].
  split; [exact F|]. rewrite V. split; [|apply rnd_range; [lia|exact R]].
  generalize (Bplus_correct 24 128 _ _ mode_NE x y Fx Fy). rewrite fexp_eq. change (round_mode mode_NE) with ZnearestE.
  fold (val x) (val y). rewrite no_overflow by (rewrite Rabs_pos_eq; lra). intros (_ & _ & S).
  cbn [fadd Arith_f32]. rewrite S, Sx, Sy. destruct (Rcompare_spec (val x + val y) 0); try reflexivity. lra.
Qed.
(** small enough for the squares to be subnormal *)
Definition tiny (x : f32) : Prop := fin x /\ Rabs (val x) <= bpow radix2 (-65).
Lemma tiny_square x : tiny x -> upto (-130) (fmul x x).
Proof.
  intros [F T].
  assert (Q : 0 <= val x * val x <= bpow radix2 (-130)).
  { split; [nra|]. replace (val x * val x) with (Rabs (val x) * Rabs (val x)) by (rewrite <- Rabs_mult; apply Rabs_pos_eq; nra).
    replace (-130)%Z with (-65 + -65)%Z by reflexivity. rewrite bpow_plus. apply Rmult_le_compat; try apply Rabs_pos; exact T. }
  assert (L : bpow radix2 (-130) <= big) by (apply bpow_le; lia).
  destruct (mul_ok x x F F) as [G V]; [rewrite Rabs_pos_eq; lra|].
  split; [exact G|]. rewrite V. split; [|apply rnd_range; [lia|exact Q]].
  generalize (Bmult_correct 24 128 _ _ mode_NE x x). rewrite fexp_eq. change (round_mode mode_NE) with ZnearestE.
  fold (val x). rewrite no_overflow by (rewrite Rabs_pos_eq; lra). intros (_ & _ & S).
  cbn [fmul Arith_f32] in *. rewrite S; [apply xorb_nilpotent|]. unfold fin in G. destruct (Bmult mode_NE x x); try discriminate; reflexivity.
Qed.
(** the squared norm has one of two shapes, depending on the build *)
Lemma hi_dp_shape {F} `{A : Arith F} (B : Build) (w x y z : F) : exists f : F -> F -> F -> F,
  (f = (fun a b c => fadd (fadd (fz 0) a) (fadd b c)) \/ f = (fun a b c => fadd (fadd c b) a)) /\
  l0 (hi_dp (mk4 w x y z) (mk4 w x y z)) = f (fmul x x) (fmul y y) (fmul z z) /\
  hi_dp_bc (mk4 w x y z) (mk4 w x y z) = _mm_set1_ps (f (fmul x x) (fmul y y) (fmul z z)).
Proof.
  destruct B as [[|]].
  - exists (fun a b c => fadd (fadd (fz 0) a) (fadd b c)). split; [left; reflexivity|split; reflexivity].
  - exists (fun a b c => fadd (fadd c b) a). split; [right; reflexivity|split; reflexivity].
Qed.
Lemma sum_tiny f x y z : (f = (fun a b c : f32 => fadd (fadd (fz 0) a) (fadd b c)) \/ f = (fun a b c => fadd (fadd c b) a)) ->
  tiny x -> tiny y -> tiny z -> flushed (f (fmul x x) (fmul y y) (fmul z z)).
Proof.
  intros S Tx Ty Tz. apply tiny_square in Tx, Ty, Tz. cut (upto (-128) (f (fmul x x) (fmul y y) (fmul z z))).
  - intros (F & G & V). split; [exact F|split; [exact G|]]. assert (bpow radix2 (-128) < bpow radix2 (-126)) by (apply bpow_lt; lia). lra.
  - destruct S as [-> | ->].
    + apply (upto_add (-129)); [lia|apply (upto_add (-130)); [lia|apply upto_pzero|assumption]|apply (upto_add (-130)); [lia|assumption|assumption]].
    + apply (upto_add (-129)); [lia|apply (upto_add (-130)); [lia|assumption|assumption]|apply (upto_le (-130)); [lia|assumption]].
Qed.
Lemma hi_dp_tiny (B : Build) w (x y z : f32) : tiny x -> tiny y -> tiny z -> flushed (l0 (hi_dp (mk4 w x y z) (mk4 w x y z))).
Proof. intros Tx Ty Tz. destruct (hi_dp_shape B w x y z) as (f & S & E1 & _). rewrite E1. apply sum_tiny; assumption. Qed.
Lemma hi_dp_bc_tiny (B : Build) w (x y z : f32) : tiny x -> tiny y -> tiny z ->
  exists n, flushed n /\ hi_dp_bc (mk4 w x y z) (mk4 w x y z) = mk4 n n n n.
Proof.
  intros Tx Ty Tz. destruct (hi_dp_shape B w x y z) as (f & S & _ & E). eexists. split; [apply (sum_tiny f x y z S); assumption|exact E].
Qed.
(** infinity with sign, or NaN *)
Definition down (x : f32) : Prop := x = nan \/ x = minf.
Lemma flushed_cases x : flushed x -> x = pzero \/ exists m e H, x = B754_finite false m e H.
Proof.
  intros (F & S & _). destruct x as [s|s| |s m e H]; try discriminate F; cbn in S; subst s; [left; reflexivity|right; eauto].
Qed.
Lemma fmul_nonfinite_r x y : nonfinite y -> nonfinite (fmul x y : f32).
Proof. unfold nonfinite. destruct x, y; intro H; try discriminate H; reflexivity. Qed.
Lemma fmul_nan_r x : fmul x nan = nan. Proof. destruct x; reflexivity. Qed.
Lemma fmul_nan_l x : fmul nan x = nan. Proof. reflexivity. Qed.
Lemma fadd_nan_r x : fadd x nan = nan. Proof. destruct x; reflexivity. Qed.
Lemma fadd_nan_l x : fadd nan x = nan. Proof. reflexivity. Qed.
Lemma down_nonfinite x : down x -> nonfinite x. Proof. intros [-> | ->]; reflexivity. Qed.
Lemma flushed_down x y : flushed x -> down y -> down (fmul x y).
Proof.
  intros X [-> | ->]; [left; apply fmul_nan_r|]. destruct (flushed_cases x X) as [-> | (m & e & H & ->)]; [left|right]; reflexivity.
Qed.
Section Deg.
Context (B : Build) (M : machine) (SP : ieee_specials M).
#[local] Instance FLd : Flo f32 := Flo_f32 M.
Lemma rsqrt_lane x : flushed x -> down (fmul (fmul fhalf (m_rsqrt M x)) (fsub (fz 3) (fmul x (fmul (m_rsqrt M x) (m_rsqrt M x))))).
Proof.
  intro X. rewrite (sp_rsqrt M SP x X). destruct (flushed_cases x X) as [-> | (m & e & H & ->)]; [left|right]; reflexivity.
Qed.
Lemma rsqrt_nr1_down v : flushed (l0 v) -> down (l0 (rsqrt_nr1 v)).
Proof. intro X. exact (rsqrt_lane (l0 v) X). Qed.
Lemma rsqrt_nr1_down4 n : flushed n -> exists r, down r /\ rsqrt_nr1 (mk4 n n n n) = mk4 r r r r.
Proof. intro X. eexists. split; [exact (rsqrt_lane n X)|reflexivity]. Qed.
Lemma sqrt_nr1_down v : flushed (l0 v) -> down (l0 (sqrt_nr1 v)).
Proof. intro X. apply (flushed_down _ _ X). apply rsqrt_nr1_down, X. Qed.
End Deg.
