(** Facts about binary32 rounding, used by the float properties. *)
From Coq Require Import ZArith Reals Bool Lia Lra Psatz.
From Flocq Require Import Core BinarySingleNaN Relative.
From Verif Require Import Scalar SSE Float32.
Local Open Scope R_scope.

Notation fexp32 := (FLT_exp (-149) 24).
Notation rnd := (round radix2 fexp32 ZnearestE).
Definition fin (x : f32) : Prop := is_finite x = true.
(** the value of a float; infinities and NaN give 0, so it is used with [fin] *)
Definition val (x : f32) : R := B2R x.
(** half the distance of 1 to the next float *)
Definition u : R := / 16777216.

Lemma fexp_eq : SpecFloat.fexp 24 128 = fexp32. Proof. reflexivity. Qed.
#[local] Instance valid32 : Valid_exp fexp32. Proof. apply FLT_exp_valid. reflexivity. Qed.

Lemma bpow_m24 : bpow radix2 (-24) = u.
Proof. unfold u. cbn. reflexivity. Qed.
Lemma val_format x : generic_format radix2 fexp32 (val x).
Proof. apply generic_format_B2R. Qed.

(** rounding keeps below a power of two *)
Lemma rnd_le_bpow e x : (-149 <= e)%Z -> Rabs x <= bpow radix2 e -> Rabs (rnd x) <= bpow radix2 e.
Proof.
  intros He H. apply abs_round_le_generic; [typeclasses eauto..| |exact H].
  apply generic_format_bpow. unfold FLT_exp. lia.
Qed.

Definition big : R := bpow radix2 127.
Lemma big_lt : big < bpow radix2 128. Proof. apply bpow_lt. lia. Qed.
Lemma no_overflow x : Rabs x <= big -> Rlt_bool (Rabs (rnd x)) (bpow radix2 128) = true.
Proof.
  intro H. apply Rlt_bool_true. eapply Rle_lt_trans; [|exact big_lt]. apply rnd_le_bpow; [lia|exact H].
Qed.

Lemma add_ok x y : fin x -> fin y -> Rabs (val x + val y) <= big ->
  fin (fadd x y) /\ val (fadd x y) = rnd (val x + val y).
Proof.
  intros Hx Hy H. generalize (Bplus_correct 24 128 _ _ mode_NE x y Hx Hy).
  rewrite fexp_eq. change (round_mode mode_NE) with ZnearestE. pose proof (no_overflow _ H) as L. unfold val in L. rewrite L.
  intros (E & K & _). split; [exact K|exact E].
Qed.
Lemma sub_ok x y : fin x -> fin y -> Rabs (val x - val y) <= big ->
  fin (fsub x y) /\ val (fsub x y) = rnd (val x - val y).
Proof.
  intros Hx Hy H. generalize (Bminus_correct 24 128 _ _ mode_NE x y Hx Hy).
  rewrite fexp_eq. change (round_mode mode_NE) with ZnearestE. pose proof (no_overflow _ H) as L. unfold val in L. rewrite L.
  intros (E & K & _). split; [exact K|exact E].
Qed.
Lemma mul_ok x y : fin x -> fin y -> Rabs (val x * val y) <= big ->
  fin (fmul x y) /\ val (fmul x y) = rnd (val x * val y).
Proof.
  intros Hx Hy H. generalize (Bmult_correct 24 128 _ _ mode_NE x y).
  rewrite fexp_eq. change (round_mode mode_NE) with ZnearestE. pose proof (no_overflow _ H) as L. unfold val in L. rewrite L.
  unfold fin in Hx, Hy. rewrite Hx, Hy. intros (E & K & _). split; [exact K|exact E].
Qed.
Lemma opp_ok x : fin x -> fin (fopp x) /\ val (fopp x) = - val x.
Proof. intro H. split; [|apply B2R_Bopp]. unfold fin. cbn [fopp Arith_f32]. rewrite is_finite_Bopp. exact H. Qed.

(** multiples of a power of two *)
Definition onto (e : Z) (x : R) : Prop := exists k : Z, x = IZR k * bpow radix2 e.
Lemma onto_weaken e e' x : (e' <= e)%Z -> onto e x -> onto e' x.
Proof.
  intros H [k ->]. exists (k * 2 ^ (e - e'))%Z. rewrite mult_IZR, (IZR_Zpower radix2) by lia.
  rewrite Rmult_assoc, <- bpow_plus. f_equal. f_equal. lia.
Qed.
Lemma onto_add e x y : onto e x -> onto e y -> onto e (x + y).
Proof. intros [k ->] [l ->]. exists (k + l)%Z. rewrite plus_IZR. ring. Qed.
Lemma onto_sub e x y : onto e x -> onto e y -> onto e (x - y).
Proof. intros [k ->] [l ->]. exists (k - l)%Z. rewrite minus_IZR. ring. Qed.
Lemma onto_opp e x : onto e x -> onto e (- x).
Proof. intros [k ->]. exists (- k)%Z. rewrite opp_IZR. ring. Qed.
Lemma onto_mul e f x y : onto e x -> onto f y -> onto (e + f) (x * y).
Proof. intros [k ->] [l ->]. exists (k * l)%Z. rewrite mult_IZR, bpow_plus. ring. Qed.
Lemma onto_IZR z : onto 0 (IZR z).
Proof. exists z. cbn. ring. Qed.

Lemma onto_format e x : onto e x -> (cexp radix2 fexp32 x <= e)%Z -> generic_format radix2 fexp32 x.
Proof.
  intros [k ->] H. change (IZR k * bpow radix2 e) with (F2R (Float radix2 k e)).
  apply generic_format_F2R. intros _. exact H.
Qed.
Lemma onto_rnd e x : onto e x -> onto e (rnd x).
Proof.
  intro H. destruct (Z_le_gt_dec (cexp radix2 fexp32 x) e) as [L|G].
  - rewrite round_generic; [exact H|typeclasses eauto|exact (onto_format e x H L)].
  - apply (onto_weaken (cexp radix2 fexp32 x)); [lia|]. unfold round, F2R. eexists. reflexivity.
Qed.
(** no underflow trouble on the grid of the subnormals: the relative error is at most [u] *)
Lemma rnd_rel x : onto (-149) x -> Rabs (rnd x - x) <= u * Rabs x.
Proof.
  intro H. destruct (Z_le_gt_dec (cexp radix2 fexp32 x) (-149)) as [L|G].
  - rewrite round_generic; [|typeclasses eauto|exact (onto_format _ x H L)].
    unfold Rminus. rewrite Rplus_opp_r, Rabs_R0. apply Rmult_le_pos; [unfold u; lra|apply Rabs_pos].
  - destruct (Req_dec x 0) as [->|N].
    + rewrite round_0 by typeclasses eauto. unfold Rminus. rewrite Rplus_opp_r, Rabs_R0. lra.
    + eapply Rle_trans; [apply error_le_half_ulp; typeclasses eauto|].
      rewrite ulp_neq_0 by exact N. unfold cexp, FLT_exp in *.
      destruct (mag radix2 x) as [m Hm]. cbn in *. specialize (Hm N).
      rewrite Z.max_l by lia. destruct Hm as [Hm _]. change (m - 24)%Z with (m + -24)%Z.
      replace (m + -24)%Z with ((m - 1) + (-24) + 1)%Z by lia. rewrite !bpow_plus.
      rewrite bpow_m24. change (bpow radix2 1) with 2. unfold u. lra.
Qed.

(** exact integers *)
Lemma rnd_Z k : (Z.abs k <= 2 ^ 24)%Z -> rnd (IZR k) = IZR k.
Proof.
  intro H. apply round_generic; [typeclasses eauto|].
  destruct (Z.eq_dec (Z.abs k) (2 ^ 24)) as [E|N].
  - assert (K : generic_format radix2 fexp32 (Rabs (IZR k))).
    { rewrite <- abs_IZR, E. change (IZR (2 ^ 24)) with (bpow radix2 24). apply generic_format_bpow. unfold FLT_exp. lia. }
    apply generic_format_abs_inv. exact K.
  - apply generic_format_FLT. exists (Float radix2 k 0).
    + unfold F2R. cbn. ring.
    + cbn. lia.
    + cbn. lia.
Qed.
Lemma fz_ok z : (Z.abs z <= 2 ^ 24)%Z -> fin (fz z) /\ val (fz z) = IZR z.
Proof.
  intro H. generalize (binary_normalize_correct 24 128 _ _ mode_NE z 0 false). cbv zeta.
  rewrite fexp_eq. change (round_mode mode_NE) with ZnearestE.
  replace (F2R (Float radix2 z 0)) with (IZR z) by (unfold F2R; cbn; ring).
  assert (Rabs (IZR z) <= big) as L.
  { rewrite <- abs_IZR. apply (Rle_trans _ (IZR (2 ^ 24))); [apply IZR_le; exact H|].
    change (IZR (2 ^ 24)) with (bpow radix2 24). apply bpow_le. lia. }
  rewrite (no_overflow _ L), (rnd_Z z H). intros (E & K & _). split; [exact K|exact E].
Qed.
