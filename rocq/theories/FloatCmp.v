(** Comparisons of binary32 values, including the special ones. *)
From Coq Require Import ZArith Reals Bool List Lia Lra.
From Flocq Require Import Core BinarySingleNaN.
From Verif Require Import AlgTac Float32 FloatFacts FloatErr.
Import ListNotations.
Local Open Scope R_scope.

(** IEEE equality: equal numbers (so the two zeros are equal), equal infinities, never NaN *)
Inductive ieee_eq : f32 -> f32 -> Prop :=
| ieee_eq_fin x y : fin x -> fin y -> val x = val y -> ieee_eq x y
| ieee_eq_inf s : ieee_eq (B754_infinity s) (B754_infinity s).
Lemma Beqb_spec (x y : f32) : Beqb x y = true <-> ieee_eq x y.
Proof.
  assert (Fin : fin x -> fin y -> (Beqb x y = true <-> ieee_eq x y)).
  { intros Fx Fy. rewrite (Beqb_correct 24 128 x y Fx Fy). fold (val x) (val y). split.
    - intro H. apply ieee_eq_fin; try assumption. destruct (Req_bool_spec (val x) (val y)); [assumption|discriminate].
    - intros [a b _ _ E|s]; apply Req_bool_true; [exact E|reflexivity]. }
  destruct x as [s|s| |s m e H], y as [t|t| |t n f K]; try (apply Fin; reflexivity); clear Fin; cbn; split; intro G;
    try discriminate; try (inversion G as [a b Fa Fb E|q]; subst; discriminate); try (destruct s, t; discriminate).
  - destruct s, t; try discriminate; apply ieee_eq_inf.
  - inversion G as [a b Fa Fb E|q]; [discriminate|]. destruct t; reflexivity.
Qed.
Lemma ieee_eq_sym x y : ieee_eq x y -> ieee_eq y x.
Proof. intros [a b Fa Fb E|s]; [apply ieee_eq_fin; congruence|apply ieee_eq_inf]. Qed.
Lemma ieee_eq_nan x : ~ ieee_eq B754_nan x.
Proof. intro H. inversion H as [a b Fa Fb E|q]. discriminate. Qed.

(** ** The difference *)
Lemma rnd_abs x : Rabs (rnd x) = rnd (Rabs x).
Proof.
  unfold Rabs at 2. destruct (Rcase_abs x) as [L|G].
  - rewrite round_NE_opp. apply Rabs_left1. rewrite <- (round_0 radix2 fexp32 ZnearestE). apply round_le; [typeclasses eauto..|lra].
  - apply Rabs_pos_eq. rewrite <- (round_0 radix2 fexp32 ZnearestE). apply round_le; [typeclasses eauto..|lra].
Qed.
(** |x - y| as computed, for finite operands *)
Lemma sub_finite (x y : f32) : fin x -> fin y ->
  if Rlt_bool (rnd (Rabs (val x - val y))) (bpow radix2 128)
  then fin (fsub x y) /\ val (Babs (fsub x y)) = rnd (Rabs (val x - val y))
  else Babs (fsub x y) = B754_infinity false.
Proof.
  intros Fx Fy. generalize (Bminus_correct 24 128 _ _ mode_NE x y Fx Fy).
  rewrite fexp_eq. change (round_mode mode_NE) with ZnearestE. fold (val x) (val y). rewrite rnd_abs.
  destruct (Rlt_bool _ _).
  - intros (E & F & _). split; [exact F|]. unfold val at 1. rewrite B2R_Babs. cbn [fsub Arith_f32]. rewrite E. apply rnd_abs.
  - intros (E & _). cbn [fsub Arith_f32]. destruct (Bminus mode_NE x y) as [s|s| |s m e H]; cbn in E; try discriminate. reflexivity.
Qed.
Lemma abs_sub_sym (x y : f32) : Babs (fsub x y) = Babs (fsub y x).
Proof.
  assert (Fin : fin x -> fin y -> Babs (fsub x y) = Babs (fsub y x)).
  { intros Fx Fy. pose proof (sub_finite x y Fx Fy) as P. pose proof (sub_finite y x Fy Fx) as Q.
    rewrite (Rabs_minus_sym (val y) (val x)) in Q. destruct (Rlt_bool _ _); [|congruence].
    destruct P as [Fp P], Q as [Fq Q].
    assert (S : forall z : f32, fin z -> Bsign (Babs z) = false) by (intros [| | |]; cbn; intros; try reflexivity; discriminate).
    assert (G : forall z : f32, fin z -> is_finite (Babs z) = true) by (intros z Hz; rewrite is_finite_Babs; exact Hz).
    apply B2R_Bsign_inj; [apply G; exact Fp|apply G; exact Fq|unfold val in P, Q; congruence|].
    rewrite (S _ Fp), (S _ Fq). reflexivity. }
  destruct x as [s|s| |s m e H], y as [t|t| |t n f K]; try (apply Fin; reflexivity); clear Fin; cbn; try reflexivity; destruct s, t; reflexivity.
Qed.
Lemma abs_sub_fin_lt (x y e : f32) : Bltb (Babs (fsub x y)) e = true ->
  fin x /\ fin y /\ (e = B754_infinity false \/ fin e /\ Rabs (val x - val y) < val e).
Proof.
  intro H.
  assert (NN : forall z : f32, Bltb (B754_nan) z = false) by (intros [| | |]; reflexivity).
  assert (NI : forall z : f32, Bltb (B754_infinity false) z = false) by (intros [|[|]| |]; reflexivity).
  assert (Fin : fin x /\ fin y).
  { destruct x as [s|s| |s m q X], y as [t|t| |t n f Y]; try (split; reflexivity); exfalso;
      cbn [fsub Arith_f32 Bminus Babs] in H; try (rewrite NN in H; discriminate); try (rewrite NI in H; discriminate).
    destruct (Bool.eqb s (negb t)); cbn [Babs] in H; [rewrite NI in H|rewrite NN in H]; discriminate. }
  destruct Fin as [Fx Fy]. split; [exact Fx|]. split; [exact Fy|].
  pose proof (sub_finite x y Fx Fy) as P. destruct (Rlt_bool _ _).
  - destruct P as [F V].
    assert (F' : fin (Babs (fsub x y))) by (unfold fin; rewrite is_finite_Babs; exact F).
    destruct (is_finite e) eqn:Fe.
    + right. split; [exact Fe|]. rewrite (Bltb_correct 24 128 _ e F' Fe) in H. fold (val (Babs (fsub x y))) (val e) in H.
      destruct (Rlt_bool_spec (val (Babs (fsub x y))) (val e)) as [L|G]; [|discriminate]. rewrite V in L.
      apply Rnot_le_lt. intro K. apply (Rlt_irrefl (val e)). eapply Rle_lt_trans; [|exact L].
      rewrite <- (round_generic radix2 fexp32 ZnearestE (val e)) at 1 by apply val_format. apply round_le; [typeclasses eauto..|exact K].
    + left. destruct e as [s|[|]| |s m q E]; try discriminate; [|reflexivity|].
      * destruct (Babs (fsub x y)) as [a|a| |a b c d]; try discriminate; destruct a; discriminate.
      * destruct (Babs (fsub x y)) as [a|a| |a b c d]; discriminate.
  - rewrite P, NI in H. discriminate.
Qed.
(** complete up to rounding: true when some float below [e] bounds the difference *)
Lemma abs_sub_lt_fin (x y e f : f32) : fin x -> fin y -> fin e -> fin f -> val f < val e -> Rabs (val x - val y) <= val f ->
  Bltb (Babs (fsub x y)) e = true.
Proof.
  intros Fx Fy Fe Ff L K. pose proof (sub_finite x y Fx Fy) as P.
  assert (R : rnd (Rabs (val x - val y)) <= val f).
  { rewrite <- (round_generic radix2 fexp32 ZnearestE (val f)) by apply val_format. apply round_le; [typeclasses eauto..|exact K]. }
  rewrite Rlt_bool_true in P.
  - destruct P as [F V]. assert (F' : fin (Babs (fsub x y))) by (unfold fin; rewrite is_finite_Babs; exact F).
    rewrite (Bltb_correct 24 128 _ e F' Fe). apply Rlt_bool_true. fold (val (Babs (fsub x y))) (val e). rewrite V. lra.
  - eapply Rle_lt_trans; [exact R|]. apply (Rle_lt_trans _ _ _ (Rle_abs _)). apply abs_B2R_lt_emax.
Qed.
