(** Forward error without any lower bound on the operands: underflow of products
    adds an absolute term, counted in units of half the smallest positive float. *)
From Coq Require Import ZArith Reals Bool List Lia Lra Psatz.
From Flocq Require Import Core BinarySingleNaN.
From Verif Require Import AlgTac SpecMass Float32 FloatFacts ExprSyntax FloatErr FloatMass.
Import ListNotations.
Local Open Scope R_scope.

Definition eta : R := bpow radix2 (-150).
Lemma eta_pos : 0 < eta. Proof. apply bpow_gt_0. Qed.
#[local] Instance valid32' : Valid_exp fexp32. Proof. apply FLT_exp_valid. reflexivity. Qed.
(** half a unit in the last place: relative for normal results, absolute for subnormal ones *)
Lemma rnd_any x : Rabs (rnd x - x) <= u * Rabs x + eta.
Proof.
  destruct (Req_dec x 0) as [->|N].
  { rewrite round_0 by typeclasses eauto. rewrite Rminus_diag_eq, Rabs_R0 by reflexivity. pose proof eta_pos. lra. }
  eapply Rle_trans; [apply error_le_half_ulp; typeclasses eauto|]. rewrite ulp_neq_0 by exact N. unfold cexp, FLT_exp.
  destruct (mag radix2 x) as [m Hm]. cbn [mag_val]. specialize (Hm N). destruct Hm as [Hm _].
  pose proof (Rabs_pos x) as A. pose proof eta_pos as E.
  destruct (Z_le_gt_dec (-149) (m - 24)) as [L|G].
  - rewrite Z.max_l by exact L. replace (m - 24)%Z with ((m - 1) + (-24) + 1)%Z by lia. rewrite !bpow_plus, bpow_m24.
    change (bpow radix2 1) with 2. unfold u. lra.
  - rewrite Z.max_r by lia. change (-149)%Z with (-150 + 1)%Z. rewrite bpow_plus. fold eta. change (bpow radix2 1) with 2.
    assert (0 <= u * Rabs x) by (apply Rmult_le_pos; [unfold u; lra|exact A]). lra.
Qed.
Lemma val_onto149 (x : f32) : onto (-149) (val x).
Proof.
  pose proof (val_format x) as K. unfold generic_format in K. apply (onto_weaken (cexp radix2 fexp32 (val x))).
  - unfold cexp, FLT_exp. lia.
  - rewrite K at 2. unfold F2R. cbn. eexists. reflexivity.
Qed.

(** what underflow can add to an expression, in units of [eta], when the variables are at most [N] *)
Fixpoint slack (N : Z) (e : expr) : Z :=
  match e with
  | EVar _ | ECst _ => 0
  | EAdd a b => slack N a + slack N b
  | ESub a b => if cancels a b then 0 else slack N a + slack N b
  | EMul a b => bnd N a * slack N b + bnd N b * slack N a + slack N a * slack N b + 1
  | EOpp a => slack N a
  end%Z.
Fixpoint mild (N : Z) (e : expr) : bool :=
  (bnd N e <=? 2 ^ 125)%Z && (slack N e <=? 2 ^ 270)%Z &&
  match e with
  | EVar _ => true
  | ECst z => (Z.abs z <=? 2 ^ 24)%Z
  | EAdd a b | ESub a b | EMul a b => mild N a && mild N b
  | EOpp a => mild N a
  end.
Lemma slack_nonneg N e : (0 <= N)%Z -> (0 <= slack N e)%Z.
Proof.
  intro H. induction e as [n|z|a IHa b IHb|a IHa b IHb|a IHa b IHb|a IHa]; cbn [slack]; try lia.
  - destruct (cancels a b); lia.
  - pose proof (bnd_nonneg N a H). pose proof (bnd_nonneg N b H). nia.
Qed.
Lemma mag_ok d A S v : (d <= 64)%nat -> 0 <= A -> A <= IZR (2 ^ 125) -> 0 <= S -> S <= IZR (2 ^ 270) -> Rabs v <= P d * (A + eta * S) -> Rabs v <= big.
Proof.
  intros Hd HA HB HS HT Hv. eapply Rle_trans; [exact Hv|].
  assert (P d <= 2).
  { pose proof (P_lin d Hd). assert (INR d <= 64) by (rewrite INR_IZR_INZ; apply IZR_le; lia).
    pose proof (pos_INR d). unfold u in *. nra. }
  assert (eta * S <= IZR (2 ^ 125)).
  { apply (Rle_trans _ (eta * IZR (2 ^ 270))); [apply Rmult_le_compat_l; [apply Rlt_le, eta_pos|exact HT]|].
    change (IZR (2 ^ 270)) with (bpow radix2 270). change (IZR (2 ^ 125)) with (bpow radix2 125). unfold eta. rewrite <- bpow_plus.
    apply bpow_le. lia. }
  assert (big = 2 * (IZR (2 ^ 125) + IZR (2 ^ 125))) as ->.
  { change (IZR (2 ^ 125)) with (bpow radix2 125). unfold big. change 127%Z with (125 + 1 + 1)%Z. rewrite !bpow_plus. change (bpow radix2 1) with 2. ring. }
  pose proof (P_pos d). pose proof eta_pos. apply Rmult_le_compat; try lra. assert (0 <= eta * S) by (apply Rmult_le_pos; lra). lra.
Qed.
Theorem rounding_any (x : nat -> f32) N e : (0 <= N)%Z ->
  (forall n, fin (x n) /\ Rabs (val (x n)) <= IZR N) -> mild N e = true -> (dep e <= 64)%nat ->
  fin (eval x e) /\
  Rabs (val (eval x e) - eval (A := Arith_R) (fun n => val (x n)) e)
    <= (P (dep e) - 1) * absv (fun n => val (x n)) e + P (dep e) * (eta * IZR (slack N e)).
Proof.
  intros HN H. set (y := fun n => val (x n)). pose proof eta_pos as EP.
  assert (Hy : forall n, Rabs (y n) <= IZR N) by (intro n; apply H).
  induction e as [n|z|a IHa b IHb|a IHa b IHb|a IHa b IHb|a IHa]; cbn [eval mild dep absv slack]; intros S T;
    apply andb_prop in S; destruct S as [S1 S]; apply andb_prop in S1; destruct S1 as [S1 S2]; apply Z.leb_le in S1; apply Z.leb_le in S2.
  - destruct (H n) as (F & B). split; [exact F|].
    unfold y. rewrite Rminus_diag_eq by reflexivity. rewrite Rabs_R0. cbn. lra.
  - apply Z.leb_le in S. destruct (fz_ok z S) as [F V]. split; [exact F|]. rewrite V.
    cbn [fz Arith_R]. rewrite Rminus_diag_eq by reflexivity. rewrite Rabs_R0. cbn. lra.
  - apply andb_prop in S. destruct S as [Sa Sb].
    destruct (IHa Sa ltac:(lia)) as (Fa & Ea). destruct (IHb Sb ltac:(lia)) as (Fb & Eb).
    set (d := Nat.max (dep a) (dep b)) in *.
    pose proof (absv_nonneg y a) as A0. pose proof (absv_nonneg y b) as B0.
    pose proof (eval_absv y a) as Ra. pose proof (eval_absv y b) as Rb.
    pose proof (P_mono (dep a) d ltac:(lia)) as Pa. pose proof (P_mono (dep b) d ltac:(lia)) as Pb.
    pose proof (absv_bnd N y (EAdd a b) HN Hy) as Bd. cbn [absv] in Bd.
    assert (IZR (bnd N (EAdd a b)) <= IZR (2 ^ 125)) as Bd' by (apply IZR_le; exact S1).
    pose proof (IZR_le _ _ S2) as Sl. rewrite plus_IZR in Sl |- *.
    pose proof (IZR_le _ _ (slack_nonneg N a HN)) as Za. pose proof (IZR_le _ _ (slack_nonneg N b HN)) as Zb.
    pose proof (onto_add _ _ _ (val_onto149 (eval x a)) (val_onto149 (eval x b))) as O.
    set (va := val (eval x a)) in *. set (vb := val (eval x b)) in *.
    set (ra := eval (A := Arith_R) y a) in *. set (rb := eval (A := Arith_R) y b) in *.
    set (Aa := absv y a) in *. set (Ab := absv y b) in *.
    set (sa := IZR (slack N a)) in *. set (sb := IZR (slack N b)) in *.
    assert (0 <= eta * sa) by (apply Rmult_le_pos; lra). assert (0 <= eta * sb) by (apply Rmult_le_pos; lra).
    assert (K : Rabs ((va + vb) - (ra + rb)) <= (P d - 1) * (Aa + Ab) + P d * (eta * (sa + sb))).
    { replace ((va + vb) - (ra + rb)) with ((va - ra) + (vb - rb)) by ring.
      eapply Rle_trans; [apply Rabs_triang|].
      assert (P (dep a) * (eta * sa) <= P d * (eta * sa)) by (apply Rmult_le_compat_r; assumption).
      assert (P (dep b) * (eta * sb) <= P d * (eta * sb)) by (apply Rmult_le_compat_r; assumption).
      assert ((P (dep a) - 1) * Aa <= (P d - 1) * Aa) by (apply Rmult_le_compat_r; lra).
      assert ((P (dep b) - 1) * Ab <= (P d - 1) * Ab) by (apply Rmult_le_compat_r; lra).
      replace (P d * (eta * (sa + sb))) with (P d * (eta * sa) + P d * (eta * sb)) by ring. lra. }
    assert (Q : Rabs (va + vb) <= P d * (Aa + Ab + eta * (sa + sb))).
    { replace (va + vb) with (((va + vb) - (ra + rb)) + (ra + rb)) by ring.
      eapply Rle_trans; [apply Rabs_triang|]. pose proof (Rabs_triang ra rb). lra. }
    destruct (add_ok _ _ Fa Fb) as [F V].
    { apply (mag_ok d (Aa + Ab) (sa + sb)); [lia|lra|lra|lra|lra|exact Q]. }
    split; [exact F|]. rewrite V. fold va vb.
    pose proof (rnd_rel _ O) as E.
    cbn [fadd Arith_R]. replace (rnd (va + vb) - (ra + rb)) with ((rnd (va + vb) - (va + vb)) + ((va + vb) - (ra + rb))) by ring.
    eapply Rle_trans; [apply Rabs_triang|]. rewrite P_S.
    assert (u * Rabs (va + vb) <= u * (P d * (Aa + Ab + eta * (sa + sb)))) by (apply Rmult_le_compat_l; [unfold u; lra|exact Q]). lra.
  - apply andb_prop in S. destruct S as [Sa Sb].
    destruct (IHa Sa ltac:(lia)) as (Fa & Ea). destruct (IHb Sb ltac:(lia)) as (Fb & Eb).
    set (d := Nat.max (dep a) (dep b)) in *.
    pose proof (absv_nonneg y a) as A0. pose proof (absv_nonneg y b) as B0.
    pose proof (eval_absv y a) as Ra. pose proof (eval_absv y b) as Rb.
    pose proof (P_mono (dep a) d ltac:(lia)) as Pa. pose proof (P_mono (dep b) d ltac:(lia)) as Pb.
    cbn [slack] in S2. destruct (cancels a b) eqn:C.
    { rewrite (cancels_eval mul_comm_f32 x a b C), (cancels_eval (A := Arith_R) Rmult_comm y a b C).
      destruct (sub_ok _ _ Fb Fb) as [F V].
      { rewrite Rminus_diag_eq, Rabs_R0 by reflexivity. apply bpow_ge_0. }
      split; [exact F|]. rewrite V. replace (val (eval x b) - val (eval x b)) with 0 by ring. rewrite (rnd_Z 0) by lia.
      cbn [fsub Arith_R].
      replace (0 - (eval y b - eval y b)) with 0 by ring. rewrite Rabs_R0. lra. }
    pose proof (absv_bnd N y (ESub a b) HN Hy) as Bd. cbn [absv] in Bd. rewrite C in Bd.
    assert (IZR (bnd N (ESub a b)) <= IZR (2 ^ 125)) as Bd' by (apply IZR_le; exact S1).
    pose proof (IZR_le _ _ S2) as Sl. rewrite plus_IZR in Sl |- *.
    pose proof (IZR_le _ _ (slack_nonneg N a HN)) as Za. pose proof (IZR_le _ _ (slack_nonneg N b HN)) as Zb.
    pose proof (onto_sub _ _ _ (val_onto149 (eval x a)) (val_onto149 (eval x b))) as O.
    set (va := val (eval x a)) in *. set (vb := val (eval x b)) in *.
    set (ra := eval (A := Arith_R) y a) in *. set (rb := eval (A := Arith_R) y b) in *.
    set (Aa := absv y a) in *. set (Ab := absv y b) in *.
    set (sa := IZR (slack N a)) in *. set (sb := IZR (slack N b)) in *.
    assert (0 <= eta * sa) by (apply Rmult_le_pos; lra). assert (0 <= eta * sb) by (apply Rmult_le_pos; lra).
    assert (K : Rabs ((va - vb) - (ra - rb)) <= (P d - 1) * (Aa + Ab) + P d * (eta * (sa + sb))).
    { replace ((va - vb) - (ra - rb)) with ((va - ra) + - (vb - rb)) by ring.
      eapply Rle_trans; [apply Rabs_triang|]. rewrite Rabs_Ropp.
      assert (P (dep a) * (eta * sa) <= P d * (eta * sa)) by (apply Rmult_le_compat_r; assumption).
      assert (P (dep b) * (eta * sb) <= P d * (eta * sb)) by (apply Rmult_le_compat_r; assumption).
      assert ((P (dep a) - 1) * Aa <= (P d - 1) * Aa) by (apply Rmult_le_compat_r; lra).
      assert ((P (dep b) - 1) * Ab <= (P d - 1) * Ab) by (apply Rmult_le_compat_r; lra).
      replace (P d * (eta * (sa + sb))) with (P d * (eta * sa) + P d * (eta * sb)) by ring. lra. }
    assert (Q : Rabs (va - vb) <= P d * (Aa + Ab + eta * (sa + sb))).
    { replace (va - vb) with (((va - vb) - (ra - rb)) + (ra - rb)) by ring.
      eapply Rle_trans; [apply Rabs_triang|]. pose proof (Rabs_triang ra (- rb)) as Z. rewrite Rabs_Ropp in Z.
      change (ra + - rb) with (ra - rb) in Z. lra. }
    destruct (sub_ok _ _ Fa Fb) as [F V].
    { apply (mag_ok d (Aa + Ab) (sa + sb)); [lia|lra|lra|lra|lra|exact Q]. }
    split; [exact F|]. rewrite V. fold va vb.
    pose proof (rnd_rel _ O) as E.
    cbn [fsub Arith_R]. replace (rnd (va - vb) - (ra - rb)) with ((rnd (va - vb) - (va - vb)) + ((va - vb) - (ra - rb))) by ring.
    eapply Rle_trans; [apply Rabs_triang|]. rewrite P_S.
    assert (u * Rabs (va - vb) <= u * (P d * (Aa + Ab + eta * (sa + sb)))) by (apply Rmult_le_compat_l; [unfold u; lra|exact Q]). lra.
  - apply andb_prop in S. destruct S as [Sa Sb].
    destruct (IHa Sa ltac:(lia)) as (Fa & Ea). destruct (IHb Sb ltac:(lia)) as (Fb & Eb).
    pose proof (absv_nonneg y a) as A0. pose proof (absv_nonneg y b) as B0.
    pose proof (eval_absv y a) as Ra. pose proof (eval_absv y b) as Rb.
    pose proof (P_pos (dep a)) as Pa. pose proof (P_pos (dep b)) as Pb.
    pose proof (absv_bnd N y a HN Hy) as Bda. pose proof (absv_bnd N y b HN Hy) as Bdb.
    pose proof (absv_bnd N y (EMul a b) HN Hy) as Bd. cbn [absv] in Bd.
    assert (IZR (bnd N (EMul a b)) <= IZR (2 ^ 125)) as Bd' by (apply IZR_le; exact S1).
    cbn [slack] in S2. pose proof (IZR_le _ _ S2) as Sl. rewrite !plus_IZR, !mult_IZR in Sl |- *.
    pose proof (IZR_le _ _ (slack_nonneg N a HN)) as Za. pose proof (IZR_le _ _ (slack_nonneg N b HN)) as Zb.
    set (va := val (eval x a)) in *. set (vb := val (eval x b)) in *.
    set (ra := eval (A := Arith_R) y a) in *. set (rb := eval (A := Arith_R) y b) in *.
    set (Aa := absv y a) in *. set (Ab := absv y b) in *.
    set (sa := IZR (slack N a)) in *. set (sb := IZR (slack N b)) in *.
    set (ba := IZR (bnd N a)) in *. set (bb := IZR (bnd N b)) in *.
    set (pa := P (dep a)) in *. set (pb := P (dep b)) in *.
    assert (E1 : eta <= 1) by (change 1 with (bpow radix2 0); apply bpow_le; lia).
    set (ha := eta * sa) in *. set (hb := eta * sb) in *.
    assert (Ha : 0 <= ha) by (apply Rmult_le_pos; lra). assert (Hb : 0 <= hb) by (apply Rmult_le_pos; lra).
    assert (Qb : Rabs vb <= pb * (Ab + hb)).
    { replace vb with ((vb - rb) + rb) by ring. eapply Rle_trans; [apply Rabs_triang|]. lra. }
    set (s := ba * sb + bb * sa + sa * sb).
    assert (Hs : Aa * hb + Ab * ha + ha * hb <= eta * s).
    { unfold s, ha, hb. replace (eta * (ba * sb + bb * sa + sa * sb)) with (ba * (eta * sb) + bb * (eta * sa) + eta * (sa * sb)) by ring.
      fold ha hb. assert (Aa * hb <= ba * hb) by (apply Rmult_le_compat_r; assumption).
      assert (Ab * ha <= bb * ha) by (apply Rmult_le_compat_r; assumption).
      assert (ha * hb <= eta * (sa * sb)).
      { unfold ha, hb. replace (eta * sa * (eta * sb)) with (eta * (eta * (sa * sb))) by ring. apply Rmult_le_compat_l; [lra|].
        assert (0 <= sa * sb) by (apply Rmult_le_pos; lra). rewrite <- (Rmult_1_l (sa * sb)) at 2. apply Rmult_le_compat_r; assumption. }
      unfold ha, hb in *. lra. }
    assert (Hs0 : 0 <= s).
    { unfold s. assert (0 <= ba * sb) by (apply Rmult_le_pos; lra). assert (0 <= bb * sa) by (apply Rmult_le_pos; lra).
      assert (0 <= sa * sb) by (apply Rmult_le_pos; lra). lra. }
    assert (K : Rabs (va * vb - ra * rb) <= (pa * pb - 1) * (Aa * Ab) + pa * pb * (eta * s)).
    { replace (va * vb - ra * rb) with ((va - ra) * vb + ra * (vb - rb)) by ring.
      eapply Rle_trans; [apply Rabs_triang|]. rewrite !Rabs_mult.
      assert (Rabs (va - ra) * Rabs vb <= ((pa - 1) * Aa + pa * ha) * (pb * (Ab + hb))) by (apply Rmult_le_compat; try assumption; apply Rabs_pos).
      assert (Rabs ra * Rabs (vb - rb) <= Aa * ((pb - 1) * Ab + pb * hb)) by (apply Rmult_le_compat; try assumption; apply Rabs_pos).
      assert (0 <= pa * pb) by (apply Rmult_le_pos; lra).
      assert (pa * pb * (Aa * hb + Ab * ha + ha * hb) <= pa * pb * (eta * s)) by (apply Rmult_le_compat_l; assumption).
      replace (((pa - 1) * Aa + pa * ha) * (pb * (Ab + hb))) with
        ((pa - 1) * pb * (Aa * Ab) + (pa * pb * (Aa * hb + Ab * ha + ha * hb) - Aa * (pb * hb))) in * by ring.
      replace (Aa * ((pb - 1) * Ab + pb * hb)) with ((pb - 1) * (Aa * Ab) + Aa * (pb * hb)) in * by ring. lra. }
    assert (Q : Rabs (va * vb) <= pa * pb * (Aa * Ab + eta * s)).
    { replace (va * vb) with ((va * vb - ra * rb) + ra * rb) by ring.
      eapply Rle_trans; [apply Rabs_triang|]. rewrite (Rabs_mult ra rb).
      assert (Rabs ra * Rabs rb <= Aa * Ab) by (apply Rmult_le_compat; try assumption; apply Rabs_pos). lra. }
    assert (PP : P (dep a + dep b) = pa * pb) by apply P_add.
    destruct (mul_ok _ _ Fa Fb) as [F V].
    { apply (mag_ok (dep a + dep b) (Aa * Ab) s); [lia|apply Rmult_le_pos; assumption|lra|exact Hs0|unfold s; lra|rewrite PP; exact Q]. }
    split; [exact F|]. rewrite V. fold va vb.
    pose proof (rnd_any (va * vb)) as E.
    cbn [fmul Arith_R]. replace (rnd (va * vb) - (ra * rb)) with ((rnd (va * vb) - (va * vb)) + ((va * vb) - (ra * rb))) by ring.
    eapply Rle_trans; [apply Rabs_triang|]. rewrite P_S, PP.
    assert (u * Rabs (va * vb) <= u * (pa * pb * (Aa * Ab + eta * s))) by (apply Rmult_le_compat_l; [unfold u; lra|exact Q]).
    assert (1 <= (1 + u) * (pa * pb)).
    { assert (1 <= pa * pb) by (rewrite <- PP; apply P_pos). assert (0 < u) by (unfold u; lra). nra. }
    assert (eta <= (1 + u) * (pa * pb) * eta) by (rewrite <- (Rmult_1_l eta) at 1; apply Rmult_le_compat_r; lra).
    fold s. replace ((1 + u) * (pa * pb) * (eta * (s + 1))) with ((1 + u) * (pa * pb) * (eta * s) + (1 + u) * (pa * pb) * eta) by ring. lra.
  - destruct (IHa S T) as (Fa & Ea). destruct (opp_ok _ Fa) as [F V].
    split; [exact F|]. rewrite V.
    cbn [fopp Arith_R]. replace (- val (eval x a) - - eval (A := Arith_R) y a) with (- (val (eval x a) - eval (A := Arith_R) y a)) by ring.
    rewrite Rabs_Ropp. exact Ea.
Qed.

Lemma hom_slack {k} (f : expr -> R) t (c : ent k expr) i : 0 <= t ->
  Rabs (hom (emap (fun e => f e + t) c) i) <= Rabs (hom (emap f c) i) + t.
Proof.
  intro H. assert (A : forall x, Rabs (x + t) <= Rabs x + t).
  { intro x. eapply Rle_trans; [apply Rabs_triang|]. rewrite (Rabs_pos_eq t H). lra. }
  assert (B : forall x, Rabs x <= Rabs x + t) by (intro x; lra).
  assert (N : forall x, Rabs (- (x + t)) <= Rabs (- x) + t) by (intro x; rewrite !Rabs_Ropp; apply A).
  destruct k; cbn in c; ents; destruct i as [[|] [|] [|] [|]]; cbv -[Rplus Rmult Ropp Rminus Rabs IZR Rle];
  repeat match goal with |- context [IZR 0 + ?x] => rewrite (Rplus_0_l x) | |- context [?x + IZR 0] => rewrite (Rplus_0_r x)
     | |- context [- 0] => rewrite Ropp_0 end;
  rewrite ?Rmult_1_r, ?Rmult_0_r, ?Rplus_0_l, ?Rplus_0_r; first [apply A | apply N | apply B].
Qed.

(** of magnitude at most 2^hi; there is no lower bound *)
Definition bounded (hi : Z) (x : f32) : Prop := fin x /\ Rabs (val x) <= bpow radix2 hi.
Lemma bounded_zero hi : bounded hi (B754_zero false).
Proof. split; [reflexivity|]. change (val (B754_zero false)) with 0. rewrite Rabs_R0. apply bpow_ge_0. Qed.
(** the error bound of C41 for operands of any size up to 2^hi, with an absolute term 2^t for underflow *)
Definition accurate_any {k1 k2 k3} (hi : Z) (c : R) (t : Z) (f : ent k1 f32 -> ent k2 f32 -> ent k3 f32) (s : spec_op) : Prop :=
  forall a b, Forall (bounded hi) (coefs a) -> Forall (bounded hi) (coefs b) -> wfe (emap val a) -> wfe (emap val b) ->
  Forall fin (coefs (f a b)) /\
  forall i, Rabs (mvof (emap val (f a b)) i - sem s (mvof (emap val a)) (mvof (emap val b)) i) <=
    c * (1 + / 100000) * / 2 ^ 24 * smass s (mvof (emap val a)) (mvof (emap val b)) i + bpow radix2 t.

Definition fits_any (hi t : Z) (e : expr) : bool :=
  mild (2 ^ hi) e && (slack (2 ^ hi) e <=? 2 ^ (149 + t))%Z && (dep e <=? 64)%nat.
Theorem op_error_any {k1 k2 k3} (op : op2 k1 k2 k3) hi t : natural op -> (0 <= hi)%Z -> (-149 <= t)%Z ->
  forallb (fits_any hi t) (coefs (code op)) = true ->
  forall a b, Forall (bounded hi) (coefs a) -> Forall (bounded hi) (coefs b) ->
  Forall fin (coefs (op f32 _ a b)) /\
  forall i, Rabs (mvof (emap val (op f32 _ a b)) i - mvof (op R _ (emap val a) (emap val b)) i) <=
    u * (1 + / 100000) * Rabs (hom (emap (absv (env 0 (emap val a) (emap val b))) (emap weigh (code op))) i) + bpow radix2 t.
Proof.
  intros Nat Hhi Ht C a b Ha Hb.
  set (x := env (B754_zero false : f32) a b).
  set (y := env 0 (emap val a) (emap val b)).
  assert (Y : forall n, val (x n) = y n) by (intro n; apply (env_emap val)).
  assert (X : forall n, fin (x n) /\ Rabs (val (x n)) <= IZR (2 ^ hi)).
  { intro n. rewrite (IZR_Zpower radix2) by exact Hhi. exact (env_all (bounded hi) (B754_zero false) a b n (bounded_zero hi) Ha Hb). }
  rewrite (natural_code op f32 _ (B754_zero false) a b Nat). fold x.
  rewrite (natural_code op R _ 0 (emap val a) (emap val b) Nat). fold y.
  rewrite forallb_forall in C.
  assert (K : forall e, In e (coefs (code op)) -> fin (eval x e) /\
    Rabs (val (eval x e) - eval (A := Arith_R) y e) <= u * (1 + / 100000) * absv y (weigh e) + bpow radix2 t).
  { intros e I. specialize (C e I). unfold fits_any in C. apply andb_prop in C. destruct C as [C C3]. apply andb_prop in C. destruct C as [C1 C2].
    apply Z.leb_le in C2. apply Nat.leb_le in C3.
    destruct (rounding_any x (2 ^ hi) e ltac:(apply Z.pow_nonneg; lia) X C1 C3) as (F & E).
    split; [exact F|]. rewrite (eval_ext _ y e Y), (absv_ext _ y e Y) in E. eapply Rle_trans; [exact E|].
    pose proof (P_lin (dep e) C3) as PL. apply Rplus_le_compat.
    - cbn [weigh absv]. rewrite Z.abs_eq by lia. rewrite <- INR_IZR_INZ.
      replace (u * (1 + / 100000) * (INR (dep e) * absv y e)) with (INR (dep e) * u * (1 + / 100000) * absv y e) by ring.
      apply Rmult_le_compat_r; [apply absv_nonneg|]. exact PL.
    - assert (L : IZR (slack (2 ^ hi) e) <= bpow radix2 (149 + t)) by (rewrite <- IZR_Zpower by lia; apply IZR_le; exact C2).
      assert (Q : P (dep e) <= 2).
      { assert (INR (dep e) <= 64) by (rewrite INR_IZR_INZ; apply IZR_le; lia). pose proof (pos_INR (dep e)). unfold u in PL. nra. }
      replace (bpow radix2 t) with (2 * (eta * bpow radix2 (149 + t))).
      2: { unfold eta. rewrite <- bpow_plus. change 2 with (bpow radix2 1). rewrite <- bpow_plus. f_equal. lia. }
      pose proof (P_pos (dep e)). pose proof eta_pos.
      pose proof (IZR_le _ _ (slack_nonneg (2 ^ hi) e ltac:(apply Z.pow_nonneg; lia))).
      apply Rmult_le_compat; [lra|apply Rmult_le_pos; lra|exact Q|]. apply Rmult_le_compat_l; [lra|exact L]. }
  split.
  - rewrite coefs_emap, Forall_forall. intros v I. apply in_map_iff in I. destruct I as (e & <- & I). apply (K e I).
  - intro i. rewrite emap_emap, mvof_hom. eapply Rle_trans.
    + apply (hom_diff _ _ (fun e => u * (1 + / 100000) * absv y (weigh e) + bpow radix2 t)). rewrite Forall_forall. intros e I. apply (K e I).
    + eapply Rle_trans; [apply (hom_slack (fun e => u * (1 + / 100000) * absv y (weigh e))); apply bpow_ge_0|].
      rewrite (hom_scale (u * (1 + / 100000)) (fun e => absv y (weigh e))), Rabs_mult, (Rabs_right (u * (1 + / 100000))).
      2: unfold u; lra. rewrite (emap_emap weigh (absv y)). lra.
Qed.
Theorem op_accurate_any {k1 k2 k3} (op : op2 k1 k2 k3) (s : spec_op) hi t r :
  natural op -> correct op s -> (0 <= hi)%Z -> (-149 <= t)%Z -> (0 <= r)%Z ->
  forallb (fits_any hi t) (coefs (code op)) = true -> covers op s r = true ->
  accurate_any hi (IZR r) t (op f32 Arith_f32) s.
Proof.
  intros N X Hhi Ht Hr C V a b Ha Hb Wa Wb.
  destruct (op_error_any op hi t N Hhi Ht C a b Ha Hb) as [F E]. split; [exact F|]. intro i.
  rewrite <- (X (emap val a) (emap val b) Wa Wb i).
  eapply Rle_trans; [apply E|]. apply Rplus_le_compat_r. set (y := env 0 (emap val a) (emap val b)).
  rewrite hom_absE, <- pval_pol.
  unfold covers in V. rewrite forallb_forall in V. specialize (V i (all_blades_all i)).
  assert (K : absv y (smassE s (mvofE 1 (var k1 0)) (mvofE 1 (var k2 8)) i) = smass s (mvof (emap val a)) (mvof (emap val b)) i).
  { apply smassE_ok; intro j; rewrite <- mvof_absE; f_equal; f_equal; [apply env_a|apply env_b]. }
  pose proof (dominated_le _ r _ _ y Hr (nonneg_pol _) (fun n I => zeros_ok (emap val a) (emap val b) n Wa Wb I) V) as L.
  rewrite (pval_pol y (smassE _ _ _ _)), K in L.
  replace (IZR r * (1 + / 100000) * / 2 ^ 24 * smass s (mvof (emap val a)) (mvof (emap val b)) i)
    with (u * (1 + / 100000) * (IZR r * smass s (mvof (emap val a)) (mvof (emap val b)) i)).
  2: { replace u with (/ 2 ^ 24) by (unfold u; f_equal; ring). ring. }
  apply Rmult_le_compat_l; [unfold u; lra|exact L].
Qed.
