(** Free syntax for the polynomial kernels.  Running a kernel on variables gives
    the expression it evaluates, with the code's own order of operations; running
    it on numbers is evaluating that expression.  Rounding errors are bounded
    once, for all expressions. *)
From Coq Require Import ZArith Reals Bool Lia Lra Psatz.
From Flocq Require Import Core BinarySingleNaN.
From Verif Require Import Scalar SSE Float32 FloatFacts.
Local Open Scope R_scope.

Inductive expr := EVar (n : nat) | ECst (z : Z) | EAdd (a b : expr) | ESub (a b : expr)
| EMul (a b : expr) | EOpp (a : expr).
#[global] Instance Arith_expr : Arith expr := mkArith expr EAdd ESub EMul EOpp ECst.

Fixpoint eval {F} `{A : Arith F} (x : nat -> F) (e : expr) : F :=
  match e with
  | EVar n => x n
  | ECst z => fz z
  | EAdd a b => fadd (eval x a) (eval x b)
  | ESub a b => fsub (eval x a) (eval x b)
  | EMul a b => fmul (eval x a) (eval x b)
  | EOpp a => fopp (eval x a)
  end.
(** [x*y - x*y] and [x*y - y*x], which vanish in every arithmetic without overflow *)
Fixpoint expr_eqb (a b : expr) : bool :=
  match a, b with
  | EVar m, EVar n => Nat.eqb m n
  | ECst m, ECst n => Z.eqb m n
  | EAdd p q, EAdd r s | ESub p q, ESub r s | EMul p q, EMul r s => expr_eqb p r && expr_eqb q s
  | EOpp p, EOpp r => expr_eqb p r
  | _, _ => false
  end.
Definition cancels (a b : expr) : bool :=
  match a, b with
  | EMul p q, EMul r s => expr_eqb p r && expr_eqb q s || expr_eqb p s && expr_eqb q r
  | _, _ => false
  end.
(** every subtraction replaced by an addition of absolute values *)
Fixpoint absv (x : nat -> R) (e : expr) : R :=
  match e with
  | EVar n => Rabs (x n)
  | ECst z => IZR (Z.abs z)
  | EAdd a b => absv x a + absv x b
  | ESub a b => if cancels a b then 0 else absv x a + absv x b
  | EMul a b => absv x a * absv x b
  | EOpp a => absv x a
  end.
(** the number of roundings a monomial goes through, at most *)
Fixpoint dep (e : expr) : nat :=
  match e with
  | EVar _ | ECst _ => 0
  | EAdd a b | ESub a b => S (Nat.max (dep a) (dep b))
  | EMul a b => S (dep a + dep b)
  | EOpp a => dep a
  end%nat.
Fixpoint deg (e : expr) : Z :=
  match e with
  | EVar _ => 1
  | ECst _ => 0
  | EAdd a b | ESub a b => Z.max (deg a) (deg b)
  | EMul a b => deg a + deg b
  | EOpp a => deg a
  end%Z.
(** a bound for [absv] when the variables are at most [N >= 1] *)
Fixpoint bnd (N : Z) (e : expr) : Z :=
  match e with
  | EVar _ => N
  | ECst z => Z.abs z
  | EAdd a b | ESub a b => bnd N a + bnd N b
  | EMul a b => bnd N a * bnd N b
  | EOpp a => bnd N a
  end%Z.
(** every intermediate value is at most [L] *)
Fixpoint small (N L : Z) (e : expr) : bool :=
  (bnd N e <=? L)%Z &&
  match e with
  | EVar _ => true
  | ECst z => (Z.abs z <=? 2 ^ 24)%Z
  | EAdd a b | ESub a b | EMul a b => small N L a && small N L b
  | EOpp a => small N L a
  end.

Lemma deg_nonneg e : (0 <= deg e)%Z.
Proof. induction e; cbn; lia. Qed.
Lemma expr_eqb_true a : forall b, expr_eqb a b = true -> a = b.
Proof.
  induction a as [m|m|p IHp q IHq|p IHp q IHq|p IHp q IHq|p IHp]; intros [n|n|r s|r s|r s|r]; cbn; intro H; try discriminate.
  - apply Nat.eqb_eq in H. congruence.
  - apply Z.eqb_eq in H. congruence.
  - apply andb_prop in H. destruct H as [H K]. rewrite (IHp _ H), (IHq _ K). reflexivity.
  - apply andb_prop in H. destruct H as [H K]. rewrite (IHp _ H), (IHq _ K). reflexivity.
  - apply andb_prop in H. destruct H as [H K]. rewrite (IHp _ H), (IHq _ K). reflexivity.
  - rewrite (IHp _ H). reflexivity.
Qed.
Lemma cancels_eval {F} `{A : Arith F} (comm : forall v w : F, fmul v w = fmul w v) x a b :
  cancels a b = true -> eval x a = eval x b.
Proof.
  destruct a as [m|m|p q|p q|p q|p], b as [n|n|r s|r s|r s|r]; cbn; intro H; try discriminate.
  apply orb_prop in H. destruct H as [H|H]; apply andb_prop in H; destruct H as [H K];
    apply expr_eqb_true in H; apply expr_eqb_true in K; subst; [reflexivity|apply comm].
Qed.
Lemma mul_comm_f32 (v w : f32) : fmul v w = fmul w v.
Proof.
  cbn. destruct v as [s|s| |s m e H], w as [t|t| |t n f K]; cbn; try reflexivity; try (rewrite xorb_comm; reflexivity).
  apply B2SF_inj. rewrite !B2SF_SF2B. rewrite xorb_comm, Pos.mul_comm, Z.add_comm. reflexivity.
Qed.
Lemma absv_nonneg x e : 0 <= absv x e.
Proof.
  induction e; cbn.
  - apply Rabs_pos.
  - apply IZR_le. lia.
  - lra.
  - destruct (cancels e1 e2); lra.
  - apply Rmult_le_pos; assumption.
  - assumption.
Qed.
Lemma bnd_nonneg N e : (0 <= N)%Z -> (0 <= bnd N e)%Z.
Proof. intro H. induction e; cbn; try lia; apply Z.mul_nonneg_nonneg; assumption. Qed.
Lemma absv_bnd N x e : (0 <= N)%Z -> (forall n, Rabs (x n) <= IZR N) -> absv x e <= IZR (bnd N e).
Proof.
  intros HN H. induction e; cbn.
  - apply H.
  - lra.
  - rewrite plus_IZR. lra.
  - rewrite plus_IZR. pose proof (absv_nonneg x e1). pose proof (absv_nonneg x e2). destruct (cancels e1 e2); lra.
  - rewrite mult_IZR. apply Rmult_le_compat; try assumption; apply absv_nonneg.
  - assumption.
Qed.
Lemma eval_absv x e : Rabs (eval (A := Arith_R) x e) <= absv x e.
Proof.
  induction e; cbn.
  - lra.
  - rewrite abs_IZR. lra.
  - eapply Rle_trans; [apply Rabs_triang|lra].
  - destruct (cancels e1 e2) eqn:C.
    + rewrite (cancels_eval (A := Arith_R) Rmult_comm x e1 e2 C). cbn. rewrite Rminus_diag_eq, Rabs_R0 by reflexivity. lra.
    + eapply Rle_trans; [apply Rabs_triang|]. rewrite Rabs_Ropp. lra.
  - rewrite Rabs_mult. apply Rmult_le_compat; try assumption; apply Rabs_pos.
  - rewrite Rabs_Ropp. assumption.
Qed.

(** ** Integers are exact *)
Theorem integers_exact (x : nat -> f32) (k : nat -> Z) N e :
  (0 <= N)%Z -> (forall n, fin (x n) /\ val (x n) = IZR (k n) /\ (Z.abs (k n) <= N)%Z) ->
  small N (2 ^ 24) e = true ->
  fin (eval x e) /\ val (eval x e) = IZR (eval (A := Arith_Z) k e) /\
  (Z.abs (eval (A := Arith_Z) k e) <= bnd N e)%Z.
Proof.
  intros HN H. assert (L : forall z, (Z.abs z <= 2 ^ 24)%Z -> Rabs (IZR z) <= big).
  { intros z Hz. rewrite <- abs_IZR. apply (Rle_trans _ (IZR (2 ^ 24))); [apply IZR_le; exact Hz|].
    change (IZR (2 ^ 24)) with (bpow radix2 24). apply bpow_le. lia. }
  induction e as [n|z|a IHa b IHb|a IHa b IHb|a IHa b IHb|a IHa]; cbn [eval small bnd]; intro S;
    apply andb_prop in S; destruct S as [S1 S]; apply Z.leb_le in S1.
  - destruct (H n) as (F & V & B). repeat split; assumption.
  - apply Z.leb_le in S. destruct (fz_ok z S). cbn [fz Arith_Z]. repeat split; try assumption. lia.
  - apply andb_prop in S. destruct S as [Sa Sb]. destruct (IHa Sa) as (Fa & Va & Ba). destruct (IHb Sb) as (Fb & Vb & Bb).
    cbn [fadd Arith_Z]. assert (Z.abs (eval (A:=Arith_Z) k a + eval (A:=Arith_Z) k b) <= bnd N a + bnd N b)%Z as K by lia.
    destruct (add_ok _ _ Fa Fb) as [F V]; [rewrite Va, Vb, <- plus_IZR; apply L; lia|].
    split; [exact F|]. split; [|exact K]. rewrite V, Va, Vb, <- plus_IZR. apply rnd_Z. lia.
  - apply andb_prop in S. destruct S as [Sa Sb]. destruct (IHa Sa) as (Fa & Va & Ba). destruct (IHb Sb) as (Fb & Vb & Bb).
    cbn [fsub Arith_Z]. assert (Z.abs (eval (A:=Arith_Z) k a - eval (A:=Arith_Z) k b) <= bnd N a + bnd N b)%Z as K by lia.
    destruct (sub_ok _ _ Fa Fb) as [F V]; [rewrite Va, Vb, <- minus_IZR; apply L; lia|].
    split; [exact F|]. split; [|exact K]. rewrite V, Va, Vb, <- minus_IZR. apply rnd_Z. lia.
  - apply andb_prop in S. destruct S as [Sa Sb]. destruct (IHa Sa) as (Fa & Va & Ba). destruct (IHb Sb) as (Fb & Vb & Bb).
    cbn [fmul Arith_Z]. assert (Z.abs (eval (A:=Arith_Z) k a * eval (A:=Arith_Z) k b) <= bnd N a * bnd N b)%Z as K
      by (rewrite Z.abs_mul; apply Z.mul_le_mono_nonneg; lia).
    destruct (mul_ok _ _ Fa Fb) as [F V]; [rewrite Va, Vb, <- mult_IZR; apply L; lia|].
    split; [exact F|]. split; [|exact K]. rewrite V, Va, Vb, <- mult_IZR. apply rnd_Z. lia.
  - destruct (IHa S) as (Fa & Va & Ba). destruct (opp_ok _ Fa) as [F V]. cbn [fopp Arith_Z].
    split; [exact F|]. split; [rewrite V, Va, opp_IZR; reflexivity|lia].
Qed.

(** ** Rounding errors *)
Definition P (d : nat) : R := (1 + u) ^ d.
Lemma P_pos d : 1 <= P d.
Proof. unfold P. apply pow_R1_Rle. unfold u. lra. Qed.
Lemma P_S d : P (S d) = (1 + u) * P d. Proof. reflexivity. Qed.
Lemma P_add d e : P (d + e) = P d * P e. Proof. apply pow_add. Qed.
Lemma P_mono d e : (d <= e)%nat -> P d <= P e.
Proof. intro H. apply Rle_pow; [unfold u; lra|exact H]. Qed.
(** (1+u)^d - 1 is d*u up to a tiny relative amount *)
Lemma P_lin d : (d <= 64)%nat -> P d - 1 <= INR d * u * (1 + / 100000).
Proof.
  intro H. assert (K : forall n, (n <= 64)%nat -> P n <= 1 + INR n * u * (1 + / 100000)).
  { induction n as [|n IH]; intro L.
    - cbn. unfold u. lra.
    - rewrite P_S, S_INR. specialize (IH ltac:(lia)).
      assert (INR n <= 64) by (rewrite INR_IZR_INZ; apply IZR_le; lia). pose proof (pos_INR n).
      apply (Rle_trans _ ((1 + u) * (1 + INR n * u * (1 + / 100000)))); [apply Rmult_le_compat_l; [unfold u; lra|exact IH]|].
      unfold u. nra. }
  specialize (K d H). lra.
Qed.

Theorem rounding_error (x : nat -> f32) g N e :
  (0 <= g)%Z -> (0 <= N)%Z ->
  (forall n, fin (x n) /\ Rabs (val (x n)) <= IZR N /\ onto (- g) (val (x n))) ->
  (g * deg e <= 149)%Z -> small N (2 ^ 126) e = true -> (dep e <= 64)%nat ->
  fin (eval x e) /\ onto (- (g * deg e)) (val (eval x e)) /\
  Rabs (val (eval x e) - eval (A := Arith_R) (fun n => val (x n)) e) <= (P (dep e) - 1) * absv (fun n => val (x n)) e.
Proof.
  intros Hg HN H. set (y := fun n => val (x n)).
  assert (Hy : forall n, Rabs (y n) <= IZR N) by (intro n; apply H).
  (* the computed value is at most 2^127 *)
  assert (M : forall d s v, (d <= 64)%nat -> 0 <= s -> s <= IZR (2 ^ 126) -> Rabs v <= P d * s -> Rabs v <= big).
  { intros d s v Hd Hs Hb Hv. eapply Rle_trans; [exact Hv|].
    assert (P d <= 2).
    { pose proof (P_lin d Hd). assert (INR d <= 64) by (rewrite INR_IZR_INZ; apply IZR_le; lia).
      pose proof (pos_INR d). unfold u in *. nra. }
    assert (big = 2 * IZR (2 ^ 126)) as ->.
    { change (IZR (2 ^ 126)) with (bpow radix2 126). unfold big. change 2 with (bpow radix2 1). rewrite <- bpow_plus. reflexivity. }
    pose proof (P_pos d). apply Rmult_le_compat; lra. }
  induction e as [n|z|a IHa b IHb|a IHa b IHb|a IHa b IHb|a IHa]; cbn [eval small deg dep absv]; intros D S T;
    apply andb_prop in S; destruct S as [S1 S]; apply Z.leb_le in S1.
  - destruct (H n) as (F & B & O). split; [exact F|]. split; [rewrite Z.mul_1_r; exact O|].
    unfold y. rewrite Rminus_diag_eq by reflexivity. rewrite Rabs_R0. cbn. lra.
  - apply Z.leb_le in S. destruct (fz_ok z S) as [F V]. split; [exact F|]. rewrite V. split.
    + apply (onto_weaken 0); [lia|apply onto_IZR].
    + cbn [fz Arith_R]. rewrite Rminus_diag_eq by reflexivity. rewrite Rabs_R0. cbn. lra.
  - apply andb_prop in S. destruct S as [Sa Sb].
    destruct (IHa ltac:(nia) Sa ltac:(lia)) as (Fa & Oa & Ea). destruct (IHb ltac:(nia) Sb ltac:(lia)) as (Fb & Ob & Eb).
    set (d := Nat.max (dep a) (dep b)) in *.
    pose proof (absv_nonneg y a) as A0. pose proof (absv_nonneg y b) as B0.
    pose proof (eval_absv y a) as Ra. pose proof (eval_absv y b) as Rb.
    pose proof (P_mono (dep a) d ltac:(lia)) as Pa. pose proof (P_mono (dep b) d ltac:(lia)) as Pb.
    pose proof (absv_bnd N y (EAdd a b) HN Hy) as Bd. cbn [absv] in Bd.
    assert (IZR (bnd N (EAdd a b)) <= IZR (2 ^ 126)) as Bd' by (apply IZR_le; exact S1).
    set (va := val (eval x a)) in *. set (vb := val (eval x b)) in *.
    set (ra := eval (A := Arith_R) y a) in *. set (rb := eval (A := Arith_R) y b) in *.
    set (Aa := absv y a) in *. set (Ab := absv y b) in *.
    assert (K : Rabs ((va + vb) - (ra + rb)) <= (P d - 1) * (Aa + Ab)).
    { replace ((va + vb) - (ra + rb)) with ((va - ra) + (vb - rb)) by ring.
      eapply Rle_trans; [apply Rabs_triang|]. nra. }
    assert (Q : Rabs (va + vb) <= P d * (Aa + Ab)).
    { replace (va + vb) with (((va + vb) - (ra + rb)) + (ra + rb)) by ring.
      eapply Rle_trans; [apply Rabs_triang|]. pose proof (Rabs_triang ra rb). lra. }
    destruct (add_ok _ _ Fa Fb) as [F V].
    { apply (M d (Aa + Ab)); [lia|lra|lra|exact Q]. }
    assert (O : onto (- (g * Z.max (deg a) (deg b))) (va + vb)).
    { apply onto_add; [apply (onto_weaken (- (g * deg a)))|apply (onto_weaken (- (g * deg b)))]; try assumption; nia. }
    split; [exact F|]. rewrite V. fold va vb. split; [apply onto_rnd; exact O|].
    assert (E : Rabs (rnd (va + vb) - (va + vb)) <= u * Rabs (va + vb)) by (apply rnd_rel; apply (onto_weaken (- (g * Z.max (deg a) (deg b)))); [lia|exact O]).
    cbn [fadd Arith_R]. replace (rnd (va + vb) - (ra + rb)) with ((rnd (va + vb) - (va + vb)) + ((va + vb) - (ra + rb))) by ring.
    eapply Rle_trans; [apply Rabs_triang|]. rewrite P_S.
    assert (u * Rabs (va + vb) <= u * (P d * (Aa + Ab))) by (apply Rmult_le_compat_l; [unfold u; lra|exact Q]). lra.
  - apply andb_prop in S. destruct S as [Sa Sb].
    destruct (IHa ltac:(nia) Sa ltac:(lia)) as (Fa & Oa & Ea). destruct (IHb ltac:(nia) Sb ltac:(lia)) as (Fb & Ob & Eb).
    set (d := Nat.max (dep a) (dep b)) in *.
    pose proof (absv_nonneg y a) as A0. pose proof (absv_nonneg y b) as B0.
    pose proof (eval_absv y a) as Ra. pose proof (eval_absv y b) as Rb.
    pose proof (P_mono (dep a) d ltac:(lia)) as Pa. pose proof (P_mono (dep b) d ltac:(lia)) as Pb.
    destruct (cancels a b) eqn:C.
    { rewrite (cancels_eval mul_comm_f32 x a b C), (cancels_eval (A := Arith_R) Rmult_comm y a b C).
      destruct (sub_ok _ _ Fb Fb) as [F V].
      { rewrite Rminus_diag_eq, Rabs_R0 by reflexivity. apply bpow_ge_0. }
      split; [exact F|]. rewrite V. replace (val (eval x b) - val (eval x b)) with 0 by ring. rewrite (rnd_Z 0) by lia.
      split; [exists 0%Z; ring|]. cbn [fsub Arith_R].
      replace (0 - (eval y b - eval y b)) with 0 by ring. rewrite Rabs_R0. lra. }
    pose proof (absv_bnd N y (ESub a b) HN Hy) as Bd. cbn [absv] in Bd. rewrite C in Bd.
    assert (IZR (bnd N (ESub a b)) <= IZR (2 ^ 126)) as Bd' by (apply IZR_le; exact S1).
    set (va := val (eval x a)) in *. set (vb := val (eval x b)) in *.
    set (ra := eval (A := Arith_R) y a) in *. set (rb := eval (A := Arith_R) y b) in *.
    set (Aa := absv y a) in *. set (Ab := absv y b) in *.
    assert (K : Rabs ((va - vb) - (ra - rb)) <= (P d - 1) * (Aa + Ab)).
    { replace ((va - vb) - (ra - rb)) with ((va - ra) + - (vb - rb)) by ring.
      eapply Rle_trans; [apply Rabs_triang|]. rewrite Rabs_Ropp. nra. }
    assert (Q : Rabs (va - vb) <= P d * (Aa + Ab)).
    { replace (va - vb) with (((va - vb) - (ra - rb)) + (ra - rb)) by ring.
      eapply Rle_trans; [apply Rabs_triang|]. pose proof (Rabs_triang ra (- rb)) as Z. rewrite Rabs_Ropp in Z.
      change (ra + - rb) with (ra - rb) in Z. lra. }
    destruct (sub_ok _ _ Fa Fb) as [F V].
    { apply (M d (Aa + Ab)); [lia|lra|lra|exact Q]. }
    assert (O : onto (- (g * Z.max (deg a) (deg b))) (va - vb)).
    { apply onto_sub; [apply (onto_weaken (- (g * deg a)))|apply (onto_weaken (- (g * deg b)))]; try assumption; nia. }
    split; [exact F|]. rewrite V. fold va vb. split; [apply onto_rnd; exact O|].
    assert (E : Rabs (rnd (va - vb) - (va - vb)) <= u * Rabs (va - vb)) by (apply rnd_rel; apply (onto_weaken (- (g * Z.max (deg a) (deg b)))); [lia|exact O]).
    cbn [fsub Arith_R]. replace (rnd (va - vb) - (ra - rb)) with ((rnd (va - vb) - (va - vb)) + ((va - vb) - (ra - rb))) by ring.
    eapply Rle_trans; [apply Rabs_triang|]. rewrite P_S.
    assert (u * Rabs (va - vb) <= u * (P d * (Aa + Ab))) by (apply Rmult_le_compat_l; [unfold u; lra|exact Q]). lra.
  - apply andb_prop in S. destruct S as [Sa Sb]. pose proof (deg_nonneg a) as Da. pose proof (deg_nonneg b) as Db.
    destruct (IHa ltac:(nia) Sa ltac:(lia)) as (Fa & Oa & Ea). destruct (IHb ltac:(nia) Sb ltac:(lia)) as (Fb & Ob & Eb).
    pose proof (absv_nonneg y a) as A0. pose proof (absv_nonneg y b) as B0.
    pose proof (eval_absv y a) as Ra. pose proof (eval_absv y b) as Rb.
    pose proof (P_pos (dep a)) as Pa. pose proof (P_pos (dep b)) as Pb.
    pose proof (absv_bnd N y (EMul a b) HN Hy) as Bd. cbn [absv] in Bd.
    assert (IZR (bnd N (EMul a b)) <= IZR (2 ^ 126)) as Bd' by (apply IZR_le; exact S1).
    set (va := val (eval x a)) in *. set (vb := val (eval x b)) in *.
    set (ra := eval (A := Arith_R) y a) in *. set (rb := eval (A := Arith_R) y b) in *.
    set (Aa := absv y a) in *. set (Ab := absv y b) in *.
    assert (Qb : Rabs vb <= P (dep b) * Ab).
    { replace vb with ((vb - rb) + rb) by ring. eapply Rle_trans; [apply Rabs_triang|]. lra. }
    assert (K : Rabs (va * vb - ra * rb) <= (P (dep a + dep b) - 1) * (Aa * Ab)).
    { replace (va * vb - ra * rb) with ((va - ra) * vb + ra * (vb - rb)) by ring.
      eapply Rle_trans; [apply Rabs_triang|]. rewrite !Rabs_mult, P_add.
      assert (Rabs (va - ra) * Rabs vb <= ((P (dep a) - 1) * Aa) * (P (dep b) * Ab)) by (apply Rmult_le_compat; try assumption; apply Rabs_pos).
      assert (Rabs ra * Rabs (vb - rb) <= Aa * ((P (dep b) - 1) * Ab)) by (apply Rmult_le_compat; try assumption; apply Rabs_pos).
      lra. }
    assert (Q : Rabs (va * vb) <= P (dep a + dep b) * (Aa * Ab)).
    { replace (va * vb) with ((va * vb - ra * rb) + ra * rb) by ring.
      eapply Rle_trans; [apply Rabs_triang|]. rewrite (Rabs_mult ra rb).
      assert (Rabs ra * Rabs rb <= Aa * Ab) by (apply Rmult_le_compat; try assumption; apply Rabs_pos). lra. }
    destruct (mul_ok _ _ Fa Fb) as [F V].
    { apply (M (dep a + dep b)%nat (Aa * Ab)); try lia; try assumption; [apply Rmult_le_pos; assumption|lra]. }
    assert (O : onto (- (g * (deg a + deg b))) (va * vb)).
    { replace (- (g * (deg a + deg b)))%Z with (- (g * deg a) + - (g * deg b))%Z by ring. apply onto_mul; assumption. }
    split; [exact F|]. rewrite V. fold va vb. split; [apply onto_rnd; exact O|].
    assert (E : Rabs (rnd (va * vb) - (va * vb)) <= u * Rabs (va * vb)) by (apply rnd_rel; apply (onto_weaken (- (g * (deg a + deg b)))); [lia|exact O]).
    cbn [fmul Arith_R]. replace (rnd (va * vb) - (ra * rb)) with ((rnd (va * vb) - (va * vb)) + ((va * vb) - (ra * rb))) by ring.
    eapply Rle_trans; [apply Rabs_triang|]. rewrite P_S.
    assert (u * Rabs (va * vb) <= u * (P (dep a + dep b) * (Aa * Ab))) by (apply Rmult_le_compat_l; [unfold u; lra|exact Q]). lra.
  - destruct (IHa D S T) as (Fa & Oa & Ea). destruct (opp_ok _ Fa) as [F V].
    split; [exact F|]. rewrite V. split; [apply onto_opp; exact Oa|].
    cbn [fopp Arith_R]. replace (- val (eval x a) - - eval (A := Arith_R) y a) with (- (val (eval x a) - eval (A := Arith_R) y a)) by ring.
    rewrite Rabs_Ropp. exact Ea.
Qed.
