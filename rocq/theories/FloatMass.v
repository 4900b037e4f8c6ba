(** Comparing what a kernel adds up with the monomials of the specification, by
    computation on polynomials with non-negative coefficients. *)
From Coq Require Import ZArith Reals Bool List Lia Lra.
From Flocq Require Import Core BinarySingleNaN.
From Verif Require Import AlgTac SpecMass Float32 FloatFacts ExprSyntax FloatErr.
Import ListNotations.
Local Open Scope R_scope.

Definition mono := list nat.
Definition poly := list (mono * Z).
Fixpoint insert (n : nat) (m : mono) : mono :=
  match m with [] => [n] | x :: t => if Nat.leb n x then n :: m else x :: insert n t end.
Definition mono_mul (a b : mono) : mono := fold_right insert b a.
Definition poly_mul (p q : poly) : poly :=
  flat_map (fun x => map (fun y => (mono_mul (fst x) (fst y), (snd x * snd y)%Z)) q) p.
Fixpoint pol (e : expr) : poly :=
  match e with
  | EVar n => [([n], 1%Z)]
  | ECst z => if Z.eqb z 0 then [] else [([], Z.abs z)]
  | EAdd a b => pol a ++ pol b
  | ESub a b => if cancels a b then [] else pol a ++ pol b
  | EMul a b => poly_mul (pol a) (pol b)
  | EOpp a => pol a
  end.
Definition mval (y : nat -> R) (m : mono) : R := fold_right (fun n s => Rabs (y n) * s) 1 m.
Definition pval (y : nat -> R) (p : poly) : R := fold_right (fun x s => IZR (snd x) * mval y (fst x) + s) 0 p.

Lemma mval_cons y n t : mval y (n :: t) = Rabs (y n) * mval y t. Proof. reflexivity. Qed.
Lemma pval_cons y x t : pval y (x :: t) = IZR (snd x) * mval y (fst x) + pval y t. Proof. reflexivity. Qed.
Lemma mval_insert y n m : mval y (insert n m) = Rabs (y n) * mval y m.
Proof. induction m as [|x t IH]; cbn; [reflexivity|]. destruct (Nat.leb n x); cbn; [reflexivity|]. fold (mval y (insert n t)). rewrite IH. unfold mval. ring. Qed.
Lemma mval_mul y a b : mval y (mono_mul a b) = mval y a * mval y b.
Proof.
  induction a as [|n t IH].
  - change (mono_mul [] b) with b. change (mval y []) with 1. ring.
  - change (mono_mul (n :: t) b) with (insert n (mono_mul t b)). change (mval y (n :: t)) with (Rabs (y n) * mval y t).
    rewrite mval_insert, IH. ring.
Qed.
Lemma pval_app y p q : pval y (p ++ q) = pval y p + pval y q.
Proof. induction p as [|x t IH].
  - change (pval y []) with 0. rewrite app_nil_l. ring.
  - change (pval y ((x :: t) ++ q)) with (IZR (snd x) * mval y (fst x) + pval y (t ++ q)).
    change (pval y (x :: t)) with (IZR (snd x) * mval y (fst x) + pval y t). rewrite IH. ring. Qed.
Lemma pval_scale y x q : pval y (map (fun z => (mono_mul (fst x) (fst z), (snd x * snd z)%Z)) q) = IZR (snd x) * mval y (fst x) * pval y q.
Proof.
  induction q as [|z t IH]; [change (0 = IZR (snd x) * mval y (fst x) * 0); ring|].
  cbn [map]. rewrite !pval_cons, IH. cbn [fst snd]. rewrite mval_mul, mult_IZR. ring.
Qed.
Lemma pval_mul y p q : pval y (poly_mul p q) = pval y p * pval y q.
Proof.
  induction p as [|x t IH]; [change (0 = 0 * pval y q); ring|].
  cbn [poly_mul flat_map]. fold (poly_mul t q). rewrite pval_app, pval_scale, pval_cons, IH. ring.
Qed.
Lemma pval_pol y e : pval y (pol e) = absv y e.
Proof.
  induction e as [n|z|a IHa b IHb|a IHa b IHb|a IHa b IHb|a IHa]; cbn [pol absv].
  - cbn. ring.
  - destruct (Z.eqb_spec z 0) as [->|N]; [reflexivity|]. unfold pval, mval. cbn [fold_right fst snd]. ring.
  - rewrite pval_app. congruence.
  - destruct (cancels a b); [reflexivity|]. rewrite pval_app. congruence.
  - rewrite pval_mul. congruence.
  - exact IHa.
Qed.

Definition mono_eq (a b : mono) : bool := if list_eq_dec Nat.eq_dec a b then true else false.
Definition coef (m : mono) (p : poly) : Z := fold_right (fun x s => if mono_eq m (fst x) then (snd x + s)%Z else s) 0%Z p.
Definition without (m : mono) (p : poly) : poly := filter (fun x => negb (mono_eq m (fst x))) p.
Lemma mono_eq_refl m : mono_eq m m = true. Proof. unfold mono_eq. destruct (list_eq_dec Nat.eq_dec m m); congruence. Qed.
Lemma mono_eq_true a b : mono_eq a b = true -> a = b. Proof. unfold mono_eq. destruct (list_eq_dec Nat.eq_dec a b); congruence. Qed.
Lemma pval_split y m p : pval y p = IZR (coef m p) * mval y m + pval y (without m p).
Proof.
  induction p as [|x t IH]; [change (0 = 0 * mval y m + 0); ring|].
  cbn [coef without filter fold_right]. fold (coef m t) (without m t). rewrite pval_cons, IH.
  destruct (mono_eq m (fst x)) eqn:E; cbn [negb].
  - apply mono_eq_true in E. rewrite plus_IZR, <- E. ring.
  - rewrite pval_cons. ring.
Qed.
Lemma coef_without m n p : m <> n -> coef n (without m p) = coef n p.
Proof.
  intro N. induction p as [|x t IH]; cbn; [reflexivity|]. destruct (mono_eq m (fst x)) eqn:E; cbn.
  - apply mono_eq_true in E. destruct (mono_eq n (fst x)) eqn:E'; [apply mono_eq_true in E'; congruence|]. exact IH.
  - destruct (mono_eq n (fst x)); [f_equal|]; exact IH.
Qed.
Lemma without_length m p : (length (without m p) <= length p)%nat.
Proof. induction p as [|x t IH]; cbn; [lia|]. destruct (negb (mono_eq m (fst x))); cbn; fold (without m t); lia. Qed.
Definition nonneg (p : poly) : Prop := Forall (fun x => (0 <= snd x)%Z) p.
Lemma nonneg_without m p : nonneg p -> nonneg (without m p).
Proof. unfold nonneg, without. rewrite !Forall_forall. intros H x I. apply filter_In in I. apply H, I. Qed.
Lemma mval_nonneg y m : 0 <= mval y m.
Proof. induction m as [|n t IH]; cbn; [lra|]. apply Rmult_le_pos; [apply Rabs_pos|exact IH]. Qed.
Lemma pval_nonneg y p : nonneg p -> 0 <= pval y p.
Proof.
  intro H. induction H as [|x t Hx Ht IH]; [unfold pval; cbn [fold_right]; lra|]. rewrite pval_cons.
  assert (0 <= IZR (snd x) * mval y (fst x)) by (apply Rmult_le_pos; [apply IZR_le; exact Hx|apply mval_nonneg]). lra.
Qed.
Lemma coef_nonneg m p : nonneg p -> (0 <= coef m p)%Z.
Proof. intro H. induction H as [|x t Hx Ht IH]; cbn; [lia|]. fold (coef m t). destruct (mono_eq m (fst x)); lia. Qed.
Lemma nonneg_mul p q : nonneg p -> nonneg q -> nonneg (poly_mul p q).
Proof.
  unfold nonneg. rewrite !Forall_forall. intros Hp Hq x I. apply in_flat_map in I. destruct I as (a & Ia & I).
  apply in_map_iff in I. destruct I as (b & <- & Ib). cbn [snd]. apply Z.mul_nonneg_nonneg; auto.
Qed.
Lemma nonneg_pol e : nonneg (pol e).
Proof.
  induction e as [n|z|a IHa b IHb|a IHa b IHb|a IHa b IHb|a IHa]; cbn [pol].
  - repeat constructor. cbn. lia.
  - destruct (Z.eqb z 0); repeat constructor. cbn. lia.
  - apply Forall_app. split; assumption.
  - destruct (cancels a b); [constructor|]. apply Forall_app. split; assumption.
  - apply nonneg_mul; assumption.
  - assumption.
Qed.

(** [p] is at most [r] times [q], term by term, when the variables in [zs] are zero *)
Definition dominated (zs : list nat) (r : Z) (p q : poly) : bool :=
  forallb (fun x => existsb (fun n => existsb (Nat.eqb n) zs) (fst x) || Z.leb (coef (fst x) p) (r * coef (fst x) q)) p.
Lemma mval_zero y zs m : (forall n, In n zs -> y n = 0) -> existsb (fun n => existsb (Nat.eqb n) zs) m = true -> mval y m = 0.
Proof.
  intros H. induction m as [|n t IH]; cbn [existsb]; intro E; [discriminate|]. apply orb_prop in E. destruct E as [E|E].
  - apply existsb_exists in E. destruct E as (k & I & K). apply Nat.eqb_eq in K. subst k. rewrite mval_cons, (H n I), Rabs_R0. ring.
  - rewrite mval_cons, (IH E). ring.
Qed.
Theorem dominated_le zs r p q y : (0 <= r)%Z -> nonneg q -> (forall n, In n zs -> y n = 0) ->
  dominated zs r p q = true -> pval y p <= IZR r * pval y q.
Proof.
  intros Hr Hq Hz D.
  assert (D' : forall m c, In (m, c) p -> mval y m = 0 \/ (coef m p <= r * coef m q)%Z).
  { intros m c I. unfold dominated in D. rewrite forallb_forall in D. specialize (D _ I). cbn in D. apply orb_prop in D.
    destruct D as [D|D]; [left; exact (mval_zero y zs m Hz D)|right; apply Z.leb_le; exact D]. }
  clear D. remember (length p) as k eqn:E. assert (L : (length p <= k)%nat) by lia. clear E.
  revert p q Hq D' L. induction k as [|k IH]; intros p q Hq D L.
  - destruct p; [|cbn in L; lia]. change (pval y []) with 0. apply Rmult_le_pos; [apply IZR_le; exact Hr|apply pval_nonneg; exact Hq].
  - destruct p as [|[m c] t].
    + change (pval y []) with 0. apply Rmult_le_pos; [apply IZR_le; exact Hr|apply pval_nonneg; exact Hq].
    + set (p := (m, c) :: t) in *. rewrite (pval_split y m p), (pval_split y m q).
      assert (K : IZR (coef m p) * mval y m <= IZR r * (IZR (coef m q) * mval y m)).
      { destruct (D m c (or_introl eq_refl)) as [Z|Z].
        - rewrite Z. lra.
        - rewrite <- Rmult_assoc, <- mult_IZR. apply Rmult_le_compat_r; [apply mval_nonneg|apply IZR_le; exact Z]. }
      assert (W : pval y (without m p) <= IZR r * pval y (without m q)).
      { apply IH.
        - apply nonneg_without. exact Hq.
        - intros n d I. apply filter_In in I. destruct I as [I N]. cbn in N.
          assert (m <> n). { intros <-. rewrite mono_eq_refl in N. discriminate. }
          rewrite !coef_without by assumption. apply (D n d I).
        - unfold p. cbn. rewrite mono_eq_refl. cbn. pose proof (without_length m t). unfold without in H. cbn in L. lia. }
      lra.
Qed.

(** ** The specification on expressions *)
Definition mvE := blade -> expr.
Definition p0E (v : m128 expr) : mvE := fun k => match k with
  | Bl true false false false => l0 v | Bl false true false false => l1 v
  | Bl false false true false => l2 v | Bl false false false true => l3 v | _ => ECst 0 end.
Definition p1E (v : m128 expr) : mvE := fun k => match k with
  | Bl false false false false => l0 v | Bl false false true true => l1 v
  | Bl false true false true => EOpp (l2 v) | Bl false true true false => l3 v | _ => ECst 0 end.
Definition p2E (v : m128 expr) : mvE := fun k => match k with
  | Bl true true true true => l0 v | Bl true true false false => l1 v
  | Bl true false true false => l2 v | Bl true false false true => l3 v | _ => ECst 0 end.
Definition p3E (v : m128 expr) : mvE := fun k => match k with
  | Bl false true true true => l0 v | Bl true false true true => EOpp (l1 v)
  | Bl true true false true => l2 v | Bl true true true false => EOpp (l3 v) | _ => ECst 0 end.
Definition p12E (b c : m128 expr) : mvE := fun k => EAdd (p1E b k) (p2E c k).
Definition zeroE : m128 expr := mk4 (ECst 0) (ECst 0) (ECst 0) (ECst 0).
Definition mvofE (tr : Z) {k} : ent k expr -> mvE :=
  match k with
  | KPlane => fun a => p0E (plane_p0 a) | KPoint => fun a => p3E (point_p3 a) | KDirection => fun a => p3E (direction_p3 a)
  | KIdeal => fun a => p2E (ideal_line_p2 a) | KBranch => fun a => p1E (branch_p1 a) | KLine => fun a => p12E (line_p1 a) (line_p2 a)
  | KRotor => fun a => p1E (rotor_p1 a)
  | KTranslator => fun a => p12E (mk4 (ECst tr) (ECst 0) (ECst 0) (ECst 0)) (translator_p2 a)
  | KMotor => fun a => p12E (motor_p1 a) (motor_p2 a)
  | KDual => fun a => p12E (mk4 (dual_p a) (ECst 0) (ECst 0) (ECst 0)) (mk4 (dual_q a) (ECst 0) (ECst 0) (ECst 0))
  | KScalar => fun a => p1E (mk4 a (ECst 0) (ECst 0) (ECst 0))
  end.
Lemma hom_absE {k} y (c : ent k expr) i : Rabs (hom (emap (absv y) c) i) = absv y (mvofE 0 c i).
Proof.
  assert (A : forall e, Rabs (absv y e) = absv y e) by (intro e; apply Rabs_pos_eq, absv_nonneg).
  destruct k; cbn in c; ents; destruct i as [[|] [|] [|] [|]];
  cbv -[Rplus Rmult Ropp Rminus Rabs IZR Rle absv]; cbn [absv Z.abs];
  rewrite ?Rmult_1_r, ?Rmult_0_r, ?Ropp_0, ?Rplus_0_l, ?Rplus_0_r, ?Rabs_Ropp, ?A, ?Rabs_R0; reflexivity.
Qed.
Lemma mvof_absE {k} y o i : Rabs (mvof (emap (eval y) (var k o)) i) = absv y (mvofE 1 (var k o) i).
Proof.
  destruct k; destruct i as [[|] [|] [|] [|]]; cbv -[Rplus Rmult Ropp Rminus Rabs IZR Rle];
  rewrite ?Rmult_1_r, ?Rmult_0_r, ?Ropp_0, ?Rplus_0_l, ?Rplus_0_r, ?Rabs_Ropp, ?Rabs_R0, ?Rabs_R1; reflexivity.
Qed.
Definition sumE (f : blade -> expr) : expr := fold_right (fun i s => EAdd (f i) s) (ECst 0) all_blades.
Definition massE (sel : blade -> blade -> Z) (a b : mvE) : mvE :=
  fun k => sumE (fun i => match sel i (bxor i k) with Z0 => ECst 0 | _ => EMul (a i) (b (bxor i k)) end).
Lemma massE_ok sel y (a b : mvE) (a' b' : mv) : (forall i, absv y (a i) = a' i) -> (forall i, absv y (b i) = b' i) ->
  forall k, absv y (massE sel a b k) = mass sel a' b' k.
Proof.
  intros Ha Hb k. unfold massE, mass, sumE, sum16. induction all_blades as [|i l IH]; cbn [fold_right absv]; [reflexivity|].
  rewrite IH. f_equal. destruct (sel i (bxor i k)); cbn [absv Z.abs smul]; [reflexivity|congruence|congruence].
Qed.
Inductive spec_op := SGp | SExt | SDot | SReg | SSandwich.
Definition extsel i j := if disjoint i j then sgn i j else 0%Z.
Definition dotsel i j := if inner_grade i j then sgn i j else 0%Z.
Definition JE (a : mvE) : mvE := fun k => a (bcompl k).
Definition smassE (s : spec_op) (a b : mvE) : mvE :=
  match s with
  | SGp => massE sgn a b
  | SExt => massE extsel a b
  | SDot => massE dotsel a b
  | SReg => fun k => massE extsel (JE a) (JE b) (bcompl k)
  | SSandwich => massE sgn (massE sgn a b) a
  end.
Definition smass (s : spec_op) : mv -> mv -> mv :=
  match s with SGp => gp_mass | SExt => ext_mass | SDot => dot_mass | SReg => reg_mass | SSandwich => sandwich_mass end.
Lemma J_abs a k : Rabs (J a k) = absmv a (bcompl k).
Proof. unfold J, absmv. destruct (J_sign (bcompl k)) eqn:E; cbn; [|reflexivity|apply Rabs_Ropp]. destruct k as [[|] [|] [|] [|]]; discriminate. Qed.
Lemma smassE_ok s y (a b : mvE) (a' b' : mv) : (forall i, absv y (a i) = Rabs (a' i)) -> (forall i, absv y (b i) = Rabs (b' i)) ->
  forall k, absv y (smassE s a b k) = smass s a' b' k.
Proof.
  intros Ha Hb k. destruct s; cbn [smassE smass].
  - apply massE_ok; assumption.
  - apply massE_ok; assumption.
  - apply massE_ok; assumption.
  - unfold reg_mass. apply massE_ok; intro i; unfold JE, absmv; rewrite J_abs; unfold absmv; auto.
  - unfold sandwich_mass. apply massE_ok; [|assumption]. intro i. apply massE_ok; assumption.
Qed.

(** ** Forward error against the specification *)
Definition sem (s : spec_op) : mv -> mv -> mv :=
  match s with SGp => gp | SExt => ext | SDot => dot | SReg => reg | SSandwich => sandwich end.
(** On operands whose coefficients are zero or between 2^lo and 2^hi in magnitude,
    [f] returns finite coefficients, each within [c] half units in the last place (up
    to a factor 1.00001) of the total magnitude of the monomials of the exact result. *)
Definition accurate {k1 k2 k3} (lo hi : Z) (c : R) (f : ent k1 f32 -> ent k2 f32 -> ent k3 f32) (s : spec_op) : Prop :=
  forall a b, Forall (safe lo hi) (coefs a) -> Forall (safe lo hi) (coefs b) -> wfe (emap val a) -> wfe (emap val b) ->
  Forall fin (coefs (f a b)) /\
  forall i, Rabs (mvof (emap val (f a b)) i - sem s (mvof (emap val a)) (mvof (emap val b)) i) <=
    c * (1 + / 100000) * / 2 ^ 24 * smass s (mvof (emap val a)) (mvof (emap val b)) i.
(** On operands with integer coefficients of magnitude at most [N], [f] is exact. *)
Definition exact_on_integers {k1 k2 k3} (N : Z) (f : ent k1 f32 -> ent k2 f32 -> ent k3 f32) (s : spec_op) : Prop :=
  forall a b, Forall (integer N) (coefs a) -> Forall (integer N) (coefs b) -> wfe (emap val a) -> wfe (emap val b) ->
  Forall fin (coefs (f a b)) /\ mvof (emap val (f a b)) == sem s (mvof (emap val a)) (mvof (emap val b)).

(** the lanes that are zero in a well-formed object *)
Definition zeros (k : kind) (o : nat) : list nat :=
  match k with KDirection | KIdeal | KBranch | KTranslator => [o] | KLine => [o; (4 + o)%nat] | _ => [] end.
Definition covers {k1 k2 k3} (op : op2 k1 k2 k3) (s : spec_op) (r : Z) : bool :=
  forallb (fun i => dominated (zeros k1 0 ++ zeros k2 8) r (pol (mvofE 0 (emap weigh (code op)) i))
                              (pol (smassE s (mvofE 1 (var k1 0)) (mvofE 1 (var k2 8)) i))) all_blades.
Lemma all_blades_all i : In i all_blades.
Proof. destruct i as [[|] [|] [|] [|]]; cbn; tauto. Qed.
Lemma zeros_ok {k1 k2} (a : ent k1 R) (b : ent k2 R) n : wfe a -> wfe b -> In n (zeros k1 0 ++ zeros k2 8) -> env 0 a b n = 0.
Proof.
  intros Ha Hb I. apply in_app_or in I. destruct I as [I|I].
  - destruct k1; cbn in I; try contradiction; cbn in a, Ha; ents; repeat destruct I as [<-|I]; try contradiction; try exact Ha; apply Ha.
  - destruct k2; cbn in I; try contradiction; cbn in b, Hb; repeat destruct I as [<-|I]; try contradiction; unfold env; cbn -[coefs]; try exact Hb; apply Hb.
Qed.
Definition correct {k1 k2 k3} (op : op2 k1 k2 k3) (s : spec_op) : Prop :=
  forall a b, wfe a -> wfe b -> mvof (op R Arith_R a b) == sem s (mvof a) (mvof b).
Theorem op_accurate {k1 k2 k3} (op : op2 k1 k2 k3) (s : spec_op) lo hi r :
  natural op -> correct op s -> (-126 <= lo <= 0)%Z -> (0 <= hi)%Z -> (0 <= r)%Z ->
  forallb (fits lo hi) (coefs (code op)) = true -> covers op s r = true ->
  accurate lo hi (IZR r) (op f32 Arith_f32) s.
Proof.
  intros N X Hlo Hhi Hr C V a b Ha Hb Wa Wb.
  destruct (op_error op lo hi N Hlo Hhi C a b Ha Hb) as [F E]. split; [exact F|]. intro i.
  rewrite <- (X (emap val a) (emap val b) Wa Wb i).
  eapply Rle_trans; [apply E|]. set (y := env 0 (emap val a) (emap val b)).
  rewrite hom_absE, <- pval_pol.
  unfold covers in V. rewrite forallb_forall in V. specialize (V i (all_blades_all i)).
  assert (K : absv y (smassE s (mvofE 1 (var k1 0)) (mvofE 1 (var k2 8)) i) = smass s (mvof (emap val a)) (mvof (emap val b)) i).
  { apply smassE_ok; intro j; rewrite <- mvof_absE; f_equal; f_equal; [apply env_a|apply env_b]. }
  pose proof (dominated_le _ r _ _ y Hr (nonneg_pol _) (fun n I => zeros_ok (emap val a) (emap val b) n Wa Wb I) V) as L.
  rewrite (pval_pol y (smassE _ _ _ _)), K in L.
  replace (IZR r * (1 + / 100000) * / 2 ^ 24 * smass s (mvof (emap val a)) (mvof (emap val b)) i)
    with (u * (1 + / 100000) * (IZR r * smass s (mvof (emap val a)) (mvof (emap val b)) i)).
  2: { replace u with (/ 2 ^ 24) by (unfold u; f_equal; ring). ring. }
  apply Rmult_le_compat_l; [unfold u; lra|exact L].
Qed.
Theorem op_integers {k1 k2 k3} (op : op2 k1 k2 k3) (s : spec_op) N :
  natural op -> correct op s -> (0 <= N)%Z -> forallb (small N (2 ^ 24)) (coefs (code op)) = true ->
  exact_on_integers N (op f32 Arith_f32) s.
Proof.
  intros Nat X HN C a b Ha Hb Wa Wb. destruct (op_exact op N Nat HN C a b Ha Hb) as [F E]. split; [exact F|].
  rewrite E. apply X; assumption.
Qed.
