(** Specification: the geometric algebra P(R*_{3,0,1}), built from its metric
    and nothing else.  A multivector assigns a real to each of the 16 basis
    blades; a blade is the set of its basis vectors, written in increasing
    order (so the blade {0,2,3} is e023 = e0 e2 e3).
    Independent of the SIMD model. *)
From Coq Require Import Reals ZArith List Bool Arith.
Import ListNotations.
Local Open Scope R_scope.

Inductive blade := Bl (has0 has1 has2 has3 : bool).

Definition bxor (i j : blade) : blade :=
  let '(Bl i0 i1 i2 i3) := i in let '(Bl j0 j1 j2 j3) := j in
  Bl (xorb i0 j0) (xorb i1 j1) (xorb i2 j2) (xorb i3 j3).
Definition bcompl (i : blade) : blade :=
  let '(Bl a b c d) := i in Bl (negb a) (negb b) (negb c) (negb d).

Definition bools := [false; true].
Definition all_blades : list blade :=
  flat_map (fun a => flat_map (fun b => flat_map (fun c =>
    map (fun d => Bl a b c d) bools) bools) bools) bools.

Definition n_of (b : bool) : nat := if b then 1%nat else 0%nat.
Definition grade (i : blade) : nat :=
  let '(Bl a b c d) := i in (n_of a + n_of b + n_of c + n_of d)%nat.

(** Number of transpositions that sort the concatenation of i and j: pairs
    (p in i, q in j) with p > q. *)
Definition inversions (i j : blade) : nat :=
  let '(Bl i0 i1 i2 i3) := i in let '(Bl j0 j1 j2 j3) := j in
  let n := n_of in
  (n i1 * n j0 + n i2 * (n j0 + n j1) + n i3 * (n j0 + n j1 + n j2))%nat.

(** e0 squares to 0, e1, e2, e3 to 1. *)
Definition metric (i j : blade) : Z :=
  let '(Bl i0 _ _ _) := i in let '(Bl j0 _ _ _) := j in
  if i0 && j0 then 0%Z else 1%Z.

Definition sign_of (n : nat) : Z := if Nat.even n then 1%Z else (-1)%Z.
(** e_i e_j = sgn i j * e_(i xor j), with sgn i j in {-1, 0, 1} *)
Definition sgn (i j : blade) : Z := (sign_of (inversions i j) * metric i j)%Z.
(** multiplication by a sign *)
Definition smul (s : Z) (x : R) : R :=
  match s with Z0 => 0 | Zpos _ => x | Zneg _ => - x end.

Definition mv := blade -> R.
Definition mveq (a b : mv) : Prop := forall k, a k = b k.
Infix "==" := mveq (at level 70, no associativity).

Definition sum16 (f : blade -> R) : R := fold_right (fun i s => f i + s) 0 all_blades.

Definition gp (a b : mv) : mv :=
  fun k => sum16 (fun i => smul (sgn i (bxor i k)) (a i * b (bxor i k))).

Definition disjoint (i j : blade) : bool :=
  let '(Bl i0 i1 i2 i3) := i in let '(Bl j0 j1 j2 j3) := j in
  negb (i0 && j0 || i1 && j1 || i2 && j2 || i3 && j3).
(** exterior product: keep the products of disjoint blades *)
Definition ext (a b : mv) : mv :=
  fun k => sum16 (fun i => smul (if disjoint i (bxor i k) then sgn i (bxor i k) else 0%Z)
                                (a i * b (bxor i k))).
(** symmetric inner product: keep grade |r - s| of the product of grades r, s *)
Definition inner_grade (i j : blade) : bool :=
  let r := grade i in let s := grade j in
  Nat.eqb (grade (bxor i j)) ((r - s) + (s - r)).
Definition dot (a b : mv) : mv :=
  fun k => sum16 (fun i => smul (if inner_grade i (bxor i k) then sgn i (bxor i k) else 0%Z)
                                (a i * b (bxor i k))).

(** reversal: grade r picks up (-1)^(r(r-1)/2) *)
Definition rev (a : mv) : mv :=
  fun k => smul (match grade k with 2%nat | 3%nat => (-1)%Z | _ => 1%Z end) (a k).

(** Poincare duality: the complementary blade, signed so that x ^ J x = I in
    grades <= 2 and J x ^ x = I in grades >= 2 (see [J_right], [J_left]). *)
Definition J_sign (i : blade) : Z :=
  if (grade i <=? 2)%nat then sign_of (inversions i (bcompl i))
  else sign_of (inversions (bcompl i) i).
Definition J (a : mv) : mv := fun k => smul (J_sign (bcompl k)) (a (bcompl k)).

(** regressive product (join) *)
Definition reg (a b : mv) : mv := J (ext (J a) (J b)).

Definition mvadd (a b : mv) : mv := fun k => a k + b k.
Definition mvsub (a b : mv) : mv := fun k => a k - b k.
Definition mvscale (s : R) (a : mv) : mv := fun k => s * a k.
Definition mvopp (a : mv) : mv := fun k => - a k.
Definition mvzero : mv := fun _ => 0.
(** the basis blade i as a multivector *)
Definition basis (i : blade) : mv := fun k => if Nat.eqb (grade (bxor i k)) 0 then 1 else 0.
Definition one : mv := basis (Bl false false false false).
Definition e0 := basis (Bl true false false false).
Definition e1 := basis (Bl false true false false).
Definition e2 := basis (Bl false false true false).
Definition e3 := basis (Bl false false false true).
Definition I4 := basis (Bl true true true true).
Definition scalar_mv (s : R) : mv := mvscale s one.

(** sandwich m x ~m *)
Definition sandwich (m x : mv) : mv := gp (gp m x) (rev m).

Definition grade_part (r : nat) (a : mv) : mv :=
  fun k => if Nat.eqb (grade k) r then a k else 0.

(** ** The specification satisfies the laws of the algebra *)

Ltac mvcbv := cbv -[Rplus Rmult Ropp Rminus Rdiv Rinv IZR].
Ltac mvring := let k := fresh "k" in
  intro k; destruct k as [[|] [|] [|] [|]]; mvcbv; ring.

Lemma mveq_refl a : a == a. Proof. intro k; reflexivity. Qed.
Lemma mveq_sym a b : a == b -> b == a. Proof. intros H k; symmetry; apply H. Qed.
Lemma mveq_trans a b c : a == b -> b == c -> a == c.
Proof. intros H K k; rewrite H; apply K. Qed.

Lemma gp_assoc a b c : gp (gp a b) c == gp a (gp b c).
Proof. mvring. Qed.

Lemma gp_one_l a : gp one a == a. Proof. mvring. Qed.
Lemma gp_one_r a : gp a one == a. Proof. mvring. Qed.

(** generators: e0 e0 = 0, ei ei = 1, ei ej = - ej ei *)
Lemma e0_sq : gp e0 e0 == mvzero. Proof. mvring. Qed.
Lemma e1_sq : gp e1 e1 == one. Proof. mvring. Qed.
Lemma e2_sq : gp e2 e2 == one. Proof. mvring. Qed.
Lemma e3_sq : gp e3 e3 == one. Proof. mvring. Qed.
Lemma gen_anticomm :
  gp e0 e1 == mvopp (gp e1 e0) /\ gp e0 e2 == mvopp (gp e2 e0) /\
  gp e0 e3 == mvopp (gp e3 e0) /\ gp e1 e2 == mvopp (gp e2 e1) /\
  gp e1 e3 == mvopp (gp e3 e1) /\ gp e2 e3 == mvopp (gp e3 e2).
Proof. repeat split; mvring. Qed.
Definition gen_pow (b : bool) (g : mv) : mv := if b then g else one.
(** bilinearity and congruence *)
Lemma gp_add_l a b c : gp (mvadd a b) c == mvadd (gp a c) (gp b c). Proof. mvring. Qed.
Lemma gp_add_r a b c : gp a (mvadd b c) == mvadd (gp a b) (gp a c). Proof. mvring. Qed.
Lemma gp_scale_l s a b : gp (mvscale s a) b == mvscale s (gp a b). Proof. mvring. Qed.
Lemma gp_scale_r s a b : gp a (mvscale s b) == mvscale s (gp a b). Proof. mvring. Qed.

Lemma sum16_ext f g : (forall i, f i = g i) -> sum16 f = sum16 g.
Proof. intro H. unfold sum16. induction all_blades; simpl; [reflexivity|]. rewrite H, IHl. reflexivity. Qed.
Lemma gp_congr a a' b b' : a == a' -> b == b' -> gp a b == gp a' b'.
Proof. intros H K k. apply sum16_ext. intro i. rewrite H, K. reflexivity. Qed.
Lemma ext_congr a a' b b' : a == a' -> b == b' -> ext a b == ext a' b'.
Proof. intros H K k. apply sum16_ext. intro i. rewrite H, K. reflexivity. Qed.
Lemma dot_congr a a' b b' : a == a' -> b == b' -> dot a b == dot a' b'.
Proof. intros H K k. apply sum16_ext. intro i. rewrite H, K. reflexivity. Qed.
Lemma rev_congr a a' : a == a' -> rev a == rev a'.
Proof. intros H k. unfold rev. rewrite H. reflexivity. Qed.
Lemma J_congr a a' : a == a' -> J a == J a'.
Proof. intros H k. unfold J. rewrite H. reflexivity. Qed.
Lemma mvadd_congr a a' b b' : a == a' -> b == b' -> mvadd a b == mvadd a' b'.
Proof. intros H K k. unfold mvadd. rewrite H, K. reflexivity. Qed.
Lemma mvscale_congr s a a' : a == a' -> mvscale s a == mvscale s a'.
Proof. intros H k. unfold mvscale. rewrite H. reflexivity. Qed.
Lemma sandwich_congr m m' x x' : m == m' -> x == x' -> sandwich m x == sandwich m' x'.
Proof.
  intros H K. unfold sandwich. apply gp_congr; [apply gp_congr; assumption|].
  apply rev_congr; assumption.
Qed.

(** products of basis blades: e_i e_j = sgn i j e_(i xor j) *)
Lemma grade_bxor a b : Nat.eqb (grade (bxor a b)) 0 = true -> a = b.
Proof.
  destruct a as [[|] [|] [|] [|]], b as [[|] [|] [|] [|]]; cbv; intro H;
    first [reflexivity | discriminate H].
Qed.
Lemma bxor_bxor i k : bxor i (bxor i k) = k.
Proof. destruct i as [[|] [|] [|] [|]], k as [[|] [|] [|] [|]]; reflexivity. Qed.
Lemma bxor_assoc i j k : bxor (bxor i j) k = bxor i (bxor j k).
Proof. destruct i, j, k; cbn. rewrite !xorb_assoc. reflexivity. Qed.
Lemma bxor_comm i j : bxor i j = bxor j i.
Proof. destruct i, j; cbn. f_equal; apply xorb_comm. Qed.
Lemma sum16_basis x y : sum16 (fun i => if Nat.eqb (grade (bxor x i)) 0 then y else 0) = y.
Proof. destruct x as [[|] [|] [|] [|]]; cbv -[Rplus IZR]; ring. Qed.
Lemma smul_IZR s x : (s = 0 \/ s = 1 \/ s = -1)%Z -> smul s x = IZR s * x.
Proof. intros [->|[->| ->]]; cbn; ring. Qed.
Lemma sgn_values i j : (sgn i j = 0 \/ sgn i j = 1 \/ sgn i j = -1)%Z.
Proof.
  unfold sgn, sign_of, metric. destruct i as [a ? ? ?], j as [b ? ? ?].
  destruct (Nat.even _), (a && b); auto.
Qed.
Lemma gp_basis i j : gp (basis i) (basis j) == mvscale (IZR (sgn i j)) (basis (bxor i j)).
Proof.
  intro k. unfold gp, mvscale.
  rewrite (sum16_ext _ (fun i' => if Nat.eqb (grade (bxor i i')) 0
                                  then smul (sgn i (bxor i k)) (basis j (bxor i k)) else 0)).
  - rewrite sum16_basis, smul_IZR by apply sgn_values. unfold basis.
    rewrite bxor_assoc, (bxor_comm i (bxor j k)), bxor_assoc, (bxor_comm k i).
    destruct (Nat.eqb (grade (bxor j (bxor i k))) 0) eqn:E; [|ring].
    apply grade_bxor in E. rewrite <- E. reflexivity.
  - intro i'. unfold basis at 1. destruct (Nat.eqb (grade (bxor i i')) 0) eqn:E.
    + apply grade_bxor in E. subst i'. destruct (sgn_values i (bxor i k)) as [->|[->| ->]]; cbn; ring.
    + destruct (sgn_values i' (bxor i' k)) as [->|[->| ->]]; cbn; ring.
Qed.
(** a blade is the product of its vectors in increasing order *)
Lemma basis_product i0 i1 i2 i3 :
  basis (Bl i0 i1 i2 i3) == gp (gp (gp (gen_pow i0 e0) (gen_pow i1 e1)) (gen_pow i2 e2)) (gen_pow i3 e3).
Proof.
  assert (P : forall b i, gen_pow b (basis i) = basis (if b then i else Bl false false false false))
    by (intros [|] i; reflexivity).
  unfold e0, e1, e2, e3. rewrite !P. intro k. symmetry.
  rewrite (gp_congr _ _ _ _ (gp_congr _ _ _ _ (gp_basis _ _) (mveq_refl _)) (mveq_refl _) k).
  rewrite (gp_congr _ _ _ _ (gp_scale_l _ _ _) (mveq_refl _) k).
  rewrite (gp_congr _ _ _ _ (mvscale_congr _ _ _ (gp_basis _ _)) (mveq_refl _) k).
  rewrite (gp_scale_l _ _ _ k). unfold mvscale at 1.
  rewrite (gp_scale_l _ _ _ k). unfold mvscale at 1.
  rewrite (gp_basis _ _ k). unfold mvscale.
  destruct i0, i1, i2, i3, k as [[|] [|] [|] [|]]; cbv -[Rmult IZR]; ring.
Qed.

(** exterior and inner products on vectors, grade decomposition *)
Lemma ext_assoc a b c : ext (ext a b) c == ext a (ext b c). Proof. mvring. Qed.
Lemma ext_generators :
  ext e0 e0 == mvzero /\ ext e1 e1 == mvzero /\ ext e2 e2 == mvzero /\ ext e3 e3 == mvzero.
Proof. repeat split; mvring. Qed.
(** for a vector v and x without scalar part: v x = v . x + v ^ x *)
Definition is_vector (v : mv) : Prop := forall k, grade k <> 1%nat -> v k = 0.
Definition no_scalar (x : mv) : Prop := x (Bl false false false false) = 0.
Lemma gp_vector_split v x : is_vector v -> no_scalar x -> gp v x == mvadd (dot v x) (ext v x).
Proof.
  intros H N k.
  assert (E : v == fun k => if Nat.eqb (grade k) 1 then v k else 0).
  { intro j. destruct (Nat.eqb_spec (grade j) 1); [reflexivity|]. apply H; assumption. }
  rewrite (gp_congr _ _ _ _ E (mveq_refl x) k).
  unfold mvadd. rewrite (dot_congr _ _ _ _ E (mveq_refl x) k), (ext_congr _ _ _ _ E (mveq_refl x) k).
  unfold no_scalar in N. clear H E.
  destruct k as [[|] [|] [|] [|]]; mvcbv; rewrite ?N; ring.
Qed.

(** reversal *)
Lemma rev_rev a : rev (rev a) == a. Proof. mvring. Qed.
Lemma rev_gp a b : rev (gp a b) == gp (rev b) (rev a). Proof. mvring. Qed.
Lemma rev_generators : rev e0 == e0 /\ rev e1 == e1 /\ rev e2 == e2 /\ rev e3 == e3.
Proof. repeat split; mvring. Qed.

(** duality *)
Lemma J_J a : J (J a) == a. Proof. mvring. Qed.
Lemma J_right i : (grade i <= 2)%nat -> ext (basis i) (J (basis i)) == I4.
Proof.
  destruct i as [[|] [|] [|] [|]]; intro H;
    try (exfalso; cbv in H; apply Nat.leb_le in H; cbv in H; discriminate); mvring.
Qed.
Lemma J_left i : (2 <= grade i)%nat -> ext (J (basis i)) (basis i) == I4.
Proof.
  destruct i as [[|] [|] [|] [|]]; intro H;
    try (exfalso; apply Nat.leb_le in H; cbv in H; discriminate); mvring.
Qed.

(** composition of sandwiches *)
Lemma sandwich_gp m n x : sandwich (gp m n) x == sandwich m (sandwich n x).
Proof.
  unfold sandwich. intro k.
  rewrite (gp_congr _ _ _ _ (mveq_refl _) (rev_gp m n) k).
  rewrite <- (gp_assoc (gp (gp m n) x) (rev n) (rev m) k).
  apply gp_congr; [|apply mveq_refl].
  intro j. rewrite (gp_congr _ _ _ _ (gp_assoc m n x) (mveq_refl _) j).
  apply gp_assoc.
Qed.

(** setoid plumbing *)
From Coq Require Import Setoid Morphisms.
#[global] Instance mveq_equiv : Equivalence mveq :=
  Build_Equivalence _ mveq_refl mveq_sym mveq_trans.
#[global] Instance gp_proper : Proper (mveq ==> mveq ==> mveq) gp.
Proof. intros a a' H b b' K. apply gp_congr; assumption. Qed.
#[global] Instance ext_proper : Proper (mveq ==> mveq ==> mveq) ext.
Proof. intros a a' H b b' K. apply ext_congr; assumption. Qed.
#[global] Instance dot_proper : Proper (mveq ==> mveq ==> mveq) dot.
Proof. intros a a' H b b' K. apply dot_congr; assumption. Qed.
#[global] Instance rev_proper : Proper (mveq ==> mveq) rev.
Proof. intros a a' H. apply rev_congr; assumption. Qed.
#[global] Instance J_proper : Proper (mveq ==> mveq) J.
Proof. intros a a' H. apply J_congr; assumption. Qed.
#[global] Instance mvadd_proper : Proper (mveq ==> mveq ==> mveq) mvadd.
Proof. intros a a' H b b' K. apply mvadd_congr; assumption. Qed.
#[global] Instance mvscale_proper : Proper (eq ==> mveq ==> mveq) mvscale.
Proof. intros s s' <- a a' H. apply mvscale_congr; assumption. Qed.
#[global] Instance reg_proper : Proper (mveq ==> mveq ==> mveq) reg.
Proof. intros a a' H b b' K. unfold reg. rewrite H, K. reflexivity. Qed.
#[global] Instance sandwich_proper : Proper (mveq ==> mveq ==> mveq) sandwich.
Proof. intros a a' H b b' K. apply sandwich_congr; assumption. Qed.
#[global] Instance mvopp_proper : Proper (mveq ==> mveq) mvopp.
Proof. intros a a' H k. unfold mvopp. rewrite H. reflexivity. Qed.
#[global] Instance mvsub_proper : Proper (mveq ==> mveq ==> mveq) mvsub.
Proof. intros a a' H b b' K k. unfold mvsub. rewrite H, K. reflexivity. Qed.
