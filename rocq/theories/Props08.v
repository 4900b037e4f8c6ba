(** Properties of the symbolic algebra used to derive and check the SIMD
    kernels (/repo/sym/poly.cpp, /repo/sym/ga.cpp): C48 - C52. *)
From Coq Require Import List Bool ZArith NArith String Reals Lia Lra.
From Coq Require Import Setoid Morphisms.
From Verif Require Import Scalar SpecPGA SymMap SymPoly SymPolyFacts SymGA SymGAFacts SymMVFacts SymPGA.
Import ListNotations.
Local Open Scope Z_scope.

(** ** C48: the blade product is a Clifford product *)
(** A signed blade, [None] being zero; [read] decodes the int32_t results
    ("1 + the bitfield", "the sign of the result indicates a sign flip"). *)
Definition sblade := option (bool * N).
Definition read (z : Z) : sblade :=
  if z =? 0 then None else Some (z <? 0, blade_of z).
Definition sneg (x : sblade) : sblade := option_map (fun p => (negb (fst p), snd p)) x.
(** the product of signed blades induced by a product of blades *)
Definition lift (op : N -> N -> Z) (x y : sblade) : sblade :=
  match x, y with
  | Some (s, A), Some (t, B) =>
    match read (op A B) with Some (u, E) => Some (xorb (xorb s t) u, E) | None => None end
  | _, _ => None
  end.
(** blades of the algebra: sets of generators 0 .. dim-1 *)
Definition blade_in (a : algebra) (A : N) : Prop := (A < 2 ^ N.of_nat (alg_dim a))%N.
Definition sblade_in (a : algebra) (x : sblade) : Prop :=
  match x with Some (_, A) => blade_in a A | None => True end.
Definition gen (i : nat) : N := (2 ^ N.of_nat i)%N.

Lemma read_flip s E : read (flip s (Z.of_N E + 1)) = Some (s, E).
Proof.
  unfold read, blade_of. destruct s; cbn [flip].
  - destruct (Z.eqb_spec (- (Z.of_N E + 1)) 0); [lia|].
    destruct (Z.ltb_spec (- (Z.of_N E + 1)) 0); [|lia]. do 2 f_equal. lia.
  - destruct (Z.eqb_spec (Z.of_N E + 1) 0); [lia|].
    destruct (Z.ltb_spec (Z.of_N E + 1) 0); [lia|]. do 2 f_equal. lia.
Qed.
Lemma read_mul a A B : (alg_dim a <= 8)%nat -> blade_in a A -> blade_in a B ->
  read (alg_mul a A B) = if mnull a A B then None else Some (msign a A B, N.lxor A B).
Proof.
  intros D HA HB. rewrite alg_mul_spec by assumption. destruct (mnull a A B); [reflexivity|].
  apply read_flip.
Qed.
Lemma in_lxor a A B : blade_in a A -> blade_in a B -> blade_in a (N.lxor A B).
Proof. apply lxor_lt. Qed.

Theorem C48_associative_partial a x y z : (alg_dim a <= 8)%nat ->
  sblade_in a x -> sblade_in a y -> sblade_in a z ->
  lift (alg_mul a) (lift (alg_mul a) x y) z = lift (alg_mul a) x (lift (alg_mul a) y z).
Proof.
  intros D HX HY HZ. destruct x as [[s A]|], y as [[t B]|], z as [[u E]|]; try reflexivity;
    cbn [lift sblade_in] in *; rewrite ?read_mul by assumption.
  - pose proof (nls_assoc a A B E (alg_dim a)) as NA. pose proof (msign_assoc a A B E) as MA.
    fold (mnull a A B) (mnull a B E) (mnull a (N.lxor A B) E) (mnull a A (N.lxor B E)) in NA.
    destruct (mnull a A B) eqn:N1, (mnull a B E) eqn:N2; cbn [orb lift] in *;
      rewrite ?read_mul by (try apply in_lxor; assumption).
    + reflexivity.
    + rewrite <- NA. reflexivity.
    + rewrite NA. reflexivity.
    + rewrite <- NA. destruct (mnull a (N.lxor A B) E) eqn:N3; [reflexivity|]. rewrite N.lxor_assoc. do 2 f_equal.
      destruct s, t, u, (msign a A B), (msign a (N.lxor A B) E), (msign a B E),
        (msign a A (N.lxor B E)); cbn in *; congruence.
  - destruct (mnull a A B); reflexivity.
Qed.

(** 1 is neutral (every dimension the constructor accepts up to 30, every blade) *)
Theorem C48_unit_partial a x : (alg_dim a <= 30)%nat -> sblade_in a x ->
  lift (alg_mul a) (Some (false, 0%N)) x = x /\ lift (alg_mul a) x (Some (false, 0%N)) = x.
Proof.
  intros D HX. destruct x as [[s A]|]; [|split; reflexivity].
  assert (L : (A < 2 ^ 30)%N).
  { eapply N.lt_le_trans; [exact HX|]. apply N.pow_le_mono_r; lia. }
  assert (R1 : read (i32_of (Z.of_N A + 1)) = Some (false, A)).
  { rewrite i32_small; [apply (read_flip false)|]. change (2 ^ 31) with (2 * Z.of_N (2 ^ 30)). lia. }
  cbn [lift]. unfold alg_mul. rewrite N.eqb_refl. cbn [andb].
  destruct (N.eqb_spec A 0) as [->|NZ]; cbn [andb].
  - cbn. rewrite !xorb_false_r. destruct s; split; reflexivity.
  - rewrite R1, !xorb_false_r. split; [rewrite xorb_false_l|]; reflexivity.
Qed.

(** the squares of the generators: the first r are null, then p square to +1,
    then q to -1 *)
Theorem C48_squares_partial a i : (alg_dim a <= 8)%nat -> (i < alg_dim a)%nat ->
  read (alg_mul a (gen i) (gen i)) =
  if (i <? alg_r a)%nat then None
  else Some (negb (i <? alg_r a + alg_p a)%nat, 0%N).
Proof.
  intros D I. assert (G : blade_in a (gen i)) by (apply pow2_lt; assumption).
  rewrite read_mul by assumption. unfold mnull, msign, gen.
  rewrite nls_pow2_l, swp_pow2_l, ngs_pow2_l, tb_pow2, par_pow2, Nat.eqb_refl, N.lxor_nilpotent.
  assert (IB : (i <? alg_dim a)%nat = true) by (apply Nat.ltb_lt; assumption). rewrite IB. cbn [andb].

  destruct (Nat.ltb_spec i (alg_r a)) as [L|L]; [reflexivity|].
  rewrite Nat.ltb_irrefl, xorb_false_l. do 2 f_equal.
  destruct (Nat.leb_spec (alg_p a + alg_r a) i), (Nat.ltb_spec i (alg_r a + alg_p a)); lia || reflexivity.
Qed.

(** distinct generators anticommute; their product is the 2-blade *)
Theorem C48_anticommute_partial a i j : (alg_dim a <= 8)%nat ->
  (i < j)%nat -> (j < alg_dim a)%nat ->
  read (alg_mul a (gen i) (gen j)) = Some (false, N.lxor (gen i) (gen j)) /\
  read (alg_mul a (gen j) (gen i)) = sneg (read (alg_mul a (gen i) (gen j))).
Proof.
  intros D I J. assert (GI : blade_in a (gen i)) by (apply pow2_lt; lia).
  assert (GJ : blade_in a (gen j)) by (apply pow2_lt; lia).
  rewrite !read_mul by assumption. unfold mnull, msign, gen.
  rewrite !nls_pow2_l, !swp_pow2_l, !ngs_pow2_l, !tb_pow2, !par_pow2.
  replace (i =? j)%nat with false by (symmetry; apply Nat.eqb_neq; lia).
  replace (j =? i)%nat with false by (symmetry; apply Nat.eqb_neq; lia).
  replace (i <? alg_dim a)%nat with true by (symmetry; apply Nat.ltb_lt; lia).
  replace (j <? alg_dim a)%nat with true by (symmetry; apply Nat.ltb_lt; lia).
  replace (i <? j)%nat with true by (symmetry; apply Nat.ltb_lt; lia).
  replace (j <? i)%nat with false by (symmetry; apply Nat.ltb_ge; lia).
  rewrite (N.lxor_comm (2 ^ N.of_nat j)). split; reflexivity.
Qed.

(** every blade is the product of its generators in ascending order *)
Fixpoint ascending (a : algebra) (l : list nat) : sblade :=
  match l with [] => Some (false, 0%N) | i :: r => lift (alg_mul a) (Some (false, gen i)) (ascending a r) end.
Definition indices (a : algebra) (A : N) : list nat :=
  filter (fun i => N.testbit A (N.of_nat i)) (seq 0 (alg_dim a)).
Lemma par_low A i : (forall j, (j < i)%nat -> N.testbit A (N.of_nat j) = false) -> par A i = false.
Proof.
  induction i as [|i IH]; intro L; [reflexivity|]. cbn [par]. rewrite L by lia. rewrite IH; [reflexivity|].
  intros j J. apply L. lia.
Qed.
Lemma mul_lowest a i B : (alg_dim a <= 8)%nat -> (i < alg_dim a)%nat -> blade_in a B ->
  (forall j, (j <= i)%nat -> N.testbit B (N.of_nat j) = false) ->
  read (alg_mul a (gen i) B) = Some (false, N.lxor (gen i) B).
Proof.
  intros D I HB L. assert (GI : blade_in a (gen i)) by (apply pow2_lt; lia).
  rewrite read_mul by assumption. unfold mnull, msign, gen.
  rewrite nls_pow2_l, swp_pow2_l, ngs_pow2_l, (L i) by lia.
  rewrite par_low by (intros; apply L; lia). rewrite !andb_false_r. reflexivity.
Qed.
(** the set of the generators of A with index at least k *)
Lemma ascending_from a A k n : (alg_dim a <= 8)%nat -> (k + n = alg_dim a)%nat -> blade_in a A ->
  exists B, ascending a (filter (fun i => N.testbit A (N.of_nat i)) (seq k n)) = Some (false, B) /\
    blade_in a B /\
    forall j, N.testbit B (N.of_nat j) = (k <=? j)%nat && N.testbit A (N.of_nat j).
Proof.
  intros D. revert k. induction n as [|n IH]; intros k K HA.
  - exists 0%N. split; [reflexivity|]. split; [unfold blade_in; pose proof (N.pow_nonzero 2 (N.of_nat (alg_dim a))); lia|].
    intro j. rewrite N.bits_0. destruct (Nat.leb_spec k j); [|reflexivity].
    rewrite (lt_bits A (alg_dim a) j) by (assumption || lia). reflexivity.
  - destruct (IH (S k)) as [B [E [HB TB]]]; [lia|assumption|]. cbn [seq filter].
    destruct (N.testbit A (N.of_nat k)) eqn:T.
    + exists (N.lxor (gen k) B). cbn [ascending]. rewrite E. cbn [lift].
      rewrite mul_lowest; try assumption; [|lia|].
      * split; [reflexivity|]. split; [apply in_lxor; [apply pow2_lt; lia|assumption]|].
        intro j. rewrite N.lxor_spec, TB. unfold gen. rewrite tb_pow2.
        destruct (Nat.eqb_spec k j), (Nat.leb_spec (S k) j), (Nat.leb_spec k j); try lia; subst;
          cbn [andb]; rewrite ?T, ?xorb_false_l; reflexivity.
      * intros j J. rewrite TB. destruct (Nat.leb_spec (S k) j); [lia|reflexivity].
    + exists B. split; [assumption|]. split; [assumption|]. intro j. rewrite TB.
      destruct (Nat.leb_spec (S k) j), (Nat.leb_spec k j); try lia; try reflexivity.
      replace j with k by lia. rewrite T. reflexivity.
Qed.
Theorem C48_ascending_partial a A : (alg_dim a <= 8)%nat -> blade_in a A ->
  ascending a (indices a A) = Some (false, A).
Proof.
  intros D HA. destruct (ascending_from a A 0 (alg_dim a) D eq_refl HA) as [B [E [HB TB]]].
  unfold indices. rewrite E. do 2 f_equal. apply N.bits_inj. intro j.
  specialize (TB (N.to_nat j)). rewrite N2Nat.id in TB. rewrite TB. reflexivity.
Qed.

(** The full statement fails: dimensions 9 to 31 are accepted, and there the
    bit mask [uint8_t bit = 1 << index] is zero from index 8 on.  A null
    generator then squares to 1, and generators commute. *)
Theorem C48_large_dimension_refuted :
  exists a i j, alg_accepted a /\ (i < alg_dim a)%nat /\ (j < alg_dim a)%nat /\ i <> j /\
    alg_r a = alg_dim a /\ read (alg_mul a (gen i) (gen i)) = Some (false, 0%N) /\
    read (alg_mul a (gen i) (gen j)) = read (alg_mul a (gen j) (gen i)) /\
    read (alg_mul a (gen i) (gen j)) <> None.
Proof.
  exists (Alg 0 0 9), 8%nat, 0%nat. unfold alg_accepted. cbn [alg_dim alg_p alg_q alg_r Nat.add].
  repeat split; try lia; try discriminate.
Qed.
(** At dimension 31 the neutral element is lost as well: 1 + bit set exceeds int32_t. *)
Theorem C48_dimension_31_refuted :
  exists a A, alg_accepted a /\ blade_in a A /\ (A <> 0)%N /\
    exists E, read (alg_mul a 0 A) = Some (true, E).
Proof.
  exists (Alg 31 0 0), (2 ^ 31 - 1)%N. unfold alg_accepted, blade_in.
  cbn [alg_dim alg_p alg_q alg_r Nat.add]. repeat split; try lia.
  eexists. vm_compute. reflexivity.
Qed.
(** conformal-like signature (1,1,1): e0 null, e1 positive, e2 negative *)
Example C48_ex :
  read (alg_mul (Alg 1 1 1) 1 1) = None /\ read (alg_mul (Alg 1 1 1) 2 2) = Some (false, 0%N) /\
  read (alg_mul (Alg 1 1 1) 4 4) = Some (true, 0%N) /\
  lift (alg_mul (Alg 1 1 1)) (Some (false, 6%N)) (Some (false, 3%N)) = Some (true, 5%N) /\
  indices (Alg 1 1 1) 5 = [0; 2]%nat.
Proof. repeat split; reflexivity. Qed.

(** ** C49 *)
(** *** exterior product, every dimension up to 30 *)
Lemma read_ext a A B : (alg_dim a <= 30)%nat -> blade_in a A -> blade_in a B ->
  read (alg_ext a A B) = if (N.land A B =? 0)%N then Some (swp A B (alg_dim a), N.lxor A B) else None.
Proof.
  intros D HA HB. rewrite alg_ext_spec by assumption. destruct (_ =? _)%N; [|reflexivity].
  rewrite read_flip, swx_swp. reflexivity.
Qed.
Lemma land_lxor_0 A B E : N.land A B = 0%N -> N.land (N.lxor A B) E = 0%N <->
  N.land A E = 0%N /\ N.land B E = 0%N.
Proof.
  intro Z.
  assert (P : forall x y, N.land x y = 0%N <-> forall i, N.testbit x i && N.testbit y i = false).
  { intros x y. split.
    - intros F i. rewrite <- N.land_spec, F. apply N.bits_0.
    - intro F. apply N.bits_inj. intro i. rewrite N.land_spec, N.bits_0. apply F. }
  rewrite !P in *. split.
  - intro F. split; intro i; specialize (F i); specialize (Z i); rewrite N.lxor_spec in F;
      destruct (N.testbit A i), (N.testbit B i), (N.testbit E i); cbn in *; congruence.
  - intros [F G] i. specialize (F i). specialize (G i). rewrite N.lxor_spec.
      destruct (N.testbit A i), (N.testbit B i), (N.testbit E i); cbn in *; congruence.
Qed.
Theorem C49_ext_associative a x y z : (alg_dim a <= 30)%nat ->
  sblade_in a x -> sblade_in a y -> sblade_in a z ->
  lift (alg_ext a) (lift (alg_ext a) x y) z = lift (alg_ext a) x (lift (alg_ext a) y z).
Proof.
  intros D HX HY HZ. destruct x as [[s A]|], y as [[t B]|], z as [[u E]|]; try reflexivity;
    cbn [lift sblade_in] in *; rewrite ?read_ext by assumption.
  - destruct (N.eqb_spec (N.land A B) 0) as [P|P], (N.eqb_spec (N.land B E) 0) as [Q|Q];
      cbn [lift]; rewrite ?read_ext by (try apply in_lxor; assumption); try reflexivity.
    + rewrite N.lxor_assoc.
      assert (QA : N.land A (N.lxor B E) = 0%N <-> N.land B A = 0%N /\ N.land E A = 0%N)
        by (rewrite N.land_comm; apply land_lxor_0; assumption).
      pose proof (land_lxor_0 A B E P) as PA.
      rewrite !(N.land_comm _ A) in QA.
      destruct (N.eqb_spec (N.land (N.lxor A B) E) 0) as [F|F],
        (N.eqb_spec (N.land A (N.lxor B E)) 0) as [G|G]; try reflexivity; try (exfalso; tauto).
      do 2 f_equal. rewrite swp_xor_l, swp_xor_r.
      destruct s, t, u, (swp A B (alg_dim a)), (swp A E (alg_dim a)), (swp B E (alg_dim a)); reflexivity.
    + destruct (N.eqb_spec (N.land (N.lxor A B) E) 0) as [F|F]; [|reflexivity].
      apply land_lxor_0 in F; [|assumption]. tauto.
    + destruct (N.eqb_spec (N.land A (N.lxor B E)) 0) as [F|F]; [|reflexivity].
      rewrite N.land_comm in F. apply land_lxor_0 in F; [|assumption].
      rewrite N.land_comm in P. tauto.
  - destruct (N.eqb_spec (N.land A B) 0); reflexivity.
Qed.
(** alternating, anticommuting on generators, 1 neutral, and zero exactly when
    the operands share a generator *)
Theorem C49_ext_generators a i j : (alg_dim a <= 30)%nat -> (i < j)%nat -> (j < alg_dim a)%nat ->
  read (alg_ext a (gen i) (gen i)) = None /\
  read (alg_ext a (gen i) (gen j)) = Some (false, N.lxor (gen i) (gen j)) /\
  read (alg_ext a (gen j) (gen i)) = Some (true, N.lxor (gen i) (gen j)).
Proof.
  intros D I J. assert (GI : blade_in a (gen i)) by (apply pow2_lt; lia).
  assert (GJ : blade_in a (gen j)) by (apply pow2_lt; lia).
  rewrite !read_ext by assumption. rewrite N.land_diag.
  assert (Z : N.land (gen i) (gen j) = 0%N).
  { apply N.bits_inj. intro k. rewrite N.land_spec, N.bits_0. unfold gen.
    rewrite !N.pow2_bits_eqb. destruct (N.eqb_spec (N.of_nat i) k), (N.eqb_spec (N.of_nat j) k); try reflexivity; lia. }
  rewrite (N.land_comm (gen j)), Z. cbn [N.eqb].
  rewrite (N.lxor_comm (gen j)). unfold gen. rewrite !swp_pow2_l, !par_pow2.
  replace (i <? alg_dim a)%nat with true by (symmetry; apply Nat.ltb_lt; lia).
  replace (j <? alg_dim a)%nat with true by (symmetry; apply Nat.ltb_lt; lia).
  replace (i <? j)%nat with true by (symmetry; apply Nat.ltb_lt; lia).
  replace (j <? i)%nat with false by (symmetry; apply Nat.ltb_ge; lia).
  destruct (N.eqb_spec (2 ^ N.of_nat i) 0) as [F|_]; [exfalso; revert F; apply N.pow_nonzero; lia|].
  repeat split.
Qed.
Theorem C49_ext_unit a x : (alg_dim a <= 30)%nat -> sblade_in a x ->
  lift (alg_ext a) (Some (false, 0%N)) x = x /\ lift (alg_ext a) x (Some (false, 0%N)) = x.
Proof.
  intros D HX. destruct x as [[s A]|]; [|split; reflexivity]. cbn [lift].
  assert (H0 : blade_in a 0) by (unfold blade_in; pose proof (N.pow_nonzero 2 (N.of_nat (alg_dim a))); lia).
  rewrite !read_ext by assumption. rewrite N.land_0_l, N.land_0_r, swp_0_l, swp_0_r, N.lxor_0_l, N.lxor_0_r.
  cbn [N.eqb]. rewrite !xorb_false_r, xorb_false_l. split; reflexivity.
Qed.
(** on blades without a common generator it is the geometric product *)
Theorem C49_ext_is_product a A B : (alg_dim a <= 8)%nat -> blade_in a A -> blade_in a B ->
  N.land A B = 0%N -> alg_ext a A B = alg_mul a A B.
Proof.
  intros D HA HB Z. rewrite alg_ext_spec, alg_mul_spec by (assumption || lia). rewrite Z, swx_swp.
  cbn [N.eqb].
  assert (NN : forall k, nls a A B k = false /\ ngs a A B k = false).
  { assert (F : forall i, N.testbit A i && N.testbit B i = false)
      by (intro i; rewrite <- N.land_spec, Z; apply N.bits_0).
    induction k as [|k [I1 I2]]; [split; reflexivity|]. cbn [nls ngs]. rewrite F, I1, I2. split; reflexivity. }
  unfold mnull, msign. destruct (NN (alg_dim a)) as [-> ->]. rewrite xorb_false_r. reflexivity.
Qed.
Theorem C49_ext_zero_iff a A B : (alg_dim a <= 30)%nat -> blade_in a A -> blade_in a B ->
  (alg_ext a A B = 0 <-> exists i, (i < alg_dim a)%nat /\ N.testbit A (N.of_nat i) = true /\
                                   N.testbit B (N.of_nat i) = true).
Proof.
  intros D HA HB. rewrite alg_ext_spec by assumption.
  destruct (N.eqb_spec (N.land A B) 0) as [Z|Z].
  - split.
    + destruct (swx _ _ _ _); cbn [flip]; lia.
    + intros [i [_ [TA TB]]]. exfalso.
      assert (F : N.testbit (N.land A B) (N.of_nat i) = false) by (rewrite Z; apply N.bits_0).
      rewrite N.land_spec, TA, TB in F. discriminate.
  - split; [intros _|reflexivity].
    exists (N.to_nat (N.log2 (N.land A B))). rewrite N2Nat.id.
    pose proof (N.bit_log2 _ Z) as T. rewrite N.land_spec in T. apply andb_true_iff in T. destruct T as [TA TB].
    split; [|split; assumption].
    destruct (Nat.ltb_spec (N.to_nat (N.log2 (N.land A B))) (alg_dim a)) as [L|L]; [assumption|].
    pose proof (lt_bits A (alg_dim a) (N.to_nat (N.log2 (N.land A B))) HA L) as F.
    rewrite N2Nat.id in F. congruence.
Qed.
Example C49_ext_ex : read (alg_ext (Alg 12 0 0) 2056 1024) = Some (true, 3080%N) /\
  read (alg_ext (Alg 12 0 0) 2056 2048) = None.
Proof. split; reflexivity. Qed.

(** *** dual, reverse, and the products of P(R*_{3,0,1}) *)
(** the dual map of blades is the library's J and an involution *)
Theorem C49_dual k :
  read (alg_dual (code k)) = Some (Z.ltb (J_sign k) 0, code (bcompl k)) /\
  match read (alg_dual (code k)) with
  | Some (s, E) => option_map (fun p => (xorb s (fst p), snd p)) (read (alg_dual E)) = Some (false, code k)
  | None => False
  end.
Proof. destruct k as [[|] [|] [|] [|]]; split; reflexivity. Qed.
Theorem C49_rev_sign A : alg_rev A = (let r := popcnt A in Nat.odd (r * (r - 1) / 2)).
Proof.
  unfold alg_rev. cbv zeta. remember (popcnt A) as r eqn:E. clear E.
  assert (P : forall q, Nat.testbit (4 * q) 1 = false /\ Nat.testbit (4 * q + 1) 1 = false /\
                        Nat.testbit (4 * q + 2) 1 = true /\ Nat.testbit (4 * q + 3) 1 = true).
  { intro q. rewrite !Nat.testbit_odd. change (Nat.shiftr ?x 1) with (Nat.div2 x).
    replace (4 * q)%nat with (2 * (2 * q))%nat by lia.
    replace (2 * (2 * q) + 1)%nat with (S (2 * (2 * q)))%nat by lia.
    replace (2 * (2 * q) + 2)%nat with (2 * (2 * q + 1))%nat by lia.
    replace (2 * (2 * q) + 3)%nat with (S (2 * (2 * q + 1)))%nat by lia.
    rewrite !Nat.div2_double, !Nat.div2_succ_double, Nat.odd_add, Nat.odd_mul. repeat split. }
  assert (Q : exists q, (r = 4 * q \/ r = 4 * q + 1 \/ r = 4 * q + 2 \/ r = 4 * q + 3)%nat).
  { exists (r / 4)%nat. pose proof (Nat.div_mod r 4). pose proof (Nat.mod_upper_bound r 4). lia. }
  destruct Q as [q Q]. destruct (P q) as [P0 [P1 [P2 P3]]].
  destruct Q as [->|[->|[->| ->]]].
  - rewrite P0. destruct q as [|q]; [reflexivity|].
    replace (4 * S q * (4 * S q - 1))%nat with (2 * (S q * (4 * S q - 1) * 2))%nat by nia.
    rewrite Nat.mul_comm, Nat.div_mul, Nat.odd_mul by lia. symmetry. apply andb_false_r.
  - rewrite P1. replace ((4 * q + 1) * (4 * q + 1 - 1))%nat with (2 * (q * (4 * q + 1) * 2))%nat by nia.
    rewrite Nat.mul_comm, Nat.div_mul, Nat.odd_mul by lia. symmetry. apply andb_false_r.
  - rewrite P2. replace ((4 * q + 2) * (4 * q + 2 - 1))%nat with (2 * (1 + 2 * (4 * q * q + 3 * q)))%nat by nia.
    rewrite Nat.mul_comm, Nat.div_mul, Nat.odd_add, Nat.odd_mul by lia. reflexivity.
  - rewrite P3. replace ((4 * q + 3) * (4 * q + 3 - 1))%nat with (2 * (1 + 2 * (4 * q * q + 5 * q + 1)))%nat by nia.
    rewrite Nat.mul_comm, Nat.div_mul, Nat.odd_add, Nat.odd_mul by lia. reflexivity.
Qed.

(** the symbolic multivectors of the REPL are the multivectors of SpecPGA:
    the four products, the reverse and the sums compute the products of
    P(R*_{3,0,1}) for every assignment of values to the variables *)
Local Open Scope R_scope.
Section PGAProps.
Context {C : Type} `{CoefLaws C}.
Theorem C52_product rho (a b : smv C) : keys16 a -> keys16 b -> spow_ok rho a -> spow_ok rho b ->
  pga_eval rho (smv_mul pga a b) == gp (pga_eval rho a) (pga_eval rho b).
Proof. intros. apply pga_eval_prod; try assumption; [apply gp_bilinear|apply mul_agrees]. Qed.
Theorem C49_exterior rho (a b : smv C) : keys16 a -> keys16 b -> spow_ok rho a -> spow_ok rho b ->
  pga_eval rho (smv_ext pga a b) == SpecPGA.ext (pga_eval rho a) (pga_eval rho b).
Proof. intros. apply pga_eval_prod; try assumption; [apply ext_bilinear|apply ext_agrees]. Qed.
Theorem C49_regressive rho (a b : smv C) : keys16 a -> keys16 b -> spow_ok rho a -> spow_ok rho b ->
  pga_eval rho (smv_reg pga a b) == J (SpecPGA.ext (J (pga_eval rho a)) (J (pga_eval rho b))).
Proof. intros. apply (pga_eval_prod (alg_reg pga) SpecPGA.reg); try assumption; [apply reg_bilinear|apply reg_agrees]. Qed.
Theorem C49_reverse rho (a : smv C) : pga_eval rho (smv_rev a) == SpecPGA.rev (pga_eval rho a).
Proof. apply pga_eval_rev. Qed.
(** [|]: the grade |r-s| part of the product, for operands without a scalar part *)
Theorem C49_inner_no_scalars rho (a b : smv C) : keys16 a -> keys16 b -> spow_ok rho a -> spow_ok rho b ->
  no_scalar (pga_eval rho a) -> no_scalar (pga_eval rho b) ->
  pga_eval rho (smv_dot pga a b) == SpecPGA.dot (pga_eval rho a) (pga_eval rho b).
Proof.
  intros KA KB PA PB NA NB k. rewrite <- (dot0_dot _ _ NA NB k). revert k.
  apply (pga_eval_prod (alg_dot pga) dot0); try assumption; [apply dot0_bilinear|apply dot_agrees].
Qed.
(** in general: the inner product of anything with a scalar is zero
    (docs/geometry-potpourri.md line 190), so scalar parts are dropped first *)
Theorem C49_inner rho (a b : smv C) : keys16 a -> keys16 b -> spow_ok rho a -> spow_ok rho b ->
  pga_eval rho (smv_dot pga a b) ==
  SpecPGA.dot (fun k => if Nat.eqb (grade k) 0 then 0 else pga_eval rho a k)
              (fun k => if Nat.eqb (grade k) 0 then 0 else pga_eval rho b k).
Proof.
  intros. apply (pga_eval_prod (alg_dot pga) dot0); try assumption; [apply dot0_bilinear|apply dot_agrees].
Qed.
Theorem C52_sum rho (a b : smv C) :
  pga_eval rho (smv_add a b) == mvadd (pga_eval rho a) (pga_eval rho b) /\
  pga_eval rho (smv_sub a b) == mvsub (pga_eval rho a) (pga_eval rho b) /\
  pga_eval rho (smv_opp a) == mvopp (pga_eval rho a).
Proof. repeat split; [apply pga_eval_add|apply pga_eval_sub|apply pga_eval_opp]. Qed.

(** results in normal form: sorted by grade then bit set, no empty polynomial,
    no zero coefficient, all blades in the algebra *)
Theorem C52_normal (a b : smv C) : smv_normal 4 a -> smv_normal 4 b ->
  smv_normal 4 (smv_add a b) /\ smv_normal 4 (smv_sub a b) /\ smv_normal 4 (smv_opp a) /\
  smv_normal 4 (smv_rev a) /\ smv_normal 4 (smv_mul pga a b) /\ smv_normal 4 (smv_ext pga a b) /\
  smv_normal 4 (smv_reg pga a b) /\ smv_normal 4 (smv_dot pga a b).
Proof.
  intros A B. split; [apply smv_normal_add; assumption|]. split; [apply smv_normal_sub; assumption|].
  split; [apply smv_normal_opp; assumption|]. split; [apply smv_normal_rev; assumption|].
  split; [apply smv_normal_prod; [apply mul_closed|assumption|assumption]|].
  split; [apply smv_normal_prod; [apply ext_closed|assumption|assumption]|].
  split; [apply smv_normal_prod; [apply reg_closed|assumption|assumption]|].
  apply smv_normal_prod; [apply dot_closed|assumption|assumption].
Qed.
(** equal values for all non-zero assignments: the same map *)
Theorem C52_unique (a b : smv C) : smv_normal 4 a -> smv_normal 4 b ->
  (forall rho, (forall v, rho v <> 0) -> pga_eval rho a == pga_eval rho b) -> a = b.
Proof.
  intros A B E. apply (smv_unique 4); try assumption. intros rho NZ k.
  destruct (N.ltb_spec k 16) as [L|L].
  - specialize (E rho NZ (bl k)). unfold pga_eval in E.
    assert (CB : code (bl k) = k) by (revert k L E; refine (lt16_cases _ _ _ _ _ _ _ _ _ _ _ _ _ _ _ _ _); reflexivity).
    rewrite CB in E. exact E.
  - rewrite !ev_find by (apply A || apply B).
    assert (Z : forall m : smv C, smv_normal 4 m -> SymMap.find elem_lt k m = None).
    { intros m [S N]. destruct (SymMap.find elem_lt k m) as [p|] eqn:F; [|reflexivity]. exfalso.
      apply (find_In _ elem_strict_total) in F; [|assumption]. destruct (N _ _ F) as [_ [_ G]].
      change (2 ^ N.of_nat 4)%N with 16%N in G. lia. }
    rewrite (Z a A), (Z b B). reflexivity.
Qed.
Lemma normal_keys (a : smv C) : smv_normal 4 a -> keys16 a.
Proof. intros [_ N] e p I. apply (N e p I). Qed.
Lemma nz_pow rho (a : smv C) : (forall v, rho v <> 0) -> spow_ok rho a.
Proof. intros NZ e p _ m f _ v d _. left. apply NZ. Qed.
(** hence the laws hold as equality of the data structures: associativity and
    distributivity of the geometric and of the exterior product *)
Theorem C52_laws (a b c : smv C) : smv_normal 4 a -> smv_normal 4 b -> smv_normal 4 c ->
  smv_mul pga (smv_mul pga a b) c = smv_mul pga a (smv_mul pga b c) /\
  smv_mul pga a (smv_add b c) = smv_add (smv_mul pga a b) (smv_mul pga a c) /\
  smv_mul pga (smv_add a b) c = smv_add (smv_mul pga a c) (smv_mul pga b c) /\
  smv_ext pga (smv_ext pga a b) c = smv_ext pga a (smv_ext pga b c) /\
  smv_rev (smv_mul pga a b) = smv_mul pga (smv_rev b) (smv_rev a) /\
  smv_add a b = smv_add b a /\ smv_sub a a = [].
Proof.
  intros A B D.
  assert (NM : forall x y : smv C, smv_normal 4 x -> smv_normal 4 y -> smv_normal 4 (smv_mul pga x y))
    by (intros; apply C52_normal; assumption).
  assert (NE : forall x y : smv C, smv_normal 4 x -> smv_normal 4 y -> smv_normal 4 (smv_ext pga x y))
    by (intros; apply C52_normal; assumption).
  assert (NA : forall x y : smv C, smv_normal 4 x -> smv_normal 4 y -> smv_normal 4 (smv_add x y))
    by (intros; apply C52_normal; assumption).
  assert (NR : forall x : smv C, smv_normal 4 x -> smv_normal 4 (smv_rev x))
    by (intros; apply smv_normal_rev; assumption).
  assert (EM : forall rho x y, (forall v, rho v <> 0) -> smv_normal 4 x -> smv_normal 4 y ->
     pga_eval rho (smv_mul pga x y) == gp (pga_eval rho x) (pga_eval rho y))
    by (intros; apply C52_product; try (apply normal_keys; assumption); apply nz_pow; assumption).
  assert (EE : forall rho x y, (forall v, rho v <> 0) -> smv_normal 4 x -> smv_normal 4 y ->
     pga_eval rho (smv_ext pga x y) == SpecPGA.ext (pga_eval rho x) (pga_eval rho y))
    by (intros; apply C49_exterior; try (apply normal_keys; assumption); apply nz_pow; assumption).
  repeat apply conj; apply C52_unique; auto; try (intros rho NZ k).
  - rewrite (EM rho _ _ NZ (NM _ _ A B) D k), (EM rho _ _ NZ A (NM _ _ B D) k).
    rewrite (gp_congr _ _ _ _ (EM rho _ _ NZ A B) (mveq_refl _) k).
    rewrite (gp_congr _ _ _ _ (mveq_refl _) (EM rho _ _ NZ B D) k). apply gp_assoc.
  - rewrite (EM rho _ _ NZ A (NA _ _ B D) k), (pga_eval_add rho _ _ k).
    unfold mvadd. rewrite (EM rho _ _ NZ A B k), (EM rho _ _ NZ A D k).
    rewrite (gp_congr _ _ _ _ (mveq_refl _) (pga_eval_add rho b c) k). apply gp_add_r.
  - rewrite (EM rho _ _ NZ (NA _ _ A B) D k), (pga_eval_add rho _ _ k).
    unfold mvadd. rewrite (EM rho _ _ NZ A D k), (EM rho _ _ NZ B D k).
    rewrite (gp_congr _ _ _ _ (pga_eval_add rho a b) (mveq_refl _) k). apply gp_add_l.
  - rewrite (EE rho _ _ NZ (NE _ _ A B) D k), (EE rho _ _ NZ A (NE _ _ B D) k).
    rewrite (ext_congr _ _ _ _ (EE rho _ _ NZ A B) (mveq_refl _) k).
    rewrite (ext_congr _ _ _ _ (mveq_refl _) (EE rho _ _ NZ B D) k). apply ext_assoc.
  - rewrite (pga_eval_rev rho _ k), (EM rho _ _ NZ (NR _ B) (NR _ A) k).
    rewrite (gp_congr _ _ _ _ (pga_eval_rev rho b) (pga_eval_rev rho a) k), <- (rev_gp _ _ k).
    unfold SpecPGA.rev. rewrite (EM rho _ _ NZ A B k). reflexivity.
  - rewrite !(pga_eval_add rho _ _ k). unfold mvadd. ring.
  - apply smv_normal_sub; assumption.
  - split; [constructor|]. intros e p [].
  - rewrite (pga_eval_sub rho _ _ k). unfold mvsub, pga_eval, ev. cbn. ring.
Qed.

(** ** C50: polynomials *)
Theorem C50_evaluation rho (p q : poly C) :
  peval rho (poly_add p q) = peval rho p + peval rho q /\
  peval rho (poly_opp p) = - peval rho p /\
  (ppow_ok rho p -> ppow_ok rho q -> peval rho (poly_mul p q) = peval rho p * peval rho q).
Proof. split; [apply peval_add|]. split; [apply peval_opp|apply peval_mul]. Qed.
Theorem C50_normal (p q : poly C) : normal p -> normal q ->
  normal (poly_add p q) /\ normal (poly_opp p) /\ normal (poly_mul p q).
Proof. intros P Q. split; [apply normal_add; assumption|]. split; [apply normal_opp; assumption|apply normal_mul; assumption]. Qed.
(** push adds one term; of a non-zero coefficient it keeps the normal form *)
Theorem C50_push rho (p : poly C) m f :
  peval rho (poly_push p m f) = peval rho p + cval f * meval rho m /\
  (normal p -> mon_ok m -> cval f <> 0 -> normal (poly_push p m f)).
Proof. split; [exact (peval_add_step rho p m f)|exact (normal_add_step p m f)]. Qed.
Theorem C50_unique (p q : poly C) : normal p -> normal q ->
  (forall rho, (forall v, rho v <> 0) -> peval rho p = peval rho q) -> p = q.
Proof. apply normal_unique. Qed.
Theorem C50_ring (p q r : poly C) : normal p -> normal q -> normal r ->
  poly_add p q = poly_add q p /\ poly_add (poly_add p q) r = poly_add p (poly_add q r) /\
  poly_add p [] = p /\ poly_add p (poly_opp p) = [] /\
  poly_mul p q = poly_mul q p /\ poly_mul (poly_mul p q) r = poly_mul p (poly_mul q r) /\
  poly_mul p (poly_add q r) = poly_add (poly_mul p q) (poly_mul p r) /\
  poly_mul p [([], fz 1)] = p.
Proof.
  intros P Q R.
  assert (NA : forall x y : poly C, normal x -> normal y -> normal (poly_add x y)) by (intros; apply C50_normal; assumption).
  assert (NM : forall x y : poly C, normal x -> normal y -> normal (poly_mul x y)) by (intros; apply C50_normal; assumption).
  assert (NO : forall x : poly C, normal x -> normal (poly_opp x)) by (intros; apply normal_opp; assumption).
  assert (N1 : normal ([([], fz 1)] : poly C)).
  { split; [constructor; [intros k v []|constructor]|]. intros m f [E|[]]. inversion E; subst.
    split; [split; [constructor|intros v d []]|]. rewrite cval_fz. lra. }
  assert (PO : forall rho, (forall v, rho v <> 0) -> forall x : poly C, ppow_ok rho x)
    by (intros rho NZ x m f _ v d _; left; apply NZ).
  assert (V1 : forall rho, peval rho ([([], fz 1)] : poly C) = 1)
    by (intro rho; cbn; rewrite cval_fz; ring).
  repeat apply conj; apply C50_unique; auto using normal_nil; intros rho NZ;
    rewrite ?peval_mul, ?peval_add, ?peval_opp, ?peval_mul, ?peval_add, ?V1 by (apply PO; assumption);
    try ring; cbn; ring.
Qed.
End PGAProps.

(** poly::push and mv::push alone do not keep the normal form: pushing a zero
    coefficient or an empty polynomial under a new key stores it. *)
Theorem C50_push_zero_refuted :
  exists (p : poly Z) m f, normal p /\ mon_ok m /\ ~ normal (poly_push p m f) /\
    (forall rho, peval rho (poly_push p m f) = peval rho (@nil (mon * Z))) /\ poly_push p m f <> [].
Proof.
  exists [], [("a"%string, 1%Z)], 0%Z. split; [apply normal_nil|].
  split; [split; [repeat constructor; intros ? ? []|intros v d [E|[]]; inversion E; lia]|].
  split; [intros [_ N]; destruct (N _ _ (or_introl eq_refl)) as [_ Z]; apply Z; reflexivity|].
  split; [|discriminate]. intro rho. cbn. ring.
Qed.
Theorem C52_push_zero_refuted :
  exists (m : smv Z) e p, smv_normal 4 m /\ normal p /\ ~ smv_normal 4 (smv_push m e p) /\
    (forall rho k, ev rho (smv_push m e p) k = ev rho m k).
Proof.
  exists [], 1%N, []. split; [split; [constructor|intros e p []]|]. split; [apply normal_nil|].
  split; [intros [_ N]; destruct (N _ _ (or_introl eq_refl)) as [_ [Z _]]; apply Z; reflexivity|].
  intros rho k. rewrite ev_push. cbn [peval fold_right]. destruct (N.eqb 1 k); ring.
Qed.
(** the convention matters: taking the grade |r-s| part for scalars too would
    give 2 | e1 = 2 e1, the documented convention and the tool give 0 *)
Theorem C49_inner_with_scalars :
  exists (a b : smv Z), smv_normal 4 a /\ smv_normal 4 b /\ forall rho,
    ~ (pga_eval rho (smv_dot pga a b) == SpecPGA.dot (pga_eval rho a) (pga_eval rho b)).
Proof.
  exists [(0%N, [([], 2%Z)])], [(2%N, [([], 1%Z)])].
  assert (NN : forall f : Z, f <> 0%Z -> normal ([([], f)] : poly Z)).
  { intros f F. split; [constructor; [intros k v []|constructor]|]. intros m g [E|[]]. inversion E; subst.
    split; [split; [constructor|intros v d []]|]. cbn. apply IZR_neq. assumption. }
  assert (NS : forall e (f : Z), (e < 16)%N -> f <> 0%Z -> smv_normal 4 [(e, [([], f)])]).
  { intros e f E F. split; [constructor; [intros k v []|constructor]|]. intros e' p [X|[]]. inversion X; subst.
    split; [apply NN; assumption|]. split; [discriminate|exact E]. }
  split; [apply NS; [reflexivity|discriminate]|]. split; [apply NS; [reflexivity|discriminate]|].
  intros rho F. specialize (F (Bl false true false false)). cbv -[IZR Rplus Rmult Ropp Rminus] in F. lra.
Qed.

(** ** C51 *)
Theorem C51_strict_total_order (a b c : mon) :
  mon_lt a a = false /\ (mon_lt a b = true -> mon_lt b c = true -> mon_lt a c = true) /\
  (mon_lt a b = false -> mon_lt b a = false -> a = b) /\ (mon_eqb a b = true <-> a = b).
Proof.
  destruct mon_strict_total as [IR [TR TO]]. split; [apply IR|]. split; [apply TR|].
  split; [apply TO|apply mon_eqb_eq].
Qed.
(** exponents add; the product is a well formed monomial, so comm/assoc hold
    as equality of the maps *)
Theorem C51_product (a b c : mon) : mon_ok a -> mon_ok b -> mon_ok c ->
  mon_ok (mon_mul a b) /\ (forall v, expo (mon_mul a b) v = (expo a v + expo b v)%Z) /\
  mon_mul a b = mon_mul b a /\ mon_mul (mon_mul a b) c = mon_mul a (mon_mul b c) /\ mon_mul a [] = a.
Proof.
  intros A B D.
  assert (MO : forall x y, mon_ok x -> mon_ok y -> mon_ok (mon_mul x y))
    by (intros x y X Y; apply mon_mul_ok; [assumption|apply Y]).
  split; [auto|]. split; [intro v; apply mon_mul_expo; assumption|].
  split; [|split; [|reflexivity]]; apply mon_ext; auto; intro v; rewrite !mon_mul_expo by auto; lia.
Qed.
(** push multiplies by a power of one variable *)
Theorem C51_push (m : mon) v d : mon_ok m ->
  mon_ok (mon_push m v d) /\ forall w, expo (mon_push m v d) w = (expo m w + (if string_dec v w then d else 0))%Z.
Proof.
  intro M. destruct (Z.eq_dec d 0) as [-> |D].
  - split; [exact M|]. intro w. cbn. destruct (string_dec v w); lia.
  - rewrite (mon_push_step m v d D). split; [apply mon_mul_step_ok; assumption|]. intro w. apply mon_mul_step_expo. exact M.
Qed.
(** elem_comp, the key order of the multivector map *)
Theorem C51_blade_order (a b c : N) :
  elem_lt a a = false /\ (elem_lt a b = true -> elem_lt b c = true -> elem_lt a c = true) /\
  (elem_lt a b = false -> elem_lt b a = false -> a = b) /\
  ((popcnt a < popcnt b)%nat -> elem_lt a b = true).
Proof.
  destruct elem_strict_total as [IR [TR TO]]. split; [apply IR|]. split; [apply TR|]. split; [apply TO|].
  intro L. unfold elem_lt. apply Nat.ltb_lt in L. rewrite L. reflexivity.
Qed.

(** ** Examples: the unit tests of sym/test.cpp for monomials, polynomials and multivectors *)
Module TestVectors.
Local Open Scope Z_scope.
Local Open Scope string_scope.
Definition v (s : string) : mon := mon_push [] s 1.
(** test.cpp 8-22 *)
Example monomial_product :
  mon_mul (mon_push [] "a" 2) (mon_push (mon_push [] "a" (-1)) "b" 1) = [("a", 1); ("b", 1)].
Proof. reflexivity. Qed.
Definition p1 : poly Z := poly_push (poly_push [] (v "a") 1) (v "b") 1.
Definition p2 : poly Z := poly_push (poly_push [] (v "a") 1) (v "b") (-1).
(** test.cpp 24-80 *)
Example polynomial_sum : poly_add p1 p2 = [(v "a", 2)]. Proof. reflexivity. Qed.
Example polynomial_sum_one : poly_add p1 (poly_push [] [] 1) = [([], 1); (v "a", 1); (v "b", 1)].
Proof. reflexivity. Qed.
Example polynomial_sum_one_two : poly_add (poly_push [] [] 1) (poly_push [] [] 2) = [([], 3)].
Proof. reflexivity. Qed.
Example polynomial_product :
  poly_mul p1 p2 = [(mon_mul (v "a") (v "a"), 1); (mon_mul (v "b") (v "b"), -1)].
Proof. reflexivity. Qed.
Definition mva : smv Z := smv_push (smv_push [] 1 [(v "a0", 1)]) 2 [(v "a1", 1)].
Definition mvb : smv Z := smv_push (smv_push [] 1 [(v "b0", 1)]) 2 [(v "b1", 1)].
(** test.cpp 82-143 *)
Example ga_product : smv_mul pga mva mvb =
  [(0%N, [([("a1", 1); ("b1", 1)], 1)]);
   (3%N, [([("a0", 1); ("b1", 1)], 1); ([("a1", 1); ("b0", 1)], -1)])].
Proof. reflexivity. Qed.
(** the hypotheses of the theorems above are met *)
Example poly_meets : normal p1 /\ normal p2 /\ mon_ok (mon_push (mon_push [] "a" (-1)) "b" 1).
Proof.
  assert (OK : forall x, mon_ok (v x)).
  { intro x. split; [constructor; [intros k w []|constructor]|]. intros w d [E|[]]. inversion E. lia. }
  assert (N : forall f, f <> 0 -> normal ([(v "a", 1); (v "b", f)] : poly Z)).
  { intros f F. split.
    - constructor; [intros k w [E|[]]; inversion E; reflexivity|].
      constructor; [intros k w []|constructor].
    - intros m g [E|[E|[]]]; inversion E; subst; (split; [apply OK|]); cbn; apply IZR_neq; lia. }
  split; [apply N; lia|]. split; [apply N; lia|]. split.
  - constructor; [intros k w [E|[]]; inversion E; reflexivity|].
    constructor; [intros k w []|constructor].
  - intros w d [E|[E|[]]]; inversion E; lia.
Qed.
Example mv_meets : smv_normal 4 mva /\ smv_normal 4 mvb /\ keys16 mva /\ (forall rho, spow_ok rho mva).
Proof.
  assert (OK : forall x, mon_ok (v x)).
  { intro x. split; [constructor; [intros k w []|constructor]|]. intros w d [E|[]]. inversion E. lia. }
  assert (NP : forall x, normal ([(v x, 1)] : poly Z)).
  { intro x. split; [constructor; [intros k w []|constructor]|]. intros m g [E|[]]. inversion E; subst.
    split; [apply OK|cbn; lra]. }
  assert (NM : forall x y, smv_normal 4 [(1%N, [(v x, 1)]); (2%N, [(v y, 1)])]).
  { intros x y. split.
    - constructor; [intros k w [E|[]]; inversion E; reflexivity|].
      constructor; [intros k w []|constructor].
    - intros e p [E|[E|[]]]; inversion E; subst; (split; [apply NP|]); (split; [discriminate|reflexivity]). }
  split; [apply NM|]. split; [apply NM|]. split; [apply normal_keys, NM|].
  intros rho e p [E|[E|[]]] m f I; inversion E; subst p; destruct I as [I|[]]; inversion I; subst;
    intros w d [J|[]]; inversion J; right; lia.
Qed.
End TestVectors.

Print Assumptions C48_associative_partial.
Print Assumptions C48_unit_partial.
Print Assumptions C48_squares_partial.
Print Assumptions C48_anticommute_partial.
Print Assumptions C48_ascending_partial.
Print Assumptions C48_large_dimension_refuted.
Print Assumptions C48_dimension_31_refuted.
Print Assumptions C49_ext_associative.
Print Assumptions C49_ext_generators.
Print Assumptions C49_ext_unit.
Print Assumptions C49_ext_is_product.
Print Assumptions C49_ext_zero_iff.
Print Assumptions C49_dual.
Print Assumptions C49_rev_sign.
Print Assumptions C52_product.
Print Assumptions C49_exterior.
Print Assumptions C49_regressive.
Print Assumptions C49_reverse.
Print Assumptions C49_inner_no_scalars.
Print Assumptions C49_inner.
Print Assumptions C52_sum.
Print Assumptions C52_normal.
Print Assumptions C52_unique.
Print Assumptions C52_laws.
Print Assumptions C50_evaluation.
Print Assumptions C50_normal.
Print Assumptions C50_push.
Print Assumptions C50_unique.
Print Assumptions C50_ring.
Print Assumptions C50_push_zero_refuted.
Print Assumptions C52_push_zero_refuted.
Print Assumptions C49_inner_with_scalars.
Print Assumptions C51_strict_total_order.
Print Assumptions C51_product.
Print Assumptions C51_push.
Print Assumptions C51_blade_order.
