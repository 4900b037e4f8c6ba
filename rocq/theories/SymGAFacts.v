(** Facts about the blade products of the symbolic algebra, for every
    signature up to the dimension where the code is right. *)
From Coq Require Import List Bool ZArith NArith Lia.
From Verif Require Import SymMap SymPoly SymGA.
Import ListNotations.
Local Open Scope Z_scope.

(** ** Bits *)
Notation tb x i := (N.testbit x (N.of_nat i)).
(** parity of the bits of x below k *)
Fixpoint par (x : N) (k : nat) : bool :=
  match k with O => false | S j => xorb (tb x j) (par x j) end.

Lemma popcnt_step n : popcnt n = ((if N.odd n then 1 else 0) + popcnt (N.div2 n))%nat.
Proof. destruct n as [|[p|p|]]; reflexivity. Qed.
Lemma par_shift x k : par x (S k) = xorb (N.odd x) (par (N.div2 x) k).
Proof.
  induction k as [|k IH].
  - cbn [par]. rewrite N.bit0_odd, !xorb_false_r. reflexivity.
  - assert (E : tb (N.div2 x) k = tb x (S k)).
    { rewrite N.div2_spec, N.shiftr_spec by lia. f_equal. lia. }
    cbn [par] in IH |- *. rewrite IH, E.
    destruct (tb x (S k)), (N.odd x), (par (N.div2 x) k); reflexivity.
Qed.
Lemma odd_popcnt x k : (x < 2 ^ N.of_nat k)%N -> Nat.odd (popcnt x) = par x k.
Proof.
  revert x. induction k as [|k IH]; intros x L.
  - cbn in L. assert (x = 0%N) by lia. subst. reflexivity.
  - rewrite par_shift, popcnt_step, Nat.odd_add, IH.
    + destruct (N.odd x); reflexivity.
    + rewrite N.div2_div. apply N.div_lt_upper_bound; [lia|].
      rewrite Nat2N.inj_succ, N.pow_succ_r' in L. assumption.
Qed.
Lemma par_ext x y k : (forall i, (i < k)%nat -> tb x i = tb y i) -> par x k = par y k.
Proof.
  induction k as [|k IH]; intro E; cbn; [reflexivity|].
  rewrite E, IH; [reflexivity| |lia]. intros i L. apply E. lia.
Qed.
Lemma par_xor x y k : par (N.lxor x y) k = xorb (par x k) (par y k).
Proof.
  induction k as [|k IH]; cbn; [reflexivity|]. rewrite IH, N.lxor_spec.
  destruct (tb x k), (tb y k), (par x k), (par y k); reflexivity.
Qed.
Lemma par_0 k : par 0 k = false.
Proof. induction k as [|k IH]; cbn; [reflexivity|]. rewrite IH. reflexivity. Qed.
Lemma tb_pow2 i j : tb (2 ^ N.of_nat i) j = (i =? j)%nat.
Proof.
  rewrite N.pow2_bits_eqb. destruct (N.eqb_spec (N.of_nat i) (N.of_nat j)), (Nat.eqb_spec i j); lia || reflexivity.
Qed.
Lemma par_pow2 i k : par (2 ^ N.of_nat i) k = (i <? k)%nat.
Proof.
  induction k as [|k IH]; [reflexivity|]. cbn [par]. rewrite IH, tb_pow2.
  destruct (Nat.eqb_spec i k), (Nat.ltb_spec i k), (Nat.ltb_spec i (S k)); lia || reflexivity.
Qed.
(** mask tests *)
Lemma land_bit x i : (0 <? N.land x (2 ^ N.of_nat i))%N = tb x i.
Proof.
  destruct (tb x i) eqn:E.
  - apply N.ltb_lt. destruct (N.eq_0_gt_0_cases (N.land x (2 ^ N.of_nat i))) as [Z|]; [|assumption].
    assert (F : tb (N.land x (2 ^ N.of_nat i)) i = false) by (rewrite Z; apply N.bits_0).
    rewrite N.land_spec, E, tb_pow2, Nat.eqb_refl in F. discriminate.
  - apply N.ltb_ge. assert (N.land x (2 ^ N.of_nat i) = 0%N) as ->; [|lia].
    apply N.bits_inj_0. intro j. rewrite N.land_spec, N.pow2_bits_eqb.
    destruct (N.eqb_spec (N.of_nat i) j); [subst; rewrite E; reflexivity|apply andb_false_r].
Qed.
Lemma pow2_small i : (i < 8)%nat -> (2 ^ N.of_nat i mod 256 = 2 ^ N.of_nat i)%N.
Proof. intro L. apply N.mod_small. change 256%N with (2 ^ 8)%N. apply N.pow_lt_mono_r; lia. Qed.
Lemma low_mask x i : N.land x (2 ^ N.of_nat i - 1) = (x mod 2 ^ N.of_nat i)%N.
Proof. rewrite <- N.land_ones, N.ones_equiv, N.sub_1_r. reflexivity. Qed.
Lemma odd_low x i : Nat.odd (popcnt (N.land x (2 ^ N.of_nat i - 1))) = par x i.
Proof.
  rewrite low_mask. rewrite (odd_popcnt _ i).
  - apply par_ext. intros j L. apply N.mod_pow2_bits_low. lia.
  - apply N.mod_lt. apply N.pow_nonzero. lia.
Qed.

(** ** mul *)
Section Mul.
Context (a : algebra).
Notation nul i := (i <? alg_r a)%nat.
Notation neg i := (alg_p a + alg_r a <=? i)%nat.
(** swaps needed to sort A B, contractions with a negative square, with a null square *)
Fixpoint swp (A B : N) (k : nat) : bool :=
  match k with O => false | S i => xorb (tb A i && par B i) (swp A B i) end.
Fixpoint ngs (A B : N) (k : nat) : bool :=
  match k with O => false | S i => xorb (tb A i && tb B i && neg i) (ngs A B i) end.
Fixpoint nls (A B : N) (k : nat) : bool :=
  match k with O => false | S i => (tb A i && tb B i && nul i) || nls A B i end.

Definition flip (b : bool) (z : Z) : Z := if b then - z else z.
Lemma flip_flip b c z : flip b (flip c z) = flip (xorb b c) z.
Proof. destruct b, c; cbn; lia. Qed.

Lemma mul_loop_spec A B k f : (k <= 8)%nat ->
  mul_loop a A B k f =
  if nls A B k then None else Some (flip (xorb (swp A B k) (ngs A B k && negb (nls A B k))) f).
Proof.
  revert f. induction k as [|k IH]; intros f L; [reflexivity|].
  cbn [mul_loop nls swp ngs]. rewrite pow2_small by lia. rewrite !land_bit, odd_low.
  rewrite !IH by lia.
  destruct (tb A k) eqn:EA; cbn [andb].
  2:{ destruct (nls A B k), (swp A B k), (ngs A B k); reflexivity. }
  destruct (tb B k) eqn:EB; cbn [andb].
  2:{ destruct (nls A B k); [reflexivity|].
      destruct (par B k), (swp A B k), (ngs A B k); cbn; f_equal; lia. }
  replace ((0 <? alg_r a)%nat && nul k) with (nul k).
  2:{ destruct (Nat.ltb_spec k (alg_r a)), (Nat.ltb_spec 0 (alg_r a)); lia || reflexivity. }
  destruct (nul k) eqn:EN; cbn [orb].
  - reflexivity.
  - destruct (neg k), (nls A B k); try reflexivity;
      destruct (par B k), (swp A B k), (ngs A B k); cbn; f_equal; lia.
Qed.

Definition msign (A B : N) : bool := xorb (swp A B (alg_dim a)) (ngs A B (alg_dim a)).
Definition mnull (A B : N) : bool := nls A B (alg_dim a).

Lemma swp_0_l B k : swp 0 B k = false.
Proof. induction k as [|k IH]; cbn; [reflexivity|rewrite IH; reflexivity]. Qed.
Lemma swp_0_r A k : swp A 0 k = false.
Proof. induction k as [|k IH]; cbn; [reflexivity|]. rewrite par_0, andb_false_r, IH. reflexivity. Qed.
Lemma ngs_0_l B k : ngs 0 B k = false.
Proof. induction k as [|k IH]; cbn; [reflexivity|rewrite IH; reflexivity]. Qed.
Lemma ngs_0_r A k : ngs A 0 k = false.
Proof. induction k as [|k IH]; cbn; [reflexivity|]. rewrite andb_false_r, IH. reflexivity. Qed.
Lemma nls_0_l B k : nls 0 B k = false.
Proof. induction k as [|k IH]; cbn; [reflexivity|rewrite IH; reflexivity]. Qed.
Lemma nls_0_r A k : nls A 0 k = false.
Proof. induction k as [|k IH]; cbn; [reflexivity|]. rewrite andb_false_r, IH. reflexivity. Qed.
Lemma i32_small z : - 2 ^ 31 <= z < 2 ^ 31 -> i32_of z = z.
Proof. intro L. unfold i32_of. rewrite Z.mod_small; lia. Qed.
Lemma lxor_lt A B n : (A < 2 ^ n -> B < 2 ^ n -> N.lxor A B < 2 ^ n)%N.
Proof.
  intros HA HB. destruct (N.eq_0_gt_0_cases (N.lxor A B)) as [->|P].
  - pose proof (N.pow_nonzero 2 n). lia.
  - apply N.log2_lt_pow2; [assumption|]. eapply N.le_lt_trans; [apply N.log2_lxor|].
    apply N.max_lub_lt; (destruct (N.eq_0_gt_0_cases A) as [->|PA];
      [|]; destruct (N.eq_0_gt_0_cases B) as [->|PB]; cbn [N.log2]);
      try (apply N.log2_lt_pow2; assumption);
      (destruct n; [cbn in *; lia|reflexivity || lia]).
Qed.

Lemma alg_mul_spec A B : (alg_dim a <= 8)%nat ->
  (A < 2 ^ N.of_nat (alg_dim a))%N -> (B < 2 ^ N.of_nat (alg_dim a))%N ->
  alg_mul a A B = if mnull A B then 0 else flip (msign A B) (Z.of_N (N.lxor A B) + 1).
Proof.
  intros D HA HB.
  assert (P8 : (2 ^ N.of_nat (alg_dim a) <= 256)%N)
    by (change 256%N with (2 ^ 8)%N; apply N.pow_le_mono_r; lia).
  assert (X := lxor_lt A B _ HA HB).
  unfold alg_mul, mnull, msign.
  destruct (N.eqb_spec A 0) as [->|NA], (N.eqb_spec B 0) as [->|NB]; cbn [andb];
    rewrite ?swp_0_l, ?ngs_0_l, ?nls_0_l, ?swp_0_r, ?ngs_0_r, ?nls_0_r; cbn [xorb flip].
  - reflexivity.
  - rewrite i32_small by lia. rewrite N.lxor_0_l. reflexivity.
  - rewrite i32_small by lia. rewrite N.lxor_0_r. reflexivity.
  - rewrite mul_loop_spec by assumption. destruct (nls A B (alg_dim a)) eqn:EN; [reflexivity|].
    cbn [negb]. rewrite andb_true_r.
    destruct (xorb _ _); cbn [flip]; rewrite i32_small by lia; lia.
Qed.

(** bilinearity of the exponents, hence associativity *)
Lemma swp_xor_l A B C k : swp (N.lxor A B) C k = xorb (swp A C k) (swp B C k).
Proof.
  induction k as [|k IH]; cbn; [reflexivity|]. rewrite IH, N.lxor_spec.
  destruct (tb A k), (tb B k), (par C k), (swp A C k), (swp B C k); reflexivity.
Qed.
Lemma swp_xor_r A B C k : swp A (N.lxor B C) k = xorb (swp A B k) (swp A C k).
Proof.
  induction k as [|k IH]; cbn; [reflexivity|]. rewrite IH, par_xor.
  destruct (tb A k), (par B k), (par C k), (swp A B k), (swp A C k); reflexivity.
Qed.
Lemma ngs_assoc A B C k :
  xorb (ngs A B k) (ngs (N.lxor A B) C k) = xorb (ngs B C k) (ngs A (N.lxor B C) k).
Proof.
  induction k as [|k IH]; cbn; [reflexivity|]. rewrite !N.lxor_spec.
  destruct (tb A k), (tb B k), (tb C k), (neg k), (ngs A B k), (ngs (N.lxor A B) C k), (ngs B C k),
    (ngs A (N.lxor B C) k); cbn in *; congruence.
Qed.
Lemma nls_assoc A B C k :
  nls A B k || nls (N.lxor A B) C k = nls B C k || nls A (N.lxor B C) k.
Proof.
  induction k as [|k IH]; cbn [nls]; [reflexivity|]. rewrite !N.lxor_spec.
  destruct (tb A k), (tb B k), (tb C k), (nul k), (nls A B k), (nls (N.lxor A B) C k), (nls B C k),
    (nls A (N.lxor B C) k); cbn in *; congruence.
Qed.
Lemma msign_assoc A B C :
  xorb (msign A B) (msign (N.lxor A B) C) = xorb (msign B C) (msign A (N.lxor B C)).
Proof.
  unfold msign. rewrite swp_xor_l, swp_xor_r. pose proof (ngs_assoc A B C (alg_dim a)).
  destruct (swp A B (alg_dim a)), (swp A C (alg_dim a)), (swp B C (alg_dim a)),
    (ngs A B (alg_dim a)), (ngs (N.lxor A B) C (alg_dim a)), (ngs B C (alg_dim a)),
    (ngs A (N.lxor B C) (alg_dim a)); cbn in *; congruence.
Qed.

(** generators *)
Lemma swp_pow2_l i B k : swp (2 ^ N.of_nat i) B k = (i <? k)%nat && par B i.
Proof.
  induction k as [|k IH]; [reflexivity|]. cbn [swp]. rewrite IH, tb_pow2.
  destruct (Nat.eqb_spec i k), (Nat.ltb_spec i k), (Nat.ltb_spec i (S k)); try lia; subst;
    cbn [andb]; rewrite ?xorb_false_r, ?xorb_false_l; reflexivity.
Qed.
Lemma ngs_pow2_l i B k : ngs (2 ^ N.of_nat i) B k = (i <? k)%nat && tb B i && neg i.
Proof.
  induction k as [|k IH]; [reflexivity|]. cbn [ngs]. rewrite IH, tb_pow2.
  destruct (Nat.eqb_spec i k), (Nat.ltb_spec i k), (Nat.ltb_spec i (S k)); try lia; subst;
    cbn [andb]; rewrite ?xorb_false_r, ?xorb_false_l; reflexivity.
Qed.
Lemma nls_pow2_l i B k : nls (2 ^ N.of_nat i) B k = (i <? k)%nat && tb B i && nul i.
Proof.
  induction k as [|k IH]; [reflexivity|]. cbn [nls]. rewrite IH, tb_pow2.
  destruct (Nat.eqb_spec i k), (Nat.ltb_spec i k), (Nat.ltb_spec i (S k)); try lia; subst;
    cbn [andb orb]; rewrite ?orb_false_r; reflexivity.
Qed.
Lemma pow2_lt i n : (i < n)%nat -> (2 ^ N.of_nat i < 2 ^ N.of_nat n)%N.
Proof. intro L. apply N.pow_lt_mono_r; lia. Qed.
End Mul.

(** ** ext *)
(** swaps counted from the right operand: bits of A above each bit of B *)
Fixpoint swx (A B : N) (n k : nat) : bool :=
  match k with O => false | S j => xorb (tb B j && xorb (par A n) (par A (S j))) (swx A B n j) end.
Lemma lt_bits x n i : (x < 2 ^ N.of_nat n)%N -> (n <= i)%nat -> tb x i = false.
Proof.
  intros L I. destruct (N.eq_0_gt_0_cases x) as [->|P]; [apply N.bits_0|].
  apply N.bits_above_log2. apply N.lt_le_trans with (N.of_nat n); [|lia].
  apply N.log2_lt_pow2; assumption.
Qed.
Lemma odd_high x n i : (x < 2 ^ N.of_nat n)%N -> (i < n)%nat ->
  Nat.odd (popcnt (N.ldiff x (2 ^ N.of_nat (i + 1) - 1))) = xorb (par x n) (par x (S i)).
Proof.
  intros L I.
  replace (2 ^ N.of_nat (i + 1) - 1)%N with (N.ones (N.of_nat (S i)))
    by (rewrite N.ones_equiv, N.sub_1_r; do 2 f_equal; lia).
  assert (SP : x = N.lxor (N.ldiff x (N.ones (N.of_nat (S i)))) (N.land x (N.ones (N.of_nat (S i))))).
  { apply N.bits_inj. intro j. rewrite N.lxor_spec, N.ldiff_spec, N.land_spec.
    destruct (N.testbit x j), (N.testbit (N.ones (N.of_nat (S i))) j); reflexivity. }
  assert (HL : (N.ldiff x (N.ones (N.of_nat (S i))) < 2 ^ N.of_nat n)%N).
  { apply N.le_lt_trans with x; [|assumption].
    rewrite N.ldiff_ones_r, N.shiftl_mul_pow2, N.shiftr_div_pow2, N.mul_comm.
    apply N.mul_div_le. apply N.pow_nonzero. lia. }
  rewrite (odd_popcnt _ n HL).
  assert (E : par x n = xorb (par (N.ldiff x (N.ones (N.of_nat (S i)))) n) (par (N.land x (N.ones (N.of_nat (S i)))) n))
    by (rewrite <- par_xor, <- SP; reflexivity).
  assert (F : par (N.land x (N.ones (N.of_nat (S i)))) n = par x (S i)).
  { assert (G : forall k, (S i <= k)%nat -> par (N.land x (N.ones (N.of_nat (S i)))) k = par x (S i)).
    { induction k as [|k IH]; intro K; [lia|].
      destruct (Nat.eq_dec (S i) (S k)) as [Q|Q].
      - rewrite <- Q. apply par_ext. intros j J. rewrite N.land_spec, N.ones_spec_low by lia. apply andb_true_r.
      - cbn [par] in IH |- *. rewrite IH by lia. rewrite N.land_spec, N.ones_spec_high by lia.
        rewrite andb_false_r, xorb_false_l. reflexivity. }
    apply G. lia. }
  rewrite E, F. destruct (par (N.ldiff x _) n), (par x (S i)); reflexivity.
Qed.
Lemma ext_fold_spec A B n k f : (A < 2 ^ N.of_nat n)%N -> (k <= n)%nat ->
  fold_left (fun factor i =>
      if (0 <? N.land B (2 ^ N.of_nat i))%N then
        let swaps := popcnt (N.ldiff A (2 ^ N.of_nat (i + 1) - 1)) in
        if Nat.odd swaps then - factor else factor
      else factor) (seq 0 k) f = flip (swx A B n k) f.
Proof.
  intros L. induction k as [|k IH]; intro K; [reflexivity|].
  rewrite seq_S, fold_left_app, IH by lia. cbn [plus fold_left swx].
  rewrite land_bit. cbn zeta. rewrite (odd_high A n k) by (assumption || lia).
  destruct (tb B k), (par A n), (par A (S k)), (swx A B n k); cbn; lia.
Qed.
Lemma lor_lxor A B : N.land A B = 0%N -> N.lor A B = N.lxor A B.
Proof.
  intro Z. apply N.bits_inj. intro i. rewrite N.lor_spec, N.lxor_spec.
  assert (E : N.testbit (N.land A B) i = false) by (rewrite Z; apply N.bits_0).
  rewrite N.land_spec in E. destruct (N.testbit A i), (N.testbit B i); cbn in *; congruence.
Qed.
Lemma alg_ext_spec a A B : (alg_dim a <= 30)%nat ->
  (A < 2 ^ N.of_nat (alg_dim a))%N -> (B < 2 ^ N.of_nat (alg_dim a))%N ->
  alg_ext a A B = if (N.land A B =? 0)%N
    then flip (swx A B (alg_dim a) (alg_dim a)) (Z.of_N (N.lxor A B) + 1) else 0.
Proof.
  intros D HA HB. unfold alg_ext.
  assert (P30 : (2 ^ N.of_nat (alg_dim a) <= 2 ^ 30)%N) by (apply N.pow_le_mono_r; lia).
  assert (X := lxor_lt A B _ HA HB).
  destruct (N.eqb_spec (N.land A B) 0) as [Z|NZ].
  - rewrite Z. cbn [N.ltb N.compare]. rewrite (ext_fold_spec A B (alg_dim a)) by (assumption || lia).
    rewrite (lor_lxor A B Z). change (2 ^ 30)%N with 1073741824%N in P30.
    destruct (swx A B (alg_dim a) (alg_dim a)); cbn [flip]; rewrite i32_small by lia; lia.
  - destruct (N.ltb_spec 0 (N.land A B)); [reflexivity|lia].
Qed.
Lemma swx_xor_l A B C n k : swx (N.lxor A B) C n k = xorb (swx A C n k) (swx B C n k).
Proof.
  induction k as [|k IH]; cbn [swx]; [reflexivity|]. rewrite IH, !par_xor.
  destruct (tb C k), (par A n), (par B n), (par A (S k)), (par B (S k)), (swx A C n k), (swx B C n k); reflexivity.
Qed.
Lemma swx_xor_r A B C n k : swx A (N.lxor B C) n k = xorb (swx A B n k) (swx A C n k).
Proof.
  induction k as [|k IH]; cbn [swx]; [reflexivity|]. rewrite IH, N.lxor_spec.
  destruct (tb B k), (tb C k), (par A n), (par A (S k)), (swx A B n k), (swx A C n k); reflexivity.
Qed.
Lemma swx_0_l B n k : swx 0 B n k = false.
Proof. induction k as [|k IH]; cbn [swx]; [reflexivity|]. rewrite IH, !par_0, andb_false_r. reflexivity. Qed.
Lemma swx_0_r A n k : swx A 0 n k = false.
Proof. induction k as [|k IH]; cbn [swx]; [reflexivity|]. rewrite IH. reflexivity. Qed.
Lemma swx_S A B n k : (k <= n)%nat -> swx A B (S n) k = xorb (swx A B n k) (tb A n && par B k).
Proof.
  intro L. induction k as [|k IH]; [cbn; rewrite andb_false_r; reflexivity|].
  cbn [swx]. rewrite IH by lia. cbn [par].
  destruct (tb B k), (tb A n), (par A n), (par A k), (tb A k), (swx A B n k), (par B k); reflexivity.
Qed.
(** the two ways of counting inversions agree *)
Lemma swx_swp A B n : swx A B n n = swp A B n.
Proof.
  induction n as [|n IH]; [reflexivity|].
  cbn [swx swp]. rewrite swx_S by lia. rewrite IH. cbn [par].
  destruct (tb B n), (tb A n), (par A n), (swp A B n), (par B n); reflexivity.
Qed.
