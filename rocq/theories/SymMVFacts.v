(** Facts about symbolic multivectors: what the operations evaluate to, the
    normal form of their results, and the connection with P(R*_{3,0,1}). *)
From Coq Require Import List Bool ZArith NArith String Reals Lia Lra Permutation.
From Coq Require Import Setoid Morphisms.
From Verif Require Import Scalar SpecPGA SymMap SymPoly SymPolyFacts SymGA SymGAFacts.
Import ListNotations.
Local Open Scope R_scope.

Lemma elem_strict_total : strict_total elem_lt.
Proof.
  unfold elem_lt. split; [|split].
  - intro a. rewrite Nat.ltb_irrefl. apply N.ltb_irrefl.
  - intros a b c.
    destruct (Nat.ltb_spec (popcnt a) (popcnt b)), (Nat.ltb_spec (popcnt b) (popcnt a));
      try discriminate; try lia;
    destruct (Nat.ltb_spec (popcnt b) (popcnt c)), (Nat.ltb_spec (popcnt c) (popcnt b));
      try discriminate; try lia;
    destruct (Nat.ltb_spec (popcnt a) (popcnt c)), (Nat.ltb_spec (popcnt c) (popcnt a));
      try discriminate; try lia; auto.
    rewrite !N.ltb_lt. lia.
  - intros a b.
    destruct (Nat.ltb_spec (popcnt a) (popcnt b)); [discriminate|].
    destruct (Nat.ltb_spec (popcnt b) (popcnt a)); [discriminate|].
    rewrite !N.ltb_ge. lia.
Qed.

Section MVFacts.
Context {C : Type} `{CoefLaws C}.
Notation poly := (poly C).
Notation smv := (smv C).
Implicit Types m a b : smv.

(** ** Evaluation: the coefficient of each blade under an assignment *)
Definition ev (rho : string -> R) (m : smv) (k : N) : R :=
  fold_right (fun ep x => (if N.eqb (fst ep) k then peval rho (snd ep) else 0) + x) 0 m.
Definition spow_ok (rho : string -> R) (m : smv) : Prop :=
  forall e p, In (e, p) m -> ppow_ok rho p.

Lemma ev_perm rho m m' k : Permutation m m' -> ev rho m k = ev rho m' k.
Proof.
  induction 1 as [|x l l' P IH|x y l|l1 l2 l3 P1 IH1 P2 IH2]; unfold ev in *; cbn;
    [reflexivity|rewrite IH; reflexivity|ring|congruence].
Qed.
Lemma ev_cons rho e p m k :
  ev rho ((e, p) :: m) k = (if N.eqb e k then peval rho p else 0) + ev rho m k.
Proof. reflexivity. Qed.
Lemma ev_app rho m m' k : ev rho (m ++ m') k = ev rho m k + ev rho m' k.
Proof.
  induction m as [|[e p] m IH]; cbn [app]; [unfold ev at 2; cbn; ring|].
  rewrite !ev_cons, IH. ring.
Qed.
Lemma find_perm e q m : find elem_lt e m = Some q ->
  Permutation m ((e, q) :: erase elem_lt e m) /\
  forall w, Permutation (assign elem_lt e w m) ((e, w) :: erase elem_lt e m).
Proof.
  intro F. destruct (erase_perm _ _ _ _ F) as [e' [A [B [P1 P2]]]].
  assert (e' = e) by (apply (proj2 (proj2 elem_strict_total)); assumption). subst e'. auto.
Qed.
Lemma ev_push rho m e p k :
  ev rho (smv_push m e p) k = ev rho m k + (if N.eqb e k then peval rho p else 0).
Proof.
  unfold smv_push. destruct (find elem_lt e m) as [q|] eqn:F.
  - destruct (find_perm _ _ _ F) as [P1 P2].
    rewrite (ev_perm _ _ _ _ P1), ev_cons.
    pose proof (peval_add rho q p) as A.
    destruct (poly_add q p) as [|x s] eqn:E.
    + cbn in A. destruct (N.eqb e k); lra.
    + rewrite (ev_perm _ _ _ _ (P2 (x :: s))), ev_cons, A. destruct (N.eqb e k); ring.
  - rewrite (ev_perm _ _ _ _ (emplace_perm _ e p m F)), ev_cons. ring.
Qed.
Lemma ev_add rho a b k : ev rho (smv_add a b) k = ev rho a k + ev rho b k.
Proof.
  unfold smv_add. revert a. induction b as [|[e p] b IH]; intro a; cbn [fold_left fst snd].
  - cbn. ring.
  - rewrite IH, ev_push, ev_cons. ring.
Qed.
Lemma ev_sub rho a b k : ev rho (smv_sub a b) k = ev rho a k - ev rho b k.
Proof.
  unfold smv_sub. revert a. induction b as [|[e p] b IH]; intro a; cbn [fold_left fst snd].
  - cbn. ring.
  - rewrite IH, ev_push, ev_cons, peval_opp. destruct (N.eqb e k); ring.
Qed.
Lemma ev_opp rho a k : ev rho (smv_opp a) k = - ev rho a k.
Proof.
  induction a as [|[e p] a IH]; [cbn; ring|].
  change (smv_opp ((e, p) :: a)) with ((e, poly_opp p) :: smv_opp a).
  rewrite !ev_cons, IH, peval_opp. destruct (N.eqb e k); ring.
Qed.
Lemma ev_rev rho a k : ev rho (smv_rev a) k = if alg_rev k then - ev rho a k else ev rho a k.
Proof.
  induction a as [|[e p] a IH]; [destruct (alg_rev k); cbn; ring|].
  change (smv_rev ((e, p) :: a)) with ((e, if alg_rev e then poly_opp p else p) :: smv_rev a).
  rewrite !ev_cons, IH. destruct (N.eqb_spec e k) as [->|]; destruct (alg_rev k);
    rewrite ?peval_opp; ring.
Qed.
Lemma ev_prune rho m k : ev rho (smv_prune m) k = ev rho m k.
Proof.
  induction m as [|[e p] m IH]; [reflexivity|]. cbn [smv_prune filter snd].
  destruct p as [|x p].
  - rewrite ev_cons. cbn [peval fold_right]. change (filter _ m) with (smv_prune m). rewrite IH.
    destruct (N.eqb e k); ring.
  - rewrite !ev_cons. change (filter _ m) with (smv_prune m). rewrite IH. reflexivity.
Qed.
(** what one pair of terms contributes to blade k *)
Definition contrib (op : N -> N -> Z) (rho : string -> R) (e1 : N) (p1 : poly) (e2 : N) (p2 : poly) (k : N) : R :=
  if negb (op e1 e2 =? 0)%Z && N.eqb (blade_of (op e1 e2)) k
  then IZR (Z.sgn (op e1 e2)) * (peval rho p1 * peval rho p2) else 0.
Lemma ev_acc op rho e1 p1 out e2 p2 k : ppow_ok rho p1 -> ppow_ok rho p2 ->
  ev rho (smv_acc op e1 p1 out e2 p2) k = ev rho out k + contrib op rho e1 p1 e2 p2 k.
Proof.
  intros P1 P2. unfold smv_acc, contrib. destruct (Z.eqb_spec (op e1 e2) 0) as [Z|NZ]; cbn [negb andb].
  { ring. }
  set (e := blade_of (op e1 e2)).
  set (add := if (op e1 e2 <? 0)%Z then poly_opp (poly_mul p1 p2) else poly_mul p1 p2).
  assert (A : peval rho add = IZR (Z.sgn (op e1 e2)) * (peval rho p1 * peval rho p2)).
  { unfold add. destruct (op e1 e2) as [|z|z]; [congruence| |]; cbn [Z.ltb Z.compare Z.sgn];
      rewrite ?peval_opp, peval_mul by assumption; ring. }
  set (out' := match find elem_lt e out with Some _ => out | None => emplace elem_lt e [] out end).
  assert (O : forall k, ev rho out' k = ev rho out k).
  { intro j. unfold out'. destruct (find elem_lt e out) eqn:F; [reflexivity|].
    rewrite (ev_perm _ _ _ _ (emplace_perm _ e [] out F)), ev_cons. cbn. destruct (N.eqb e j); ring. }
  assert (F : exists q, find elem_lt e out' = Some q).
  { unfold out'. destruct (find elem_lt e out) as [q|] eqn:F; [exists q; assumption|].
    clear - F. destruct elem_strict_total as [IR _].
    induction out as [|[e0 p0] out IH]; cbn in *; [rewrite IR; eauto|].
    destruct (elem_lt e0 e) eqn:E1; cbn; [rewrite E1; auto|].
    destruct (elem_lt e e0); [cbn; rewrite IR; eauto|discriminate]. }
  destruct F as [q F]. rewrite F. destruct (find_perm _ _ _ F) as [Q1 Q2].
  rewrite (ev_perm _ _ _ _ (Q2 _)), ev_cons, peval_add, A.
  rewrite <- O, (ev_perm _ _ _ _ Q1), ev_cons. destruct (N.eqb e k); ring.
Qed.
Lemma ev_prod op rho a b k : spow_ok rho a -> spow_ok rho b ->
  ev rho (smv_prod op a b) k =
  fold_right (fun ep1 x => fold_right (fun ep2 y =>
     contrib op rho (fst ep1) (snd ep1) (fst ep2) (snd ep2) k + y) 0 b + x) 0 a.
Proof.
  intros A B. unfold smv_prod. rewrite ev_prune.
  assert (IN : forall e1 p1, ppow_ok rho p1 -> forall out,
    ev rho (fold_left (fun out ep2 => smv_acc op e1 p1 out (fst ep2) (snd ep2)) b out) k
    = ev rho out k + fold_right (fun ep2 y => contrib op rho e1 p1 (fst ep2) (snd ep2) k + y) 0 b).
  { intros e1 p1 P1. induction b as [|[e2 p2] b IH]; intro out; cbn [fold_left fold_right fst snd].
    - ring.
    - rewrite IH by (intros e p I; apply (B e p); right; assumption).
      rewrite ev_acc; [ring|assumption|]. apply (B e2 p2). left. reflexivity. }
  assert (OUT : forall out, ev rho (fold_left (fun out ep1 =>
       fold_left (fun out ep2 => smv_acc op (fst ep1) (snd ep1) out (fst ep2) (snd ep2)) b out) a out) k
    = ev rho out k + fold_right (fun ep1 x => fold_right (fun ep2 y =>
     contrib op rho (fst ep1) (snd ep1) (fst ep2) (snd ep2) k + y) 0 b + x) 0 a).
  { induction a as [|[e1 p1] a IH]; intro out; cbn [fold_left fold_right fst snd].
    - ring.
    - rewrite IH by (intros e p I; apply (A e p); right; assumption).
      rewrite IN by (apply (A e1 p1); left; reflexivity). ring. }
  rewrite OUT. unfold ev. cbn. ring.
Qed.

(** ** Normal form *)
Definition smv_normal (n : nat) (m : smv) : Prop :=
  sorted elem_lt m /\
  forall e p, In (e, p) m -> normal p /\ p <> [] /\ (e < 2 ^ N.of_nat n)%N.
(** the intermediate results of a product may still hold empty polynomials *)
Definition smv_pre (n : nat) (m : smv) : Prop :=
  sorted elem_lt m /\ forall e p, In (e, p) m -> normal p /\ (e < 2 ^ N.of_nat n)%N.

Lemma smv_normal_tail n x m : smv_normal n (x :: m) -> smv_normal n m.
Proof. intros [S N]. split; [inversion S; assumption|]. cbn in N. eauto. Qed.
Lemma smv_normal_push n m e p : smv_normal n m -> normal p -> p <> [] -> (e < 2 ^ N.of_nat n)%N ->
  smv_normal n (smv_push m e p).
Proof.
  intros [S N] P PN E. unfold smv_push. destruct (find elem_lt e m) as [q|] eqn:F.
  - assert (Q : normal q).
    { apply (find_In _ elem_strict_total) in F; [|assumption]. apply (N _ _ F). }
    assert (A := normal_add q p Q P). destruct (poly_add q p) as [|x s] eqn:EA.
    + split; [apply sorted_erase; assumption|]. intros e' p' I. apply In_erase in I. eauto.
    + split; [apply sorted_assign; assumption|].
      intros e' p' I. apply In_assign in I. destruct I as [I|[-> [v0 I]]]; [eauto|].
      split; [exact A|split; [discriminate|apply (N _ _ I)]].
  - split; [apply sorted_emplace; [apply elem_strict_total|assumption]|].
    intros e' p' I. apply In_emplace in I. destruct I as [I|I]; [inversion I; subst; auto|eauto].
Qed.
Lemma smv_normal_add n a b : smv_normal n a -> smv_normal n b -> smv_normal n (smv_add a b).
Proof.
  unfold smv_add. revert a. induction b as [|[e p] b IH]; intros a A B; cbn [fold_left fst snd]; [assumption|].
  destruct (proj2 B e p (or_introl eq_refl)) as [P [PN E]].
  apply IH; [apply smv_normal_push; assumption|eapply smv_normal_tail; eassumption].
Qed.
Lemma poly_opp_nil p : p <> [] -> poly_opp p <> [].
Proof. destruct p; [congruence|discriminate]. Qed.
Lemma smv_normal_sub n a b : smv_normal n a -> smv_normal n b -> smv_normal n (smv_sub a b).
Proof.
  unfold smv_sub. revert a. induction b as [|[e p] b IH]; intros a A B; cbn [fold_left fst snd]; [assumption|].
  destruct (proj2 B e p (or_introl eq_refl)) as [P [PN E]].
  apply IH; [|eapply smv_normal_tail; eassumption].
  apply smv_normal_push; try assumption; [apply normal_opp; assumption|apply poly_opp_nil; assumption].
Qed.
Lemma smv_normal_opp n a : smv_normal n a -> smv_normal n (smv_opp a).
Proof.
  intros [S N]. split; [exact (sorted_map_value elem_lt (fun _ p => poly_opp p) a S)|].
  intros e p I. apply in_map_iff in I. destruct I as [[e0 p0] [E I]]. inversion E; subst. cbn.
  destruct (N _ _ I) as [P [PN L]].
  split; [apply normal_opp; assumption|split; [apply poly_opp_nil|]; assumption].
Qed.
Lemma smv_normal_rev n a : smv_normal n a -> smv_normal n (smv_rev a).
Proof.
  intros [S N]. split; [exact (sorted_map_value elem_lt (fun e p => if alg_rev e then poly_opp p else p) a S)|].
  intros e p I. apply in_map_iff in I. destruct I as [[e0 p0] [E I]]. inversion E; subst. cbn [fst snd].
  destruct (N _ _ I) as [P [PN L]]. destruct (alg_rev _); [|auto].
  split; [apply normal_opp; assumption|split; [apply poly_opp_nil|]; assumption].
Qed.
Definition op_closed (n : nat) (op : N -> N -> Z) : Prop :=
  forall e1 e2, (e1 < 2 ^ N.of_nat n)%N -> (e2 < 2 ^ N.of_nat n)%N -> op e1 e2 <> 0%Z ->
    (blade_of (op e1 e2) < 2 ^ N.of_nat n)%N.
Lemma smv_pre_acc n op e1 p1 out e2 p2 : op_closed n op ->
  (e1 < 2 ^ N.of_nat n)%N -> (e2 < 2 ^ N.of_nat n)%N -> normal p1 -> normal p2 ->
  smv_pre n out -> smv_pre n (smv_acc op e1 p1 out e2 p2).
Proof.
  intros CL E1 E2 P1 P2 [S N]. unfold smv_acc.
  destruct (Z.eqb_spec (op e1 e2) 0) as [Z|NZ]; cbn [negb]; [split; assumption|].
  specialize (CL e1 e2 E1 E2 NZ). set (e := blade_of (op e1 e2)) in *.
  set (out' := match find elem_lt e out with Some _ => out | None => emplace elem_lt e [] out end).
  assert (O : smv_pre n out').
  { unfold out'. destruct (find elem_lt e out); [split; assumption|].
    split; [apply sorted_emplace; [apply elem_strict_total|assumption]|].
    intros e' p' I. apply In_emplace in I. destruct I as [I|I]; [inversion I; subst; auto using normal_nil|eauto]. }
  destruct O as [S' N']. split; [apply sorted_assign; assumption|].
  intros e' p' I. apply In_assign in I. destruct I as [I|[-> [v0 I]]]; [eauto|].
  split; [|apply (N' _ _ I)].
  apply normal_add.
  - destruct (find elem_lt e out') as [q|] eqn:F; [|apply normal_nil].
    apply (find_In _ elem_strict_total) in F; [|assumption]. apply (N' _ _ F).
  - destruct (op e1 e2 <? 0)%Z; [apply normal_opp|]; apply normal_mul; assumption.
Qed.
Lemma smv_normal_prod n op a b : op_closed n op ->
  smv_normal n a -> smv_normal n b -> smv_normal n (smv_prod op a b).
Proof.
  intros CL A B. unfold smv_prod.
  assert (IN : forall e1 p1 out, (e1 < 2 ^ N.of_nat n)%N -> normal p1 -> smv_pre n out ->
    smv_pre n (fold_left (fun out ep2 => smv_acc op e1 p1 out (fst ep2) (snd ep2)) b out)).
  { intros e1 p1 out E1 P1. revert out. clear A.
    induction b as [|[e2 p2] b IH]; intros out O; cbn [fold_left fst snd]; [assumption|].
    destruct (proj2 B e2 p2 (or_introl eq_refl)) as [P2 [_ E2]].
    apply IH; [eapply smv_normal_tail; eassumption|]. apply smv_pre_acc; assumption. }
  assert (OUT : forall out, smv_pre n out -> smv_pre n (fold_left (fun out ep1 =>
       fold_left (fun out ep2 => smv_acc op (fst ep1) (snd ep1) out (fst ep2) (snd ep2)) b out) a out)).
  { induction a as [|[e1 p1] a IH]; intros out O; cbn [fold_left fst snd]; [assumption|].
    destruct (proj2 A e1 p1 (or_introl eq_refl)) as [P1 [_ E1]].
    apply IH; [eapply smv_normal_tail; eassumption|]. apply IN; assumption. }
  destruct (OUT []) as [S N]; [split; [constructor|intros ? ? []]|].
  split; [apply sorted_filter; assumption|].
  intros e p I. apply filter_In in I. destruct I as [I PN]. destruct (N _ _ I) as [P E].
  split; [exact P|split; [|assumption]]. intros ->. discriminate.
Qed.

(** evaluation of a sorted multivector is a lookup *)
Lemma ev_find rho m k : sorted elem_lt m ->
  ev rho m k = match find elem_lt k m with Some p => peval rho p | None => 0 end.
Proof.
  destruct elem_strict_total as [IR [TR TO]].
  induction 1 as [|e p m L S IH]; [reflexivity|]. rewrite ev_cons, IH. cbn.
  destruct (elem_lt e k) eqn:E1.
  - destruct (N.eqb_spec e k) as [->|]; [rewrite IR in E1; discriminate|ring].
  - destruct (elem_lt k e) eqn:E2.
    + destruct (N.eqb_spec e k) as [->|]; [rewrite IR in E2; discriminate|].
      rewrite (proj2 (find_None _ elem_strict_total k m S)); [ring|].
      intros v I. apply L in I. congruence.
    + rewrite (TO e k E1 E2), N.eqb_refl.
      rewrite (proj2 (find_None _ elem_strict_total k m S)); [ring|].
      intros v I. apply L in I. rewrite (TO e k E1 E2), IR in I. discriminate.
Qed.
Lemma smv_unique n a b : smv_normal n a -> smv_normal n b ->
  (forall rho, (forall v, rho v <> 0) -> forall k, ev rho a k = ev rho b k) -> a = b.
Proof.
  intros A B E. apply (sorted_ext _ elem_strict_total); [apply A|apply B|].
  intro k. assert (Ek : forall rho, (forall v, rho v <> 0) ->
    match find elem_lt k a with Some p => peval rho p | None => 0 end =
    match find elem_lt k b with Some p => peval rho p | None => 0 end).
  { intros rho NZ. rewrite <- !ev_find; [apply E; assumption|apply B|apply A]. }
  destruct (find elem_lt k a) as [p|] eqn:Fa, (find elem_lt k b) as [q|] eqn:Fb; try reflexivity.
  - f_equal. apply (find_In _ elem_strict_total) in Fa; [|apply A].
    apply (find_In _ elem_strict_total) in Fb; [|apply B].
    apply normal_unique; [apply (proj2 A _ _ Fa)|apply (proj2 B _ _ Fb)|assumption].
  - apply (find_In _ elem_strict_total) in Fa; [|apply A]. destruct (proj2 A _ _ Fa) as [P [PN _]].
    elim PN. apply normal_zero; assumption.
  - apply (find_In _ elem_strict_total) in Fb; [|apply B]. destruct (proj2 B _ _ Fb) as [P [PN _]].
    elim PN. apply normal_zero; [assumption|]. intros rho NZ. symmetry. auto.
Qed.

(** ** P(R*_{3,0,1}): bit i is e_i *)
Definition code (k : blade) : N :=
  let '(Bl a0 a1 a2 a3) := k in
  ((if a0 then 1 else 0) + (if a1 then 2 else 0) + (if a2 then 4 else 0) + (if a3 then 8 else 0))%N.
Definition bl (e : N) : blade :=
  Bl (N.testbit e 0) (N.testbit e 1) (N.testbit e 2) (N.testbit e 3).
(** the multivector a symbolic multivector denotes under an assignment *)
Definition pga_eval (rho : string -> R) (m : smv) : SpecPGA.mv := fun k => ev rho m (code k).

Definition keys16 (m : smv) : Prop := forall e p, In (e, p) m -> (e < 16)%N.
Lemma lt16_cases (P : N -> Prop) :
  P 0%N -> P 1%N -> P 2%N -> P 3%N -> P 4%N -> P 5%N -> P 6%N -> P 7%N -> P 8%N -> P 9%N ->
  P 10%N -> P 11%N -> P 12%N -> P 13%N -> P 14%N -> P 15%N -> forall e, (e < 16)%N -> P e.
Proof.
  intros. destruct e as [|p]; [assumption|].
  do 4 (destruct p as [p|p|]; try assumption; try lia).
Qed.
Lemma basis_bl e k : (e < 16)%N -> basis (bl e) k = if N.eqb e (code k) then 1 else 0.
Proof.
  revert e. apply (lt16_cases (fun e => basis (bl e) k = if N.eqb e (code k) then 1 else 0));
    destruct k as [[|] [|] [|] [|]]; reflexivity.
Qed.
Definition lin (rho : string -> R) (m : smv) : SpecPGA.mv :=
  fold_right (fun ep acc => mvadd (mvscale (peval rho (snd ep)) (basis (bl (fst ep)))) acc) mvzero m.
Lemma pga_eval_lin rho m : keys16 m -> pga_eval rho m == lin rho m.
Proof.
  intros K k. unfold pga_eval. induction m as [|[e p] m IH]; [reflexivity|].
  rewrite ev_cons, IH by (intros e' p' I; apply (K e' p'); right; assumption).
  cbn [lin fold_right fst snd]. unfold mvadd at 1, mvscale at 1.
  rewrite basis_bl by (apply (K e p); left; reflexivity).
  change (fold_right _ mvzero m) with (lin rho m). destruct (N.eqb e (code k)); ring.
Qed.
(** A bilinear product of P(R*_{3,0,1}) that agrees with [op] on blades is what
    the symbolic product with [op] evaluates to. *)
Definition bilinear (f : SpecPGA.mv -> SpecPGA.mv -> SpecPGA.mv) : Prop :=
  (forall x x' y y', x == x' -> y == y' -> f x y == f x' y') /\
  (forall x y z, f (mvadd x y) z == mvadd (f x z) (f y z)) /\
  (forall x y z, f z (mvadd x y) == mvadd (f z x) (f z y)) /\
  (forall s x z, f (mvscale s x) z == mvscale s (f x z)) /\
  (forall s x z, f z (mvscale s x) == mvscale s (f z x)).
Definition agrees (op : N -> N -> Z) (f : SpecPGA.mv -> SpecPGA.mv -> SpecPGA.mv) : Prop :=
  forall e1 e2, (e1 < 16)%N -> (e2 < 16)%N ->
    f (basis (bl e1)) (basis (bl e2)) ==
    fun k => if negb (op e1 e2 =? 0)%Z && N.eqb (blade_of (op e1 e2)) (code k)
             then IZR (Z.sgn (op e1 e2)) else 0.
Lemma bilinear_zero_l f y : bilinear f -> f mvzero y == mvzero.
Proof.
  intros [P [_ [_ [SL _]]]] k.
  assert (E : mvzero == mvscale 0 mvzero) by (intro j; unfold mvscale, mvzero; ring).
  rewrite (P _ _ _ _ E (mveq_refl y) k), (SL 0 mvzero y k). unfold mvscale, mvzero. ring.
Qed.
Lemma bilinear_zero_r f y : bilinear f -> f y mvzero == mvzero.
Proof.
  intros [P [_ [_ [_ SR]]]] k.
  assert (E : mvzero == mvscale 0 mvzero) by (intro j; unfold mvscale, mvzero; ring).
  rewrite (P _ _ _ _ (mveq_refl y) E k), (SR 0 mvzero y k). unfold mvscale, mvzero. ring.
Qed.
Lemma pga_eval_prod op f rho a b : bilinear f -> agrees op f ->
  keys16 a -> keys16 b -> spow_ok rho a -> spow_ok rho b ->
  pga_eval rho (smv_prod op a b) == f (pga_eval rho a) (pga_eval rho b).
Proof.
  intros BF AG KA KB PA PB k. unfold pga_eval at 1. rewrite ev_prod by assumption.
  destruct BF as [P [AL [AR [SL SR]]]].
  rewrite (P _ _ _ _ (pga_eval_lin rho a KA) (pga_eval_lin rho b KB) k).
  clear PA PB. induction a as [|[e1 p1] a IH]; cbn [fold_right lin fst snd].
  - symmetry. apply (bilinear_zero_l f (lin rho b)). repeat split; assumption.
  - rewrite (AL _ _ _ k). unfold mvadd at 1.
    change (fold_right _ mvzero a) with (lin rho a).
    rewrite IH by (intros e p I; apply (KA e p); right; assumption). f_equal.
    assert (E1 : (e1 < 16)%N) by (apply (KA e1 p1); left; reflexivity).
    rewrite (SL _ _ _ k). unfold mvscale at 1. clear IH KA.
    induction b as [|[e2 p2] b IH]; cbn [fold_right lin fst snd].
    + rewrite (bilinear_zero_r f (basis (bl e1))) by (repeat split; assumption).
      unfold mvzero. ring.
    + rewrite (AR _ _ _ k). unfold mvadd at 1. change (fold_right _ mvzero b) with (lin rho b).
      rewrite IH by (intros e p I; apply (KB e p); right; assumption).
      rewrite (SR _ _ _ k). unfold mvscale.
      assert (E2 : (e2 < 16)%N) by (apply (KB e2 p2); left; reflexivity).
      rewrite (AG e1 e2 E1 E2 k). unfold contrib. destruct (_ && _); ring.
Qed.
End MVFacts.
