(** Facts about the symbolic polynomials: the comparison functions are strict
    total orders, the operations evaluate like the ring operations, results
    are in normal form and the normal form is unique. *)
From Coq Require Import List Bool ZArith String Ascii Reals Lia Lra Permutation.
From Verif Require Import Scalar SymMap SymPoly.
Import ListNotations.
Local Open Scope Z_scope.

(** ** Orders *)
Lemma ascii_compare_trans a b c :
  Ascii.compare a b = Lt -> Ascii.compare b c = Lt -> Ascii.compare a c = Lt.
Proof. unfold Ascii.compare. rewrite !N.compare_lt_iff. lia. Qed.
Lemma ascii_compare_refl a : Ascii.compare a a = Eq.
Proof. apply N.compare_refl. Qed.
Lemma str_compare_refl s : String.compare s s = Eq.
Proof. induction s; cbn; [reflexivity|]. rewrite ascii_compare_refl. assumption. Qed.
Lemma str_compare_trans a b c :
  String.compare a b = Lt -> String.compare b c = Lt -> String.compare a c = Lt.
Proof.
  revert b c. induction a as [|x a IH]; intros [|y b] [|z c]; cbn; try discriminate; auto.
  destruct (Ascii.compare x y) eqn:E; try discriminate; destruct (Ascii.compare y z) eqn:F;
    try discriminate; intros H K.
  - apply Ascii.compare_eq_iff in E. apply Ascii.compare_eq_iff in F. subst.
    rewrite ascii_compare_refl. eauto.
  - apply Ascii.compare_eq_iff in E. subst. rewrite F. reflexivity.
  - apply Ascii.compare_eq_iff in F. subst. rewrite E. reflexivity.
  - rewrite (ascii_compare_trans _ _ _ E F). reflexivity.
Qed.
Lemma str_strict_total : strict_total str_lt.
Proof.
  unfold str_lt, String.ltb. split; [|split].
  - intro a. rewrite str_compare_refl. reflexivity.
  - intros a b c. destruct (String.compare a b) eqn:E; try discriminate.
    destruct (String.compare b c) eqn:F; try discriminate.
    rewrite (str_compare_trans _ _ _ E F). reflexivity.
  - intros a b. rewrite (String.compare_antisym b a).
    destruct (String.compare a b) eqn:E; cbn; try discriminate.
    intros _ _. apply String.compare_eq_iff. assumption.
Qed.

Lemma mon_lt_loop_irr l : mon_lt_loop l l = false.
Proof.
  induction l as [|[v d] l IH]; cbn; [reflexivity|].
  rewrite (proj1 str_strict_total). rewrite Z.ltb_irrefl. assumption.
Qed.
Lemma mon_lt_loop_trans a b c :
  mon_lt_loop a b = true -> mon_lt_loop b c = true -> mon_lt_loop a c = true.
Proof.
  destruct str_strict_total as [IR [TR TO]].
  revert b c. induction a as [|[v d] a IH]; intros [|[v' d'] b] [|[v'' d''] c]; cbn;
    try discriminate; auto.
  destruct (str_lt v v') eqn:E1.
  - intros _. destruct (str_lt v' v'') eqn:E2; [rewrite (TR _ _ _ E1 E2); reflexivity|].
    destruct (str_lt v'' v') eqn:E3; [discriminate|].
    rewrite <- (TO _ _ E2 E3), E1. reflexivity.
  - destruct (str_lt v' v) eqn:E2; [discriminate|]. assert (v = v') by (apply TO; assumption). subst v'.
    destruct (str_lt v v'') eqn:E3; [reflexivity|]. destruct (str_lt v'' v) eqn:E4; [discriminate|].
    destruct (Z.ltb_spec d d'), (Z.ltb_spec d' d); try discriminate; try lia;
    destruct (Z.ltb_spec d' d''), (Z.ltb_spec d'' d'); try discriminate; try lia;
    destruct (Z.ltb_spec d d''), (Z.ltb_spec d'' d); try lia; try reflexivity; try discriminate.
    apply IH.
Qed.
Lemma mon_lt_loop_total a b : mon_lt_loop a b = false -> mon_lt_loop b a = false -> a = b.
Proof.
  destruct str_strict_total as [IR [TR TO]].
  revert b. induction a as [|[v d] a IH]; intros [|[v' d'] b]; cbn; try discriminate; auto.
  destruct (str_lt v v') eqn:E1; [discriminate|]. destruct (str_lt v' v) eqn:E2; [discriminate|].
  destruct (Z.ltb_spec d d'); [discriminate|]. destruct (Z.ltb_spec d' d); [discriminate|].
  intros H1 H2. f_equal; [f_equal; [apply TO; assumption|lia]|]. apply IH; assumption.
Qed.
Lemma mon_strict_total : strict_total mon_lt.
Proof.
  unfold mon_lt. split; [|split].
  - intro a. rewrite Z.ltb_irrefl. apply mon_lt_loop_irr.
  - intros a b c.
    destruct (Z.ltb_spec (mon_degree a) (mon_degree b)), (Z.ltb_spec (mon_degree b) (mon_degree a));
      try discriminate; try lia;
    destruct (Z.ltb_spec (mon_degree b) (mon_degree c)), (Z.ltb_spec (mon_degree c) (mon_degree b));
      try discriminate; try lia;
    destruct (Z.ltb_spec (mon_degree a) (mon_degree c)), (Z.ltb_spec (mon_degree c) (mon_degree a));
      try discriminate; try lia; auto.
    apply mon_lt_loop_trans.
  - intros a b.
    destruct (Z.ltb_spec (mon_degree a) (mon_degree b)); [discriminate|].
    destruct (Z.ltb_spec (mon_degree b) (mon_degree a)); [discriminate|].
    apply mon_lt_loop_total.
Qed.
Lemma mon_eqb_eq a b : mon_eqb a b = true <-> a = b.
Proof.
  unfold mon_eqb. split.
  - destruct (Nat.eqb_spec (List.length a) (List.length b)) as [E|]; cbn; [|discriminate].
    revert b E. induction a as [|[v d] a IH]; intros [|[v' d'] b] E; cbn in *; try discriminate; auto.
    destruct (String.eqb_spec v v'); cbn; [|discriminate].
    destruct (Z.eqb_spec d d'); cbn; [|discriminate]. intro H. subst. f_equal. apply IH; [lia|assumption].
  - intros ->. rewrite Nat.eqb_refl. cbn. induction b as [|[v d] b IH]; cbn; [reflexivity|].
    rewrite String.eqb_refl, Z.eqb_refl. assumption.
Qed.

(** ** Monomials *)
Definition mon_ok (m : mon) : Prop := sorted str_lt m /\ (forall v d, In (v, d) m -> d <> 0).
(** the exponent of a variable: what a monomial means *)
Definition expo (m : mon) (v : string) : Z :=
  match find str_lt v m with Some d => d | None => 0 end.

Lemma mon_ext a b : mon_ok a -> mon_ok b -> (forall v, expo a v = expo b v) -> a = b.
Proof.
  intros [Sa Na] [Sb Nb] E. apply (sorted_ext _ str_strict_total); try assumption.
  intro v. specialize (E v). unfold expo in E.
  destruct (find str_lt v a) as [d|] eqn:Fa, (find str_lt v b) as [d'|] eqn:Fb; try congruence.
  - apply (find_In _ str_strict_total) in Fa; [|assumption]. apply Na in Fa. congruence.
  - apply (find_In _ str_strict_total) in Fb; [|assumption]. apply Nb in Fb. congruence.
Qed.
Lemma mon_mul_step_ok m v d : mon_ok m -> d <> 0 -> mon_ok (mon_mul_step m (v, d)).
Proof.
  intros [S N] D. unfold mon_mul_step. destruct (find str_lt v m) as [d0|] eqn:F.
  - destruct (Z.eqb_spec (d0 + d) 0).
    + split; [apply sorted_erase; first [apply str_strict_total|assumption]|].
      intros v' d' I. apply In_erase in I. eauto.
    + split; [apply sorted_assign; first [apply str_strict_total|assumption]|].
      intros v' d' I. apply In_assign in I. destruct I as [I|[-> _]]; [eauto|assumption].
  - split; [apply sorted_emplace; first [apply str_strict_total|assumption]|].
    intros v' d' I. apply In_emplace in I. destruct I as [I|I]; [inversion I; subst; assumption|eauto].
Qed.
Lemma mon_mul_step_expo m v d w : mon_ok m ->
  expo (mon_mul_step m (v, d)) w = expo m w + (if string_dec v w then d else 0).
Proof.
  intros [S N]. unfold mon_mul_step, expo.
  destruct (find str_lt v m) as [d0|] eqn:F; [destruct (Z.eqb_spec (d0 + d) 0)|].
  - rewrite (find_erase _ str_strict_total) by assumption.
    destruct (key_eq_dec _ str_strict_total v w) as [<-|A];
      destruct (string_dec v _) as [B|B]; try congruence; rewrite ?F; lia.
  - rewrite (find_assign _ str_strict_total) by assumption.
    destruct (key_eq_dec _ str_strict_total v w) as [<-|A];
      destruct (string_dec v _) as [B|B]; try congruence; rewrite ?F; lia.
  - rewrite (find_emplace _ str_strict_total) by assumption.
    destruct (key_eq_dec _ str_strict_total v w) as [<-|A];
      destruct (string_dec v _) as [B|B]; try congruence; rewrite ?F; lia.
Qed.
Lemma mon_push_step m v d : d <> 0 -> mon_push m v d = mon_mul_step m (v, d).
Proof. intro H. unfold mon_push. destruct (Z.eqb_spec d 0); [contradiction|]. reflexivity. Qed.
Lemma mon_mul_ok a b : mon_ok a -> (forall v d, In (v, d) b -> d <> 0) -> mon_ok (mon_mul a b).
Proof.
  unfold mon_mul. revert a. induction b as [|[v d] b IH]; intros a A B; cbn [fold_left]; [assumption|].
  apply IH; [|cbn in B; eauto]. apply mon_mul_step_ok; [assumption|]. apply (B v). left; reflexivity.
Qed.
Lemma expo_cons v d m w : mon_ok ((v, d) :: m) ->
  expo ((v, d) :: m) w = expo m w + (if string_dec v w then d else 0).
Proof.
  intros [S N]. destruct str_strict_total as [IR [TR TO]]. inversion S as [|? ? ? H S']; subst.
  unfold expo. cbn. destruct (string_dec v w) as [<-|A].
  - rewrite IR. assert (find str_lt v m = None) as ->; [|lia].
    apply (find_None _ str_strict_total); [assumption|]. intros d' I. apply H in I. congruence.
  - destruct (str_lt v w) eqn:E; [lia|]. destruct (str_lt w v) eqn:F.
    + assert (find str_lt w m = None) as ->; [|lia].
      apply (find_None _ str_strict_total); [assumption|]. intros d' I. apply H in I. congruence.
    + elim A. apply TO; assumption.
Qed.
Lemma mon_ok_tail a m : mon_ok (a :: m) -> mon_ok m.
Proof. intros [S N]. split; [inversion S; assumption|]. cbn in N. eauto. Qed.
Lemma mon_mul_expo a b v : mon_ok a -> mon_ok b -> expo (mon_mul a b) v = expo a v + expo b v.
Proof.
  unfold mon_mul. revert a. induction b as [|[w d] b IH]; intros a A B; cbn [fold_left].
  - unfold expo at 3. cbn. lia.
  - assert (D : d <> 0) by (apply (proj2 B w); left; reflexivity).
    rewrite IH; [|apply mon_mul_step_ok; assumption|eapply mon_ok_tail; eassumption].
    rewrite mon_mul_step_expo by assumption. rewrite (expo_cons w d b v B). lia.
Qed.
Lemma mon_mul_inj m a b : mon_ok m -> mon_ok a -> mon_ok b -> mon_mul m a = mon_mul m b -> a = b.
Proof.
  intros M A B E. apply mon_ext; try assumption. intro v.
  assert (F : expo (mon_mul m a) v = expo (mon_mul m b) v) by (rewrite E; reflexivity).
  rewrite !mon_mul_expo in F by assumption. lia.
Qed.

(** different monomials differ in the exponent of some variable *)
Lemma expo_differ a b : mon_ok a -> mon_ok b -> a <> b -> exists v, expo a v <> expo b v.
Proof.
  intros A B N.
  destruct (existsb (fun v => negb (expo a v =? expo b v)) (map fst a ++ map fst b)) eqn:E.
  - apply existsb_exists in E. destruct E as [v [_ E]]. exists v.
    destruct (Z.eqb_spec (expo a v) (expo b v)); [discriminate|assumption].
  - elim N. apply mon_ext; try assumption. intro v.
    destruct (in_dec string_dec v (map fst a ++ map fst b)) as [I|I].
    + destruct (Z.eqb_spec (expo a v) (expo b v)) as [|D]; [assumption|].
      rewrite <- not_true_iff_false in E. elim E. apply existsb_exists. exists v. split; [assumption|].
      destruct (Z.eqb_spec (expo a v) (expo b v)); [contradiction|reflexivity].
    + assert (F : forall c, mon_ok c -> ~ In v (map fst c) -> expo c v = 0).
      { intros c [S _] NI. unfold expo. rewrite (proj2 (find_None _ str_strict_total v c S)); [reflexivity|].
        intros d J. apply NI. apply in_map_iff. exists (v, d). auto. }
      rewrite !F; auto; intro J; apply I; apply in_or_app; auto.
Qed.

(** *** Value of a monomial under an assignment of the variables *)
Local Open Scope R_scope.
Definition meval (rho : string -> R) (m : mon) : R :=
  fold_right (fun vd x => powerRZ (rho (fst vd)) (snd vd) * x) 1 m.
(** x^d is meaningful: a negative power only of a non-zero value *)
Definition pow_ok (rho : string -> R) (m : mon) : Prop :=
  forall v d, In (v, d) m -> rho v <> 0 \/ (0 <= d)%Z.

Lemma meval_perm rho a b : Permutation a b -> meval rho a = meval rho b.
Proof.
  induction 1 as [|x l l' P IH|x y l|l1 l2 l3 P1 IH1 P2 IH2]; unfold meval in *; cbn;
    [reflexivity|rewrite IH; reflexivity|ring|congruence].
Qed.
Lemma powerRZ_add_ok x a b : x <> 0 \/ (0 <= a /\ 0 <= b)%Z ->
  powerRZ x (a + b) = powerRZ x a * powerRZ x b.
Proof.
  intros [H|[H K]]; [apply powerRZ_add; assumption|].
  rewrite <- (Z2Nat.id a), <- (Z2Nat.id b) by assumption.
  rewrite <- Nat2Z.inj_add, <- !pow_powerRZ. apply pow_add.
Qed.
Lemma pow_ok_perm rho a b : Permutation a b -> pow_ok rho a -> pow_ok rho b.
Proof. intros P H v d I. apply (H v d). apply (Permutation_in _ (Permutation_sym P) I). Qed.
Lemma meval_step rho m v d : pow_ok rho m -> (rho v <> 0 \/ (0 <= d)%Z) ->
  meval rho (mon_mul_step m (v, d)) = powerRZ (rho v) d * meval rho m /\
  pow_ok rho (mon_mul_step m (v, d)).
Proof.
  intros P D. unfold mon_mul_step. destruct (find str_lt v m) as [d0|] eqn:F.
  - destruct (erase_perm _ _ _ _ F) as [v' [A [B [P1 P2]]]].
    assert (v' = v) by (apply (proj2 (proj2 str_strict_total)); assumption). subst v'.
    pose proof (pow_ok_perm _ _ _ P1 P) as Q.
    assert (D0 : rho v <> 0 \/ (0 <= d0)%Z) by (apply (Q v d0); left; reflexivity).
    assert (PW : powerRZ (rho v) (d0 + d) = powerRZ (rho v) d0 * powerRZ (rho v) d)
      by (apply powerRZ_add_ok; tauto).
    rewrite (meval_perm _ _ _ P1). cbn [meval fold_right fst snd].
    destruct (Z.eqb_spec (d0 + d) 0) as [E|E].
    + rewrite E in PW. cbn in PW. split.
      * change (meval rho (erase str_lt v m) = powerRZ (rho v) d * (powerRZ (rho v) d0 * meval rho (erase str_lt v m))).
        replace (powerRZ (rho v) d * (powerRZ (rho v) d0 * meval rho (erase str_lt v m)))
          with (powerRZ (rho v) d0 * powerRZ (rho v) d * meval rho (erase str_lt v m)) by ring.
        rewrite <- PW. ring.
      * intros w e I. apply (Q w e). right. assumption.
    + split.
      * rewrite (meval_perm _ _ _ (P2 (d0 + d)%Z)). cbn [meval fold_right fst snd]. rewrite PW. ring.
      * apply (pow_ok_perm _ _ _ (Permutation_sym (P2 (d0 + d)%Z))).
        intros w e [I|I]; [inversion I; subst; lia + (destruct D, D0; auto; right; lia)|].
        apply (Q w e). right. assumption.
  - pose proof (emplace_perm _ v d m F) as P1. rewrite (meval_perm _ _ _ P1). split; [reflexivity|].
    apply (pow_ok_perm _ _ _ (Permutation_sym P1)).
    intros w e [I|I]; [inversion I; subst; assumption|eauto].
Qed.
Lemma meval_mul_ok rho a b : pow_ok rho a -> pow_ok rho b ->
  meval rho (mon_mul a b) = meval rho a * meval rho b /\ pow_ok rho (mon_mul a b).
Proof.
  unfold mon_mul. revert a. induction b as [|[v d] b IH]; intros a A B; cbn [fold_left].
  - cbn. split; [lra|assumption].
  - destruct (meval_step rho a v d A) as [E P]; [apply (B v); left; reflexivity|].
    destruct (IH (mon_mul_step a (v, d)) P) as [E' P']; [intros w e I; apply (B w e); right; assumption|].
    split; [|assumption]. rewrite E', E. cbn [meval fold_right fst snd]. change (fold_right _ 1 b) with (meval rho b). ring.
Qed.

(** ** Polynomials *)
(** Coefficients that behave like (a subring of) the reals, with exact ==. *)
Class CoefLaws (C : Type) `{Coef C} := {
  cval : C -> R;
  cval_add a b : cval (fadd a b) = cval a + cval b;
  cval_mul a b : cval (fmul a b) = cval a * cval b;
  cval_fz n : cval (fz n) = IZR n;
  cval_inj a b : cval a = cval b -> a = b;
  ceqb_eq a b : ceqb a b = true <-> a = b
}.
#[global] Program Instance CoefLaws_Z : CoefLaws Z := {| cval := IZR |}.
Next Obligation. apply plus_IZR. Qed.
Next Obligation. apply mult_IZR. Qed.
Next Obligation. apply eq_IZR. assumption. Qed.
Next Obligation. apply Z.eqb_eq. Qed.
#[global] Program Instance CoefLaws_R : CoefLaws R := {| cval := fun x => x |}.
Next Obligation. unfold Reqb. destruct (Req_EM_T a b); split; congruence. Qed.

Section PolyFacts.
Context {C : Type} `{CoefLaws C}.
Notation poly := (poly C).
Implicit Types p q : poly.

Lemma ceq0_spec (x : C) : ceq0 x = true <-> cval x = 0.
Proof.
  unfold ceq0. rewrite ceqb_eq. split; [intros ->; apply cval_fz|].
  intro E. apply cval_inj. rewrite E, cval_fz. reflexivity.
Qed.
Lemma ceq0_false (x : C) : ceq0 x = false <-> cval x <> 0.
Proof. rewrite <- not_true_iff_false, ceq0_spec. reflexivity. Qed.

(** value of a polynomial under an assignment *)
Definition peval (rho : string -> R) (p : poly) : R :=
  fold_right (fun mf x => cval (snd mf) * meval rho (fst mf) + x) 0 p.
Definition ppow_ok (rho : string -> R) (p : poly) : Prop :=
  forall m f, In (m, f) p -> pow_ok rho m.

Lemma peval_perm rho p q : Permutation p q -> peval rho p = peval rho q.
Proof.
  induction 1 as [|x l l' P IH|x y l|l1 l2 l3 P1 IH1 P2 IH2]; unfold meval, peval in *; cbn;
    [reflexivity|rewrite IH; reflexivity|ring|congruence].
Qed.
Lemma peval_add_step rho p m f :
  peval rho (poly_add_step p (m, f)) = peval rho p + cval f * meval rho m.
Proof.
  unfold poly_add_step. destruct (find mon_lt m p) as [c|] eqn:F.
  - destruct (erase_perm _ _ _ _ F) as [m' [A [B [P1 P2]]]].
    assert (m' = m) by (apply (proj2 (proj2 mon_strict_total)); assumption). subst m'.
    rewrite (peval_perm _ _ _ P1). destruct (ceq0 (fadd c f)) eqn:E.
    + apply ceq0_spec in E. rewrite cval_add in E. cbn [peval fold_right fst snd].
      change (fold_right _ 0 (erase mon_lt m p)) with (peval rho (erase mon_lt m p)).
      replace (cval c) with (- cval f) by lra. ring.
    + rewrite (peval_perm _ _ _ (P2 (fadd c f))). cbn [peval fold_right fst snd].
      rewrite cval_add. ring.
  - rewrite (peval_perm _ _ _ (emplace_perm _ m f p F)). cbn [peval fold_right fst snd]. 
    change (fold_right _ 0 p) with (peval rho p). ring.
Qed.
Lemma peval_add rho p q : peval rho (poly_add p q) = peval rho p + peval rho q.
Proof.
  unfold poly_add. revert p. induction q as [|[m f] q IH]; intro p; cbn [fold_left].
  - cbn. ring.
  - rewrite IH, peval_add_step. cbn [peval fold_right fst snd].
    change (fold_right _ 0 q) with (peval rho q). ring.
Qed.
Lemma peval_opp rho p : peval rho (poly_opp p) = - peval rho p.
Proof.
  induction p as [|[m f] p IH]; cbn; [ring|].
  change (fold_right _ 0 (map _ p)) with (peval rho (poly_opp p)).
  change (fold_right _ 0 p) with (peval rho p).
  rewrite IH, cval_mul, cval_fz. ring.
Qed.
Lemma peval_bump rho p m x : peval rho (poly_bump p m x) = peval rho p + cval x * meval rho m.
Proof.
  unfold poly_bump. destruct (find mon_lt m p) as [c|] eqn:F.
  - destruct (erase_perm _ _ _ _ F) as [m' [A [B [P1 P2]]]].
    assert (m' = m) by (apply (proj2 (proj2 mon_strict_total)); assumption). subst m'.
    rewrite (peval_perm _ _ _ P1), (peval_perm _ _ _ (P2 (fadd c x))). cbn [peval fold_right fst snd].
    rewrite cval_add. ring.
  - rewrite (peval_perm _ _ _ (emplace_perm _ m _ p F)). cbn [peval fold_right fst snd].
    rewrite cval_add, cval_fz.
    change (fold_right _ 0 p) with (peval rho p). ring.
Qed.
Lemma peval_row rho m1 f1 q : pow_ok rho m1 -> ppow_ok rho q ->
  peval rho (poly_mul_row m1 f1 q) = cval f1 * meval rho m1 * peval rho q.
Proof.
  intros P Q. unfold poly_mul_row.
  assert (G : forall t, peval rho (fold_left (fun t mf => let '(m2, f2) := mf in
      if negb (ceq0 (fmul f1 f2)) then poly_bump t (mon_mul m1 m2) (fmul f1 f2) else t) q t)
    = peval rho t + cval f1 * meval rho m1 * peval rho q).
  { induction q as [|[m2 f2] q IH]; intro t; cbn [fold_left]; [cbn; ring|].
    rewrite IH by (intros m f I; apply (Q m f); right; assumption).
    cbn [peval fold_right fst snd]. change (fold_right _ 0 q) with (peval rho q).
    assert (P2 : pow_ok rho m2) by (apply (Q m2 f2); left; reflexivity).
    destruct (ceq0 (fmul f1 f2)) eqn:E; cbn [negb].
    - apply ceq0_spec in E. rewrite cval_mul in E.
      assert (cval f1 * meval rho m1 * (cval f2 * meval rho m2) = 0)
        by (transitivity (cval f1 * cval f2 * (meval rho m1 * meval rho m2)); [ring|rewrite E; ring]).
      lra.
    - rewrite peval_bump, (proj1 (meval_mul_ok rho m1 m2 P P2)), cval_mul. ring. }
  rewrite G. cbn. ring.
Qed.
Lemma peval_mul rho p q : ppow_ok rho p -> ppow_ok rho q ->
  peval rho (poly_mul p q) = peval rho p * peval rho q.
Proof.
  intros P Q. unfold poly_mul.
  assert (G : forall t, peval rho (fold_left (fun out mf => let '(m1, f1) := mf in
      poly_add out (poly_mul_row m1 f1 q)) p t) = peval rho t + peval rho p * peval rho q).
  { induction p as [|[m f] p IH]; intro t; cbn [fold_left]; [cbn; ring|].
    rewrite IH by (intros m' f' I; apply (P m' f'); right; assumption).
    rewrite peval_add, peval_row; [|apply (P m f); left; reflexivity|assumption].
    cbn [peval fold_right fst snd]. change (fold_right _ 0 p) with (peval rho p). ring. }
  rewrite G. cbn. ring.
Qed.

(** *** Normal form *)
Definition normal (p : poly) : Prop :=
  sorted mon_lt p /\ (forall m f, In (m, f) p -> mon_ok m /\ cval f <> 0).

Lemma normal_nil : normal [].
Proof. split; [constructor|cbn; tauto]. Qed.
Lemma normal_tail a p : normal (a :: p) -> normal p.
Proof. intros [S N]. split; [inversion S; assumption|]. cbn in N. eauto. Qed.
Lemma normal_add_step p m f : normal p -> mon_ok m -> cval f <> 0 -> normal (poly_add_step p (m, f)).
Proof.
  intros [S N] M F. unfold poly_add_step. destruct (find mon_lt m p) as [c|] eqn:E.
  - destruct (ceq0 (fadd c f)) eqn:Z.
    + split; [apply sorted_erase; first [apply mon_strict_total|assumption]|].
      intros m' f' I. apply In_erase in I. eauto.
    + split; [apply sorted_assign; first [apply mon_strict_total|assumption]|].
      intros m' f' I. apply In_assign in I. destruct I as [I|[-> [v0 I]]]; [eauto|].
      split; [apply (N m' v0 I)|]. apply ceq0_false. assumption.
  - split; [apply sorted_emplace; first [apply mon_strict_total|assumption]|].
    intros m' f' I. apply In_emplace in I. destruct I as [I|I]; [inversion I; subst; auto|eauto].
Qed.
Lemma normal_add p q : normal p -> normal q -> normal (poly_add p q).
Proof.
  unfold poly_add. revert p. induction q as [|[m f] q IH]; intros p P Q; cbn [fold_left]; [assumption|].
  destruct (proj2 Q m f (or_introl eq_refl)) as [M F].
  apply IH; [|eapply normal_tail; eassumption]. apply normal_add_step; assumption.
Qed.
Lemma normal_opp p : normal p -> normal (poly_opp p).
Proof.
  intros [S N]. split.
  - exact (sorted_map_value mon_lt (fun _ f => fmul f (fz (-1))) p S).
  - intros m f I. unfold poly_opp in I. apply in_map_iff in I. destruct I as [[m' f'] [E I]].
    inversion E; subst. cbn. destruct (N _ _ I) as [M F]. split; [assumption|].
    rewrite cval_mul, cval_fz. lra.
Qed.
Lemma normal_row m1 f1 q : mon_ok m1 -> cval f1 <> 0 -> normal q -> normal (poly_mul_row m1 f1 q).
Proof.
  intros M1 F1 Q. unfold poly_mul_row.
  (* invariant: the keys collected so far are products with monomials already passed *)
  assert (G : forall q t, normal q -> normal t ->
     (forall m f, In (m, f) t -> forall m2 f2, In (m2, f2) q -> m <> mon_mul m1 m2) ->
     normal (fold_left (fun t mf => let '(m2, f2) := mf in
      if negb (ceq0 (fmul f1 f2)) then poly_bump t (mon_mul m1 m2) (fmul f1 f2) else t) q t)).
  { clear q Q. induction q as [|[m2 f2] q IH]; intros t Q T K; cbn [fold_left]; [assumption|].
    destruct (proj2 Q m2 f2 (or_introl eq_refl)) as [M2 F2].
    assert (E : ceq0 (fmul f1 f2) = false) by (apply ceq0_false; rewrite cval_mul; nra).
    rewrite E. cbn [negb].
    assert (FN : find mon_lt (mon_mul m1 m2) t = None).
    { apply (find_None _ mon_strict_total); [apply T|]. intros f I.
      apply (K _ _ I m2 f2 (or_introl eq_refl)). reflexivity. }
    unfold poly_bump. rewrite FN. apply IH; [eapply normal_tail; eassumption| |].
    - split; [apply sorted_emplace; first [apply mon_strict_total|apply T]|].
      intros m f I. apply In_emplace in I. destruct I as [I|I]; [|apply (proj2 T); assumption].
      inversion I; subst. split; [apply mon_mul_ok; [assumption|apply M2]|].
      rewrite cval_add, cval_fz, cval_mul. nra.
    - intros m f I m3 f3 I3 E3. apply In_emplace in I. destruct I as [I|I].
      + inversion I; subst. destruct (proj2 Q m3 f3 (or_intror I3)) as [M3 _].
        assert (m2 = m3) by (apply (mon_mul_inj m1); congruence). subst m3.
        destruct Q as [S _]. inversion S as [|? ? ? L ?]; subst. apply L in I3.
        rewrite (proj1 mon_strict_total) in I3. discriminate.
      + apply (K _ _ I m3 f3 (or_intror I3)). assumption. }
  apply G; [assumption|apply normal_nil|]. intros m f [].
Qed.
Lemma normal_mul p q : normal p -> normal q -> normal (poly_mul p q).
Proof.
  intros P Q. unfold poly_mul.
  assert (G : forall t, normal t -> normal (fold_left (fun out mf => let '(m1, f1) := mf in
      poly_add out (poly_mul_row m1 f1 q)) p t)).
  { induction p as [|[m f] p IH]; intros t T; cbn [fold_left]; [assumption|].
    destruct (proj2 P m f (or_introl eq_refl)) as [M F].
    apply IH; [eapply normal_tail; eassumption|]. apply normal_add; [assumption|].
    apply normal_row; assumption. }
  apply G, normal_nil.
Qed.

(** *** Uniqueness: distinct monomials are linearly independent functions *)
Lemma meval_nz rho m : (forall v, rho v <> 0) -> meval rho m <> 0.
Proof.
  intro N. induction m as [|[v d] m IH]; cbn; [lra|].
  apply Rmult_integral_contrapositive_currified; [apply powerRZ_NOR; apply N|assumption].
Qed.
(** the assignment sending one variable to 2, the others to 1, reads off an exponent *)
Definition probe (v : string) : string -> R := fun w => if string_dec v w then 2 else 1.
Lemma probe_nz v w : probe v w <> 0.
Proof. unfold probe. destruct (string_dec v w); lra. Qed.
Lemma powerRZ_1 d : powerRZ 1 d = 1.
Proof. destruct d; cbn; rewrite ?pow1, ?Rinv_1; reflexivity. Qed.
Lemma meval_probe v m : mon_ok m -> meval (probe v) m = powerRZ 2 (expo m v).
Proof.
  induction m as [|[w d] m IH]; intro M; [reflexivity|].
  rewrite (expo_cons w d m v M). cbn [meval fold_right fst snd].
  change (fold_right _ 1 m) with (meval (probe v) m). rewrite IH by (eapply mon_ok_tail; eassumption).
  rewrite powerRZ_add by lra. unfold probe.
  destruct (string_dec w v) as [A|A], (string_dec v w) as [B|B]; try congruence.
  - ring.
  - rewrite powerRZ_1. cbn. ring.
Qed.
Lemma powerRZ_2_inj a b : powerRZ 2 a = powerRZ 2 b -> a = b.
Proof.
  assert (L : forall x y, (x < y)%Z -> powerRZ 2 x < powerRZ 2 y).
  { intros x y L. replace y with (x + (y - x))%Z by lia. rewrite powerRZ_add by lra.
    assert (0 < powerRZ 2 x) by (apply powerRZ_lt; lra).
    assert (1 < powerRZ 2 (y - x)); [|nra].
    rewrite <- (Z2Nat.id (y - x)) by lia. rewrite <- pow_powerRZ. apply Rlt_pow_R1; [lra|lia]. }
  intro E. destruct (Z.lt_trichotomy a b) as [T|[T|T]]; [apply L in T; lra|assumption|apply L in T; lra].
Qed.
(** sums  Σ c_i m_i  with real coefficients *)
Definition reval (rho : string -> R) (l : list (mon * R)) : R :=
  fold_right (fun mf x => snd mf * meval rho (fst mf) + x) 0 l.
Lemma monomials_independent (l : list (mon * R)) :
  NoDup (map fst l) -> (forall m f, In (m, f) l -> mon_ok m) ->
  (forall rho, (forall v, rho v <> 0) -> reval rho l = 0) ->
  forall m f, In (m, f) l -> f = 0.
Proof.
  remember (List.length l) as n eqn:Hn. revert l Hn. induction n as [|n IH]; intros l Hn ND OK Z.
  - destruct l; [intros ? ? []|discriminate].
  - destruct l as [|[m1 f1] l]; [discriminate|]. cbn in Hn. injection Hn as Hn.
    inversion ND as [|? ? NI ND']; subst.
    assert (T : forall m f, In (m, f) l -> f = 0).
    { intros m f I.
      assert (NE : m <> m1). { intros ->. apply NI. apply in_map_iff. exists (m1, f). auto. }
      (* a variable separating m from m1 *)
      assert (SEP : exists v, expo m v <> expo m1 v)
        by (apply expo_differ; [apply (OK m f); right; assumption|apply (OK m1 f1); left; reflexivity|assumption]).
      destruct SEP as [v SEP].
      set (y := probe v).
      set (l' := map (fun mf => (fst mf, snd mf * (meval y (fst mf) - meval y m1))) l).
      assert (E : f * (meval y m - meval y m1) = 0).
      { apply (IH l') with (m := m).
        - unfold l'. rewrite map_length. reflexivity.
        - unfold l'. rewrite map_map. cbn. assumption.
        - intros m' f' I'. unfold l' in I'. apply in_map_iff in I'. destruct I' as [[m0 f0] [E0 I0]].
          inversion E0; subst. apply (OK m' f0). right. assumption.
        - intros rho N.
          (* evaluate at rho and at the pointwise product rho * y *)
          assert (MM : forall x, meval (fun v => rho v * y v) x = meval rho x * meval y x).
          { induction x as [|[w d] x IHx]; cbn; [ring|].
            change (fold_right _ 1 x) with (meval (fun v => rho v * y v) x) at 1.
            rewrite IHx, powerRZ_mult by (right; apply Rmult_integral_contrapositive_currified; [apply N|apply probe_nz]).
            unfold meval. ring. }
          assert (Z1 := Z rho N).
          assert (Z2 : reval (fun v => rho v * y v) ((m1, f1) :: l) = 0).
          { apply Z. intro w. apply Rmult_integral_contrapositive_currified; [apply N|apply probe_nz]. }
          assert (GEN : forall k, reval rho (map (fun mf => (fst mf, snd mf * (meval y (fst mf) - meval y m1))) k)
                   = reval (fun v => rho v * y v) k - meval y m1 * reval rho k).
          { induction k as [|[m0 f0] k IHk]; [cbn; ring|].
            cbn [reval map fold_right fst snd].
            change (fold_right _ 0 (map _ k)) with
              (reval rho (map (fun mf => (fst mf, snd mf * (meval y (fst mf) - meval y m1))) k)).
            rewrite IHk, MM. unfold reval. ring. }
          unfold l'. rewrite GEN.
          change (f1 * meval rho m1 + reval rho l = 0) in Z1.
          change (f1 * meval (fun v => rho v * y v) m1 + reval (fun v => rho v * y v) l = 0) in Z2.
          rewrite MM in Z2.
          replace (reval rho l) with (- (f1 * meval rho m1)) by lra. lra.
        - unfold l'. apply in_map_iff. exists (m, f). auto. }
      apply Rmult_integral in E. destruct E as [E|E]; [assumption|].
      elim SEP. apply powerRZ_2_inj. rewrite <- !meval_probe; [fold y; lra| |].
      - apply (OK m1 f1). left. reflexivity.
      - apply (OK m f). right. assumption. }
    intros m f [I|I]; [|eauto]. inversion I; subst. clear I.
    assert (Z1 := Z (fun _ => 1) (fun _ => R1_neq_R0)).
    assert (RL : forall k, (forall m f, In (m, f) k -> f = 0) -> reval (fun _ => 1) k = 0).
    { induction k as [|[m0 f0] k IHk]; intro A; cbn; [reflexivity|].
      rewrite (A m0 f0 (or_introl eq_refl)).
      change (fold_right _ 0 k) with (reval (fun _ => 1) k).
      rewrite IHk; [ring|]. intros m' f' I'. apply (A m' f'). right. assumption. }
    change (f * meval (fun _ => 1) m + reval (fun _ => 1) l = 0) in Z1. rewrite (RL l T) in Z1.
    assert (NZ := meval_nz (fun _ => 1) m (fun _ => R1_neq_R0)).
    assert (Z2 : f * meval (fun _ => 1) m = 0) by lra.
    apply Rmult_integral in Z2. tauto.
Qed.
Lemma peval_reval rho p : peval rho p = reval rho (map (fun mf => (fst mf, cval (snd mf))) p).
Proof. induction p as [|[m f] p IH]; cbn; [reflexivity|]. unfold peval in IH. rewrite IH. reflexivity. Qed.
Lemma normal_zero p : normal p -> (forall rho, (forall v, rho v <> 0) -> peval rho p = 0) -> p = [].
Proof.
  intros P Z. destruct p as [|[m f] p]; [reflexivity|]. exfalso.
  apply (proj2 (proj2 P m f (or_introl eq_refl))).
  apply (monomials_independent (map (fun mf => (fst mf, cval (snd mf))) ((m, f) :: p))) with (m := m).
  - rewrite map_map. cbn [fst]. apply (sorted_NoDup _ mon_strict_total). apply P.
  - intros m' f' I. apply in_map_iff in I. destruct I as [[m0 f0] [E I]]. inversion E; subst.
    apply (proj2 P _ _ I).
  - intros rho N. rewrite <- peval_reval. apply Z. assumption.
  - left. reflexivity.
Qed.

(** coefficient of a monomial *)
Definition coef (p : poly) (m : mon) : R :=
  match find mon_lt m p with Some f => cval f | None => 0 end.
Lemma normal_ext p q : normal p -> normal q -> (forall m, coef p m = coef q m) -> p = q.
Proof.
  intros [Sp Np] [Sq Nq] E. apply (sorted_ext _ mon_strict_total); try assumption.
  intro m. specialize (E m). unfold coef in E.
  destruct (find mon_lt m p) as [d|] eqn:Fa, (find mon_lt m q) as [d'|] eqn:Fb.
  - f_equal. apply cval_inj. assumption.
  - apply (find_In _ mon_strict_total) in Fa; [|assumption]. apply Np in Fa. tauto.
  - apply (find_In _ mon_strict_total) in Fb; [|assumption]. apply Nq in Fb.
    symmetry in E. tauto.
  - reflexivity.
Qed.
Lemma coef_add_step p m f m' : sorted mon_lt p ->
  coef (poly_add_step p (m, f)) m' = coef p m' + (if key_eq_dec _ mon_strict_total m m' then cval f else 0).
Proof.
  intro S. unfold poly_add_step, coef.
  destruct (find mon_lt m p) as [c|] eqn:F; [destruct (ceq0 (fadd c f)) eqn:E|].
  - rewrite (find_erase _ mon_strict_total) by assumption.
    destruct (key_eq_dec _ mon_strict_total m m') as [<-|A]; [|lra].
    rewrite F. apply ceq0_spec in E. rewrite cval_add in E. lra.
  - rewrite (find_assign _ mon_strict_total) by assumption.
    destruct (key_eq_dec _ mon_strict_total m m') as [<-|A]; [|lra].
    rewrite F, cval_add. reflexivity.
  - rewrite (find_emplace _ mon_strict_total) by assumption.
    destruct (key_eq_dec _ mon_strict_total m m') as [<-|A]; [|lra].
    rewrite F. lra.
Qed.
(** Two normal polynomials with the same values everywhere are the same data. *)
Lemma normal_unique p q : normal p -> normal q ->
  (forall rho, (forall v, rho v <> 0) -> peval rho p = peval rho q) -> p = q.
Proof.
  intros P Q E.
  assert (N : poly_add p (poly_opp q) = []).
  { apply normal_zero; [apply normal_add; [assumption|apply normal_opp; assumption]|].
    intros rho NZ. rewrite peval_add, peval_opp, (E rho NZ). ring. }
  apply normal_ext; try assumption. intro m.
  assert (G : forall q p, normal q -> sorted mon_lt p ->
     coef (poly_add p q) m = coef p m + coef q m).
  { clear. induction q as [|[m0 f0] q IH]; intros p Q P.
    - unfold poly_add, coef at 3. cbn. lra.
    - unfold poly_add. cbn [fold_left]. fold (poly_add (poly_add_step p (m0, f0)) q).
      rewrite IH; [|eapply normal_tail; eassumption|].
      + rewrite coef_add_step by assumption. unfold coef at 4. cbn.
        destruct mon_strict_total as [IR [TR TO]] eqn:ST. destruct Q as [S _]. inversion S as [|? ? ? L S']; subst.
        destruct (key_eq_dec mon_lt _ m0 m) as [<-|A].
        * rewrite IR. unfold coef at 2.
          assert (find mon_lt m0 q = None) as ->; [|lra].
          apply (find_None _ mon_strict_total); [assumption|]. intros f I. apply L in I. congruence.
        * destruct (mon_lt m0 m) eqn:A1; [unfold coef; lra|]. destruct (mon_lt m m0) eqn:A2.
          -- unfold coef at 2. assert (find mon_lt m q = None) as ->; [|lra].
             apply (find_None _ mon_strict_total); [assumption|]. intros f I. apply L in I. congruence.
          -- elim A. apply TO; assumption.
      + unfold poly_add_step. destruct (find mon_lt m0 p); [destruct (ceq0 _)|];
          [apply sorted_erase|apply sorted_assign|apply sorted_emplace]; try assumption; apply mon_strict_total. }
  assert (X := G (poly_opp q) p (normal_opp q Q) (proj1 P)). rewrite N in X.
  assert (Y : coef (poly_opp q) m = - coef q m).
  { unfold coef.
    rewrite (find_map_value _ mon_strict_total (fun _ f => fmul f (fz (-1))) m q (proj1 Q) : find mon_lt m (poly_opp q) = _).
    destruct (find mon_lt m q); [rewrite cval_mul, cval_fz|]; lra. }
  unfold coef at 1 in X. cbn in X. lra.
Qed.
End PolyFacts.
