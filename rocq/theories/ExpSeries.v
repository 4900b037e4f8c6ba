(** The exponential series of a bivector, summed. *)
From Coq Require Import Reals ZArith Lra Lia Arith Setoid Morphisms.
From Verif Require Import AlgTac FloR.
Local Open Scope R_scope.

(** ** Specification: powers by the geometric product, partial sums of
    x^j / j!, coefficientwise convergence *)
Fixpoint mvpow (x : mv) (n : nat) : mv := match n with O => one | S k => gp x (mvpow x k) end.
Fixpoint exp_partial (x : mv) (n : nat) : mv :=
  match n with
  | O => mvscale (/ INR (fact 0)) (mvpow x 0)
  | S k => mvadd (exp_partial x k) (mvscale (/ INR (fact (S k))) (mvpow x (S k)))
  end.
Definition is_exp (x y : mv) : Prop := forall i, Un_cv (fun n => exp_partial x n i) (y i).

Lemma is_exp_unique x y z : is_exp x y -> is_exp x z -> y == z.
Proof. intros H K i. exact (UL_sequence _ _ _ (H i) (K i)). Qed.
Lemma is_exp_eq x y z : y == z -> is_exp x y -> is_exp x z.
Proof. intros E H i. rewrite <- E. apply H. Qed.
Lemma mvpow_eq x y n : x == y -> mvpow x n == mvpow y n.
Proof. intro E. induction n; cbn [mvpow]; [intro; reflexivity|]. rewrite IHn, E. reflexivity. Qed.
Lemma exp_partial_eq x y n : x == y -> exp_partial x n == exp_partial y n.
Proof.
  intro E. induction n; [intro; reflexivity|]. cbn [exp_partial]. intro i. unfold mvadd, mvscale.
  rewrite (IHn i), (mvpow_eq x y (S n) E i). reflexivity.
Qed.
Lemma is_exp_arg x y z : x == y -> is_exp x z -> is_exp y z.
Proof.
  intros E H i e He. destruct (H i e He) as [N HN]. exists N. intros n Hn.
  rewrite <- (exp_partial_eq x y n E i). apply HN. exact Hn.
Qed.

(** ** Interleaved series *)
Lemma sum_even (f g : nat -> R) : (forall k, g (2 * k)%nat = f k) -> (forall k, g (S (2 * k)) = 0) ->
  forall k, sum_f_R0 g (2 * k) = sum_f_R0 f k /\ sum_f_R0 g (S (2 * k)) = sum_f_R0 f k.
Proof.
  intros E O k. assert (A : sum_f_R0 g (2 * k) = sum_f_R0 f k).
  { induction k; [apply (E 0%nat)|]. replace (2 * S k)%nat with (S (S (2 * k))) by lia.
    rewrite !tech5, IHk, O. replace (S (S (2 * k))) with (2 * S k)%nat by lia. rewrite E. ring. }
  split; [exact A|]. rewrite tech5, A, O. ring.
Qed.
Lemma sum_odd (f g : nat -> R) : (forall k, g (2 * k)%nat = 0) -> (forall k, g (S (2 * k)) = f k) ->
  forall k, sum_f_R0 g (S (2 * k)) = sum_f_R0 f k /\ sum_f_R0 g (S (S (2 * k))) = sum_f_R0 f k.
Proof.
  intros E O k. assert (A : sum_f_R0 g (S (2 * k)) = sum_f_R0 f k).
  { induction k.
    - rewrite tech5. change (sum_f_R0 g (2 * 0)) with (g (2 * 0)%nat). rewrite (E 0%nat), (O 0%nat). cbn. ring.
    - replace (S (2 * S k)) with (S (S (S (2 * k)))) by lia.
      rewrite tech5, (tech5 g (S (2 * k))), IHk. replace (S (S (2 * k))) with (2 * S k)%nat at 1 by lia. rewrite E.
      replace (S (S (S (2 * k)))) with (S (2 * S k)) by lia. rewrite O, tech5. ring. }
  split; [exact A|]. rewrite tech5, A. replace (S (S (2 * k))) with (2 * S k)%nat by lia. rewrite E. ring.
Qed.
Lemma cv_even f g l : (forall k, g (2 * k)%nat = f k) -> (forall k, g (S (2 * k)) = 0) ->
  infinite_sum f l -> infinite_sum g l.
Proof.
  intros E O H e He. destruct (H e He) as [N HN]. exists (2 * N)%nat. intros n Hn.
  destruct (Nat.Even_or_Odd n) as [[k ->]|[k ->]].
  - rewrite (proj1 (sum_even f g E O k)). apply HN. lia.
  - replace (2 * k + 1)%nat with (S (2 * k)) by lia. rewrite (proj2 (sum_even f g E O k)). apply HN. lia.
Qed.
Lemma cv_odd f g l : (forall k, g (2 * k)%nat = 0) -> (forall k, g (S (2 * k)) = f k) ->
  infinite_sum f l -> infinite_sum g l.
Proof.
  intros E O H e He. destruct (H e He) as [N HN]. exists (S (S (2 * N)))%nat. intros n Hn.
  destruct (Nat.Even_or_Odd n) as [[k ->]|[k ->]].
  - destruct k as [|k]; [lia|]. replace (2 * S k)%nat with (S (S (2 * k))) by lia.
    rewrite (proj2 (sum_odd f g E O k)). apply HN. lia.
  - replace (2 * k + 1)%nat with (S (2 * k)) by lia. rewrite (proj1 (sum_odd f g E O k)). apply HN. lia.
Qed.
Lemma inf_ext f g l : (forall k, f k = g k) -> infinite_sum f l -> infinite_sum g l.
Proof.
  intros E H e He. destruct (H e He) as [N HN]. exists N. intros n Hn.
  rewrite <- (sum_eq f g n) by (intros; apply E). apply HN. exact Hn.
Qed.
Lemma inf_scale f c l : infinite_sum f l -> infinite_sum (fun k => c * f k) (c * l).
Proof.
  intro H. assert (K : Un_cv (sum_f_R0 f) l) by exact H.
  assert (Q := CV_mult (fun _ => c) _ c l (fun e He => ex_intro _ 0%nat (fun n _ => eq_ind_r (fun z => z < e) He (R_dist_eq c))) K).
  intros e He. destruct (Q e He) as [N HN]. exists N. intros n Hn. specialize (HN n Hn). cbn in HN.
  rewrite scal_sum in HN. rewrite <- (sum_eq (fun i => f i * c) (fun k => c * f k) n) by (intros; ring). exact HN.
Qed.
Lemma inf_plus f g l m : infinite_sum f l -> infinite_sum g m -> infinite_sum (fun k => f k + g k) (l + m).
Proof.
  intros H K. assert (Q := CV_plus _ _ l m (H : Un_cv (sum_f_R0 f) l) (K : Un_cv (sum_f_R0 g) m)).
  intros e He. destruct (Q e He) as [N HN]. exists N. intros n Hn. specialize (HN n Hn). cbn in HN.
  rewrite <- sum_plus in HN. exact HN.
Qed.
(** shift: f (S k) summed *)
Lemma inf_shift f l : infinite_sum f l -> infinite_sum (fun k => f (S k)) (l - f 0%nat).
Proof.
  intros H e He. destruct (H e He) as [N HN]. exists N. intros n Hn. specialize (HN (S n)).
  rewrite decomp_sum in HN by lia. cbn [pred] in HN. unfold R_dist in *.
  replace (sum_f_R0 (fun k => f (S k)) n - (l - f 0%nat)) with (f 0%nat + sum_f_R0 (fun i => f (S i)) n - l) by ring.
  apply HN. lia.
Qed.
Lemma inf_unshift f l : infinite_sum (fun k => f (S k)) l -> infinite_sum f (f 0%nat + l).
Proof.
  intros H e He. destruct (H e He) as [N HN]. exists (S N). intros n Hn. destruct n as [|n]; [lia|].
  rewrite decomp_sum by lia. cbn [pred]. unfold R_dist in *.
  replace (f 0%nat + sum_f_R0 (fun i => f (S i)) n - (f 0%nat + l)) with (sum_f_R0 (fun i => f (S i)) n - l) by ring.
  apply HN. lia.
Qed.

(** ** cos and sin *)
Lemma cos_series s : infinite_sum (fun k => / INR (fact (2 * k)) * (- (s * s)) ^ k) (cos s).
Proof.
  unfold cos. destruct (exist_cos (Rsqr s)) as [c Hc]. unfold cos_in in Hc.
  apply (inf_ext (fun i => cos_n i * Rsqr s ^ i)); [|exact Hc]. intro k. unfold cos_n, Rsqr.
  replace (- (s * s)) with (-1 * (s * s)) by ring. rewrite (Rpow_mult_distr (-1) (s * s)). unfold Rdiv.
  generalize ((-1) ^ k), ((s * s) ^ k). intros. ring.
Qed.
Lemma sinc_series s : s <> 0 -> infinite_sum (fun k => / INR (fact (2 * k + 1)) * (- (s * s)) ^ k) (sin s / s).
Proof.
  intro N. unfold sin. destruct (exist_sin (Rsqr s)) as [c Hc]. unfold sin_in in Hc.
  replace (s * c / s) with c by (field; exact N).
  apply (inf_ext (fun i => sin_n i * Rsqr s ^ i)); [|exact Hc]. intro k. unfold sin_n, Rsqr.
  replace (- (s * s)) with (-1 * (s * s)) by ring. rewrite (Rpow_mult_distr (-1) (s * s)). unfold Rdiv.
  generalize ((-1) ^ k), ((s * s) ^ k). intros. ring.
Qed.
Lemma fact_pos n : 0 < INR (fact n).
Proof. apply lt_0_INR, lt_O_fact. Qed.
(** k / (2k)! = 1/2 / (2k-1)!, k / (2k+1)! = (1/(2k)! - 1/(2k+1)!) / 2 *)
Lemma dcos_series s : s <> 0 ->
  infinite_sum (fun k => / INR (fact (2 * k)) * (INR k * (- (s * s)) ^ pred k)) (sin s / s / 2).
Proof.
  intro N. replace (sin s / s / 2) with (/ INR (fact (2 * 0)) * (INR 0 * (- (s * s)) ^ pred 0) + 1 / 2 * (sin s / s))
    by (cbn; field; exact N).
  apply (inf_unshift (fun k => / INR (fact (2 * k)) * (INR k * (- (s * s)) ^ pred k))).
  eapply inf_ext; [|apply inf_scale, sinc_series; exact N]. intro k. cbn [pred].
  replace (2 * S k)%nat with (S (2 * k + 1)) by lia.
  rewrite fact_simpl, mult_INR. assert (F := fact_pos (2 * k + 1)). assert (K := pos_INR k).
  rewrite !S_INR, plus_INR, mult_INR. cbn [INR]. cbv beta. field. split; [lra|]. lra.
Qed.
Lemma dsinc_series s : s <> 0 ->
  infinite_sum (fun k => / INR (fact (2 * k + 1)) * (INR k * (- (s * s)) ^ pred k))
               ((cos s - sin s / s) / (2 * - (s * s))).
Proof.
  intro N. assert (A : - (s * s) <> 0) by nra.
  assert (D := inf_plus _ _ _ _ (cos_series s) (inf_scale _ (-1) _ (sinc_series s N))).
  replace ((cos s - sin s / s) / (2 * - (s * s))) with (/ (2 * - (s * s)) * (cos s + -1 * (sin s / s))) by (field; exact N).
  eapply inf_ext; [|apply inf_scale, D]. cbv beta. intro k. destruct k as [|k].
  - cbn. field. exact N.
  - replace (2 * S k + 1)%nat with (S (2 * S k)) by lia.
    assert (E : INR (fact (S (2 * S k))) = (2 * INR (S k) + 1) * INR (fact (2 * S k))).
    { rewrite fact_simpl, mult_INR, S_INR, mult_INR. reflexivity. }
    rewrite E. assert (F := fact_pos (2 * S k)). assert (K := pos_INR (S k)).
    change (pred (S k)) with k. change ((- (s * s)) ^ S k) with (- (s * s) * (- (s * s)) ^ k).
    generalize dependent (INR (fact (2 * S k))). generalize dependent (INR (S k)).
    generalize ((- (s * s)) ^ k). intros p n Hn F _ HF. field. repeat split; lra.
Qed.

(** ** Powers of a bivector *)
Definition bv (a1 a2 a3 b1 b2 b3 : R) : mv := mv_line (mkline (mk4 0 a1 a2 a3) (mk4 0 b1 b2 b3)).
Section Bivector.
Context (a1 a2 a3 b1 b2 b3 : R).
Let x := bv a1 a2 a3 b1 b2 b3.
Let al := - (a1 * a1 + a2 * a2 + a3 * a3).
Let be := 2 * (a1 * b1 + a2 * b2 + a3 * b3).
(** e 1 + e' I + o x + o' (I x) *)
Definition quad (e e' o o' : R) : mv :=
  mvadd (mvadd (mvscale e one) (mvscale e' I4)) (mvadd (mvscale o x) (mvscale o' (gp I4 x))).
Lemma quad_step e e' o o' : gp x (quad e e' o o') == quad (al * o) (be * o + al * o') e e'.
Proof. unfold quad, x, al, be. mvring. Qed.
Lemma pow_even k : mvpow x (2 * k) == quad (al ^ k) (INR k * al ^ pred k * be) 0 0
            /\ mvpow x (S (2 * k)) == quad 0 0 (al ^ k) (INR k * al ^ pred k * be).
Proof.
  assert (ST : forall j, mvpow x (S j) == gp x (mvpow x j)) by (intro; reflexivity).
  assert (P : forall j, mvpow x (2 * j) == quad (al ^ j) (INR j * al ^ pred j * be) 0 0 ->
              mvpow x (S (2 * j)) == quad 0 0 (al ^ j) (INR j * al ^ pred j * be)).
  { intros j H. rewrite ST, H, quad_step. unfold quad. intro i. unfold mvadd, mvscale. ring. }
  induction k as [|k [IH1 IH2]].
  - split; [|apply P]; cbn; unfold quad, x, al, be; mvring.
  - assert (E : mvpow x (2 * S k) == quad (al ^ S k) (INR (S k) * al ^ pred (S k) * be) 0 0).
    { replace (2 * S k)%nat with (S (S (2 * k))) by lia. rewrite ST, IH2, quad_step.
      unfold quad. intro i. unfold mvadd, mvscale. rewrite S_INR. cbn [pred pow].
      replace (al * (INR k * al ^ pred k * be)) with (INR k * (al ^ k) * be); [ring|].
      destruct k; cbn [pred pow INR]; ring. }
    split; [exact E|apply P; exact E].
Qed.
Lemma exp_partial_sum i n : exp_partial x n i = sum_f_R0 (fun j => / INR (fact j) * mvpow x j i) n.
Proof. induction n; [reflexivity|]. cbn [exp_partial]. rewrite tech5, <- IHn. reflexivity. Qed.

Lemma exp_bivector s : 0 < s -> s * s = - al ->
  is_exp x (quad (cos s) (be * (sin s / s / 2)) (sin s / s) (be * ((cos s - sin s / s) / (2 * al)))).
Proof.
  intros Hs Hq i. assert (N : s <> 0) by lra. assert (A : al = - (s * s)) by lra.
  set (g1 := fun j => if Nat.even j then / INR (fact j) * al ^ Nat.div2 j else 0).
  set (g2 := fun j => if Nat.even j then / INR (fact j) * (INR (Nat.div2 j) * al ^ pred (Nat.div2 j)) else 0).
  set (g3 := fun j => if Nat.even j then 0 else / INR (fact j) * al ^ Nat.div2 j).
  set (g4 := fun j => if Nat.even j then 0 else / INR (fact j) * (INR (Nat.div2 j) * al ^ pred (Nat.div2 j))).
  assert (EV : forall k, Nat.even (2 * k) = true) by (intro k; rewrite Nat.even_mul; reflexivity).
  assert (OD : forall k, Nat.even (S (2 * k)) = false) by (intro k; rewrite Nat.even_succ, <- Nat.negb_even, EV; reflexivity).
  assert (D0 : forall k, Nat.div2 (2 * k) = k) by apply Nat.div2_double.
  assert (D1 : forall k, Nat.div2 (S (2 * k)) = k) by apply Nat.div2_succ_double.
  assert (S1 : infinite_sum g1 (cos s)).
  { eapply cv_even; [| |rewrite A in *; apply cos_series]; unfold g1; intro k; rewrite ?EV, ?OD, ?D0, ?A; reflexivity. }
  assert (S2 : infinite_sum g2 (sin s / s / 2)).
  { eapply cv_even; [| |apply dcos_series; exact N]; unfold g2; intro k; rewrite ?EV, ?OD, ?D0, ?A; reflexivity. }
  assert (S3 : infinite_sum g3 (sin s / s)).
  { eapply cv_odd; [| |apply sinc_series; exact N]; unfold g3; intro k; rewrite ?EV, ?OD, ?D1, ?A; [reflexivity|].
    replace (2 * k + 1)%nat with (S (2 * k)) by lia. reflexivity. }
  assert (S4 : infinite_sum g4 ((cos s - sin s / s) / (2 * al))).
  { rewrite A. eapply cv_odd; [| |apply dsinc_series; exact N]; unfold g4; intro k; rewrite ?EV, ?OD, ?D1, ?A; [reflexivity|].
    replace (2 * k + 1)%nat with (S (2 * k)) by lia. reflexivity. }
  assert (T : infinite_sum (fun j => one i * g1 j + (be * I4 i) * g2 j + (x i * g3 j + (be * gp I4 x i) * g4 j))
    (one i * cos s + (be * I4 i) * (sin s / s / 2) + (x i * (sin s / s) + (be * gp I4 x i) * ((cos s - sin s / s) / (2 * al))))).
  { apply inf_plus; apply inf_plus; apply inf_scale; assumption. }
  apply (inf_ext _ (fun j => / INR (fact j) * mvpow x j i)) in T.
  - intros e He. destruct (T e He) as [M HM]. exists M. intros n Hn. rewrite exp_partial_sum.
    match goal with |- R_dist _ ?v < _ => match type of HM with forall n, _ -> R_dist _ ?w < _ => replace v with w; [apply HM; exact Hn|] end end.
    unfold quad, mvadd, mvscale. ring.
  - intro j. unfold g1, g2, g3, g4. destruct (Nat.Even_or_Odd j) as [[k ->]|[k ->]].
    + rewrite EV, D0, (proj1 (pow_even k) i). unfold quad, mvadd, mvscale. ring.
    + replace (2 * k + 1)%nat with (S (2 * k)) by lia. rewrite OD, D1, (proj2 (pow_even k) i). unfold quad, mvadd, mvscale. ring.
Qed.
End Bivector.
(** the square of an ideal bivector vanishes *)
Lemma exp_ideal b1 b2 b3 : is_exp (bv 0 0 0 b1 b2 b3) (mvadd one (bv 0 0 0 b1 b2 b3)).
Proof.
  set (x := bv 0 0 0 b1 b2 b3).
  assert (Z : forall n i, mvpow x (S (S n)) i = 0).
  { assert (Z0 : forall y, gp x (gp x y) == mvzero) by (intro y; unfold x; mvring).
    intros n i. cbn [mvpow]. rewrite (Z0 (mvpow x n) i). reflexivity. }
  assert (S1 : mvpow x 1 == x) by (cbn; apply gp_one_r).
  assert (E : forall n i, exp_partial x (S n) i = mvadd one x i).
  { intros n i. induction n.
    - cbn [exp_partial]. unfold mvadd at 1, mvscale. rewrite (S1 i). cbn. unfold mvadd. field.
    - cbn [exp_partial] in *. unfold mvadd at 1. rewrite IHn. unfold mvscale. rewrite Z. ring. }
  intros i e He. exists 1%nat. intros n Hn. destruct n as [|n]; [lia|]. rewrite E.
  unfold R_dist. rewrite Rminus_diag_eq, Rabs_R0 by reflexivity. exact He.
Qed.
