(** The four symbolic products at signature (3,0,1) are the products of
    P(R*_{3,0,1}) (SpecPGA). *)
From Coq Require Import List Bool ZArith NArith String Reals Lia Lra.
From Coq Require Import Setoid Morphisms.
From Verif Require Import Scalar SpecPGA SymMap SymPoly SymPolyFacts SymGA SymGAFacts SymMVFacts.
Import ListNotations.
Local Open Scope R_scope.

Definition bil (w : blade -> blade -> Z) (a b : SpecPGA.mv) : SpecPGA.mv :=
  fun k => sum16 (fun i => smul (w i (bxor i k)) (a i * b (bxor i k))).
Lemma bil_basis w i j : (forall i j, (w i j = 0 \/ w i j = 1 \/ w i j = -1)%Z) ->
  bil w (basis i) (basis j) == mvscale (IZR (w i j)) (basis (bxor i j)).
Proof.
  intros W k. unfold bil, mvscale.
  rewrite (sum16_ext _ (fun i' => if Nat.eqb (grade (bxor i i')) 0
                                  then smul (w i (bxor i k)) (basis j (bxor i k)) else 0)).
  - rewrite sum16_basis, smul_IZR by apply W. unfold basis.
    rewrite bxor_assoc, (bxor_comm i (bxor j k)), bxor_assoc, (bxor_comm k i).
    destruct (Nat.eqb (grade (bxor j (bxor i k))) 0) eqn:E; [|ring].
    apply grade_bxor in E. rewrite <- E. reflexivity.
  - intro i'. unfold basis at 1. destruct (Nat.eqb (grade (bxor i i')) 0) eqn:E.
    + apply grade_bxor in E. subst i'. destruct (W i (bxor i k)) as [->|[->| ->]]; cbn; ring.
    + destruct (W i' (bxor i' k)) as [->|[->| ->]]; cbn; ring.
Qed.
Lemma bl_code k : bl (code k) = k.
Proof. destruct k as [[|] [|] [|] [|]]; reflexivity. Qed.
Lemma code_lt k : (code k < 16)%N.
Proof. destruct k as [[|] [|] [|] [|]]; reflexivity. Qed.

(** agreement on blades reduces to a table of integers *)
Definition keys : list N := map N.of_nat (seq 0 16).
Lemma keys_spec e : (e < 16)%N -> In e keys.
Proof.
  intro L. unfold keys. apply in_map_iff. exists (N.to_nat e). split; [apply N2Nat.id|].
  apply in_seq. lia.
Qed.
Definition table (op : N -> N -> Z) (w : blade -> blade -> Z) (t : blade -> blade -> blade) : bool :=
  forallb (fun e1 => forallb (fun e2 =>
    (op e1 e2 =? w (bl e1) (bl e2) * (Z.of_N (code (t (bl e1) (bl e2))) + 1))%Z) keys) keys.
Lemma agrees_table op f w t :
  (forall i j, (w i j = 0 \/ w i j = 1 \/ w i j = -1)%Z) ->
  (forall i j, f (basis i) (basis j) == mvscale (IZR (w i j)) (basis (t i j))) ->
  table op w t = true -> agrees op f.
Proof.
  intros W F T e1 e2 H1 H2 k. rewrite (F _ _ k). unfold mvscale.
  unfold table in T. rewrite forallb_forall in T. specialize (T e1 (keys_spec e1 H1)). cbv beta in T.
  rewrite forallb_forall in T. specialize (T e2 (keys_spec e2 H2)). apply Z.eqb_eq in T.
  rewrite T. set (c := code (t (bl e1) (bl e2))).
  assert (B : basis (t (bl e1) (bl e2)) k = if N.eqb c (code k) then 1 else 0).
  { rewrite <- (bl_code (t (bl e1) (bl e2))). apply basis_bl, code_lt. }
  rewrite B. unfold blade_of.
  assert (Z.to_N (Z.abs (1 * (Z.of_N c + 1)) - 1) = c) as Q1 by lia.
  assert (Z.to_N (Z.abs (-1 * (Z.of_N c + 1)) - 1) = c) as Q2 by lia.
  destruct (W (bl e1) (bl e2)) as [->|[->| ->]].
  - cbn. ring.
  - rewrite Q1. destruct (Z.eqb_spec (1 * (Z.of_N c + 1)) 0); [lia|]. cbn [negb andb].
    replace (Z.sgn (1 * (Z.of_N c + 1))) with 1%Z by lia. destruct (N.eqb c (code k)); ring.
  - rewrite Q2. destruct (Z.eqb_spec (-1 * (Z.of_N c + 1)) 0); [lia|]. cbn [negb andb].
    replace (Z.sgn (-1 * (Z.of_N c + 1))) with (-1)%Z by lia. destruct (N.eqb c (code k)); ring.
Qed.

(** bilinearity *)
Lemma ext_bilinear : bilinear SpecPGA.ext.
Proof.
  split; [intros; apply ext_congr; assumption|]. repeat split; intros; mvring.
Qed.
Lemma gp_bilinear : bilinear gp.
Proof.
  split; [intros; apply gp_congr; assumption|]. repeat split; intros; mvring.
Qed.
Lemma dot_bilinear : bilinear SpecPGA.dot.
Proof.
  split; [intros; apply dot_congr; assumption|]. repeat split; intros; mvring.
Qed.
Lemma J_add a b : J (mvadd a b) == mvadd (J a) (J b). Proof. mvring. Qed.
Lemma J_scale s a : J (mvscale s a) == mvscale s (J a). Proof. mvring. Qed.
Lemma reg_bilinear : bilinear SpecPGA.reg.
Proof.
  destruct ext_bilinear as [P [AL [AR [SL SR]]]].
  split; [intros x x' y y' H K; unfold SpecPGA.reg; apply J_congr, P; apply J_congr; assumption|].
  unfold SpecPGA.reg. repeat split; intros.
  - intro k. rewrite (J_congr _ _ (P _ _ _ _ (J_add x y) (mveq_refl _)) k).
    rewrite (J_congr _ _ (AL _ _ _) k). apply J_add.
  - intro k. rewrite (J_congr _ _ (P _ _ _ _ (mveq_refl _) (J_add x y)) k).
    rewrite (J_congr _ _ (AR _ _ _) k). apply J_add.
  - intro k. rewrite (J_congr _ _ (P _ _ _ _ (J_scale s x) (mveq_refl _)) k).
    rewrite (J_congr _ _ (SL _ _ _) k). apply J_scale.
  - intro k. rewrite (J_congr _ _ (P _ _ _ _ (mveq_refl _) (J_scale s x)) k).
    rewrite (J_congr _ _ (SR _ _ _) k). apply J_scale.
Qed.

(** weights of the products on blades *)
Definition w_ext (i j : blade) : Z := if disjoint i j then sgn i j else 0%Z.
Definition w_dot (i j : blade) : Z := if inner_grade i j then sgn i j else 0%Z.
Lemma w_ext_values i j : (w_ext i j = 0 \/ w_ext i j = 1 \/ w_ext i j = -1)%Z.
Proof. unfold w_ext. destruct (disjoint i j); [apply sgn_values|auto]. Qed.
Lemma w_dot_values i j : (w_dot i j = 0 \/ w_dot i j = 1 \/ w_dot i j = -1)%Z.
Proof. unfold w_dot. destruct (inner_grade i j); [apply sgn_values|auto]. Qed.
Lemma ext_basis i j : SpecPGA.ext (basis i) (basis j) == mvscale (IZR (w_ext i j)) (basis (bxor i j)).
Proof. exact (bil_basis w_ext i j w_ext_values). Qed.
Lemma dot_basis i j : SpecPGA.dot (basis i) (basis j) == mvscale (IZR (w_dot i j)) (basis (bxor i j)).
Proof. exact (bil_basis w_dot i j w_dot_values). Qed.
Lemma J_basis i : J (basis i) == mvscale (IZR (J_sign i)) (basis (bcompl i)).
Proof. destruct i as [[|] [|] [|] [|]]; mvring. Qed.
Lemma J_sign_values i : (J_sign i = 1 \/ J_sign i = -1)%Z.
Proof. destruct i as [[|] [|] [|] [|]]; cbv; auto. Qed.
Definition w_reg (i j : blade) : Z :=
  (J_sign i * J_sign j * w_ext (bcompl i) (bcompl j) * J_sign (bxor (bcompl i) (bcompl j)))%Z.
Definition t_reg (i j : blade) : blade := bcompl (bxor (bcompl i) (bcompl j)).
Lemma w_reg_values i j : (w_reg i j = 0 \/ w_reg i j = 1 \/ w_reg i j = -1)%Z.
Proof.
  unfold w_reg.
  destruct (J_sign_values i) as [->| ->], (J_sign_values j) as [->| ->],
    (w_ext_values (bcompl i) (bcompl j)) as [->|[->| ->]],
    (J_sign_values (bxor (bcompl i) (bcompl j))) as [->| ->]; cbn; auto.
Qed.
Lemma reg_basis i j : SpecPGA.reg (basis i) (basis j) == mvscale (IZR (w_reg i j)) (basis (t_reg i j)).
Proof.
  unfold SpecPGA.reg, w_reg, t_reg. destruct ext_bilinear as [P [AL [AR [SL SR]]]]. intro k.
  rewrite (J_congr _ _ (P _ _ _ _ (J_basis i) (J_basis j)) k).
  rewrite (J_congr _ _ (SL _ _ _) k), (J_scale _ _ k). unfold mvscale at 1.
  rewrite (J_congr _ _ (SR _ _ _) k), (J_scale _ _ k). unfold mvscale at 1.
  rewrite (J_congr _ _ (ext_basis _ _) k), (J_scale _ _ k). unfold mvscale at 1.
  rewrite (J_basis _ k). unfold mvscale. rewrite !mult_IZR. ring.
Qed.

Lemma mul_agrees : agrees (alg_mul pga) gp.
Proof. apply (agrees_table _ _ sgn bxor sgn_values gp_basis). vm_compute. reflexivity. Qed.
Lemma ext_agrees : agrees (alg_ext pga) SpecPGA.ext.
Proof. apply (agrees_table _ _ w_ext bxor w_ext_values ext_basis). vm_compute. reflexivity. Qed.
Lemma reg_agrees : agrees (alg_reg pga) SpecPGA.reg.
Proof. apply (agrees_table _ _ w_reg t_reg w_reg_values reg_basis). vm_compute. reflexivity. Qed.
(** the code's dot annihilates scalars *)
Definition is_sc (i : blade) : bool := Nat.eqb (grade i) 0.
Definition w_dot0 (i j : blade) : Z := if is_sc i || is_sc j then 0%Z else w_dot i j.
Definition no_sc (a : SpecPGA.mv) : SpecPGA.mv := fun k => if is_sc k then 0 else a k.
(** the inner product without the scalar parts *)
Definition dot0 (a b : SpecPGA.mv) : SpecPGA.mv := SpecPGA.dot (no_sc a) (no_sc b).
Lemma w_dot0_values i j : (w_dot0 i j = 0 \/ w_dot0 i j = 1 \/ w_dot0 i j = -1)%Z.
Proof. unfold w_dot0. destruct (_ || _); [auto|apply w_dot_values]. Qed.
Lemma dot0_bilinear : bilinear dot0.
Proof.
  destruct dot_bilinear as [P [AL [AR [SL SR]]]].
  assert (NC : forall x x', x == x' -> no_sc x == no_sc x')
    by (intros x x' E k; unfold no_sc; destruct (is_sc k); [reflexivity|apply E]).
  assert (NA : forall x y, no_sc (mvadd x y) == mvadd (no_sc x) (no_sc y))
    by (intros x y k; unfold no_sc, mvadd; destruct (is_sc k); ring).
  assert (NS : forall s x, no_sc (mvscale s x) == mvscale s (no_sc x))
    by (intros s x k; unfold no_sc, mvscale; destruct (is_sc k); ring).
  unfold dot0. split; [intros; apply P; apply NC; assumption|].
  repeat split; intros; intro k.
  - rewrite (P _ _ _ _ (NA x y) (mveq_refl _) k). apply AL.
  - rewrite (P _ _ _ _ (mveq_refl _) (NA x y) k). apply AR.
  - rewrite (P _ _ _ _ (NS s x) (mveq_refl _) k). apply SL.
  - rewrite (P _ _ _ _ (mveq_refl _) (NS s x) k). apply SR.
Qed.
Lemma no_sc_basis i : no_sc (basis i) == mvscale (if is_sc i then 0 else 1) (basis i).
Proof. destruct i as [[|] [|] [|] [|]]; mvring. Qed.
Lemma dot0_basis i j : dot0 (basis i) (basis j) == mvscale (IZR (w_dot0 i j)) (basis (bxor i j)).
Proof.
  destruct dot_bilinear as [P [AL [AR [SL SR]]]]. intro k. unfold dot0.
  rewrite (P _ _ _ _ (no_sc_basis i) (no_sc_basis j) k), (SL _ _ _ k). unfold mvscale at 1.
  rewrite (SR _ _ _ k). unfold mvscale at 1. rewrite (dot_basis i j k). unfold mvscale, w_dot0.
  destruct (is_sc i), (is_sc j); cbn; ring.
Qed.
Lemma dot_agrees : agrees (alg_dot pga) dot0.
Proof. apply (agrees_table _ _ w_dot0 bxor w_dot0_values dot0_basis). vm_compute. reflexivity. Qed.
Lemma dot0_dot a b : no_scalar a -> no_scalar b -> dot0 a b == SpecPGA.dot a b.
Proof.
  intros A B. apply dot_congr; intro k; unfold no_sc, is_sc;
    destruct k as [[|] [|] [|] [|]]; cbn; try reflexivity; symmetry; assumption.
Qed.

(** the products stay inside the algebra *)
Lemma closed_table op : forallb (fun e1 => forallb (fun e2 =>
    (op e1 e2 =? 0)%Z || (blade_of (op e1 e2) <? 16)%N) keys) keys = true -> op_closed 4 op.
Proof.
  intros T e1 e2 H1 H2 NZ. change (2 ^ N.of_nat 4)%N with 16%N in *.
  rewrite forallb_forall in T. specialize (T e1 (keys_spec e1 H1)). cbv beta in T.
  rewrite forallb_forall in T. specialize (T e2 (keys_spec e2 H2)).
  destruct (Z.eqb_spec (op e1 e2) 0); [contradiction|]. apply N.ltb_lt. assumption.
Qed.
Lemma mul_closed : op_closed 4 (alg_mul pga).
Proof. apply closed_table. vm_compute. reflexivity. Qed.
Lemma ext_closed : op_closed 4 (alg_ext pga).
Proof. apply closed_table. vm_compute. reflexivity. Qed.
Lemma reg_closed : op_closed 4 (alg_reg pga).
Proof. apply closed_table. vm_compute. reflexivity. Qed.
Lemma dot_closed : op_closed 4 (alg_dot pga).
Proof. apply closed_table. vm_compute. reflexivity. Qed.

(** reversal *)
Lemma rev_table k : alg_rev (code k) = match grade k with 2%nat | 3%nat => true | _ => false end.
Proof. destruct k as [[|] [|] [|] [|]]; reflexivity. Qed.

Section PGA.
Context {C : Type} `{CoefLaws C}.
Lemma pga_eval_add rho (a b : smv C) : pga_eval rho (smv_add a b) == mvadd (pga_eval rho a) (pga_eval rho b).
Proof. intro k. apply ev_add. Qed.
Lemma pga_eval_sub rho (a b : smv C) : pga_eval rho (smv_sub a b) == mvsub (pga_eval rho a) (pga_eval rho b).
Proof. intro k. apply ev_sub. Qed.
Lemma pga_eval_opp rho (a : smv C) : pga_eval rho (smv_opp a) == mvopp (pga_eval rho a).
Proof. intro k. apply ev_opp. Qed.
Lemma pga_eval_rev rho (a : smv C) : pga_eval rho (smv_rev a) == SpecPGA.rev (pga_eval rho a).
Proof.
  intro k. unfold pga_eval, SpecPGA.rev. rewrite ev_rev, rev_table.
  destruct (grade k) as [|[|[|[|?]]]]; reflexivity.
Qed.
End PGA.
