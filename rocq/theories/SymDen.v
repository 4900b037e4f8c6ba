(** The multivector an expression tree means, and that the value the parser
    computes for it denotes it. *)
From Coq Require Import List Bool ZArith NArith String Ascii Lia Reals Setoid Morphisms Permutation.
From Verif Require Import Scalar SpecPGA SymMap SymPoly SymPolyFacts SymGA SymGAFacts SymMVFacts SymPGA SymParse
  SymParseFacts.
Import ListNotations.
Local Open Scope R_scope.

Section Den.
Context {C : Type} `{LAWS : CoefLaws C}.
Notation ex := (ex C).

(** meaning: numbers and identifiers are scalars, elements are blades *)
Definition sgnR (negative : bool) : R := if negative then -1 else 1.
(** the operand of an inner product without its scalar part (the code drops it) *)
Definition drop_scalar (m : SpecPGA.mv) : SpecPGA.mv := fun k => if Nat.eqb (grade k) 0 then 0 else m k.
Definition bop_mean (o : bop) : SpecPGA.mv -> SpecPGA.mv -> SpecPGA.mv :=
  match o with
  | OAdd => mvadd | OSub => mvsub | OMul => gp | OExt => SpecPGA.ext | OReg => SpecPGA.reg
  | ODot => fun x y => SpecPGA.dot (drop_scalar x) (drop_scalar y)
  end.
Fixpoint mean (rho : string -> R) (e : ex) : SpecPGA.mv :=
  match e with
  | XNum v => mvscale (cval v) one
  | XId s => mvscale (rho s) one
  | XEl b n => mvscale (sgnR n) (basis (bl b))
  | XNumEl v b n => mvscale (cval v * sgnR n) (basis (bl b))
  | XIdEl s b n => mvscale (rho s * sgnR n) (basis (bl b))
  | XNeg e => mvopp (mean rho e)
  | XRev e => SpecPGA.rev (mean rho e)
  | XPos e => mean rho e
  | XBin o e f => bop_mean o (mean rho e) (mean rho f)
  end.
(** all elements are blades of the algebra: indices 0 to 3 *)
Fixpoint in_pga (e : ex) : Prop :=
  match e with
  | XNum _ | XId _ => True
  | XEl b _ | XNumEl _ b _ | XIdEl _ b _ => (b < 16)%N
  | XNeg e | XRev e | XPos e => in_pga e
  | XBin _ e f => in_pga e /\ in_pga f
  end.

(** ** invariants of the data structures *)
Section Inv.
Variable rho : string -> R.
Definition inv (m : smv C) : Prop := forall e p, In (e, p) m -> (e < 16)%N /\ ppow_ok rho p.
Lemma ppow_add_step p m f : ppow_ok rho p -> pow_ok rho m -> ppow_ok rho (poly_add_step p (m, f)).
Proof.
  intros P M. unfold poly_add_step. destruct (find mon_lt m p).
  - destruct (ceq0 _); intros m' f' I.
    + apply In_erase in I. eauto.
    + apply In_assign in I. destruct I as [I|[_ [v0 I]]]; eauto.
  - intros m' f' I. apply In_emplace in I. destruct I as [I|I]; [inversion I; subst; assumption|eauto].
Qed.
Lemma ppow_add p q : ppow_ok rho p -> ppow_ok rho q -> ppow_ok rho (poly_add p q).
Proof.
  unfold poly_add. revert p. induction q as [|[m f] q IH]; intros p P Q; [assumption|]. cbn [fold_left].
  apply IH; [apply ppow_add_step; [assumption|apply (Q m f); left; reflexivity]|].
  intros m' f' I. apply (Q m' f'). right. assumption.
Qed.
Lemma ppow_bump p m f : ppow_ok rho p -> pow_ok rho m -> ppow_ok rho (poly_bump p m f).
Proof.
  intros P M. unfold poly_bump. destruct (find mon_lt m p); intros m' f' I.
  - apply In_assign in I. destruct I as [I|[_ [v0 I]]]; eauto.
  - apply In_emplace in I. destruct I as [I|I]; [inversion I; subst; assumption|eauto].
Qed.
Lemma ppow_opp p : ppow_ok rho p -> ppow_ok rho (poly_opp p).
Proof.
  intros P m f I. unfold poly_opp in I. apply in_map_iff in I. destruct I as [[m' f'] [E I]].
  inversion E; subst. eauto.
Qed.
Lemma ppow_row m f q : pow_ok rho m -> ppow_ok rho q -> ppow_ok rho (poly_mul_row m f q).
Proof.
  intros M. unfold poly_mul_row.
  assert (G : forall t, ppow_ok rho t -> ppow_ok rho q -> ppow_ok rho (fold_left (fun t mf => let '(m2, f2) := mf in
      if negb (ceq0 (fmul f f2)) then poly_bump t (mon_mul m m2) (fmul f f2) else t) q t)).
  { induction q as [|[m2 f2] q IH]; intros t T Q; [assumption|]. cbn [fold_left].
    apply IH; [|intros m' f' I; apply (Q m' f'); right; assumption].
    destruct (negb _); [|assumption]. apply ppow_bump; [assumption|].
    apply meval_mul_ok; [assumption|]. apply (Q m2 f2). left. reflexivity. }
  apply G. intros m' f' [].
Qed.
Lemma ppow_mul p q : ppow_ok rho p -> ppow_ok rho q -> ppow_ok rho (poly_mul p q).
Proof.
  intros P Q. unfold poly_mul.
  assert (G : forall t, ppow_ok rho t -> ppow_ok rho p -> ppow_ok rho (fold_left (fun out mf => let '(m1, f1) := mf in
      poly_add out (poly_mul_row m1 f1 q)) p t)).
  { clear P. induction p as [|[m f] p IH]; intros t T P; [assumption|]. cbn [fold_left].
    apply IH; [|intros m' f' I; apply (P m' f'); right; assumption].
    apply ppow_add; [assumption|]. apply ppow_row; [|assumption]. apply (P m f). left. reflexivity. }
  apply G; [intros m' f' []|assumption].
Qed.

Lemma find_In' {K V} (lt : K -> K -> bool) k (v : V) l : find lt k l = Some v -> exists k', In (k', v) l.
Proof.
  induction l as [|[k0 v0] l IH]; cbn; [discriminate|]. destruct (lt k0 k).
  - intro E. destruct (IH E) as [k' I]. exists k'. right. assumption.
  - destruct (lt k k0); [discriminate|]. intro E. inversion E; subst. exists k0. left. reflexivity.
Qed.
Lemma inv_push m e p : inv m -> (e < 16)%N -> ppow_ok rho p -> inv (smv_push m e p).
Proof.
  intros M E P. unfold smv_push. destruct (find elem_lt e m) as [q|] eqn:F.
  - destruct (find_In' _ _ _ _ F) as [k' I]. destruct (M _ _ I) as [_ Q]. pose proof (ppow_add q p Q P) as S.
    destruct (poly_add q p) as [|x s].
    + intros e' p' J. apply In_erase in J. apply (M _ _ J).
    + intros e' p' J. apply In_assign in J. destruct J as [J|[-> [v0 J]]]; [apply (M _ _ J)|].
      split; [apply (M _ _ J)|assumption].
  - intros e' p' J. apply In_emplace in J. destruct J as [J|J]; [inversion J; subst; split; assumption|apply (M _ _ J)].
Qed.
Lemma inv_add m n : inv m -> inv n -> inv (smv_add m n).
Proof.
  unfold smv_add. revert m. induction n as [|[e p] n IH]; intros m M N; [assumption|]. cbn [fold_left fst snd].
  destruct (N e p (or_introl eq_refl)) as [L P]. apply IH; [apply inv_push; assumption|].
  intros e' p' I. apply N. right. assumption.
Qed.
Lemma inv_sub m n : inv m -> inv n -> inv (smv_sub m n).
Proof.
  unfold smv_sub. revert m. induction n as [|[e p] n IH]; intros m M N; [assumption|]. cbn [fold_left fst snd].
  destruct (N e p (or_introl eq_refl)) as [L P]. apply IH; [apply inv_push; [assumption|assumption|apply ppow_opp; assumption]|].
  intros e' p' I. apply N. right. assumption.
Qed.
Lemma inv_opp m : inv m -> inv (smv_opp m).
Proof.
  intros M e p I. unfold smv_opp in I. apply in_map_iff in I. destruct I as [[e' p'] [E I]]. inversion E; subst.
  destruct (M _ _ I). split; [assumption|apply ppow_opp; assumption].
Qed.
Lemma inv_rev m : inv m -> inv (smv_rev m).
Proof.
  intros M e p I. unfold smv_rev in I. apply in_map_iff in I. destruct I as [[e' p'] [E I]]. inversion E; subst.
  destruct (M _ _ I). cbn [fst snd]. split; [assumption|]. destruct (alg_rev e); [apply ppow_opp|]; assumption.
Qed.
Lemma inv_acc op e1 p1 out e2 p2 : op_closed 4 op -> (e1 < 16)%N -> (e2 < 16)%N -> ppow_ok rho p1 -> ppow_ok rho p2 ->
  inv out -> inv (smv_acc op e1 p1 out e2 p2).
Proof.
  intros CL E1 E2 P1 P2 O. unfold smv_acc. destruct (Z.eqb_spec (op e1 e2) 0) as [Z|NZ]; cbn [negb]; [assumption|].
  pose proof (CL e1 e2 E1 E2 NZ) as B. change (2 ^ N.of_nat 4)%N with 16%N in B.
  set (e := blade_of (op e1 e2)) in *.
  set (out' := match find elem_lt e out with None => emplace elem_lt e [] out | Some _ => out end).
  assert (O' : inv out').
  { unfold out'. destruct (find elem_lt e out); [assumption|]. intros e' p' J. apply In_emplace in J.
    destruct J as [J|J]; [inversion J; subst; split; [assumption|intros m f []]|apply (O _ _ J)]. }
  assert (OLD : ppow_ok rho (match find elem_lt e out' with Some q => q | None => [] end)).
  { destruct (find elem_lt e out') as [q|] eqn:F; [|intros m f []]. destruct (find_In' _ _ _ _ F) as [k' I].
    apply (O' _ _ I). }
  intros e' p' J. apply In_assign in J. destruct J as [J|[-> [v0 J]]]; [apply (O' _ _ J)|].
  split; [apply (O' _ _ J)|]. apply ppow_add; [assumption|].
  destruct (op e1 e2 <? 0)%Z; [apply ppow_opp|]; apply ppow_mul; assumption.
Qed.
Lemma inv_prod op m n : op_closed 4 op -> inv m -> inv n -> inv (smv_prod op m n).
Proof.
  intros CL M N. unfold smv_prod.
  assert (IN : forall n e1 p1 out, inv n -> (e1 < 16)%N -> ppow_ok rho p1 -> inv out ->
    inv (fold_left (fun out ep2 => smv_acc op e1 p1 out (fst ep2) (snd ep2)) n out)).
  { clear N n. induction n as [|[e2 p2] n IH]; intros e1 p1 out N E1 P1 O; [assumption|]. cbn [fold_left fst snd].
    destruct (N e2 p2 (or_introl eq_refl)) as [E2 P2].
    apply IH; try assumption; [intros e p I; apply N; right; assumption|]. apply inv_acc; assumption. }
  assert (OUT : forall m out, inv m -> inv out -> inv (fold_left (fun out ep1 =>
       fold_left (fun out ep2 => smv_acc op (fst ep1) (snd ep1) out (fst ep2) (snd ep2)) n out) m out)).
  { clear M m. induction m as [|[e1 p1] m IH]; intros out M O; [assumption|]. cbn [fold_left fst snd].
    destruct (M e1 p1 (or_introl eq_refl)) as [E1 P1].
    apply IH; [intros e p I; apply M; right; assumption|]. apply IN; assumption. }
  intros e p I. unfold smv_prune in I. apply filter_In in I. destruct I as [I _]. revert e p I.
  apply OUT; [assumption|]. intros e p [].
Qed.
Lemma inv_keys m : inv m -> keys16 m. Proof. intros M e p I. apply (M e p I). Qed.
Lemma inv_pow m : inv m -> spow_ok rho m. Proof. intros M e p I. apply (M e p I). Qed.
Lemma inv_single b m (f : C) : (b < 16)%N -> pow_ok rho m -> inv (single b m f).
Proof.
  intros B M e p [I|[]]. inversion I; subst. split; [assumption|]. intros m' f' [J|[]]. inversion J; subst. assumption.
Qed.
Lemma pow_nil : pow_ok rho []. Proof. intros v d []. Qed.
Lemma pow_var s : pow_ok rho [(s, 1%Z)].
Proof. intros v d [I|[]]. inversion I; subst. right. lia. Qed.
Lemma inv_value e : in_pga e -> inv (value pga e).
Proof.
  induction e as [v|s|b n|v b n|s b n|e IH|e IH|e IH|o e IH f IH']; cbn [in_pga value]; intro P.
  - apply inv_single; [lia|apply pow_nil].
  - apply inv_single; [lia|apply pow_var].
  - apply inv_single; [assumption|apply pow_nil].
  - apply inv_single; [assumption|apply pow_nil].
  - apply inv_single; [assumption|apply pow_var].
  - apply inv_opp. auto.
  - apply inv_rev. auto.
  - auto.
  - destruct P as [P Q]. specialize (IH P). specialize (IH' Q).
    destruct o; cbn [bop_sem];
      [apply inv_add|apply inv_sub|apply inv_prod|apply inv_prod|apply inv_prod|apply inv_prod]; try assumption;
      [apply mul_closed|apply ext_closed|apply reg_closed|apply dot_closed].
Qed.

(** ** the value denotes the meaning *)
Lemma eval_single b m (f : C) : (b < 16)%N ->
  pga_eval rho (single b m f) == mvscale (cval f * meval rho m) (basis (bl b)).
Proof.
  intros B k. rewrite (pga_eval_lin rho (single b m f)) by (intros e p [I|[]]; inversion I; subst; assumption).
  cbn [single lin fold_right fst snd peval]. unfold mvadd, mvscale, mvzero. ring.
Qed.
Lemma powerRZ_one x : powerRZ x 1 = x. Proof. exact (Rmult_1_r x). Qed.
Lemma mvscale_eq x y u : x = y -> mvscale x u == mvscale y u. Proof. intros ->. reflexivity. Qed.
Lemma value_mean e : in_pga e -> pga_eval rho (value pga e) == mean rho e.
Proof.
  induction e as [v|s|b n|v b n|s b n|e IH|e IH|e IH|o e IH f IH']; cbn [in_pga value mean]; intro P.
  - intro k. rewrite (eval_single 0 [] v ltac:(lia) k). unfold mvscale. cbn [meval fold_right].
    change (basis (bl 0) k) with (one k). ring.
  - intro k. rewrite (eval_single 0 _ _ ltac:(lia) k). unfold mvscale. cbn [meval fold_right fst snd].
    rewrite cval_fz. change (basis (bl 0) k) with (one k). rewrite powerRZ_one. ring.
  - intro k. rewrite (eval_single b [] _ P k). unfold mvscale. cbn [meval fold_right].
    destruct n; rewrite cval_fz; unfold sgnR; ring.
  - intro k. rewrite (eval_single b [] _ P k). unfold mvscale, signed. cbn [meval fold_right].
    destruct n; rewrite ?cval_mul, ?cval_fz; unfold sgnR; ring.
  - intro k. rewrite (eval_single b _ _ P k). unfold mvscale, signed. cbn [meval fold_right fst snd]. rewrite powerRZ_one.
    destruct n; rewrite ?cval_mul, ?cval_fz; unfold sgnR; ring.
  - intro k. rewrite (pga_eval_opp rho _ k). unfold mvopp. rewrite (IH P k). reflexivity.
  - intro k. rewrite (pga_eval_rev rho _ k). unfold SpecPGA.rev. destruct (grade k) as [|[|[|[|?]]]]; rewrite (IH P k); reflexivity.
  - exact (IH P).
  - destruct P as [P Q]. specialize (IH P). specialize (IH' Q).
    pose proof (inv_value e P) as I1. pose proof (inv_value f Q) as I2.
    pose proof (inv_keys _ I1). pose proof (inv_keys _ I2). pose proof (inv_pow _ I1). pose proof (inv_pow _ I2).
    destruct o; cbn [bop_sem bop_mean]; unfold smv_mul, smv_ext, smv_reg, smv_dot.
    + intro k. rewrite (pga_eval_add rho _ _ k). unfold mvadd. rewrite (IH k), (IH' k). reflexivity.
    + intro k. rewrite (pga_eval_sub rho _ _ k). unfold mvsub. rewrite (IH k), (IH' k). reflexivity.
    + intro k. rewrite (pga_eval_prod (alg_mul pga) gp rho _ _ gp_bilinear mul_agrees) by assumption.
      apply gp_congr; assumption.
    + intro k. rewrite (pga_eval_prod (alg_ext pga) SpecPGA.ext rho _ _ ext_bilinear ext_agrees) by assumption.
      apply ext_congr; assumption.
    + intro k. rewrite (pga_eval_prod (alg_reg pga) SpecPGA.reg rho _ _ reg_bilinear reg_agrees) by assumption.
      apply (proj1 reg_bilinear); assumption.
    + intro k. rewrite (pga_eval_prod (alg_dot pga) dot0 rho _ _ dot0_bilinear dot_agrees) by assumption.
      apply (proj1 dot0_bilinear (pga_eval rho (value pga e)) (mean rho e) (pga_eval rho (value pga f)) (mean rho f)); assumption.
Qed.
End Inv.
End Den.
