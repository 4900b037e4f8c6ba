(** Square roots of products a*b: conjugating b by sqrt(a*b). *)
From Coq Require Import Reals ZArith Lra Setoid Morphisms.
From Verif Require Import AlgTac SpecGeom FloR Closed Geom AlgGP AlgSW AlgNorm Motion.
Local Open Scope R_scope.

(** alpha + beta e0123 *)
Definition study_mv (al be : R) : mv := mvadd (scalar_mv al) (mvscale be I4).
Definition even_mv (x : mv) : Prop :=
  forall i0 i1 i2 i3, xorb (xorb i0 i1) (xorb i2 i3) = true -> x (Bl i0 i1 i2 i3) = 0.
Lemma study_comm al be x : even_mv x -> gp (study_mv al be) x == gp x (study_mv al be).
Proof.
  intro H. intro k.
  assert (E : forall i, (i = 1 \/ i = 3)%nat -> forall k, grade k = i -> x k = 0).
  { intros i Hi [i0 i1 i2 i3] G. apply H. destruct Hi; subst i; destruct i0, i1, i2, i3; cbn in *; congruence. }
  destruct k as [[|] [|] [|] [|]]; mvcbv; try ring;
    repeat match goal with |- context[x ?b] => first [rewrite (E 1%nat (or_introl eq_refl) b eq_refl) | rewrite (E 3%nat (or_intror eq_refl) b eq_refl) | generalize (x b); intro] end; ring.
Qed.
Lemma scalar_comm al x : gp (study_mv al 0) x == gp x (study_mv al 0).
Proof. mvring. Qed.
Lemma rev_study al be : rev (study_mv al be) == study_mv al be.
Proof. mvring. Qed.
Lemma rev_add x y : rev (mvadd x y) == mvadd (rev x) (rev y).
Proof. mvring. Qed.

(** s = d (1 + a b) with d commuting with a and b, s s = a b, b b = eps *)
Lemma sqrt_takes a b s d eps :
  gp b b == scalar_mv eps -> rev (gp a b) == gp b a ->
  gp d a == gp a d -> gp d b == gp b d -> rev d == d ->
  s == gp d (mvadd one (gp a b)) -> gp s s == gp a b ->
  sandwich s b == mvscale eps a.
Proof.
  intros Hb Hr Da Db Dr Hs Hq.
  assert (E : gp b (rev s) == gp s b).
  { rewrite Hs, rev_gp, rev_add, Hr, Dr.
    rewrite gp_add_l, gp_add_r, gp_add_r, gp_add_l.
    assert (R1 : rev one == one) by mvring. rewrite R1.
    apply mvadd_congr.
    - rewrite gp_one_l, gp_one_r. symmetry; exact Db.
    - transitivity (gp (gp b b) (gp a d)); [rewrite !gp_assoc; reflexivity|].
      transitivity (gp (gp d a) (gp b b)); [|rewrite !gp_assoc; reflexivity].
      rewrite Hb, Da. unfold scalar_mv.
      rewrite gp_scale_l, gp_scale_r, gp_one_l, gp_one_r. reflexivity. }
  unfold sandwich. rewrite gp_assoc, E, <- gp_assoc, Hq, gp_assoc, Hb.
  unfold scalar_mv. rewrite gp_scale_r, gp_one_r. reflexivity.
Qed.

Lemma even_line l : even_mv (mv_line l).
Proof. intros [|] [|] [|] [|] H; try discriminate; destruct l as [[a0 a1 a2 a3] [b0 b1 b2 b3]]; mvcbv; ring. Qed.
Lemma even_branch l : even_mv (mv_branch l).
Proof. intros [|] [|] [|] [|] H; try discriminate; destruct l as [[a0 a1 a2 a3]]; mvcbv; ring. Qed.
Lemma rev_line l : wf_line l -> rev (mv_line l) == mvscale (-1) (mv_line l).
Proof. alg. Qed.
Lemma rev_branch l : wf_branch l -> rev (mv_branch l) == mvscale (-1) (mv_branch l).
Proof. alg. Qed.

Section Q.
Context (rcp rsqrt : R -> R) (sz : bool) (Hrcp : exact_rcp rcp) (Hrsq : exact_rsqrt rsqrt).
Local Instance FLqt : Flo R := Flo_R rcp rsqrt sz.

Lemma motor_sqrt_form (B : Build) m : unit (mv_motor m) -> motor_scalar m <> -1 ->
  exists al be, mv_motor (motor_sqrt m) == gp (study_mv al be) (mvadd one (mv_motor m)) /\
    (motor_e0123 m = 0 -> be = 0).
Proof.
  intros U S. apply unit_motor_iff in U. destruct U as [U V]. unfold motor_sqrt.
  destruct m as [[s a b c] [t d e f]]. unfold motor_scalar in S. unfold dot4 in U.
  unfold study, neg0, dot4 in V. unfold motor_e0123.
  cbn [motor_p1 motor_p2 l0 l1 l2 l3] in *.
  set (r' := mkmotor _ _).
  assert (E : dot4 (motor_p1 r') (motor_p1 r') = 2 * (1 + s)).
  { unfold r', dot4. cbv -[Rplus Rmult IZR].
    transitivity (1 + 2 * s + (s * s + a * a + b * b + c * c)); [ring | rewrite U; ring]. }
  assert (P : 0 < dot4 (motor_p1 r') (motor_p1 r')).
  { rewrite E. assert (-1 <= s) by nra. lra. }
  assert (D : study (motor_p1 r') (motor_p2 r') = - t).
  { unfold r', study, neg0, dot4. cbv -[Rplus Rmult Ropp IZR].
    transitivity (- t + (- s * t + a * d + b * e + c * f)); [ring | rewrite V; ring]. }
  assert (M := motor_normalized_R rcp rsqrt sz Hrcp Hrsq B r' P). cbv zeta in M. rewrite D in M.
  generalize dependent (/ sqrt (dot4 (motor_p1 r') (motor_p1 r'))).
  intros k M. change (FLc rcp rsqrt sz) with FLqt in M. rewrite M.
  exists k, (k * (- t / dot4 (motor_p1 r') (motor_p1 r'))). split.
  - generalize (- t / dot4 (motor_p1 r') (motor_p1 r')). intro g. subst r'. mvring.
  - intros ->. unfold Rdiv. ring.
Qed.
Lemma rotor_sqrt_form (B : Build) m : unit (mv_rotor m) -> rotor_scalar m <> -1 ->
  exists al, mv_rotor (rotor_sqrt m) == gp (study_mv al 0) (mvadd one (mv_rotor m)).
Proof.
  intros U S. apply unit_rotor_iff in U. unfold rotor_sqrt.
  destruct m as [[s a b c]]. unfold rotor_scalar in S. unfold dot4 in U.
  cbn [rotor_p1 l0 l1 l2 l3] in *.
  set (r' := mkrotor _).
  assert (E : dot4 (rotor_p1 r') (rotor_p1 r') = 2 * (1 + s)).
  { unfold r', dot4. cbv -[Rplus Rmult IZR].
    transitivity (1 + 2 * s + (s * s + a * a + b * b + c * c)); [ring | rewrite U; ring]. }
  assert (P : 0 < dot4 (rotor_p1 r') (rotor_p1 r')).
  { rewrite E. assert (-1 <= s) by nra. lra. }
  assert (M := rotor_normalized_R rcp rsqrt sz Hrsq B r' P).
  generalize dependent (/ sqrt (dot4 (rotor_p1 r') (rotor_p1 r'))).
  intros k M. change (FLc rcp rsqrt sz) with FLqt in M. rewrite M.
  exists k. subst r'. mvring.
Qed.
End Q.
