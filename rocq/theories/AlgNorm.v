(** C15-C18: normalization, reversal, square roots (exact arithmetic, ideal
    hardware). *)
From Coq Require Import Reals ZArith Lra Nsatz.
From Verif Require Import AlgTac SpecGeom FloR Closed AlgGP AlgSW.
Local Open Scope R_scope.

(** unit element: x ~x = 1 *)
Definition unit (x : mv) : Prop := gp x (rev x) == one.

Ltac blades := match goal with |- _ == _ => let j := fresh "j" in intro j;
  destruct j as [[|] [|] [|] [|]]; mvcbv end.

(** ** What unit means for the entities *)
Lemma unit_motor_iff m :
  unit (mv_motor m) <-> dot4 (motor_p1 m) (motor_p1 m) = 1 /\ study (motor_p1 m) (motor_p2 m) = 0.
Proof.
  unfold study, dot4, neg0. split.
  - intro H. generalize (H (Bl false false false false)), (H (Bl true true true true)).
    clear H. opn. revert H H0. mvcbv. intros. lra.
  - intros [H1 H2]. revert H1 H2. opn. cbn [motor_p1 motor_p2 l0 l1 l2 l3] in *.
    unfold unit. blades; lra.
Qed.
Lemma unit_rotor_iff r : unit (mv_rotor r) <-> dot4 (rotor_p1 r) (rotor_p1 r) = 1.
Proof.
  unfold dot4. split.
  - intro H. generalize (H (Bl false false false false)).
    clear H. opn. revert H. mvcbv. intros. lra.
  - intros H1. revert H1. opn. cbn [rotor_p1 l0 l1 l2 l3] in *.
    unfold unit. blades; lra.
Qed.
Lemma unit_line_iff l : wf_line l ->
  (unit (mv_line l) <-> dot3 (line_p1 l) (line_p1 l) = 1 /\ dot3 (line_p1 l) (line_p2 l) = 0).
Proof.
  unfold dot3. intro W. split.
  - intro H. generalize (H (Bl false false false false)), (H (Bl true true true true)).
    clear H. opn. revert H H0. mvcbv. intros. lra.
  - intros [H1 H2]. revert H1 H2. opn. cbn [line_p1 line_p2 l0 l1 l2 l3] in *.
    unfold unit. blades; lra.
Qed.
Lemma unit_branch_iff b : wf_branch b ->
  (unit (mv_branch b) <-> dot3 (branch_p1 b) (branch_p1 b) = 1).
Proof.
  unfold dot3. intro W. split.
  - intro H. generalize (H (Bl false false false false)).
    clear H. opn. revert H. mvcbv. intros. lra.
  - intros H1. revert H1. opn. cbn [branch_p1 l0 l1 l2 l3] in *.
    unfold unit. blades; lra.
Qed.
Lemma unit_translator t : wf_translator t -> unit (mv_translator t).
Proof. unfold unit. alg. Qed.
Lemma unit_plane_iff p : unit (mv_plane p) <-> dot3 (plane_p0 p) (plane_p0 p) = 1.
Proof.
  unfold dot3. split.
  - intro H. generalize (H (Bl false false false false)).
    clear H. opn. revert H. mvcbv. intros. lra.
  - intros H1. revert H1. opn. cbn [plane_p0 l0 l1 l2 l3] in *.
    unfold unit. blades; lra.
Qed.

(** ** Reversal (C17) *)
Lemma line_rev_rev l : wf_line l -> mv_line (line_rev l) == rev (mv_line l). Proof. alg. Qed.
Lemma ideal_rev_rev l : wf_ideal l -> mv_ideal (ideal_line_rev l) == rev (mv_ideal l). Proof. alg. Qed.
Lemma branch_rev_rev l : wf_branch l -> mv_branch (branch_rev l) == rev (mv_branch l). Proof. alg. Qed.
Lemma rotor_rev_rev l : mv_rotor (rotor_rev l) == rev (mv_rotor l). Proof. alg. Qed.
Lemma motor_rev_rev l : mv_motor (motor_rev l) == rev (mv_motor l). Proof. alg. Qed.
Lemma point_rev_rev l : mv_point (point_rev l) == rev (mv_point l). Proof. alg. Qed.

(** a unit element with central norm is undone by its reverse *)
Lemma unit_rev_undo m x : unit m -> unit (rev m) -> sandwich (rev m) (sandwich m x) == x.
Proof.
  intros H K. unfold unit in *. rewrite rev_rev in K.
  rewrite <- sandwich_gp. unfold sandwich. rewrite rev_gp, rev_rev, K, gp_one_l, gp_one_r.
  reflexivity.
Qed.
(** in the even subalgebra and for bivectors a left inverse is a right inverse *)
Lemma unit_rev_motor m : unit (mv_motor m) -> unit (rev (mv_motor m)).
Proof.
  intro H. apply unit_motor_iff in H. destruct H as [H1 H2]. unfold study, dot4, neg0 in *.
  revert H1 H2. opn. cbn [motor_p1 motor_p2 l0 l1 l2 l3] in *.
  unfold unit. blades; lra.
Qed.
Lemma motor_rev_undoes m x : unit (mv_motor m) ->
  sandwich (mv_motor (motor_rev m)) (sandwich (mv_motor m) x) == x.
Proof.
  intro H. rewrite motor_rev_rev. apply unit_rev_undo; [exact H|apply unit_rev_motor; exact H].
Qed.

Section Norm.
Context (rcp rsqrt : R -> R) (sz : bool) (Hrcp : exact_rcp rcp) (Hrsq : exact_rsqrt rsqrt).
Local Instance FLn : Flo R := Flo_R rcp rsqrt sz.
Ltac fl := change FLn with (Flo_R rcp rsqrt sz) in *.

Lemma sq_inv_sqrt n : 0 < n -> / sqrt n * / sqrt n * n = 1.
Proof. intro H. rewrite (rsqrt2 _ H). apply Rinv_l. lra. Qed.
Lemma inv_sqrt_1 : / sqrt 1 = 1. Proof. rewrite sqrt_1. apply Rinv_1. Qed.

(** [K : k * k * n = 1] from [H : 0 < n], with k = / sqrt n generalized *)
Ltac skolem n H k K :=
  assert (K := sq_inv_sqrt n H); revert K; generalize (/ sqrt n); intros k K.
Ltac kcbn K := unfold dot3, dot4, study, dot4, neg0 in K;
  cbn [plane_p0 branch_p1 line_p1 line_p2 rotor_p1 motor_p1 motor_p2 point_p3 direction_p3 l0 l1 l2 l3] in K.
Ltac kring K :=
  try ring;
  match type of K with ?k * ?k * (?r + ?a) = 1 =>
    let K' := fresh in assert (K' : k * k * a = 1 - k * k * r) by (rewrite <- K; ring); ring [K']
  end.

(** ** C15 *)
Lemma plane_normalized_unit (B : Build) p : 0 < dot3 (plane_p0 p) (plane_p0 p) ->
  dot (mv_plane (plane_normalized p)) (mv_plane (plane_normalized p)) == one.
Proof.
  intro H. fl. rewrite plane_normalized_R by assumption. cbv zeta.
  skolem (dot3 (plane_p0 p) (plane_p0 p)) H k K. clear H.
  revert K. opn; kcbn K; blades; kring K.
Qed.
Lemma point_normalized_w (B : Build) p : point_w p <> 0 -> point_w (point_normalized p) = 1.
Proof.
  intro H. fl. rewrite point_normalized_R by assumption. destruct p as [[? ? ? ?]].
  unfold point_w in *. cbn in *. apply Rinv_l. exact H.
Qed.
Lemma direction_normalized_unit (B : Build) p : 0 < dot3 (direction_p3 p) (direction_p3 p) ->
  dot3 (direction_p3 (direction_normalized p)) (direction_p3 (direction_normalized p)) = 1.
Proof.
  intro H. fl. rewrite direction_normalized_R by assumption.
  skolem (dot3 (direction_p3 p) (direction_p3 p)) H k K. clear H.
  destruct p as [[? ? ? ?]]. rewrite <- K. unfold dot3. cbn. ring.
Qed.
Lemma branch_normalized_unit (B : Build) b : wf_branch b -> 0 < dot3 (branch_p1 b) (branch_p1 b) ->
  unit (mv_branch (branch_normalized b)).
Proof.
  intros W H. fl. rewrite branch_normalized_R by assumption.
  skolem (dot3 (branch_p1 b) (branch_p1 b)) H k K. clear H.
  revert K. opn; kcbn K; unfold unit; blades; kring K.
Qed.
Lemma rotor_normalized_unit (B : Build) r : 0 < dot4 (rotor_p1 r) (rotor_p1 r) ->
  unit (mv_rotor (rotor_normalized r)).
Proof.
  intros H. fl. rewrite rotor_normalized_R by assumption.
  skolem (dot4 (rotor_p1 r) (rotor_p1 r)) H k K. clear H.
  revert K. opn; kcbn K; unfold unit; blades; kring K.
Qed.
Lemma line_normalized_unit (B : Build) l : wf_line l -> 0 < dot3 (line_p1 l) (line_p1 l) ->
  unit (mv_line (line_normalized l)).
Proof.
  intros W H. fl. rewrite line_normalized_R by assumption. cbv zeta.
  assert (E : forall x, x / dot3 (line_p1 l) (line_p1 l)
    = x * (/ sqrt (dot3 (line_p1 l) (line_p1 l)) * / sqrt (dot3 (line_p1 l) (line_p1 l)))).
  { intro x. rewrite (rsqrt2 _ H). reflexivity. }
  rewrite E. clear E.
  skolem (dot3 (line_p1 l) (line_p1 l)) H k K. clear H.
  revert K. opn; kcbn K; unfold unit; blades; kring K.
Qed.
Lemma motor_normalized_unit (B : Build) m : 0 < dot4 (motor_p1 m) (motor_p1 m) ->
  unit (mv_motor (motor_normalized m)).
Proof.
  intros H. fl. rewrite motor_normalized_R by assumption. cbv zeta.
  assert (E : forall x, x / dot4 (motor_p1 m) (motor_p1 m)
    = x * (/ sqrt (dot4 (motor_p1 m) (motor_p1 m)) * / sqrt (dot4 (motor_p1 m) (motor_p1 m)))).
  { intro x. rewrite (rsqrt2 _ H). reflexivity. }
  rewrite E. clear E.
  skolem (dot4 (motor_p1 m) (motor_p1 m)) H k K. clear H.
  revert K. opn; kcbn K; unfold unit; blades; kring K.
Qed.

(** normalizing a normalized entity changes nothing *)
Lemma scale4_1 v : scale4 1 v = v.
Proof. destruct v; lanes; rcbv; ring. Qed.
Lemma scale4_0 v : scale4 0 v = mk4 0 0 0 0.
Proof. destruct v; lanes; rcbv; ring. Qed.
Lemma sub4_0 v : sub4 v (mk4 0 0 0 0) = v.
Proof. destruct v; lanes; rcbv; ring. Qed.
Lemma neg0_0 : neg0 (mk4 0 0 0 0) = mk4 0 0 0 0.
Proof. lanes; rcbv; ring. Qed.
Lemma point_normalized_fix (B : Build) p : point_w p = 1 -> point_normalized p = p.
Proof.
  intro H. fl. rewrite point_normalized_R by (assumption || lra). rewrite H, Rinv_1, scale4_1.
  destruct p; reflexivity.
Qed.
Lemma direction_normalized_fix (B : Build) d : dot3 (direction_p3 d) (direction_p3 d) = 1 ->
  direction_normalized d = d.
Proof.
  intro H. fl. rewrite direction_normalized_R by (assumption || lra).
  rewrite H, inv_sqrt_1, scale4_1. destruct d; reflexivity.
Qed.
Lemma branch_normalized_fix (B : Build) d : dot3 (branch_p1 d) (branch_p1 d) = 1 ->
  branch_normalized d = d.
Proof.
  intro H. fl. rewrite branch_normalized_R by (assumption || lra).
  rewrite H, inv_sqrt_1, scale4_1. destruct d; reflexivity.
Qed.
Lemma rotor_normalized_fix (B : Build) d : dot4 (rotor_p1 d) (rotor_p1 d) = 1 ->
  rotor_normalized d = d.
Proof.
  intro H. fl. rewrite rotor_normalized_R by (assumption || lra).
  rewrite H, inv_sqrt_1, scale4_1. destruct d; reflexivity.
Qed.
Lemma line_normalized_fix (B : Build) l : dot3 (line_p1 l) (line_p1 l) = 1 ->
  dot3 (line_p1 l) (line_p2 l) = 0 -> line_normalized l = l.
Proof.
  intros H K. fl. rewrite line_normalized_R by (assumption || lra). cbv zeta.
  rewrite H, K, inv_sqrt_1. unfold Rdiv. rewrite Rmult_0_l, scale4_0, sub4_0, !scale4_1.
  destruct l; reflexivity.
Qed.
Lemma motor_normalized_fix (B : Build) m : dot4 (motor_p1 m) (motor_p1 m) = 1 ->
  study (motor_p1 m) (motor_p2 m) = 0 -> motor_normalized m = m.
Proof.
  intros H K. fl. rewrite motor_normalized_R by (assumption || lra). cbv zeta.
  rewrite H, K, inv_sqrt_1. unfold Rdiv. rewrite Rmult_0_l, scale4_0, neg0_0, sub4_0, !scale4_1.
  destruct m; reflexivity.
Qed.
Lemma point_normalized_idem (B : Build) p : point_w p <> 0 ->
  point_normalized (point_normalized p) = point_normalized p.
Proof. intro H. exact (point_normalized_fix B _ (point_normalized_w B p H)). Qed.
Lemma direction_normalized_idem (B : Build) d : 0 < dot3 (direction_p3 d) (direction_p3 d) ->
  direction_normalized (direction_normalized d) = direction_normalized d.
Proof. intro H. apply direction_normalized_fix, direction_normalized_unit, H. Qed.
Lemma branch_normalized_wf (B : Build) b : wf_branch b -> wf_branch (branch_normalized b).
Proof.
  unfold wf_branch, branch_normalized. destruct b as [[?c ?c ?c ?c]]. cbn [branch_p1 l0].
  intros ->. cbn. ring.
Qed.
Lemma line_normalized_wf (B : Build) b : wf_line b -> wf_line (line_normalized b).
Proof.
  unfold wf_line, line_normalized. destruct b as [[?c ?c ?c ?c] [?c ?c ?c ?c]]. cbn [line_p1 line_p2 l0].
  intros [-> ->]. cbn. split; ring.
Qed.
Lemma branch_normalized_idem (B : Build) b : wf_branch b -> 0 < dot3 (branch_p1 b) (branch_p1 b) ->
  branch_normalized (branch_normalized b) = branch_normalized b.
Proof.
  intros W H. apply branch_normalized_fix, unit_branch_iff.
  - apply branch_normalized_wf, W.
  - apply branch_normalized_unit; assumption.
Qed.
Lemma rotor_normalized_idem (B : Build) r : 0 < dot4 (rotor_p1 r) (rotor_p1 r) ->
  rotor_normalized (rotor_normalized r) = rotor_normalized r.
Proof. intro H. apply rotor_normalized_fix, unit_rotor_iff, rotor_normalized_unit, H. Qed.
Lemma line_normalized_idem (B : Build) l : wf_line l -> 0 < dot3 (line_p1 l) (line_p1 l) ->
  line_normalized (line_normalized l) = line_normalized l.
Proof.
  intros W H. assert (U := line_normalized_unit B l W H).
  apply unit_line_iff in U; [|apply line_normalized_wf, W]. destruct U.
  apply line_normalized_fix; assumption.
Qed.
Lemma motor_normalized_idem (B : Build) m : 0 < dot4 (motor_p1 m) (motor_p1 m) ->
  motor_normalized (motor_normalized m) = motor_normalized m.
Proof.
  intros H. assert (U := motor_normalized_unit B m H).
  apply unit_motor_iff in U. destruct U. apply motor_normalized_fix; assumption.
Qed.
(** planes: only the SSE4.1 build is idempotent; SSE3 doubles the offset *)
Lemma plane_normalized_unitR (B : Build) p : dot3 (plane_p0 p) (plane_p0 p) = 1 ->
  plane_normalized p =
  mkplane (mk4 (if sse41 then plane_d p else 2 * plane_d p) (plane_x p) (plane_y p) (plane_z p)).
Proof.
  intro H. fl. rewrite plane_normalized_R by (assumption || lra). cbv zeta.
  rewrite H, inv_sqrt_1. destruct p as [[?c ?c ?c ?c]]. unfold plane_d, plane_x, plane_y, plane_z.
  cbn [plane_p0 l0 l1 l2 l3]. f_equal. apply m128_ext; cbn [l0 l1 l2 l3]; try ring. destruct sse41; ring.
Qed.

(** ** C16: what normalization does to the object *)
Lemma point_normalized_scale (B : Build) p : point_w p <> 0 ->
  mv_point (point_normalized p) == mvscale (/ point_w p) (mv_point p).
Proof. intro H. fl. rewrite point_normalized_R by assumption. generalize (/ point_w p). alg. Qed.
Lemma direction_normalized_scale (B : Build) d : 0 < dot3 (direction_p3 d) (direction_p3 d) ->
  mv_direction (direction_normalized d)
  == mvscale (/ sqrt (dot3 (direction_p3 d) (direction_p3 d))) (mv_direction d).
Proof.
  intro H. fl. rewrite direction_normalized_R by assumption. generalize (/ sqrt (dot3 (direction_p3 d) (direction_p3 d))).
  alg.
Qed.
Lemma branch_normalized_scale (B : Build) b : 0 < dot3 (branch_p1 b) (branch_p1 b) ->
  mv_branch (branch_normalized b)
  == mvscale (/ sqrt (dot3 (branch_p1 b) (branch_p1 b))) (mv_branch b).
Proof.
  intro H. fl. rewrite branch_normalized_R by assumption. generalize (/ sqrt (dot3 (branch_p1 b) (branch_p1 b))).
  alg.
Qed.
Lemma rotor_normalized_scale (B : Build) r : 0 < dot4 (rotor_p1 r) (rotor_p1 r) ->
  mv_rotor (rotor_normalized r)
  == mvscale (/ sqrt (dot4 (rotor_p1 r) (rotor_p1 r))) (mv_rotor r).
Proof.
  intro H. fl. rewrite rotor_normalized_R by assumption. generalize (/ sqrt (dot4 (rotor_p1 r) (rotor_p1 r))).
  alg.
Qed.
Lemma line_normalized_scale (B : Build) l : 0 < dot3 (line_p1 l) (line_p1 l) ->
  dot3 (line_p1 l) (line_p2 l) = 0 ->
  mv_line (line_normalized l)
  == mvscale (/ sqrt (dot3 (line_p1 l) (line_p1 l))) (mv_line l).
Proof.
  intros H K. fl. rewrite line_normalized_R by assumption. cbv zeta. rewrite K.
  unfold Rdiv. rewrite Rmult_0_l, scale4_0, sub4_0.
  generalize (/ sqrt (dot3 (line_p1 l) (line_p1 l))). clear. alg.
Qed.
Lemma motor_normalized_scale (B : Build) m : 0 < dot4 (motor_p1 m) (motor_p1 m) ->
  study (motor_p1 m) (motor_p2 m) = 0 ->
  mv_motor (motor_normalized m)
  == mvscale (/ sqrt (dot4 (motor_p1 m) (motor_p1 m))) (mv_motor m).
Proof.
  intros H K. fl. rewrite motor_normalized_R by assumption. cbv zeta. rewrite K.
  unfold Rdiv. rewrite Rmult_0_l, scale4_0, neg0_0, sub4_0.
  generalize (/ sqrt (dot4 (motor_p1 m) (motor_p1 m))). clear. alg.
Qed.
(** for every motor, on the Study quadric or not, the action on points is
    unchanged up to the common weight |m|^2 *)
Lemma motor_normalized_action (B : Build) m p : 0 < dot4 (motor_p1 m) (motor_p1 m) ->
  sandwich (mv_motor m) (mv_point p)
  == mvscale (dot4 (motor_p1 m) (motor_p1 m))
       (sandwich (mv_motor (motor_normalized m)) (mv_point p)).
Proof.
  intros H. fl. rewrite motor_normalized_R by assumption. cbv zeta.
  assert (E : forall x, x / dot4 (motor_p1 m) (motor_p1 m)
    = x * (/ sqrt (dot4 (motor_p1 m) (motor_p1 m)) * / sqrt (dot4 (motor_p1 m) (motor_p1 m)))).
  { intro x. rewrite (rsqrt2 _ H). reflexivity. }
  rewrite E. clear E.
  set (n := dot4 (motor_p1 m) (motor_p1 m)).
  assert (N : n = dot4 (motor_p1 m) (motor_p1 m)) by reflexivity.
  assert (K := sq_inv_sqrt n H). revert K. generalize (/ sqrt n). intros k K.
  clearbody n. clear H.
  transitivity (mvscale (k * k * n) (sandwich (mv_motor m) (mv_point p))).
  { rewrite K. intro j. unfold mvscale. ring. }
  clear K. transitivity (mvscale n (mvscale (k * k) (sandwich (mv_motor m) (mv_point p)))).
  { intro j. unfold mvscale. ring. }
  apply mvscale_congr. subst n.
  generalize (study (motor_p1 m) (motor_p2 m) * (k * k)). clear.
  opn; blades; ring.
Qed.

(** ** C18: square roots *)
Lemma rotor_sqrt_sq (B : Build) r : unit (mv_rotor r) -> rotor_scalar r <> -1 ->
  gp (mv_rotor (rotor_sqrt r)) (mv_rotor (rotor_sqrt r)) == mv_rotor r.
Proof.
  intros U S. apply unit_rotor_iff in U. unfold rotor_sqrt.
  destruct r as [[s a b c]]. unfold rotor_scalar in S. unfold dot4 in U.
  cbn [rotor_p1 l0 l1 l2 l3] in U, S.
  set (r' := mkrotor _).
  assert (E : dot4 (rotor_p1 r') (rotor_p1 r') = 2 * (1 + s)).
  { unfold r', dot4. cbv -[Rplus Rmult IZR]. rewrite <- (Rmult_1_r 2), <- U at 1. ring_simplify. 
    replace (c ^ 2) with (1 - s ^ 2 - a ^ 2 - b ^ 2) by lra. ring. }
  assert (P : 0 < dot4 (rotor_p1 r') (rotor_p1 r')).
  { rewrite E. assert (-1 <= s) by nra. lra. }
  fl. rewrite rotor_normalized_R by assumption.
  skolem (dot4 (rotor_p1 r') (rotor_p1 r')) P k K. rewrite E in K. clear E P. subst r'.
  clear S. set (q := k * k) in K.
  assert (Q : 2 * (q * s) = 1 - 2 * q) by lra.
  assert (U' : c * c = 1 - s * s - a * a - b * b) by lra. clear U K.
  assert (Q' : forall x, 2 * (q * s * x) = x - 2 * q * x) by (intro x; rewrite <- (Rmult_1_l x) at 2; rewrite <- Rmult_minus_distr_r, <- Q; ring).
  blades; try ring.
  all: match goal with |- ?l = ?x => transitivity (2 * (q * s * x) + 2 * q * x); [unfold q; ring [U'] | rewrite Q'; ring] end.
Qed.

Lemma branch_sqrt_sq (B : Build) b : wf_branch b -> unit (mv_branch b) ->
  gp (mv_rotor (branch_sqrt b)) (mv_rotor (branch_sqrt b)) == mv_branch b.
Proof.
  intros W U.
  change (gp (mv_rotor (rotor_sqrt (mkrotor (branch_p1 b)))) (mv_rotor (rotor_sqrt (mkrotor (branch_p1 b))))
          == mv_rotor (mkrotor (branch_p1 b))).
  apply rotor_sqrt_sq; [exact U|]. unfold rotor_scalar. cbn. rewrite W. lra.
Qed.
Lemma translator_sqrt_sq (B : Build) t : wf_translator t ->
  gp (mv_translator (translator_sqrt t)) (mv_translator (translator_sqrt t)) == mv_translator t.
Proof. fl. opn; blades; field. Qed.
Lemma motor_sqrt_sq (B : Build) m : unit (mv_motor m) -> motor_scalar m <> -1 ->
  gp (mv_motor (motor_sqrt m)) (mv_motor (motor_sqrt m)) == mv_motor m.
Proof.
  intros U S. apply unit_motor_iff in U. destruct U as [U V]. unfold motor_sqrt.
  destruct m as [[s a b c] [t d e f]]. unfold motor_scalar in S. unfold dot4 in U.
  unfold study, neg0, dot4 in V.
  cbn [motor_p1 motor_p2 l0 l1 l2 l3] in U, S, V.
  set (r' := mkmotor _ _).
  assert (E : dot4 (motor_p1 r') (motor_p1 r') = 2 * (1 + s)).
  { unfold r', dot4. cbv -[Rplus Rmult IZR].
    transitivity (1 + 2 * s + (s * s + a * a + b * b + c * c)); [ring | rewrite U; ring]. }
  assert (P : 0 < dot4 (motor_p1 r') (motor_p1 r')).
  { rewrite E. assert (-1 <= s) by nra. lra. }
  assert (D : study (motor_p1 r') (motor_p2 r') = - t).
  { unfold r', study, neg0, dot4. cbv -[Rplus Rmult Ropp IZR].
    transitivity (- t + (- s * t + a * d + b * e + c * f)); [ring | rewrite V; ring]. }
  fl. rewrite motor_normalized_R by assumption. cbv zeta. rewrite D.
  assert (F : forall x, x / dot4 (motor_p1 r') (motor_p1 r')
    = x * (/ sqrt (dot4 (motor_p1 r') (motor_p1 r')) * / sqrt (dot4 (motor_p1 r') (motor_p1 r')))).
  { intro x. rewrite (rsqrt2 _ P). reflexivity. }
  rewrite F. clear F.
  skolem (dot4 (motor_p1 r') (motor_p1 r')) P k K. rewrite E in K. clear E P D. subst r'.
  clear S. set (q := k * k) in K.
  assert (Q : 2 * (q * s) = 1 - 2 * q) by lra.
  assert (U' : c * c = 1 - s * s - a * a - b * b) by lra. clear U K.
  assert (V' : c * f = s * t - a * d - b * e) by lra. clear V.
  assert (Q' : forall x, 2 * (q * s * x) = x - 2 * q * x) by (intro x; rewrite <- (Rmult_1_l x) at 2; rewrite <- Rmult_minus_distr_r, <- Q; ring).
  subst q. clear Q'. clear - Q U' V'.
  blades; try ring; nsatz.
Qed.
End Norm.
