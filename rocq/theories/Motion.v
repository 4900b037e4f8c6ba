(** C06-C11, C25, C32, C36, C43: motions of Euclidean space. *)
From Coq Require Import Reals ZArith Lra List Nsatz.
From Verif Require Import AlgTac SpecGeom FloR Closed Geom AlgGP AlgSW AlgInv AlgNorm.
Import ListNotations.
Local Open Scope R_scope.

(** ** Embeddings are injective *)
Lemma mv_p3_inj a b : mv_p3 a == mv_p3 b -> a = b.
Proof.
  destruct a, b. intro H.
  generalize (H (Bl false true true true)), (H (Bl true false true true)),
    (H (Bl true true false true)), (H (Bl true true true false)). cbn. intros. f_equal; lra.
Qed.
Lemma mv_p12_inj a b c d : mv_p12 a b == mv_p12 c d -> a = c /\ b = d.
Proof.
  destruct a, b, c, d. intro H.
  generalize (H (Bl false false false false)), (H (Bl false false true true)),
    (H (Bl false true false true)), (H (Bl false true true false)),
    (H (Bl true true true true)), (H (Bl true true false false)),
    (H (Bl true false true false)), (H (Bl true false false true)).
  unfold mv_p12. cbn. intros. split; f_equal; lra.
Qed.
Lemma mv_point_inj a b : mv_point a == mv_point b -> a = b.
Proof. destruct a, b. intro H. f_equal. apply mv_p3_inj. exact H. Qed.
Lemma mv_direction_inj a b : mv_direction a == mv_direction b -> a = b.
Proof. destruct a, b. intro H. f_equal. apply mv_p3_inj. exact H. Qed.
Lemma mv_plane_inj a b : mv_plane a == mv_plane b -> a = b.
Proof. destruct a, b. intro H. f_equal. apply mv_p0_inj. exact H. Qed.
Lemma mv_line_inj a b : mv_line a == mv_line b -> a = b.
Proof. destruct a, b. intro H. apply mv_p12_inj in H. cbn in H. destruct H; subst; reflexivity. Qed.
Lemma mv_motor_inj a b : mv_motor a == mv_motor b -> a = b.
Proof. destruct a, b. intro H. apply mv_p12_inj in H. cbn in H. destruct H; subst; reflexivity. Qed.

(** ** What "unit" says in vector terms *)
Definition motor_study (m : motor R) : R :=
  motor_scalar m * motor_e0123 m - vdot (motor_b m) (motor_c m).
Lemma unit_motor_geo m : unit (mv_motor m) <-> motor_n m = 1 /\ motor_study m = 0.
Proof.
  rewrite unit_motor_iff. destruct m as [[? ? ? ?] [? ? ? ?]].
  unfold study, dot4, neg0, motor_n, motor_study, qn. gcbv. lra.
Qed.
Lemma unit_rotor_geo r : unit (mv_rotor r) <-> rotor_n r = 1.
Proof.
  rewrite unit_rotor_iff. destruct r as [[? ? ? ?]].
  unfold dot4, rotor_n, qn. gcbv. lra.
Qed.
Lemma unit_plane_geo p : unit (mv_plane p) <-> vdot (plane_n p) (plane_n p) = 1.
Proof. rewrite unit_plane_iff. destruct p as [[? ? ? ?]]. unfold dot3. gcbv. lra. Qed.
Lemma unit_line_geo l : wf_line l ->
  (unit (mv_line l) <-> vdot (line_u l) (line_u l) = 1 /\ vdot (line_u l) (line_m l) = 0).
Proof. intro W. rewrite unit_line_iff by assumption. destruct l as [[? ? ? ?] [? ? ? ?]]. unfold dot3. gcbv. lra. Qed.

Lemma rev_one : rev one == one.
Proof. mvring. Qed.
Lemma rev_plane p : rev (mv_plane p) == mv_plane p.
Proof. alg. Qed.
Lemma plane_on_line_wf (B : Build) q l : wf_line l -> wf_line (plane_on_line q l).
Proof. opn; split; gcbv; ring. Qed.
Lemma rotor_on_line_wf (B : Build) q l : wf_line l -> wf_line (rotor_on_line q l).
Proof. opn; split; gcbv; ring. Qed.
Lemma translator_on_line_wf (B : Build) q l : wf_translator q -> wf_line l -> wf_line (translator_on_line q l).
Proof. opn; split; gcbv; ring. Qed.
Lemma translator_direction_sw t x : wf_translator t -> wf_direction x ->
  mv_direction x == sandwich (mv_translator t) (mv_direction x).
Proof. alg. Qed.
(** ** C06: reflection *)
Section Mirror.
Context (B : Build) (q : plane R) (U : unit (mv_plane q)).
Let n := plane_n q. Let d := plane_d q.
Lemma mirror_point_w x : point_w (plane_on_point q x) = point_w x.
Proof. rewrite (plane_on_point_w B). apply unit_plane_geo in U. rewrite U. ring. Qed.
Lemma mirror_point x : point_w x <> 0 -> pos (plane_on_point q x) = mirror n d (pos x).
Proof.
  intro W. unfold pos. rewrite mirror_point_w, (plane_on_point_num B).
  apply unit_plane_geo in U. rewrite U. unfold mirror, n, d.
  destruct (plane_n q), (pnum x). apply vec_eq; vcbn; field; assumption.
Qed.
Lemma mirror_plane_has p x : plane_has p x -> plane_has (plane_on_plane q p) (mirror n d x).
Proof.
  apply unit_plane_geo in U. revert U. unfold plane_has, on_plane, n, d.
  destruct q as [[q0 q1 q2 q3]], p as [[p0 p1 p2 p3]], x as [x y z]. gcbv. intros H K.
  assert (K' : p0 = - (p1 * x + p2 * y + p3 * z)) by lra. subst p0.
  assert (N : q3 * q3 = 1 - q1 * q1 - q2 * q2) by lra.
  destruct B as [[|]]; gcbv; ring [N].
Qed.
Lemma mirror_line_has l x : wf_line l -> line_has l x -> line_has (plane_on_line q l) (mirror n d x).
Proof.
  intros W. apply unit_plane_geo in U. revert U W. unfold line_has, on_line, n, d, wf_line.
  destruct q as [[q0 q1 q2 q3]], l as [[? ? ? ?] [? ? ? ?]], x as [x y z]. unfold line_m.
  gcbv. intros H [-> ->] K. injection K as K1 K2 K3. subst.
  assert (N : q3 * q3 = 1 - q1 * q1 - q2 * q2) by lra. clear H.
  destruct B as [[|]]; apply vec_eq; gcbv; ring [N].
Qed.
Lemma mirror_twice x : sandwich (mv_plane q) (sandwich (mv_plane q) x) == x.
Proof.
  rewrite <- sandwich_gp.
  assert (E : gp (mv_plane q) (mv_plane q) == one).
  { etransitivity; [|exact U]. apply gp_congr; [reflexivity|]. symmetry. apply rev_plane. }
  rewrite E. unfold sandwich. rewrite gp_one_l. rewrite rev_one. apply gp_one_r.
Qed.
Lemma mirror_plane_invol p : plane_on_plane q (plane_on_plane q p) = p.
Proof. apply mv_plane_inj. rewrite !(plane_on_plane_sw B). apply mirror_twice. Qed.
Lemma mirror_point_invol p : plane_on_point q (plane_on_point q p) = p.
Proof. apply mv_point_inj. rewrite !(plane_on_point_sw B). apply mirror_twice. Qed.
Lemma mirror_line_invol l : wf_line l -> plane_on_line q (plane_on_line q l) = l.
Proof.
  intro W. apply mv_line_inj. rewrite (plane_on_line_sw B).
  - rewrite (plane_on_line_sw B) by assumption. apply mirror_twice.
  - apply (plane_on_line_wf B). assumption.
Qed.
End Mirror.

(** ** C08: unit motors are rigid *)
Lemma motor_tr_dot m p : motor_n m = 1 -> motor_study m = 0 ->
  vdot (motor_rot m (plane_n p)) (motor_tr m)
    = vdot (vscale 2 (vadd (vsub (vscale (- motor_scalar m) (motor_c m)) (vcross (motor_b m) (motor_c m)))
         (vscale (- motor_e0123 m) (motor_b m)))) (plane_n p).
Proof.
  destruct m as [[a b c d] [e f g h]], p as [[p0 p1 p2 p3]]. gcbv. intros N S0.
  assert (A1 : c * c = 1 - a * a - b * b - d * d) by lra.
  assert (A2 : d * h = a * e - b * f - c * g) by lra. ring [A1 A2].
Qed.
Lemma motor_on_line_m (B : Build) m l : motor_n m = 1 -> motor_study m = 0 -> wf_line l ->
  line_m (motor_on_line m l) = vadd (motor_rot m (line_m l)) (vcross (motor_tr m) (motor_rot m (line_u l))).
Proof.
  unfold wf_line. destruct m as [[a b c d] [e f g h]], l as [[? ? ? ?] [? ? ? ?]]. gcbv. intros N S0 [-> ->].
  assert (A1 : c * c = 1 - a * a - b * b - d * d) by lra.
  assert (A2 : d * h = a * e - b * f - c * g) by lra.
  destruct B as [[|]]; apply vec_eq; gcbv; ring [A1 A2].
Qed.
Section Rigid.
Context (B : Build) (m : motor R) (U : unit (mv_motor m)).
Let N : motor_n m = 1 := proj1 (proj1 (unit_motor_geo m) U).
Let S0 : motor_study m = 0 := proj2 (proj1 (unit_motor_geo m) U).
(** the motion as a map of R^3 *)
Definition motion (x : vec) : vec := vadd (motor_rot m x) (motor_tr m).
Lemma motor_point_w x : point_w (motor_on_point m x) = point_w x.
Proof. rewrite (motor_on_point_w B), N. ring. Qed.
Lemma motor_point_pos x : point_w x <> 0 -> pos (motor_on_point m x) = motion (pos x).
Proof.
  intro W. unfold pos, motion. rewrite motor_point_w, (motor_on_point_num B).
  unfold motor_rot. rewrite qrot_scale. generalize (qrot (motor_scalar m) (motor_b m) (pnum x)) (motor_tr m).
  intros [] []. apply vec_eq; vcbn; field; assumption.
Qed.
Lemma motion_sub x y : vsub (motion x) (motion y) = motor_rot m (vsub x y).
Proof.
  unfold motion, motor_rot. rewrite qrot_sub. generalize (qrot (motor_scalar m) (motor_b m) x), (qrot (motor_scalar m) (motor_b m) y), (motor_tr m).
  intros [] [] []. vring.
Qed.
Lemma rot_dot x y : vdot (motor_rot m x) (motor_rot m y) = vdot x y.
Proof. unfold motor_rot. rewrite qrot_dot. fold (motor_n m). rewrite N. ring. Qed.
Lemma rot_cross x y : vcross (motor_rot m x) (motor_rot m y) = motor_rot m (vcross x y).
Proof. unfold motor_rot. rewrite qrot_cross. fold (motor_n m). rewrite N. generalize (qrot (motor_scalar m) (motor_b m) (vcross x y)). intros []. vring. Qed.
Lemma motion_dist x y : dist (motion x) (motion y) = dist x y.
Proof. unfold dist, vlen. rewrite motion_sub, rot_dot. reflexivity. Qed.
Lemma motion_volume a b c o :
  vdet (vsub (motion a) (motion o)) (vsub (motion b) (motion o)) (vsub (motion c) (motion o))
  = vdet (vsub a o) (vsub b o) (vsub c o).
Proof. rewrite !motion_sub. unfold motor_rot. rewrite qrot_det. fold (motor_n m). rewrite N. ring. Qed.
Lemma motor_plane_unit p : unit (mv_plane p) -> unit (mv_plane (motor_on_plane m p)).
Proof. rewrite !unit_plane_geo, (motor_on_plane_n B), rot_dot. exact (fun x => x). Qed.
Lemma motor_plane_has p x : plane_has p x <-> plane_has (motor_on_plane m p) (motion x).
Proof.
  unfold plane_has, on_plane. rewrite (motor_on_plane_n B), (motor_on_plane_d B), N.
  unfold motion.
  assert (E : vdot (motor_rot m (plane_n p)) (motor_tr m)
    = vdot (vscale 2 (vadd (vsub (vscale (- motor_scalar m) (motor_c m)) (vcross (motor_b m) (motor_c m)))
         (vscale (- motor_e0123 m) (motor_b m)))) (plane_n p)).
  { apply motor_tr_dot; assumption. }
  assert (E2 : vdot (motor_rot m (plane_n p)) (vadd (motor_rot m x) (motor_tr m))
    = vdot (plane_n p) x + vdot (motor_rot m (plane_n p)) (motor_tr m)).
  { rewrite <- (rot_dot (plane_n p) x).
    generalize (motor_rot m (plane_n p)), (motor_rot m x), (motor_tr m). intros [] [] []. vcbn. ring. }
  rewrite E2, E. lra.
Qed.
Lemma motor_line_m l : wf_line l ->
  line_m (motor_on_line m l) = vadd (motor_rot m (line_m l)) (vcross (motor_tr m) (motor_rot m (line_u l))).
Proof. apply motor_on_line_m; assumption. Qed.
Lemma motor_line_has l x : wf_line l -> line_has l x -> line_has (motor_on_line m l) (motion x).
Proof.
  intros W. unfold line_has, on_line. rewrite (motor_on_line_u B), motor_line_m by assumption.
  intros <-. rewrite <- rot_cross. unfold motion.
  generalize (motor_rot m x), (motor_tr m), (motor_rot m (line_u l)). intros [] [] []. vring.
Qed.
Lemma motor_line_unit l : wf_line l -> unit (mv_line l) -> unit (mv_line (motor_on_line m l)).
Proof.
  intros W H. apply unit_line_geo in H; [|assumption]. destruct H as [H1 H2].
  apply unit_line_geo; [apply (motor_on_line_wf B); assumption|].
  rewrite (motor_on_line_u B), motor_line_m by assumption. rewrite rot_dot. split; [assumption|].
  rewrite <- rot_dot in H2. rewrite <- H2.
  generalize (motor_rot m (line_u l)), (motor_rot m (line_m l)), (motor_tr m). intros [] [] []. vcbn. ring.
Qed.
End Rigid.

(** ** C07: chains of rotors, translators and motors *)
Inductive mo := MR (r : rotor R) | MT (t : translator R) | MM (m : motor R).
Definition mo_mv (a : mo) : mv :=
  match a with MR r => mv_rotor r | MT t => mv_translator t | MM m => mv_motor m end.
Definition mo_wf (a : mo) : Prop := match a with MT t => wf_translator t | _ => True end.
Section Chain.
Context (rcp rsqrt : R -> R) (sz : bool) (Hrcp : exact_rcp rcp) (B : Build).
Local Instance FLm : Flo R := Flo_R rcp rsqrt sz.
(** the overload of [*] that C++ selects *)
Definition mo_mul (a b : mo) : mo :=
  match a, b with
  | MR a, MR b => MR (rotor_mul_rotor a b)
  | MR a, MT b => MM (rotor_mul_translator a b)
  | MR a, MM b => MM (rotor_mul_motor a b)
  | MT a, MR b => MM (translator_mul_rotor a b)
  | MT a, MT b => MT (translator_mul_translator a b)
  | MT a, MM b => MM (translator_mul_motor a b)
  | MM a, MR b => MM (motor_mul_rotor a b)
  | MM a, MT b => MM (motor_mul_translator a b)
  | MM a, MM b => MM (motor_mul_motor a b)
  end.
(** the call operator that C++ selects *)
Definition mo_point (a : mo) (x : point R) : point R :=
  match a with MR r => rotor_on_point r x | MT t => translator_on_point t x | MM m => motor_on_point m x end.
Definition mo_plane (a : mo) (x : plane R) : plane R :=
  match a with MR r => rotor_on_plane r x | MT t => translator_on_plane t x | MM m => motor_on_plane m x end.
Definition mo_line (a : mo) (x : line R) : line R :=
  match a with MR r => rotor_on_line r x | MT t => translator_on_line t x | MM m => motor_on_line m x end.
(** a product of factors, bracketed in any way *)
Inductive prod := Leaf (a : mo) | Node (l r : prod).
Fixpoint value (t : prod) : mo := match t with Leaf a => a | Node l r => mo_mul (value l) (value r) end.
Fixpoint factors (t : prod) : list mo := match t with Leaf a => [a] | Node l r => factors l ++ factors r end.

Lemma mo_mul_gp a b : mo_wf a -> mo_wf b -> mo_mv (mo_mul a b) == gp (mo_mv a) (mo_mv b).
Proof.
  destruct a, b; cbn; intros.
  - apply (rotor_mul_rotor_gp B).
  - apply (rotor_mul_translator_gp B); assumption.
  - apply (rotor_mul_motor_gp B).
  - apply (translator_mul_rotor_gp B); assumption.
  - apply (translator_mul_translator_gp B); assumption.
  - apply (translator_mul_motor_gp B); assumption.
  - apply (motor_mul_rotor_gp B).
  - apply (motor_mul_translator_gp B); assumption.
  - apply (motor_mul_motor_gp B).
Qed.
Lemma mo_mul_wf a b : mo_wf a -> mo_wf b -> mo_wf (mo_mul a b).
Proof.
  destruct a, b; cbn; try exact (fun _ _ => I). unfold wf_translator. destruct t as [[? ? ? ?]], t0 as [[? ? ? ?]].
  cbn. intros -> ->. apply Rplus_0_l.
Qed.
Lemma value_wf t : Forall mo_wf (factors t) -> mo_wf (value t).
Proof.
  induction t as [a|l IHl r IHr]; cbn; intro H.
  - inversion H; assumption.
  - apply Forall_app in H. destruct H. apply mo_mul_wf; auto.
Qed.
Lemma value_chain t x : Forall mo_wf (factors t) ->
  sandwich (mo_mv (value t)) x == fold_right (fun a y => sandwich (mo_mv a) y) x (factors t).
Proof.
  revert x. induction t as [a|l IHl r IHr]; cbn; intros x H; [reflexivity|].
  apply Forall_app in H. destruct H. rewrite mo_mul_gp by (apply value_wf; assumption).
  rewrite sandwich_gp, fold_right_app, IHr, IHl by assumption. reflexivity.
Qed.
Lemma mo_point_sw a x : mo_wf a -> mv_point (mo_point a x) == sandwich (mo_mv a) (mv_point x).
Proof.
  destruct a; cbn; intro H; [apply (rotor_on_point_sw B)|apply (translator_on_point_sw B); assumption|apply (motor_on_point_sw B)].
Qed.
Lemma mo_plane_sw a x : mo_wf a -> mv_plane (mo_plane a x) == sandwich (mo_mv a) (mv_plane x).
Proof.
  destruct a; cbn; intro H; [apply (rotor_on_plane_sw B)|apply (translator_on_plane_sw _ _ _ Hrcp B); assumption|apply (motor_on_plane_sw B)].
Qed.
Lemma mo_line_sw a x : mo_wf a -> wf_line x -> mv_line (mo_line a x) == sandwich (mo_mv a) (mv_line x).
Proof.
  destruct a; cbn; intros H K; [apply (rotor_on_line_sw B)|apply (translator_on_line_sw B)|apply (motor_on_line_sw B)]; assumption.
Qed.
Lemma mo_line_wf a x : mo_wf a -> wf_line x -> wf_line (mo_line a x).
Proof.
  destruct a; cbn; intros H K; [apply (rotor_on_line_wf B)|apply (translator_on_line_wf B)|apply (motor_on_line_wf B)]; assumption.
Qed.
Lemma chain_point t x : Forall mo_wf (factors t) ->
  mo_point (value t) x = fold_right mo_point x (factors t).
Proof.
  intro H. apply mv_point_inj. rewrite mo_point_sw by (apply value_wf; assumption).
  rewrite value_chain by assumption. induction H; cbn; [reflexivity|].
  rewrite IHForall, mo_point_sw by assumption. reflexivity.
Qed.
Lemma chain_plane t x : Forall mo_wf (factors t) ->
  mo_plane (value t) x = fold_right mo_plane x (factors t).
Proof.
  intro H. apply mv_plane_inj. rewrite mo_plane_sw by (apply value_wf; assumption).
  rewrite value_chain by assumption. induction H; cbn; [reflexivity|].
  rewrite IHForall, mo_plane_sw by assumption. reflexivity.
Qed.
Lemma chain_line t x : Forall mo_wf (factors t) -> wf_line x ->
  mo_line (value t) x = fold_right mo_line x (factors t).
Proof.
  intros H K. apply mv_line_inj. rewrite mo_line_sw by (try apply value_wf; assumption).
  rewrite value_chain by assumption.
  assert (E : forall l, Forall mo_wf l -> wf_line (fold_right mo_line x l) /\
    fold_right (fun a y => sandwich (mo_mv a) y) (mv_line x) l == mv_line (fold_right mo_line x l)).
  { induction 1; cbn; [split; [assumption|reflexivity]|]. destruct IHForall as [W E].
    split; [apply mo_line_wf; assumption|]. rewrite E, mo_line_sw by assumption. reflexivity. }
  apply E. assumption.
Qed.
(** directions: rotors and motors only (translators have no such operator) *)
Definition mo_direction (a : mo) (x : direction R) : direction R :=
  match a with MR r => rotor_on_direction r x | MT t => x | MM m => motor_on_direction m x end.
Lemma mo_direction_sw a x : mo_wf a -> wf_direction x ->
  mv_direction (mo_direction a x) == sandwich (mo_mv a) (mv_direction x).
Proof.
  destruct a; cbn; intros H K; [apply (rotor_on_direction_sw B)| |apply (motor_on_direction_sw B); assumption].
  apply translator_direction_sw; assumption.
Qed.
Lemma mo_direction_wf a x : mo_wf a -> wf_direction x -> wf_direction (mo_direction a x).
Proof. destruct a; cbn; intros H K; [apply (rotor_on_direction_v B)|assumption|apply (motor_on_direction_v B)]; assumption. Qed.
Lemma chain_direction t x : Forall mo_wf (factors t) -> wf_direction x ->
  mo_direction (value t) x = fold_right mo_direction x (factors t).
Proof.
  intros H K. apply mv_direction_inj. rewrite mo_direction_sw by (try apply value_wf; assumption).
  rewrite value_chain by assumption.
  assert (E : forall l, Forall mo_wf l -> wf_direction (fold_right mo_direction x l) /\
    fold_right (fun a y => sandwich (mo_mv a) y) (mv_direction x) l == mv_direction (fold_right mo_direction x l)).
  { induction 1; cbn; [split; [assumption|reflexivity]|]. destruct IHForall as [W E].
    split; [apply mo_direction_wf; assumption|]. rewrite E, mo_direction_sw by assumption. reflexivity. }
  apply E. assumption.
Qed.
End Chain.
