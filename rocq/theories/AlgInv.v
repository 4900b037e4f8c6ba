(** C14-C18, C01 (point*point), C05 (translator on a plane): operations with
    reciprocals, in exact arithmetic with ideal hardware. *)
From Coq Require Import Reals ZArith Lra.
From Verif Require Import AlgTac FloR Closed AlgGP.
Local Open Scope R_scope.

Section Inv.
Context (rcp rsqrt : R -> R) (sz : bool) (Hrcp : exact_rcp rcp) (Hrsq : exact_rsqrt rsqrt).
Local Instance FLi : Flo R := Flo_R rcp rsqrt sz.

Ltac fl := change FLi with (Flo_R rcp rsqrt sz) in *.

(** point * point is the geometric product divided by its scalar part *)
Lemma point_mul_point_gp (B : Build) a b : point_w a <> 0 -> point_w b <> 0 ->
  gp (mv_point a) (mv_point b)
  == mvscale (- (point_w a * point_w b)) (mv_translator (point_mul_point a b)).
Proof.
  intros Ha Hb. fl. rewrite point_mul_point_R by assumption.
  revert Ha Hb. opn. 
  all: match goal with k : blade |- _ => idtac | |- _ => intro k end.
  all: cbn [point_w point_p3 l0] in *; destruct k as [[|] [|] [|] [|]]; mvcbv; field; auto.
Qed.

Lemma translator_on_plane_sw (B : Build) t p : wf_translator t ->
  mv_plane (translator_on_plane t p) == sandwich (mv_translator t) (mv_plane p).
Proof.
  intros W. fl. rewrite translator_on_plane_R by assumption. alg.
Qed.

(** ** C14 inverses *)
(** open the operands, reduce blade by blade, then close with the equation
    [K : k * norm = 1] *)
Ltac blades := match goal with |- _ == _ => let j := fresh "j" in intro j;
  destruct j as [[|] [|] [|] [|]]; mvcbv end.
Ltac kcbn K := unfold dot3, dot4, study, dot4, neg0 in K;
  cbn [plane_p0 branch_p1 line_p1 line_p2 rotor_p1 motor_p1 motor_p2 point_p3 l0 l1 l2 l3] in K.

Ltac inv_norm H x n k K :=
  assert (K : / n * n = 1) by (apply Rinv_l; lra); clear H;
  revert K; generalize (/ n); intros k K; revert K.

Ltac kring K :=
  try ring;
  match type of K with ?k * (?r + ?a) = 1 =>
    let K' := fresh in assert (K' : k * a = 1 - k * r) by (rewrite <- K; ring); ring [K']
  end.

Lemma plane_inverse_gp (B : Build) p : 0 < dot3 (plane_p0 p) (plane_p0 p) ->
  gp (mv_plane p) (mv_plane (plane_inverse p)) == one.
Proof.
  intros H. fl. rewrite plane_inverse_R by assumption.
  inv_norm H p (dot3 (plane_p0 p) (plane_p0 p)) k K.
  opn; kcbn K; blades; try ring; rewrite <- K; ring.
Qed.
Lemma branch_inverse_gp (B : Build) b : wf_branch b -> 0 < dot3 (branch_p1 b) (branch_p1 b) ->
  gp (mv_branch b) (mv_branch (branch_inverse b)) == one.
Proof.
  intros W H. fl. rewrite branch_inverse_R by assumption.
  inv_norm H b (dot3 (branch_p1 b) (branch_p1 b)) k K.
  opn; kcbn K; blades; try ring; rewrite <- K; ring.
Qed.
Lemma translator_inverse_gp t : wf_translator t ->
  gp (mv_translator t) (mv_translator (translator_inverse t)) == one.
Proof. alg. Qed.
Lemma line_inverse_gp (B : Build) l : wf_line l -> 0 < dot3 (line_p1 l) (line_p1 l) ->
  gp (mv_line l) (mv_line (line_inverse l)) == one.
Proof.
  intros W H. fl. rewrite line_inverse_R by assumption. cbv zeta. unfold Rdiv.
  inv_norm H l (dot3 (line_p1 l) (line_p1 l)) k K.
  opn; kcbn K; blades; kring K.
Qed.
Lemma motor_inverse_gp (B : Build) m : 0 < dot4 (motor_p1 m) (motor_p1 m) ->
  gp (mv_motor m) (mv_motor (motor_inverse m)) == one.
Proof.
  intros H. fl. rewrite motor_inverse_R by assumption. cbv zeta. unfold Rdiv.
  inv_norm H m (dot4 (motor_p1 m) (motor_p1 m)) k K.
  opn; kcbn K; blades; kring K.
Qed.
Lemma motor_inverse_gp_l (B : Build) m : 0 < dot4 (motor_p1 m) (motor_p1 m) ->
  gp (mv_motor (motor_inverse m)) (mv_motor m) == one.
Proof.
  intros H. fl. rewrite motor_inverse_R by assumption. cbv zeta. unfold Rdiv.
  inv_norm H m (dot4 (motor_p1 m) (motor_p1 m)) k K.
  opn; kcbn K; blades; kring K.
Qed.
Lemma plane_inverse_gp_l (B : Build) p : 0 < dot3 (plane_p0 p) (plane_p0 p) ->
  gp (mv_plane (plane_inverse p)) (mv_plane p) == one.
Proof.
  intros H. fl. rewrite plane_inverse_R by assumption.
  inv_norm H p (dot3 (plane_p0 p) (plane_p0 p)) k K.
  opn; kcbn K; blades; kring K.
Qed.
Lemma branch_inverse_gp_l (B : Build) b : wf_branch b -> 0 < dot3 (branch_p1 b) (branch_p1 b) ->
  gp (mv_branch (branch_inverse b)) (mv_branch b) == one.
Proof.
  intros W H. fl. rewrite branch_inverse_R by assumption.
  inv_norm H b (dot3 (branch_p1 b) (branch_p1 b)) k K.
  opn; kcbn K; blades; kring K.
Qed.
Lemma line_inverse_gp_l (B : Build) l : wf_line l -> 0 < dot3 (line_p1 l) (line_p1 l) ->
  gp (mv_line (line_inverse l)) (mv_line l) == one.
Proof.
  intros W H. fl. rewrite line_inverse_R by assumption. cbv zeta. unfold Rdiv.
  inv_norm H l (dot3 (line_p1 l) (line_p1 l)) k K.
  opn; kcbn K; blades; kring K.
Qed.
Lemma translator_inverse_gp_l t : wf_translator t ->
  gp (mv_translator (translator_inverse t)) (mv_translator t) == one.
Proof. alg. Qed.
(** the point inverse has the wrong sign: P * P.inverse() = -1 *)
Lemma point_inverse_gp (B : Build) p : point_w p <> 0 ->
  gp (mv_point p) (mv_point (point_inverse p)) == mvopp one.
Proof.
  intros H. fl. rewrite point_inverse_R by assumption.
  opn; unfold point_w in *; cbn [point_p3 l0] in *; blades; field; assumption.
Qed.
(** rotor * rotor.inverse() is |r|^2 / (|r|^2 - scalar^2) *)
Lemma rotor_inverse_gp (B : Build) r : 0 < dot3 (rotor_p1 r) (rotor_p1 r) ->
  gp (mv_rotor r) (mv_rotor (rotor_inverse r))
  == scalar_mv (1 + rotor_scalar r * rotor_scalar r / dot3 (rotor_p1 r) (rotor_p1 r)).
Proof.
  intros H. fl. rewrite rotor_inverse_R by assumption. unfold Rdiv.
  inv_norm H r (dot3 (rotor_p1 r) (rotor_p1 r)) k K.
  opn; kcbn K; blades; kring K.
Qed.

(** ** Quotients: (a / b) b = a *)
Lemma gp_quo a q b bi : q == gp a bi -> gp bi b == one -> gp q b == a.
Proof. intros -> H. rewrite gp_assoc, H. apply gp_one_r. Qed.
Lemma plane_quo_gp (B : Build) a b : 0 < dot3 (plane_p0 b) (plane_p0 b) ->
  gp (mv_motor (plane_quo_plane a b)) (mv_plane b) == mv_plane a.
Proof. intro H. eapply gp_quo; [apply (plane_mul_plane_gp B)|apply plane_inverse_gp_l; exact H]. Qed.
Lemma branch_quo_gp (B : Build) a b : wf_branch b -> 0 < dot3 (branch_p1 b) (branch_p1 b) ->
  gp (mv_rotor (branch_quo_branch a b)) (mv_branch b) == mv_branch a.
Proof. intros W H. eapply gp_quo; [apply (branch_mul_branch_gp B)|apply branch_inverse_gp_l; assumption]. Qed.
Lemma translator_quo_gp (B : Build) a b : wf_translator b ->
  gp (mv_translator (translator_quo_translator a b)) (mv_translator b) == mv_translator a.
Proof. intros W. eapply gp_quo; [apply (translator_mul_translator_gp B)|apply translator_inverse_gp_l; assumption]. Qed.
Lemma motor_quo_translator_gp (B : Build) a b : wf_translator b ->
  gp (mv_motor (motor_quo_translator a b)) (mv_translator b) == mv_motor a.
Proof.
  intros W. eapply gp_quo; [apply (motor_mul_translator_gp B)|apply translator_inverse_gp_l; assumption].
  revert W. destruct b as [[? ? ? ?]]. exact (fun x => x).
Qed.
Lemma motor_quo_motor_gp (B : Build) a b : 0 < dot4 (motor_p1 b) (motor_p1 b) ->
  gp (mv_motor (motor_quo_motor a b)) (mv_motor b) == mv_motor a.
Proof. intros H. eapply gp_quo; [apply (motor_mul_motor_gp B)|apply motor_inverse_gp_l; assumption]. Qed.
End Inv.
