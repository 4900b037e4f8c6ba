(** Reading entities as points, planes, lines and vectors of R^3, and the
    closed form of every call operator in those terms. *)
From Coq Require Import Reals ZArith Lra.
From Verif Require Import AlgTac SpecGeom.
Local Open Scope R_scope.

(** ** Reading *)
(** weight and numerator of a homogeneous point; its position when w <> 0 *)
Definition pnum (p : point R) : vec := V (point_x p) (point_y p) (point_z p).
Definition pos (p : point R) : vec := vscale (/ point_w p) (pnum p).
Definition plane_n (p : plane R) : vec := V (plane_x p) (plane_y p) (plane_z p).
Definition dir_v (d : direction R) : vec := V (direction_x d) (direction_y d) (direction_z d).
Definition line_u (l : line R) : vec := V (line_e23 l) (line_e31 l) (line_e12 l).
Definition line_m (l : line R) : vec := V (line_e01 l) (line_e02 l) (line_e03 l).
Definition branch_u (l : branch R) : vec := V (branch_e23 l) (branch_e31 l) (branch_e12 l).
Definition ideal_m (l : ideal_line R) : vec := V (ideal_line_e01 l) (ideal_line_e02 l) (ideal_line_e03 l).
(** incidence of library entities *)
Definition plane_has (p : plane R) (x : vec) : Prop := on_plane (plane_n p) (plane_d p) x.
Definition line_has (l : line R) (x : vec) : Prop := on_line (line_u l) (line_m l) x.

(** ** The rotation of a quaternion-like quadruple: [s] scalar part, [b]
    bivector part as a vector *)
Definition qrot (s : R) (b x : vec) : vec :=
  vadd (vsub (vscale (s * s - vdot b b) x) (vscale (2 * s) (vcross b x)))
       (vscale (2 * vdot b x) b).
Definition qn (s : R) (b : vec) : R := s * s + vdot b b.
(** displacement of the origin: [s], [b] rotation part; [c] ideal part, [q]
    pseudoscalar *)
Definition mtr (s : R) (b c : vec) (q : R) : vec :=
  vscale 2 (vsub (vsub (vcross b c) (vscale s c)) (vscale q b)).

Definition rotor_b (r : rotor R) : vec := V (rotor_e23 r) (rotor_e31 r) (rotor_e12 r).
Definition motor_b (r : motor R) : vec := V (motor_e23 r) (motor_e31 r) (motor_e12 r).
Definition motor_c (r : motor R) : vec := V (motor_e01 r) (motor_e02 r) (motor_e03 r).
Definition translator_c (r : translator R) : vec :=
  V (translator_e01 r) (translator_e02 r) (translator_e03 r).

Definition rotor_rot (r : rotor R) : vec -> vec := qrot (rotor_scalar r) (rotor_b r).
Definition rotor_n (r : rotor R) : R := qn (rotor_scalar r) (rotor_b r).
Definition motor_rot (r : motor R) : vec -> vec := qrot (motor_scalar r) (motor_b r).
Definition motor_n (r : motor R) : R := qn (motor_scalar r) (motor_b r).
Definition motor_tr (r : motor R) : vec :=
  mtr (motor_scalar r) (motor_b r) (motor_c r) (motor_e0123 r).

Ltac gcbv := cbv -[Rplus Rmult Ropp Rminus Rdiv Rinv IZR].
Ltac geo := opn; try apply vec_eq; gcbv; ring.

(** ** Points *)
Lemma motor_on_point_w (B : Build) m p : point_w (motor_on_point m p) = motor_n m * point_w p.
Proof. geo. Qed.
Lemma motor_on_point_num (B : Build) m p :
  pnum (motor_on_point m p) = vadd (motor_rot m (pnum p)) (vscale (point_w p) (motor_tr m)).
Proof. geo. Qed.
Lemma rotor_on_point_w (B : Build) m p : point_w (rotor_on_point m p) = rotor_n m * point_w p.
Proof. geo. Qed.
Lemma rotor_on_point_num (B : Build) m p : pnum (rotor_on_point m p) = rotor_rot m (pnum p).
Proof. geo. Qed.
Lemma translator_on_point_w (B : Build) m p : wf_translator m -> point_w (translator_on_point m p) = point_w p.
Proof. geo. Qed.
Lemma translator_on_point_num (B : Build) t p : wf_translator t ->
  pnum (translator_on_point t p) = vadd (pnum p) (vscale (-2 * point_w p) (translator_c t)).
Proof. geo. Qed.
Lemma plane_on_point_w (B : Build) m p :
  point_w (plane_on_point m p) = vdot (plane_n m) (plane_n m) * point_w p.
Proof. geo. Qed.
Lemma plane_on_point_num (B : Build) m p :
  pnum (plane_on_point m p) =
  (vsub (vscale (vdot (plane_n m) (plane_n m)) (pnum p))
             (vscale (2 * (vdot (plane_n m) (pnum p) + plane_d m * point_w p)) (plane_n m))).
Proof. geo. Qed.
Lemma motor_on_origin_w (B : Build) m : point_w (motor_on_origin m) = 1.
Proof. geo. Qed.
Lemma motor_on_origin_num (B : Build) m : pnum (motor_on_origin m) = motor_tr m.
Proof. geo. Qed.
(** ** Directions *)
Lemma motor_on_direction_v (B : Build) m d : wf_direction d ->
  dir_v (motor_on_direction m d) = motor_rot m (dir_v d) /\ wf_direction (motor_on_direction m d).
Proof. intros. split; [geo|]. opn; unfold wf_direction; gcbv; ring. Qed.
Lemma rotor_on_direction_v (B : Build) m d : wf_direction d ->
  dir_v (rotor_on_direction m d) = rotor_rot m (dir_v d) /\ wf_direction (rotor_on_direction m d).
Proof. intros. split; [geo|]. opn; unfold wf_direction; gcbv; ring. Qed.
(** ** Planes *)
Lemma motor_on_plane_n (B : Build) m p : plane_n (motor_on_plane m p) = motor_rot m (plane_n p).
Proof. geo. Qed.
Lemma motor_on_plane_d (B : Build) m p :
  plane_d (motor_on_plane m p) = motor_n m * plane_d p - 
    vdot (vscale 2 (vadd (vsub (vscale (- motor_scalar m) (motor_c m)) (vcross (motor_b m) (motor_c m)))
         (vscale (- motor_e0123 m) (motor_b m)))) (plane_n p).
Proof. geo. Qed.
Lemma rotor_on_plane_n (B : Build) m p : plane_n (rotor_on_plane m p) = rotor_rot m (plane_n p).
Proof. geo. Qed.
Lemma rotor_on_plane_d (B : Build) m p : plane_d (rotor_on_plane m p) = rotor_n m * plane_d p.
Proof. geo. Qed.
(** ** Lines and branches *)
Lemma motor_on_line_u (B : Build) m l : wf_line l -> line_u (motor_on_line m l) = motor_rot m (line_u l).
Proof. geo. Qed.
Lemma motor_on_line_wf (B : Build) m l : wf_line l -> wf_line (motor_on_line m l).
Proof. intros. split; geo. Qed.
Lemma rotor_on_line_u (B : Build) m l : wf_line l -> line_u (rotor_on_line m l) = rotor_rot m (line_u l).
Proof. geo. Qed.
Lemma rotor_on_line_m (B : Build) m l : wf_line l -> line_m (rotor_on_line m l) = rotor_rot m (line_m l).
Proof. geo. Qed.
Lemma rotor_on_branch_u (B : Build) m l : wf_branch l -> branch_u (rotor_on_branch m l) = rotor_rot m (branch_u l).
Proof. geo. Qed.
Lemma translator_on_line_u (B : Build) m l : wf_translator m -> wf_line l -> line_u (translator_on_line m l) = line_u l.
Proof. geo. Qed.
Lemma translator_on_line_m (B : Build) t l : wf_translator t -> wf_line l ->
  line_m (translator_on_line t l) = vadd (line_m l) (vscale (-2) (vcross (translator_c t) (line_u l))).
Proof. geo. Qed.

(** ** The rotation part *)
Lemma qrot_add s b x y : qrot s b (vadd x y) = vadd (qrot s b x) (qrot s b y).
Proof. destruct b, x, y; apply vec_eq; gcbv; ring. Qed.
Lemma qrot_sub s b x y : qrot s b (vsub x y) = vsub (qrot s b x) (qrot s b y).
Proof. destruct b, x, y; apply vec_eq; gcbv; ring. Qed.
Lemma qrot_scale s b k x : qrot s b (vscale k x) = vscale k (qrot s b x).
Proof. destruct b, x; apply vec_eq; gcbv; ring. Qed.
Lemma qrot_dot s b x y : vdot (qrot s b x) (qrot s b y) = qn s b * qn s b * vdot x y.
Proof. destruct b, x, y; gcbv; ring. Qed.
Lemma qrot_cross s b x y : vcross (qrot s b x) (qrot s b y) = vscale (qn s b) (qrot s b (vcross x y)).
Proof. destruct b, x, y; apply vec_eq; gcbv; ring. Qed.
Lemma qrot_det s b x y z :
  vdet (qrot s b x) (qrot s b y) (qrot s b z) = qn s b * qn s b * qn s b * vdet x y z.
Proof. unfold vdet. rewrite qrot_cross. 
  transitivity (qn s b * vdot (qrot s b x) (qrot s b (vcross y z))).
  - generalize (qrot s b x) (qrot s b (vcross y z)). intros [] []; gcbv; ring.
  - rewrite qrot_dot. ring. Qed.
Lemma qrot_axis s b k : qrot s b (vscale k b) = vscale (k * qn s b) b.
Proof. destruct b; apply vec_eq; gcbv; ring. Qed.
Lemma half_cos t : cos t = cos (t / 2) * cos (t / 2) - sin (t / 2) * sin (t / 2).
Proof. replace t with (2 * (t / 2)) at 1 by field. apply cos_2a. Qed.
Lemma half_sin t : sin t = 2 * sin (t / 2) * cos (t / 2).
Proof. replace t with (2 * (t / 2)) at 1 by field. apply sin_2a. Qed.
(** with scalar part cos and bivector part sin of the half angle, a rotation
    by minus the full angle *)
Lemma qrot_rodrigues u t x : vdot u u = 1 ->
  qrot (cos (t / 2)) (vscale (sin (t / 2)) u) x = rodrigues u (- t) x.
Proof.
  intro U. unfold rodrigues. rewrite cos_neg, sin_neg.
  rewrite (half_cos t), (half_sin t).
  assert (C := sin2_cos2 (t / 2)). unfold Rsqr in C.
  set (S := sin (t / 2)) in *. set (K := cos (t / 2)) in *. clearbody S K.
  destruct u as [a b c], x as [x y z]. unfold vdot in U. cbn [vx vy vz] in U.
  assert (C' : K * K = 1 - S * S) by lra.
  assert (U' : c * c = 1 - a * a - b * b) by lra.
  apply vec_eq; gcbv; ring [C' U'].
Qed.
