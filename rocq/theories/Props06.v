(** Properties C23, C24, C26-C29: documented square roots, matrices, batch
    application, instruction-set and language-standard builds. *)
From Coq Require Import Reals ZArith Lra Lia Setoid Morphisms.
From Verif Require Import AlgTac SpecGeom FloR Closed Geom AlgGP AlgSW AlgNorm Motion Quot Batch Builds
  KernelSW KernelSW11 KernelMat KernelGP KernelEI KernelExpLog.

(** * C26: batch application.  Any arithmetic [F], so in particular binary32
    bit for bit.  [m] is memory before, the result memory after; addresses
    count registers. *)
Section C26.
Context {F : Type} {A : Arith F} {B : Build}.
Definition plane_at (m : mem F) (x : nat) : plane F := mkplane (m x).
Definition point_at (m : mem F) (x : nat) : point F := mkpoint (m x).
Definition direction_at (m : mem F) (x : nat) : direction F := mkdirection (m x).
Definition line_at (m : mem F) (x : nat) : line F := mkline (m x) (m (x + 1)).

(** [after] holds, at every slot of the output array of [n] elements of [w]
    registers, the value of [f] on the input element before the call, and
    equals [before] at every other address. *)
Definition elementwise {T} (w : nat) (at_ : mem F -> nat -> T) (f : T -> T)
    (src out n : nat) (before after : mem F) : Prop :=
  (forall k, k < n -> at_ after (out + w * k) = f (at_ before (src + w * k))) /\
  (forall x, x < out \/ out + w * n <= x -> after x = before x).
(** arrays of [n] elements of [w] registers that do not overlap *)
Definition separate (w src out n : nat) : Prop := src + w * n <= out \/ out + w * n <= src.

Lemma pass1_elementwise {T} (at_ : mem F -> nat -> T) (mk : m128 F -> T) f g src out n m m' :
  (forall m x, at_ m x = mk (m x)) -> (forall v, mk (f v) = g (mk v)) ->
  pass1 f src out 0 n m m' -> elementwise 1 at_ g src out n m m'.
Proof.
  intros Ha Hg [P Q]. split.
  - intros k Hk. rewrite !Ha, Nat.mul_1_l, P by lia. apply Hg.
  - intros x Hx. apply Q. intros k Hk. lia.
Qed.
Lemma pass2_elementwise f g src out n m m' :
  (forall v w, g (mkline v w) = let '(p, q) := f v w in mkline p q) ->
  pass2 f src out 0 n m m' -> elementwise 2 line_at g src out n m m'.
Proof.
  intros Hg [P Q]. split.
  - intros k Hk. unfold line_at. rewrite Hg, <- P by lia. reflexivity.
  - intros x Hx. apply Q. intros k Hk. lia.
Qed.

Theorem C26_batch : forall src out n m,
  (forall r : rotor F,
     (separate 1 src out n -> elementwise 1 plane_at (rotor_on_plane r) src out n m (rotor_batch_planes r src out n m)) /\
     (separate 1 src out n -> elementwise 1 point_at (rotor_on_point r) src out n m (rotor_batch_points r src out n m)) /\
     (separate 1 src out n -> elementwise 1 direction_at (rotor_on_direction r) src out n m (rotor_batch_directions r src out n m)) /\
     (separate 2 src out n -> elementwise 2 line_at (rotor_on_line r) src out n m (rotor_batch_lines r src out n m))) /\
  (forall x : motor F,
     (separate 1 src out n -> elementwise 1 plane_at (motor_on_plane x) src out n m (motor_batch_planes x src out n m)) /\
     (separate 1 src out n -> elementwise 1 point_at (motor_on_point x) src out n m (motor_batch_points x src out n m)) /\
     (separate 1 src out n -> elementwise 1 direction_at (motor_on_direction x) src out n m (motor_batch_directions x src out n m)) /\
     (separate 2 src out n -> elementwise 2 line_at (motor_on_line x) src out n m (motor_batch_lines x src out n m))).
Proof.
  intros src out n m. split; intro x.
  - repeat match goal with |- _ /\ _ => split end; intro S; unfold separate in S.
    1: eapply (pass1_elementwise plane_at mkplane); [reflexivity| |apply sw012_rotor_pass; intros; lia]; reflexivity.
    1: eapply (pass1_elementwise point_at mkpoint); [reflexivity| |apply sw012_rotor_pass; intros; lia]; reflexivity.
    1: eapply (pass1_elementwise direction_at mkdirection); [reflexivity| |apply sw012_rotor_pass; intros; lia]; reflexivity.
    eapply pass2_elementwise; [|apply swMM_rot_line_pass; unfold apart2; intros; lia]; reflexivity.
  - repeat match goal with |- _ /\ _ => split end; intro S; unfold separate in S.
    1: eapply (pass1_elementwise plane_at mkplane); [reflexivity| |apply sw012_motor_pass; intros; lia]; reflexivity.
    1: eapply (pass1_elementwise point_at mkpoint); [reflexivity| |apply sw312_motor_pass; intros; lia]; reflexivity.
    1: eapply (pass1_elementwise direction_at mkdirection); [reflexivity| |apply sw312_rotor_pass; intros; lia]; reflexivity.
    eapply pass2_elementwise; [|apply swMM_line_pass; unfold apart2; intros; lia]; reflexivity.
Qed.
(** the input array is among the untouched addresses *)
Theorem C26_input_kept : forall {T} w (at_ : mem F -> nat -> T) f src out n before after,
  elementwise w at_ f src out n before after -> separate w src out n ->
  forall x, src <= x < src + w * n -> after x = before x.
Proof. intros T w at_ f src out n b a [_ H] S x Hx. apply H. unfold separate in S. lia. Qed.
End C26.
Example C26_ex : separate 2 10 30 10 /\ ~ separate 1 10 15 10.
Proof. unfold separate. lia. Qed.

(** * C27: in place.  The kernels read [a[i]] again after having written
    [out[i]].  With [in == out] the identity motor and the identity rotor set
    every plane, point and direction of the array to zero. *)
Local Open Scope R_scope.
Definition zero4 : m128 R := mk4 0 0 0 0.
Definition id_motor : motor R := motor_ctor 1 0 0 0 0 0 0 0.
Definition id_rotor : rotor R := mkrotor (mk4 1 0 0 0).
Lemma id_motor_is_identity (B : Build) :
  (forall p, motor_on_plane id_motor p = p) /\ (forall p, motor_on_point id_motor p = p) /\
  (forall p, wf_direction p -> motor_on_direction id_motor p = p) /\
  (forall p, rotor_on_plane id_rotor p = p) /\ (forall p, rotor_on_point id_rotor p = p) /\
  (forall p, wf_direction p -> rotor_on_direction id_rotor p = p).
Proof.
  repeat match goal with |- _ /\ _ => split end; opn; gcbv; lanes.
Qed.
Theorem C27_inplace_erases_refuted : forall (B : Build) out n m k, (k < n)%nat ->
  motor_batch_planes id_motor out out n m (out + k)%nat = zero4 /\
  motor_batch_points id_motor out out n m (out + k)%nat = zero4 /\
  motor_batch_directions id_motor out out n m (out + k)%nat = zero4 /\
  rotor_batch_planes id_rotor out out n m (out + k)%nat = zero4 /\
  rotor_batch_points id_rotor out out n m (out + k)%nat = zero4 /\
  rotor_batch_directions id_rotor out out n m (out + k)%nat = zero4.
Proof.
  intros B out n m k Hk.
  repeat match goal with |- _ /\ _ => split end.
  - etransitivity; [apply (proj1 (sw012_motor_inplace_run out (motor_p1 id_motor) (motor_p2 id_motor) n m)); lia|].
    destruct (m (out + k)%nat), B as [[|]]; gcbv; unfold zero4; lanes.
  - etransitivity; [apply (proj1 (sw312_motor_inplace_run out (motor_p1 id_motor) (motor_p2 id_motor) n m)); lia|].
    destruct (m (out + k)%nat), B as [[|]]; gcbv; unfold zero4; lanes.
  - etransitivity; [apply (proj1 (sw312_rotor_inplace_run out (motor_p1 id_motor) n m)); lia|].
    destruct (m (out + k)%nat), B as [[|]]; gcbv; unfold zero4; lanes.
  - etransitivity; [apply (proj1 (sw012_rotor_inplace_run out (rotor_p1 id_rotor) n m)); lia|].
    destruct (m (out + k)%nat), B as [[|]]; gcbv; unfold zero4; lanes.
  - etransitivity; [apply (proj1 (sw012_rotor_inplace_run out (rotor_p1 id_rotor) n m)); lia|].
    destruct (m (out + k)%nat), B as [[|]]; gcbv; unfold zero4; lanes.
  - etransitivity; [apply (proj1 (sw012_rotor_inplace_run out (rotor_p1 id_rotor) n m)); lia|].
    destruct (m (out + k)%nat), B as [[|]]; gcbv; unfold zero4; lanes.
Qed.
(** lines: a rotor of 3/5 - 4/5 e12 on the line with e01 = 1, e23 = 1 *)
Theorem C27_inplace_lines_refuted : forall B : Build,
  (exists r (m : mem R), unit (mv_rotor r) /\ wf_line (line_at m 0) /\
     line_at (rotor_batch_lines r 0 0 1 m) 0 <> rotor_on_line r (line_at m 0)) /\
  (exists x (m : mem R), unit (mv_motor x) /\ wf_line (line_at m 0) /\
     line_at (motor_batch_lines x 0 0 1 m) 0 <> motor_on_line x (line_at m 0)).
Proof.
  intro B. split.
  - exists (mkrotor (mk4 (3/5) 0 0 (4/5))), (fun i => if Nat.eqb i 0 then mk4 0 1 0 0 else mk4 0 1 0 0).
    split; [|split; [split; reflexivity|]].
    + apply unit_rotor_iff. unfold dot4. cbn. lra.
    + intro H. assert (K := f_equal (fun l => l2 (line_p2 l)) H). revert K.
      cbv -[Rplus Rmult Ropp Rminus Rdiv IZR]. lra.
  - exists (motor_ctor (3/5) 0 0 (4/5) 0 0 0 0), (fun i => if Nat.eqb i 0 then mk4 0 1 0 0 else mk4 0 1 0 0).
    split; [|split; [split; reflexivity|]].
    + apply unit_motor_iff. unfold study, dot4. cbn. split; lra.
    + intro H. assert (K := f_equal (fun l => l2 (line_p2 l)) H). revert K.
      cbv -[Rplus Rmult Ropp Rminus Rdiv IZR]. lra.
Qed.

(** * C24: matrices.  [xyzw] is the homogeneous column (x, y, z, w) the matrix
    types multiply. *)
Definition xyzw (p : point R) : m128 R := mk4 (point_x p) (point_y p) (point_z p) (point_w p).
Theorem C24_motor_mat4x4 : forall (B : Build) m, exists M, motor_as_mat4x4 m = Ok M /\
  forall p, mat_apply M (xyzw p) = xyzw (motor_on_point m p).
Proof.
  intros B m. eexists. split; [reflexivity|]. intro p. opn; gcbv; lanes.
Qed.
Theorem C24_motor_mat3x4 : forall (B : Build) m, motor_n m = 1 -> exists M, motor_as_mat3x4 m = Ok M /\
  (forall p, mat_apply M (xyzw p) = xyzw (motor_on_point m p)) /\
  (** the omitted fourth row of a 3x4 matrix is (0, 0, 0, 1) *)
  (l3 (col0 M), l3 (col1 M), l3 (col2 M), l3 (col3 M)) = (0, 0, 0, 1).
Proof.
  intros B m N. eexists. split; [reflexivity|]. split.
  - intro p.
    assert (W : point_w (motor_on_point m p) = point_w p) by (rewrite (motor_on_point_w B), N; ring).
    revert W. clear N. repeat open1; gcbv; intro W; f_equal; try ring; rewrite W; ring.
  - clear N. opn; gcbv; f_equal; try ring; f_equal; try ring; f_equal; ring.
Qed.
Example C24_ex : motor_n (motor_ctor (3/5) 0 0 (4/5) 1 2 3 4) = 1.
Proof. gcbv. lra. Qed.
(** The rotor conversions read the fourth column of a default-initialised
    matrix.  As values they do not exist; started from particular contents c3
    of that memory, the result depends on c3 and so does the moved point. *)
Theorem C24_rotor_matrix_refuted : forall (B : Build) (r : rotor R),
  rotor_as_mat3x4 r = UB /\ rotor_as_mat4x4 r = UB /\
  (exists c3 c3' p, mat_apply (rotor_as_mat3x4_raw c3 r) (xyzw p) <> mat_apply (rotor_as_mat3x4_raw c3' r) (xyzw p)) /\
  (exists c3 c3' p, mat_apply (rotor_as_mat4x4_raw c3 r) (xyzw p) <> mat_apply (rotor_as_mat4x4_raw c3' r) (xyzw p)).
Proof.
  intros B r. repeat split.
  - exists zero4, (mk4 1 0 0 0), (mkpoint (mk4 1 0 0 0)). intro H.
    assert (K := f_equal l0 H). revert K. clear H. repeat open1; gcbv; intro K; lra.
  - exists zero4, (mk4 1 0 0 0), (mkpoint (mk4 1 0 0 0)). intro H.
    assert (K := f_equal l0 H). revert K. clear H. repeat open1; gcbv; intro K; lra.
Qed.
(** With a zeroed column the rotor matrices are right. *)
Theorem C24_rotor_matrix_zeroed : forall (B : Build) r p,
  mat_apply (rotor_as_mat4x4_raw zero4 r) (xyzw p) = xyzw (rotor_on_point r p) /\
  (rotor_n r = 1 -> mat_apply (rotor_as_mat3x4_raw zero4 r) (xyzw p) = xyzw (rotor_on_point r p)).
Proof.
  intros B r p. split.
  - opn; gcbv; lanes.
  - intro N. assert (W : point_w (rotor_on_point r p) = point_w p) by (rewrite (rotor_on_point_w B), N; ring).
    revert W. clear N. repeat open1; gcbv; intro W; f_equal; try ring; rewrite W; ring.
Qed.

(** * C29: the C++11 specialisations.  Any arithmetic; [for_loop] bodies and
    single-element kernels, all template arguments the library instantiates. *)
Theorem C29_sandwich : forall (F : Type) (A : Arith F) (B : Build) (b c : m128 F),
  (forall p q, swMM_line_11 p q b c = swMM_line p q b c) /\
  (forall p q, swMM_rot_line_11 p q b = swMM_rot_line p q b) /\
  (forall p, swMM_rot_branch_11 p b = swMM_rot_branch p b) /\
  (forall a, sw012_motor_11 a b c = sw012_motor a b c) /\
  (forall a, sw012_rotor_11 a b = sw012_rotor a b) /\
  (forall a, sw312_motor_11 a b c = sw312_motor a b c) /\
  (forall a, sw312_rotor_11 a b = sw312_rotor a b).
Proof. intros. repeat split. Qed.
(** for every address pair, including overlapping ones *)
Theorem C29_batch : forall (F : Type) (A : Arith F) (B : Build) (b c : m128 F) src out n m,
  swMM_line_11_run src out b c n m = swMM_line_run src out b c n m /\
  swMM_rot_line_11_run src out b n m = swMM_rot_line_run src out b n m /\
  sw012_motor_11_run src out b c n m = sw012_motor_run src out b c n m /\
  sw012_rotor_11_run src out b n m = sw012_rotor_run src out b n m /\
  sw312_motor_11_run src out b c n m = sw312_motor_run src out b c n m /\
  sw312_rotor_11_run src out b n m = sw312_rotor_run src out b n m.
Proof. intros. repeat split. Qed.
Theorem C29_matrix : forall (F : Type) (A : Arith F) (B : Build) (b c c3 : m128 F),
  mat4x4_12_11_tt b c = mat4x4_12_t true b c /\
  mat4x4_12_11_tf b c = mat4x4_12_t false b c /\
  mat4x4_12_11_ft b c3 = mat4x4_12_f true b c3 /\
  mat4x4_12_11_ff b c3 = mat4x4_12_f false b c3.
Proof. intros. repeat split. Qed.

(** * C28: SSE3 and SSE4.1.  Exact arithmetic, any reciprocal estimates.
    Operations not listed do not depend on the build at all (their model has
    no [Build] argument). *)
Section C28.
Context (rcp rsqrt : R -> R) (sz : bool).
Local Instance FLo : Flo R := Flo_R rcp rsqrt sz.
Theorem C28_products :
  forall (p : plane R) (q : point R) (l : line R) (b : branch R) (i : ideal_line R), wf_line l ->
  agree (fun B => plane_mul_point p q) /\ agree (fun B => point_mul_plane q p) /\
  agree (fun B => plane_ext_branch p b) /\ agree (fun B => branch_ext_plane b p) /\
  agree (fun B => plane_ext_line p l) /\ agree (fun B => line_ext_plane l p) /\
  agree (fun B => plane_ext_point p q) /\ agree (fun B => point_ext_plane q p) /\
  agree (fun B => point_join_line q l) /\ agree (fun B => line_join_point l q) /\
  agree (fun B => point_join_ideal q i) /\ agree (fun B => ideal_join_point i q) /\
  agree (fun B => plane_join_point p q) /\ agree (fun B => point_join_plane q p) /\
  agree (fun B => plane_dot_ideal p i) /\ agree (fun B => ideal_dot_plane i p) /\
  agree (fun B => plane_dot_point p q) /\ agree (fun B => point_dot_plane q p) /\
  agree (fun B => point_dot_line q l) /\ agree (fun B => line_dot_point l q) /\
  agree (fun B => project_point_line q l) /\ agree (fun B => project_point_plane q p) /\
  agree (fun B => project_plane_point p q) /\ agree (fun B => project_line_point l q) /\
  (forall p', agree (fun B => plane_dot_plane p p')) /\
  (forall q', agree (fun B => point_mul_point q q')).
Proof.
  intros p q l b i W. repeat match goal with |- _ /\ _ => split end.
  - apply b_plane_mul_point.
  - apply b_point_mul_plane.
  - apply b_plane_ext_branch.
  - apply b_branch_ext_plane.
  - apply b_plane_ext_line.
  - apply b_line_ext_plane.
  - apply b_plane_ext_point.
  - apply b_point_ext_plane.
  - apply b_point_join_line.
  - apply b_line_join_point.
  - apply b_point_join_ideal.
  - apply b_ideal_join_point.
  - apply b_plane_join_point.
  - apply b_point_join_plane.
  - apply b_plane_dot_ideal.
  - apply b_ideal_dot_plane.
  - apply b_plane_dot_point.
  - apply b_point_dot_plane.
  - now apply b_point_dot_line.
  - now apply b_line_dot_point.
  - now apply b_project_point_line.
  - apply b_project_point_plane.
  - intros b1 b2. unfold project_plane_point. rewrite (b_plane_dot_point p q b1 b2).
    apply b_line_dot_point. clear. opn; split; gcbv; ring.
  - intros b1 b2. unfold project_line_point. rewrite (b_line_dot_point q l W b1 b2). apply b_plane_dot_point.
  - apply b_plane_dot_plane.
  - apply (b_point_mul_point rcp rsqrt sz).
Qed.
Theorem C28_actions_partial : forall (m : motor R) (p : plane R) (t : translator R), wf_translator t ->
  agree (fun B => motor_on_plane m p) /\ agree (fun B => translator_on_plane t p) /\
  agree (fun B => motor_as_mat3x4 m) /\ agree (fun B => motor_as_mat4x4 m).
Proof.
  intros m p t W. repeat match goal with |- _ /\ _ => split end.
  - apply b_motor_on_plane.
  - now apply (b_translator_on_plane rcp rsqrt sz).
  - apply b_motor_as_mat3x4.
  - apply b_motor_as_mat4x4.
Qed.
Theorem C28_norms_partial : forall (p : plane R) (l : line R) (b : branch R) (i : ideal_line R)
    (d : direction R) (r : rotor R) (m : motor R),
  agree (fun B => plane_norm p) /\ agree (fun B => line_norm l) /\ agree (fun B => branch_norm b) /\
  agree (fun B => ideal_line_norm i) /\ agree (fun B => line_squared_norm l) /\
  agree (fun B => branch_squared_norm b) /\ agree (fun B => ideal_line_squared_norm i) /\
  agree (fun B => line_normalized l) /\ agree (fun B => branch_normalized b) /\
  agree (fun B => direction_normalized d) /\ agree (fun B => rotor_normalized r) /\
  agree (fun B => motor_normalized m) /\
  agree (fun B => plane_inverse p) /\ agree (fun B => line_inverse l) /\ agree (fun B => branch_inverse b) /\
  agree (fun B => rotor_inverse r) /\ agree (fun B => motor_inverse m) /\
  agree (fun B => rotor_sqrt r) /\ agree (fun B => branch_sqrt b) /\ agree (fun B => motor_sqrt m) /\
  agree (fun B => line_exp l) /\ agree (fun B => branch_exp b) /\
  agree (fun B => motor_log m) /\ agree (fun B => rotor_log r) /\
  (forall a k, agree (fun B => motor_screw a k l)) /\
  (forall x y z, agree (fun B => direction_ctor x y z)) /\
  (forall ea, agree (fun B => rotor_of_euler ea)) /\
  (l0 (plane_p0 p) = 0 -> agree (fun B => plane_normalized p)).
Proof.
  intros p l b i d r m. repeat match goal with |- _ /\ _ => split end.
  - apply (b_plane_norm rcp rsqrt sz).
  - apply (b_line_norm rcp rsqrt sz).
  - apply (b_branch_norm rcp rsqrt sz).
  - apply (b_ideal_norm rcp rsqrt sz).
  - apply b_line_squared_norm.
  - apply b_branch_squared_norm.
  - apply b_ideal_squared_norm.
  - apply (b_line_normalized rcp rsqrt sz).
  - apply (b_branch_normalized rcp rsqrt sz).
  - apply (b_direction_normalized rcp rsqrt sz).
  - apply (b_rotor_normalized rcp rsqrt sz).
  - apply (b_motor_normalized rcp rsqrt sz).
  - apply (b_plane_inverse rcp rsqrt sz).
  - apply (b_line_inverse rcp rsqrt sz).
  - apply (b_branch_inverse rcp rsqrt sz).
  - apply (b_rotor_inverse rcp rsqrt sz).
  - apply (b_motor_inverse rcp rsqrt sz).
  - exact (b_rotor_normalized rcp rsqrt sz _).
  - exact (b_rotor_normalized rcp rsqrt sz _).
  - exact (b_motor_normalized rcp rsqrt sz _).
  - apply (b_line_exp rcp rsqrt sz).
  - apply (b_branch_exp rcp rsqrt sz).
  - apply (b_motor_log rcp rsqrt sz).
  - apply (b_rotor_log rcp rsqrt sz).
  - intros. apply (b_motor_screw rcp rsqrt sz).
  - intros. exact (b_direction_normalized rcp rsqrt sz _).
  - intros. exact (b_rotor_normalized rcp rsqrt sz _).
  - exact (b_plane_normalized rcp rsqrt sz p).
Qed.
Theorem C28_quotients : forall (p p' : plane R) (q q' : point R) (l l' : line R) (b b' : branch R)
    (r r' : rotor R) (m m' : motor R),
  agree (fun B => plane_quo_plane p p') /\ agree (fun B => point_quo_point q q') /\
  agree (fun B => line_quo_line l l') /\ agree (fun B => branch_quo_branch b b') /\
  agree (fun B => rotor_quo_rotor r r') /\ agree (fun B => motor_quo_rotor m r') /\
  agree (fun B => motor_quo_motor m m').
Proof.
  intros. repeat match goal with |- _ /\ _ => split end; intros b1 b2.
  - exact (f_equal (plane_mul_plane p) (b_plane_inverse rcp rsqrt sz p' b1 b2)).
  - exact (b_point_mul_point rcp rsqrt sz q (point_inverse q') b1 b2).
  - exact (f_equal (line_mul_line l) (b_line_inverse rcp rsqrt sz l' b1 b2)).
  - exact (f_equal (branch_mul_branch b) (b_branch_inverse rcp rsqrt sz b' b1 b2)).
  - exact (f_equal (rotor_mul_rotor r) (b_rotor_inverse rcp rsqrt sz r' b1 b2)).
  - exact (f_equal (motor_mul_rotor m) (b_rotor_inverse rcp rsqrt sz r' b1 b2)).
  - exact (f_equal (motor_mul_motor m) (b_motor_inverse rcp rsqrt sz m' b1 b2)).
Qed.
(** plane::normalize: SSE4.1 keeps e0, SSE3 multiplies it by 1 + 1/|n|. *)
Theorem C28_plane_normalize_refuted : exact_rsqrt rsqrt -> ~ (forall p, agree (fun B => plane_normalized p)).
Proof.
  intros Hr H. specialize (H (plane_ctor 1 0 0 1) SSE41 SSE3).
  assert (P : 0 < dot3 (plane_p0 (plane_ctor 1 0 0 1)) (plane_p0 (plane_ctor 1 0 0 1))).
  { unfold dot3. cbn. lra. }
  assert (E1 := plane_normalized_R rcp rsqrt sz Hr SSE41 _ P).
  assert (E3 := plane_normalized_R rcp rsqrt sz Hr SSE3 _ P).
  change (FLc rcp rsqrt sz) with FLo in E1, E3.
  assert (H' := eq_trans (eq_sym E1) (eq_trans H E3)).
  assert (K := f_equal (fun x => l0 (plane_p0 x)) H'). cbn in K.
  assert (Q := Rinv_0_lt_compat _ (sqrt_lt_R0 _ P)). cbn in Q. lra.
Qed.
(** ill-formed lines and translators: the two builds need not agree *)
Theorem C28_ill_formed : exact_rcp rcp ->
  ~ (forall t p, agree (fun B => translator_on_plane t p)).
Proof.
  intros Hr H. specialize (H (mktranslator (mk4 1 1 0 0)) (plane_ctor 1 0 0 0) SSE41 SSE3).
  assert (K := f_equal (fun x => l0 (plane_p0 x)) H). revert K. clear H.
  cbv -[Rplus Rmult Ropp Rminus IZR].
  rewrite (Hr 1) by lra. rewrite (Hr (1 + 1)) by lra. intro K.
  field_simplify in K. lra.
Qed.
End C28.

(** * C23: what sqrt(a*b) does to b.  Exact arithmetic, ideal estimates. *)
Section C23.
Context (rcp rsqrt : R -> R) (sz : bool) (Hrcp : exact_rcp rcp) (Hrsq : exact_rsqrt rsqrt).
Local Instance FLs : Flo R := Flo_R rcp rsqrt sz.

Lemma unit_gp a b : unit a -> unit b -> unit (gp a b).
Proof.
  unfold unit. intros Ha Hb. rewrite rev_gp, gp_assoc, <- (gp_assoc b), Hb, gp_one_l. exact Ha.
Qed.
Lemma unit_proper a b : a == b -> unit a -> unit b.
Proof. unfold unit. intros E H. rewrite <- E. exact H. Qed.
Lemma scalar_1 : scalar_mv 1 == one.
Proof. intro k. unfold scalar_mv, mvscale. ring. Qed.
Lemma neg_sq (u : mv) : unit u -> rev u == mvscale (-1) u -> gp u u == scalar_mv (-1).
Proof.
  unfold unit. intros U E. rewrite E, gp_scale_r in U. intro k. specialize (U k).
  unfold mvscale in U. unfold scalar_mv, mvscale. lra.
Qed.
Lemma rev_prod_neg a b : rev a == mvscale (-1) a -> rev b == mvscale (-1) b -> rev (gp a b) == gp b a.
Proof.
  intros Ha Hb. rewrite rev_gp, Ha, Hb, gp_scale_l, gp_scale_r.
  intro k. unfold mvscale. ring.
Qed.
Lemma wf_neg_line a : wf_line a -> mv_line (line_neg a) == mvscale (-1) (mv_line a).
Proof. alg. Qed.

(** planes: as documented, sqrt(a*b) takes b to a *)
Theorem C23_planes : forall (B : Build) a b, unit (mv_plane a) -> unit (mv_plane b) ->
  motor_scalar (plane_mul_plane a b) <> -1 ->
  motor_on_plane (motor_sqrt (plane_mul_plane a b)) b = a.
Proof.
  intros B a b Ua Ub S. apply mv_plane_inj. rewrite (motor_on_plane_sw B).
  assert (G := plane_mul_plane_gp B a b).
  assert (U : unit (mv_motor (plane_mul_plane a b))) by (eapply unit_proper; [symmetry; exact G|apply unit_gp; assumption]).
  destruct (motor_sqrt_form rcp rsqrt sz Hrcp Hrsq B _ U S) as (al & be & F & Z).
  assert (Z0 : be = 0) by (apply Z; clear; opn; gcbv; ring). subst be.
  assert (Q := motor_sqrt_sq rcp rsqrt sz Hrcp Hrsq B _ U S).
  rewrite G in F, Q.
  change (FLqt rcp rsqrt sz) with FLs in F. change (FLn rcp rsqrt sz) with FLs in Q.
  rewrite (sqrt_takes (mv_plane a) (mv_plane b) _ (study_mv al 0) 1 ); try eassumption.
  - intro k. unfold mvscale. ring.
  - unfold unit in Ub. rewrite rev_plane in Ub. rewrite Ub. symmetry. apply scalar_1.
  - rewrite rev_gp, !rev_plane. reflexivity.
  - apply scalar_comm.
  - apply scalar_comm.
  - apply rev_study.
Qed.
Example C23_planes_ex : unit (mv_plane (plane_ctor (3/5) (4/5) 0 2)) /\ unit (mv_plane (plane_ctor 0 1 0 5)) /\
  motor_scalar (plane_mul_plane (plane_ctor (3/5) (4/5) 0 2) (plane_ctor 0 1 0 5)) = 4/5.
Proof.
  repeat split; try (apply unit_plane_iff; unfold dot3; cbn; lra). gcbv. lra.
Qed.

(** points: as documented *)
Theorem C23_points : forall (B : Build) a b, point_w a <> 0 -> point_w b <> 0 ->
  pos (translator_on_point (translator_sqrt (point_mul_point a b)) b) = pos a /\
  (point_w a = 1 -> point_w b = 1 -> translator_on_point (translator_sqrt (point_mul_point a b)) b = a).
Proof.
  intros B a b Ha Hb.
  assert (E := point_mul_point_R rcp rsqrt sz Hrcp B a b Ha Hb). change (FLc rcp rsqrt sz) with FLs in E.
  rewrite E. clear E. destruct a as [[a0 a1 a2 a3]], b as [[b0 b1 b2 b3]].
  unfold point_w in *. cbn [point_p3 l0] in *. split.
  - apply vec_eq; gcbv; field; auto.
  - intros -> ->. gcbv. f_equal; f_equal; field.
Qed.

(** branches: sqrt(a*b) takes b to -a (the same axis, reversed) *)
Theorem C23_branches_partial : forall (B : Build) a b, wf_branch a -> wf_branch b ->
  unit (mv_branch a) -> unit (mv_branch b) ->
  rotor_scalar (branch_mul_branch a b) <> -1 ->
  rotor_on_branch (rotor_sqrt (branch_mul_branch a b)) b = branch_neg a.
Proof.
  intros B a b Wa Wb Ua Ub S.
  assert (K : mv_branch (rotor_on_branch (rotor_sqrt (branch_mul_branch a b)) b) == mvscale (-1) (mv_branch a)).
  { rewrite (rotor_on_branch_sw B) by assumption.
    assert (G := branch_mul_branch_gp B a b).
    assert (U : unit (mv_rotor (branch_mul_branch a b))) by (eapply unit_proper; [symmetry; exact G|apply unit_gp; assumption]).
    destruct (rotor_sqrt_form rcp rsqrt sz Hrsq B _ U S) as (al & F).
    assert (Q := rotor_sqrt_sq rcp rsqrt sz Hrsq B _ U S).
    rewrite G in F, Q.
    change (FLqt rcp rsqrt sz) with FLs in F. change (FLn rcp rsqrt sz) with FLs in Q.
    apply (sqrt_takes (mv_branch a) (mv_branch b) _ (study_mv al 0) (-1)); try eassumption.
    - apply neg_sq; [assumption|apply rev_branch; assumption].
    - apply rev_prod_neg; apply rev_branch; assumption.
    - apply scalar_comm.
    - apply scalar_comm.
    - apply rev_study. }
  assert (W : wf_branch (rotor_on_branch (rotor_sqrt (branch_mul_branch a b)) b)).
  { generalize (rotor_sqrt (branch_mul_branch a b)). clear - Wb. opn; gcbv; ring. }
  revert K W. generalize (rotor_on_branch (rotor_sqrt (branch_mul_branch a b)) b). clear - Wa.
  intros c K W. destruct c as [[c0 c1 c2 c3]], a as [[a0 a1 a2 a3]].
  unfold wf_branch in *. cbn in Wa, W. subst.
  assert (K1 := K (Bl false false true true)). assert (K2 := K (Bl false true false true)).
  assert (K3 := K (Bl false true true false)). revert K1 K2 K3. mvcbv. intros K1 K2 K3.
  gcbv. f_equal. f_equal; lra.
Qed.
(** the form the repository's test uses, [~sqrt(a * b)(b)]: the call binds
    tighter than [~], so it is the image that is reversed, and that is [a] *)
Theorem C23_branches_image_reversed : forall (B : Build) a b, wf_branch a -> wf_branch b ->
  unit (mv_branch a) -> unit (mv_branch b) ->
  rotor_scalar (branch_mul_branch a b) <> -1 ->
  branch_rev (rotor_on_branch (rotor_sqrt (branch_mul_branch a b)) b) = a.
Proof.
  intros B a b Wa Wb Ua Ub S. rewrite C23_branches_partial by assumption.
  destruct a as [[a0 a1 a2 a3]]. unfold wf_branch in Wa. cbn in Wa. subst. gcbv. f_equal. f_equal; ring.
Qed.
Example C23_branches_ex : wf_branch (branch_ctor (3/5) (4/5) 0) /\ wf_branch (branch_ctor 0 1 0) /\
  unit (mv_branch (branch_ctor (3/5) (4/5) 0)) /\ unit (mv_branch (branch_ctor 0 1 0)) /\
  rotor_scalar (branch_mul_branch (branch_ctor (3/5) (4/5) 0) (branch_ctor 0 1 0)) = -4/5.
Proof.
  repeat split; try (apply unit_branch_iff; [reflexivity|]; unfold dot3; cbn; lra). gcbv. lra.
Qed.

(** lines: whenever [a * b] is the geometric product (see C01), sqrt(a*b)
    takes b to -a, the same set of points with the opposite direction *)
Theorem C23_lines_partial : forall (B : Build) a b, wf_line a -> wf_line b ->
  unit (mv_line a) -> unit (mv_line b) ->
  mv_motor (line_mul_line a b) == gp (mv_line a) (mv_line b) ->
  motor_scalar (line_mul_line a b) <> -1 ->
  motor_on_line (motor_sqrt (line_mul_line a b)) b = line_neg a.
Proof.
  intros B a b Wa Wb Ua Ub G S. apply mv_line_inj. rewrite (motor_on_line_sw B), wf_neg_line by assumption.
  assert (U : unit (mv_motor (line_mul_line a b))) by (eapply unit_proper; [symmetry; exact G|apply unit_gp; assumption]).
  destruct (motor_sqrt_form rcp rsqrt sz Hrcp Hrsq B _ U S) as (al & be & F & _).
  assert (Q := motor_sqrt_sq rcp rsqrt sz Hrcp Hrsq B _ U S).
  rewrite G in F, Q.
  change (FLqt rcp rsqrt sz) with FLs in F. change (FLn rcp rsqrt sz) with FLs in Q.
  apply (sqrt_takes (mv_line a) (mv_line b) _ (study_mv al be) (-1)); try eassumption.
  - apply neg_sq; [assumption|apply rev_line; assumption].
  - apply rev_prod_neg; apply rev_line; assumption.
  - apply study_comm, even_line.
  - apply study_comm, even_line.
  - apply rev_study.
Qed.
Theorem C23_neg_line_same_points : forall l x, line_has (line_neg l) x <-> line_has l x.
Proof.
  intros [[a0 a1 a2 a3] [b0 b1 b2 b3]] [x y z]. unfold line_has, on_line. split; intro H.
  - assert (Hx := f_equal vx H). assert (Hy := f_equal vy H). assert (Hz := f_equal vz H).
    revert Hx Hy Hz. gcbv. intros. apply vec_eq; gcbv; lra.
  - assert (Hx := f_equal vx H). assert (Hy := f_equal vy H). assert (Hz := f_equal vz H).
    revert Hx Hy Hz. gcbv. intros. apply vec_eq; gcbv; lra.
Qed.
Lemma sqrt_sq36 : sqrt (36 / 25) = 6 / 5.
Proof. replace (36 / 25) with (6 / 5 * (6 / 5)) by lra. apply sqrt_square. lra. Qed.

(** the documented claim about branches (geometric_product.hpp 102-103) fails:
    here neither sqrt(a*b) nor its reverse takes b to a, and the reverse does
    not even take b to the axis of a *)
Theorem C23_branches_refuted : forall (B : Build), exists a b,
  wf_branch a /\ wf_branch b /\ unit (mv_branch a) /\ unit (mv_branch b) /\
  rotor_scalar (branch_mul_branch a b) <> -1 /\
  rotor_on_branch (rotor_sqrt (branch_mul_branch a b)) b <> a /\
  (forall k, mv_branch (rotor_on_branch (rotor_rev (rotor_sqrt (branch_mul_branch a b))) b) == mvscale k (mv_branch a) -> False).
Proof.
  intro B. exists (branch_ctor (7/25) (24/25) 0), (branch_ctor 1 0 0).
  assert (E : rotor_sqrt (branch_mul_branch (branch_ctor (7/25) (24/25) 0) (branch_ctor 1 0 0))
              = mkrotor (mk4 (3/5) 0 0 (4/5))).
  { unfold rotor_sqrt. set (r := mkrotor _).
    assert (N : dot4 (rotor_p1 r) (rotor_p1 r) = 36 / 25) by (gcbv; lra).
    assert (M := rotor_normalized_R rcp rsqrt sz Hrsq B r). rewrite N, sqrt_sq36 in M.
    assert (M' := M ltac:(lra)). change (FLc rcp rsqrt sz) with FLs in M'. rewrite M'.
    gcbv; f_equal; f_equal; lra. }
  split; [reflexivity|]. split; [reflexivity|].
  split; [apply unit_branch_iff; [reflexivity|]; unfold dot3; cbn; lra|].
  split; [apply unit_branch_iff; [reflexivity|]; unfold dot3; cbn; lra|].
  split; [gcbv; lra|].
  split.
  - rewrite E; intro K; apply (f_equal (fun c => l1 (branch_p1 c))) in K; revert K; gcbv; lra.
  - intros k K. assert (K1 := K (Bl false false true true)). assert (K2 := K (Bl false true false true)).
    rewrite E in K1, K2; revert K1 K2; mvcbv; intros; lra.
Qed.

(** lines: the product operator exchanges two components (C01), and then
    sqrt(a*b) need not take b anywhere near a: here it leaves b where it is *)
Theorem C23_lines_refuted : forall (B : Build), exists a b,
  wf_line a /\ wf_line b /\ unit (mv_line a) /\ unit (mv_line b) /\
  motor_scalar (line_mul_line a b) <> -1 /\
  motor_on_line (motor_sqrt (line_mul_line a b)) b = b /\
  (forall k, mv_line b == mvscale k (mv_line a) -> False).
Proof.
  intro B. exists (line_ctor 0 0 0 (7/25) (24/25) 0), (line_ctor 0 0 0 1 0 0).
  split; [split; reflexivity|]. split; [split; reflexivity|].
  split; [apply unit_line_iff; [split; reflexivity|]; unfold dot3; cbn; lra|].
  split; [apply unit_line_iff; [split; reflexivity|]; unfold dot3; cbn; lra|].
  split; [gcbv; lra|]. split.
  - unfold motor_sqrt. set (r := mkmotor _ _).
    assert (N : dot4 (motor_p1 r) (motor_p1 r) = 36 / 25) by (gcbv; lra).
    assert (M := motor_normalized_R rcp rsqrt sz Hrcp Hrsq B r). cbv zeta in M. rewrite N, sqrt_sq36 in M.
    assert (M' := M ltac:(lra)). change (FLc rcp rsqrt sz) with FLs in M'. rewrite M'.
    gcbv. f_equal; f_equal; lra.
  - intros k K. assert (K1 := K (Bl false false true true)). assert (K2 := K (Bl false true false true)).
    revert K1 K2; mvcbv; intros; lra.
Qed.
(** two lines for which the operator is right *)
Example C23_lines_ex : forall B : Build, let a := line_ctor 0 2 0 (3/5) 0 (4/5) in let b := line_ctor 0 3 (-1) 1 0 0 in
  wf_line a /\ wf_line b /\ unit (mv_line a) /\ unit (mv_line b) /\ motor_scalar (line_mul_line a b) = -(3/5) /\
  mv_motor (line_mul_line a b) == gp (mv_line a) (mv_line b).
Proof.
  intros B a b. assert (Wa : wf_line a) by (split; reflexivity). assert (Wb : wf_line b) by (split; reflexivity).
  split; [exact Wa|]. split; [exact Wb|].
  split; [apply unit_line_iff; [exact Wa|]; unfold dot3; cbn; lra|].
  split; [apply unit_line_iff; [exact Wb|]; unfold dot3; cbn; lra|].
  split; [gcbv; lra|]. apply line_mul_line_iff; try assumption. gcbv. lra.
Qed.
End C23.

Print Assumptions C26_batch.
Print Assumptions C27_inplace_erases_refuted.
Print Assumptions C27_inplace_lines_refuted.
Print Assumptions C24_motor_mat4x4.
Print Assumptions C24_motor_mat3x4.
Print Assumptions C24_rotor_matrix_refuted.
Print Assumptions C24_rotor_matrix_zeroed.
Print Assumptions C29_sandwich.
Print Assumptions C29_batch.
Print Assumptions C29_matrix.
Print Assumptions C28_products.
Print Assumptions C28_actions_partial.
Print Assumptions C28_norms_partial.
Print Assumptions C28_quotients.
Print Assumptions C28_plane_normalize_refuted.
Print Assumptions C28_ill_formed.
Print Assumptions C23_planes.
Print Assumptions C23_points.
Print Assumptions C23_branches_partial.
Print Assumptions C23_branches_image_reversed.
Print Assumptions C23_lines_partial.
Print Assumptions C23_neg_line_same_points.
Print Assumptions C23_branches_refuted.
Print Assumptions C23_lines_refuted.

Print Assumptions C26_input_kept.
