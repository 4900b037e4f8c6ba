(** Properties C38, C40, C46, C62: binary32 comparisons, estimates, degenerate
    inputs and constants. *)
From Coq Require Import ZArith Reals Bool List Lia Lra Psatz Machin.
From Flocq Require Import Core BinarySingleNaN.
From Verif Require Import AlgTac KernelExpLog Float32 FloatFacts FloatErr FloatCmp FloatNR FloatNorm FloatDegenerate FloatIdeal.
Import ListNotations.
Local Open Scope R_scope.

(** ** C38.  [==] holds iff all coefficients are equal numbers or equal infinities:
    never with a NaN, and -0 equals +0. *)
Lemma eq4_spec M (a b : m128 f32) : all4 (_mm_cmpeq_ps (FL := Flo_f32 M) a b) = true <-> Forall2 ieee_eq (reg_list a) (reg_list b).
Proof.
  unfold all4, reg_list. cbn [_mm_cmpeq_ps map4_2 l0 l1 l2 l3 feqb Flo_f32]. rewrite !andb_true_iff, !Beqb_spec. split.
  - intros [[[H0 H1] H2] H3]. repeat apply Forall2_cons; try apply Forall2_nil; assumption.
  - intro H. repeat match goal with H : Forall2 _ (_ :: _) (_ :: _) |- _ => inversion_clear H end. tauto.
Qed.
Lemma all4_and4 a b : all4 (and4 a b) = all4 a && all4 b.
Proof. unfold all4, and4. cbn. destruct (l0 a), (l1 a), (l2 a), (l3 a), (l0 b), (l1 b), (l2 b), (l3 b); reflexivity. Qed.
Theorem C38_equality : forall M : machine, let FL := Flo_f32 M in
  (forall a b, plane_eq a b = true <-> Forall2 ieee_eq (coefs (k := KPlane) a) (coefs (k := KPlane) b)) /\
  (forall a b, rotor_eq a b = true <-> Forall2 ieee_eq (coefs (k := KRotor) a) (coefs (k := KRotor) b)) /\
  (forall a b, line_eq a b = true <-> Forall2 ieee_eq (coefs (k := KLine) a) (coefs (k := KLine) b)) /\
  (forall a b, motor_eq a b = true <-> Forall2 ieee_eq (coefs (k := KMotor) a) (coefs (k := KMotor) b)).
Proof.
  intros M FL.
  assert (S : forall a b c d, Forall2 ieee_eq (reg_list a ++ reg_list b) (reg_list c ++ reg_list d) <->
    Forall2 ieee_eq (reg_list a) (reg_list c) /\ Forall2 ieee_eq (reg_list b) (reg_list d)).
  { intros a b c d. split.
    - intro H. unfold reg_list in H. cbn in H. repeat match goal with H : Forall2 _ (_ :: _) (_ :: _) |- _ => inversion_clear H end.
      split; repeat apply Forall2_cons; try apply Forall2_nil; assumption.
    - intros [P Q]. apply Forall2_app; assumption. }
  repeat split; intro H; try (apply (eq4_spec M); exact H); try (apply (eq4_spec M) in H; exact H).
  - unfold line_eq in H. rewrite all4_and4 in H. apply andb_prop in H. apply S. rewrite <- !(eq4_spec M). exact H.
  - unfold line_eq. rewrite all4_and4. apply andb_true_intro. apply S in H. destruct H as [H G]. split; apply (eq4_spec M); assumption.
  - unfold motor_eq in H. rewrite all4_and4 in H. apply andb_prop in H. apply S. rewrite <- !(eq4_spec M). exact H.
  - unfold motor_eq. rewrite all4_and4. apply andb_true_intro. apply S in H. destruct H as [H G]. split; apply (eq4_spec M); assumption.
Qed.
Print Assumptions C38_equality.
Lemma Beqb_sym (x y : f32) : Beqb x y = Beqb y x.
Proof.
  destruct (Beqb x y) eqn:E, (Beqb y x) eqn:G; try reflexivity.
  - apply Beqb_spec, ieee_eq_sym, Beqb_spec in E. congruence.
  - apply Beqb_spec, ieee_eq_sym, Beqb_spec in G. congruence.
Qed.
Lemma close_sym (x y e : f32) : Bltb (Babs (Bminus mode_NE x y)) e = Bltb (Babs (Bminus mode_NE y x)) e.
Proof. change (Bltb (Babs (fsub x y)) e = Bltb (Babs (fsub y x)) e). rewrite abs_sub_sym. reflexivity. Qed.
Theorem C38_symmetric : forall M : machine, let FL := Flo_f32 M in
  (forall a b, plane_eq a b = plane_eq b a) /\ (forall a b, rotor_eq a b = rotor_eq b a) /\
  (forall a b, line_eq a b = line_eq b a) /\ (forall a b, motor_eq a b = motor_eq b a) /\
  (forall a b e, plane_approx_eq a b e = plane_approx_eq b a e) /\ (forall a b e, rotor_approx_eq a b e = rotor_approx_eq b a e) /\
  (forall a b e, line_approx_eq a b e = line_approx_eq b a e) /\ (forall a b e, motor_approx_eq a b e = motor_approx_eq b a e).
Proof.
  intros M FL.
  assert (E : forall a b : m128 f32, _mm_cmpeq_ps (FL := FL) a b = _mm_cmpeq_ps b a).
  { intros [a0 a1 a2 a3] [b0 b1 b2 b3]. unfold _mm_cmpeq_ps, map4_2. cbn [feqb Flo_f32 FL l0 l1 l2 l3].
    rewrite (Beqb_sym a0), (Beqb_sym a1), (Beqb_sym a2), (Beqb_sym a3). reflexivity. }
  assert (C : forall (a b : m128 f32) e, approx4 (FL := FL) a b e = approx4 b a e).
  { intros [a0 a1 a2 a3] [b0 b1 b2 b3] e. unfold approx4, _mm_cmplt_ps, abs_ps, _mm_sub_ps, _mm_set1_ps, map4, map4_2.
    cbn [fltb fabs fsub Flo_f32 FL Arith_f32 flo_arith l0 l1 l2 l3].
    rewrite (close_sym a0), (close_sym a1), (close_sym a2), (close_sym a3). reflexivity. }
  unfold plane_eq, rotor_eq, line_eq, motor_eq, plane_approx_eq, rotor_approx_eq, line_approx_eq, motor_approx_eq.
  repeat split; intros; f_equal; auto; f_equal; auto.
Qed.
Print Assumptions C38_symmetric.

(** [approx_eq] never accepts coefficients that differ by [eps] or more *)
Definition within (e x y : f32) : Prop := fin x /\ fin y /\ (e = B754_infinity false \/ fin e /\ Rabs (val x - val y) < val e).
(** and accepts when the differences stay below [eps] by a float *)
Definition well_within (e x y : f32) : Prop := fin x /\ fin y /\ fin e /\
  exists f : f32, fin f /\ val f < val e /\ Rabs (val x - val y) <= val f.
Lemma approx4_sound M (a b : m128 f32) e : all4 (approx4 (FL := Flo_f32 M) a b e) = true -> Forall2 (within e) (reg_list a) (reg_list b).
Proof.
  unfold all4, reg_list. destruct a as [a0 a1 a2 a3], b as [b0 b1 b2 b3]. rewrite !andb_true_iff. intros [[[H0 H1] H2] H3].
  repeat apply Forall2_cons; try apply Forall2_nil; cbn [l0 l1 l2 l3]; apply abs_sub_fin_lt; assumption.
Qed.
Lemma approx4_complete M (a b : m128 f32) e : Forall2 (well_within e) (reg_list a) (reg_list b) -> all4 (approx4 (FL := Flo_f32 M) a b e) = true.
Proof.
  unfold reg_list. intro H. repeat match goal with H : Forall2 _ (_ :: _) (_ :: _) |- _ => inversion_clear H end.
  destruct a as [a0 a1 a2 a3], b as [b0 b1 b2 b3]. cbn [l0 l1 l2 l3] in *.
  assert (K : forall x y, well_within e x y -> Bltb (Babs (fsub x y)) e = true)
    by (intros x y (Fx & Fy & Fe & f & Ff & L & G); exact (abs_sub_lt_fin x y e f Fx Fy Fe Ff L G)).
  unfold all4. rewrite !andb_true_iff. repeat split; apply K; assumption.
Qed.
(** Full statement: [approx_eq] iff every coefficient differs by less than [eps].
    Missing: differences that round up to [eps] are rejected ([C38_approx_refuted]). *)
Theorem C38_approx_partial : forall M : machine, let FL := Flo_f32 M in
  (forall a b e, plane_approx_eq a b e = true -> Forall2 (within e) (coefs (k := KPlane) a) (coefs (k := KPlane) b)) /\
  (forall a b e, rotor_approx_eq a b e = true -> Forall2 (within e) (coefs (k := KRotor) a) (coefs (k := KRotor) b)) /\
  (forall a b e, line_approx_eq a b e = true -> Forall2 (within e) (coefs (k := KLine) a) (coefs (k := KLine) b)) /\
  (forall a b e, motor_approx_eq a b e = true -> Forall2 (within e) (coefs (k := KMotor) a) (coefs (k := KMotor) b)) /\
  (forall a b e, Forall2 (well_within e) (coefs (k := KPlane) a) (coefs (k := KPlane) b) -> plane_approx_eq a b e = true) /\
  (forall a b e, Forall2 (well_within e) (coefs (k := KRotor) a) (coefs (k := KRotor) b) -> rotor_approx_eq a b e = true) /\
  (forall a b e, Forall2 (well_within e) (coefs (k := KLine) a) (coefs (k := KLine) b) -> line_approx_eq a b e = true) /\
  (forall a b e, Forall2 (well_within e) (coefs (k := KMotor) a) (coefs (k := KMotor) b) -> motor_approx_eq a b e = true).
Proof.
  intros M FL.
  assert (S : forall (Q : f32 -> f32 -> Prop) a b c d, Forall2 Q (reg_list a ++ reg_list b) (reg_list c ++ reg_list d) ->
    Forall2 Q (reg_list a) (reg_list c) /\ Forall2 Q (reg_list b) (reg_list d)).
  { intros Q a b c d H. unfold reg_list in H. cbn in H. repeat match goal with H : Forall2 _ (_ :: _) (_ :: _) |- _ => inversion_clear H end.
    split; repeat apply Forall2_cons; try apply Forall2_nil; assumption. }
  repeat split; intros a b e H.
  - exact (approx4_sound M _ _ _ H).
  - exact (approx4_sound M _ _ _ H).
  - unfold line_approx_eq in H. rewrite all4_and4 in H. apply andb_prop in H. apply Forall2_app; apply (approx4_sound M); apply H.
  - unfold motor_approx_eq in H. rewrite all4_and4 in H. apply andb_prop in H. apply Forall2_app; apply (approx4_sound M); apply H.
  - exact (approx4_complete M _ _ _ H).
  - exact (approx4_complete M _ _ _ H).
  - apply S in H. unfold line_approx_eq. rewrite all4_and4. apply andb_true_intro. split; apply (approx4_complete M); apply H.
  - apply S in H. unfold motor_approx_eq. rewrite all4_and4. apply andb_true_intro. split; apply (approx4_complete M); apply H.
Qed.
Print Assumptions C38_approx_partial.
Definition same4 (x : f32) : plane f32 := mkplane (mk4 x x x x).
(** a difference below [eps] that rounds to [eps] *)
Theorem C38_approx_refuted : forall M : machine, exists a b e, let FL := Flo_f32 M in
  Forall2 (fun x y => fin x /\ fin y /\ fin e /\ Rabs (val x - val y) < val e) (coefs (k := KPlane) a) (coefs (k := KPlane) b) /\
  plane_approx_eq a b e = false.
Proof.
  intro M. exists (same4 (f32_of 1 0)), (same4 (f32_of (-65537) (-40))), (f32_of 8388609 (-23)). split; [|vm_compute; reflexivity].
  assert (V1 : val (f32_of 1 0) = 1) by (vm_compute; lra).
  assert (V2 : val (f32_of (-65537) (-40)) = - 65537 / 1099511627776) by (vm_compute; lra).
  assert (V3 : val (f32_of 8388609 (-23)) = 8388609 / 8388608) by (vm_compute; lra).
  assert (K : Rabs (val (f32_of 1 0) - val (f32_of (-65537) (-40))) < val (f32_of 8388609 (-23))).
  { rewrite V1, V2, V3. rewrite Rabs_pos_eq; lra. }
  repeat apply Forall2_cons; try apply Forall2_nil; repeat split; exact K.
Qed.
Print Assumptions C38_approx_refuted.
(** "bitwise comparison", as the documentation has it: equal objects with different
    bits, and an object that differs from itself *)
Theorem C38_bitwise_refuted : forall M : machine, let FL := Flo_f32 M in
  (exists a b : plane f32, a <> b /\ plane_eq a b = true) /\ (exists a : plane f32, plane_eq a a = false).
Proof.
  intros M FL. split.
  - exists (same4 (B754_zero true)), (same4 (B754_zero false)). split; [discriminate|reflexivity].
  - exists (same4 B754_nan). reflexivity.
Qed.
Print Assumptions C38_bitwise_refuted.

(** ** C40.  Factors of relative error at most 2^-21, with all binary32 roundings,
    for every machine whose estimates are within 1.5 * 2^-12. *)
Theorem C40_reciprocal : forall M : machine, let FL := Flo_f32 M in rcp_estimate M -> forall v : m128 f32,
  Forall nr_range (reg_list v) ->
  Forall2 (fun x y => fin y /\ Rabs (val y * val x - 1) <= / 2 ^ 21) (reg_list v) (reg_list (rcp_nr1 v)).
Proof.
  intros M FL HM v H. unfold reg_list in *. repeat match goal with H : Forall _ (_ :: _) |- _ => inversion_clear H end.
  assert (K : forall x, nr_range x -> fin (rcp_step (H := FL) x) /\ Rabs (val (rcp_step (H := FL) x) * val x - 1) <= / 2 ^ 21).
  { intros x R. destruct (rcp_step_error M x HM R) as [F E]. split; [exact F|]. rewrite Rmult_comm.
    eapply Rle_trans; [exact E|]. unfold u. cbn. lra. }
  repeat apply Forall2_cons; try apply Forall2_nil; apply K; assumption.
Qed.
Print Assumptions C40_reciprocal.
Theorem C40_reciprocal_sqrt : forall M : machine, let FL := Flo_f32 M in rsqrt_estimate M -> forall v : m128 f32,
  Forall (fun x => nr_range x /\ 0 < val x) (reg_list v) ->
  Forall2 (fun x y => fin y /\ Rabs (val y * sqrt (val x) - 1) <= / 2 ^ 21) (reg_list v) (reg_list (rsqrt_nr1 v)).
Proof.
  intros M FL HM v H. unfold reg_list in *. repeat match goal with H : Forall _ (_ :: _) |- _ => inversion_clear H end.
  assert (K : forall x, nr_range x /\ 0 < val x -> fin (rsqrt_step (H := FL) x) /\ Rabs (val (rsqrt_step (H := FL) x) * sqrt (val x) - 1) <= / 2 ^ 21).
  { intros x [R P]. destruct (rsqrt_step_error M x HM R P) as (F & _ & E). split; [exact F|]. rewrite Rmult_comm.
    eapply Rle_trans; [exact E|]. unfold u. cbn. lra. }
  repeat apply Forall2_cons; try apply Forall2_nil; apply K; assumption.
Qed.
Print Assumptions C40_reciprocal_sqrt.

(** the normalizations: every coefficient within 10 * 2^-24, relatively, of the
    exactly normalized one *)
Theorem C40_normalize : forall (B : Build) (M : machine), let FL := Flo_f32 M in rsqrt_estimate M ->
  (forall r : rotor f32, safe4 (rotor_p1 r) -> 0 < sq4 (rotor_p1 r) ->
     Forall2 (fun y x => scaled 10 y x (sqrt (sq4 (rotor_p1 r)))) (reg_list (rotor_p1 (rotor_normalized r))) (reg_list (rotor_p1 r))) /\
  (forall b : branch f32, safe4 (branch_p1 b) -> 0 < sq3 (branch_p1 b) ->
     Forall2 (fun y x => scaled 10 y x (sqrt (sq3 (branch_p1 b)))) (reg_list (branch_p1 (branch_normalized b))) (reg_list (branch_p1 b))) /\
  (forall d : direction f32, safe4 (direction_p3 d) -> 0 < sq3 (direction_p3 d) ->
     Forall2 (fun y x => scaled 10 y x (sqrt (sq3 (direction_p3 d)))) (reg_list (direction_p3 (direction_normalized d))) (reg_list (direction_p3 d))).
Proof.
  intros B M FL HM.
  assert (K4 : forall v : m128 f32, safe4 v -> 0 < sq4 v ->
    Forall2 (fun y x => scaled 10 y x (sqrt (sq4 v))) (reg_list (_mm_mul_ps v (rsqrt_nr1 (dp_bc v v)))) (reg_list v)).
  { intros v S P. destruct (dp_bc_error B v S) as (n & E & F & G). destruct (sq_range v S) as (_ & L & _ & U).
    unfold safe4, reg_list in S. change (@flo_arith f32 FL) with Arith_f32. rewrite E. unfold reg_list.
    repeat match goal with H : Forall _ (_ :: _) |- _ => inversion_clear H end.
    repeat apply Forall2_cons; try apply Forall2_nil;
      (eapply scale_lane; [exact HM|exact F|exact G|split; [apply L; exact P|apply U]|assumption|reflexivity]). }
  assert (K3 : forall v : m128 f32, safe4 v -> 0 < sq3 v ->
    Forall2 (fun y x => scaled 10 y x (sqrt (sq3 v))) (reg_list (_mm_mul_ps v (rsqrt_nr1 (hi_dp_bc v v)))) (reg_list v)).
  { intros v S P. destruct (hi_dp_bc_error B v S) as (n & E & F & G). destruct (sq_range v S) as (L & _ & U & _).
    unfold safe4, reg_list in S. change (@flo_arith f32 FL) with Arith_f32. rewrite E. unfold reg_list.
    repeat match goal with H : Forall _ (_ :: _) |- _ => inversion_clear H end.
    repeat apply Forall2_cons; try apply Forall2_nil;
      (eapply scale_lane; [exact HM|exact F|exact G|split; [apply L; exact P|apply U]|assumption|reflexivity]). }
  repeat split; intros x S P; [exact (K4 _ S P)|exact (K3 _ S P)|exact (K3 _ S P)].
Qed.
Print Assumptions C40_normalize.
(** planes: the three normal coefficients *)
Theorem C40_plane_normalize : forall (B : Build) (M : machine), let FL := Flo_f32 M in rsqrt_estimate M ->
  forall p : plane f32, safe4 (plane_p0 p) -> 0 < sq3 (plane_p0 p) ->
  Forall2 (fun y x => scaled 10 y x (sqrt (sq3 (plane_p0 p))))
    [l1 (plane_p0 (plane_normalized p)); l2 (plane_p0 (plane_normalized p)); l3 (plane_p0 (plane_normalized p))]
    [l1 (plane_p0 p); l2 (plane_p0 p); l3 (plane_p0 p)].
Proof.
  intros B M FL HM p S P. destruct (hi_dp_bc_error B _ S) as (n & E & F & G). destruct (sq_range _ S) as (L & _ & U & _).
  unfold safe4, reg_list in S. repeat match goal with H : Forall _ (_ :: _) |- _ => inversion_clear H end.
  assert (Pn : fin n /\ nr_range n /\ 0 < val n).
  { specialize (L P). set (N := sq3 (plane_p0 p)) in *. split; [exact F|].
    assert (G' : - (41/10 * u * N) <= val n - N <= 41/10 * u * N) by (apply Rabs_le_inv; exact G).
    assert (U0 : 41/10 * u * N <= N / 2) by (unfold u; lra).
    pose proof (bpow_gt_0 radix2 (-102)).
    assert (bpow radix2 (-125) <= bpow radix2 (-102) / 2).
    { unfold Rdiv. change (/ 2) with (bpow radix2 (-1)). rewrite <- bpow_plus. apply bpow_le. lia. }
    assert (4 * bpow radix2 120 * 2 <= bpow radix2 125).
    { replace (4 * bpow radix2 120 * 2) with (bpow radix2 3 * bpow radix2 120) by (change (bpow radix2 3) with 8; ring).
      rewrite <- bpow_plus. apply bpow_le. lia. }
    split; [split; [exact F|rewrite Rabs_pos_eq by lra; lra]|lra]. }
  destruct Pn as (_ & Rn & Pn). destruct (rsqrt_step_error M n HM Rn Pn) as (Fr & Pr & _).
  assert (A0 : forall r : f32, fin r -> 0 < val r -> fadd r (fz 0) = r).
  { intros [s|s| |s m e H'] Fr' Pr'; try discriminate Fr'; [cbn in Pr'; lra|reflexivity]. }
  unfold plane_normalized. change (@flo_arith f32 FL) with Arith_f32. rewrite E.
  assert (K : forall x r, r = rsqrt_step n -> fmul r x = fmul x (rsqrt_step (H := FL) n)) by (intros x r ->; apply ExprSyntax.mul_comm_f32).
  repeat apply Forall2_cons; try apply Forall2_nil;
    (eapply scale_lane; [exact HM|exact F|exact G|split; [apply L; exact P|apply U]|assumption|];
     destruct B as [[|]]; [apply K; reflexivity|apply K; exact (A0 _ Fr Pr)]).
Qed.
Print Assumptions C40_plane_normalize.
(** dividing by a scalar, and normalizing a point *)
Theorem C40_divide : forall (B : Build) (M : machine), let FL := Flo_f32 M in rcp_estimate M ->
  forall w : f32, safe (-51) 60 w -> val w <> 0 -> let quot := Forall2 (fun y x => scaled 7 y x (val w)) in
  let ok := Forall (safe (-51) 60) in
  (forall a, ok (coefs (k := KPlane) a) -> quot (coefs (k := KPlane) (plane_div_f a w)) (coefs (k := KPlane) a)) /\
  (forall a, ok (coefs (k := KPoint) a) -> quot (coefs (k := KPoint) (point_div_f a w)) (coefs (k := KPoint) a)) /\
  (forall a, ok (coefs (k := KDirection) a) -> quot (coefs (k := KDirection) (direction_div_f a w)) (coefs (k := KDirection) a)) /\
  (forall a, ok (coefs (k := KIdeal) a) -> quot (coefs (k := KIdeal) (ideal_line_div_f a w)) (coefs (k := KIdeal) a)) /\
  (forall a, ok (coefs (k := KBranch) a) -> quot (coefs (k := KBranch) (branch_div_f a w)) (coefs (k := KBranch) a)) /\
  (forall a, ok (coefs (k := KLine) a) -> quot (coefs (k := KLine) (line_div_f a w)) (coefs (k := KLine) a)) /\
  (forall a, ok (coefs (k := KRotor) a) -> quot (coefs (k := KRotor) (rotor_div_f a w)) (coefs (k := KRotor) a)) /\
  (forall a, ok (coefs (k := KTranslator) a) -> quot (coefs (k := KTranslator) (translator_div_f a w)) (coefs (k := KTranslator) a)) /\
  (forall a, ok (coefs (k := KMotor) a) -> quot (coefs (k := KMotor) (motor_div_f a w)) (coefs (k := KMotor) a)) /\
  (forall a, ok (coefs (k := KPoint) a) -> l0 (point_p3 a) = w -> quot (coefs (k := KPoint) (point_normalized a)) (coefs (k := KPoint) a)).
Proof.
  intros B M FL HM w Sw Nw quot ok.
  assert (K : forall v : m128 f32, ok (reg_list v) -> quot (reg_list (_mm_mul_ps v (rcp_nr1 (_mm_set1_ps w)))) (reg_list v)).
  { intros v S. unfold ok, quot, reg_list in *. repeat match goal with H : Forall _ (_ :: _) |- _ => inversion_clear H end.
    repeat apply Forall2_cons; try apply Forall2_nil; (eapply scale_rcp; [exact HM|exact Sw|exact Nw|assumption|reflexivity]). }
  repeat split; try (intros a S; apply K; exact S).
  - intros a S. apply Forall_app in S. apply Forall2_app; apply K; apply S.
  - intros a S. apply Forall_app in S. apply Forall2_app; apply K; apply S.
  - intros [[a0 a1 a2 a3]] S E. cbn in E. subst a0. exact (K _ S).
Qed.
Print Assumptions C40_divide.
(** There are conforming estimates, and operands in the range. *)
Example C40_machine : rcp_estimate ideal_machine /\ rsqrt_estimate ideal_machine. Proof. exact (conj ideal_rcp ideal_rsqrt). Qed.
Example C40_operand : let p := mk4 (f32_of 1 0) (f32_of 3 0) (f32_of (-1) (-1)) (f32_of 7 (-3)) in
  safe4 p /\ 0 < sq3 p /\ nr_range (l1 p).
Proof.
  cbv zeta. assert (V0 : val (f32_of 1 0) = 1) by (vm_compute; lra). assert (V1 : val (f32_of 3 0) = 3) by (vm_compute; lra).
  assert (V2 : val (f32_of (-1) (-1)) = - / 2) by (vm_compute; lra). assert (V3 : val (f32_of 7 (-3)) = 7 / 8) by (vm_compute; lra).
  assert (L : bpow radix2 (-51) <= / 2) by (change (/ 2) with (bpow radix2 (-1)); apply bpow_le; lia).
  assert (U : 4 <= bpow radix2 60) by (change 4 with (bpow radix2 2); apply bpow_le; lia).
  assert (U' : 4 <= bpow radix2 125) by (change 4 with (bpow radix2 2); apply bpow_le; lia).
  assert (L' : bpow radix2 (-125) <= / 2) by (change (/ 2) with (bpow radix2 (-1)); apply bpow_le; lia).
  split; [|split].
  - repeat apply Forall_cons; try apply Forall_nil; (split; [reflexivity|right]); cbn [l0 l1 l2 l3]; rewrite ?V0, ?V1, ?V2, ?V3, ?Rabs_Ropp, Rabs_pos_eq; lra.
  - unfold sq3. cbn [l1 l2 l3]. rewrite V1, V2, V3. lra.
  - split; [reflexivity|]. cbn [l1]. rewrite V1, Rabs_pos_eq; lra.
Qed.

(** ** C46.  Every rotor whose scalar part is 1, the identity and every rotation whose
    cosine rounds to 1, has a NaN logarithm. *)
Theorem C46_log_rotor_refuted : forall (B : Build) (M : machine), let FL := Flo_f32 M in ieee_specials M ->
  forall x y z : f32, let b := branch_p1 (rotor_log (mkrotor (mk4 (f32_of 1 0) x y z))) in
  l1 b = nan /\ l2 b = nan /\ l3 b = nan.
Proof.
  intros B M FL SP x y z b. subst b. unfold rotor_log. cbn [rotor_p1 l0].
  change (facos (f32_of 1 0)) with (m_acos M (f32_of 1 0)). rewrite (sp_acos M SP).
  change (fsin (B754_zero false)) with (m_sin M pzero). rewrite (sp_sin0 M SP).
  assert (R : rcp_nr1 (_mm_set1_ps pzero) = mk4 nan nan nan nan).
  { unfold rcp_nr1, _mm_rcp_ps, _mm_set1_ps, map4. cbn [l0 l1 l2 l3].
    change (frcp pzero) with (m_rcp M pzero). rewrite (sp_rcp M SP). reflexivity. }
  rewrite R.
  match goal with |- context [@_mm_mul_ps ?t ?i (_mm_mul_ps ?a ?b) ?c] =>
    assert (P : @_mm_mul_ps t i (@_mm_mul_ps t i a b) c = mk4 nan nan nan nan) end.
  { unfold _mm_mul_ps, map4_2, _mm_set1_ps. cbn [l0 l1 l2 l3]. change (@flo_arith f32 FL) with Arith_f32.
    rewrite !fmul_nan_r. reflexivity. }
  rewrite P. destruct B as [[|]]; repeat split; reflexivity.
Qed.
Print Assumptions C46_log_rotor_refuted.
(** The exponential of a branch whose coefficients are at most 2^-65, zero included. *)
Theorem C46_exp_branch_refuted : forall (B : Build) (M : machine), let FL := Flo_f32 M in ieee_specials M ->
  forall w x y z : f32, tiny x -> tiny y -> tiny z ->
  rotor_p1 (branch_exp (mkbranch (mk4 w x y z))) = mk4 nan nan nan nan.
Proof.
  intros B M FL SP w x y z Tx Ty Tz. unfold branch_exp. cbn [branch_p1].
  assert (D : down (l0 (sqrt_nr1 (hi_dp (mk4 w x y z) (mk4 w x y z))))) by exact (sqrt_nr1_down M SP _ (hi_dp_tiny B w x y z Tx Ty Tz)).
  change (@flo_arith f32 FL) with Arith_f32. fold FL. set (g := l0 (sqrt_nr1 _)) in *.
  assert (C : fcos g = nan) by (destruct D as [-> | ->]; apply (sp_cos M SP)).
  assert (S : fdiv (fsin g) g = nan).
  { assert (E : fsin g = nan) by (destruct D as [-> | ->]; apply (sp_sin M SP)). rewrite E. reflexivity. }
  rewrite C, S. reflexivity.
Qed.
Print Assumptions C46_exp_branch_refuted.
(** Lines and motors have a branch for bivectors that are zero; the others at most 2^-65
    share the fate. *)
Definition nonzero (x : f32) : Prop := Beqb x pzero = false.
Lemma not_all_zero M (v : m128 f32) : nonzero (l1 v) \/ nonzero (l2 v) \/ nonzero (l3 v) ->
  all4 (_mm_cmpeq_ps (FL := Flo_f32 M) v _mm_setzero_ps) = false.
Proof.
  unfold all4, _mm_cmpeq_ps, _mm_setzero_ps, map4_2, _mm_set1_ps. cbn [l0 l1 l2 l3].
  intros [H | [H | H]]; unfold nonzero in H; change (feqb (l1 v) (fz 0)) with (Beqb (l1 v) pzero);
    change (feqb (l2 v) (fz 0)) with (Beqb (l2 v) pzero); change (feqb (l3 v) (fz 0)) with (Beqb (l3 v) pzero); rewrite H;
    rewrite ?andb_false_r; reflexivity.
Qed.
Theorem C46_exp_line_refuted : forall (B : Build) (M : machine), let FL := Flo_f32 M in ieee_specials M ->
  forall (w x y z : f32) (b : m128 f32), tiny x -> tiny y -> tiny z -> nonzero x \/ nonzero y \/ nonzero z ->
  motor_p1 (line_exp (mkline (mk4 w x y z) b)) = mk4 nan nan nan nan.
Proof.
  intros B M FL SP w x y z b Tx Ty Tz NZ. unfold line_exp, exp_kernel. cbn [line_p1 line_p2].
  match goal with |- context [all4 ?t] => assert (A : all4 t = false) by exact (not_all_zero M (mk4 w x y z) NZ); rewrite A end.
  destruct (hi_dp_bc_tiny B w x y z Tx Ty Tz) as (n & Fn & E). destruct (rsqrt_nr1_down4 M SP n Fn) as (r & Dr & Er).
  change (@flo_arith f32 FL) with Arith_f32. rewrite E. cbv zeta. change (FLd M) with FL in Er. rewrite Er. cbn [motor_p1].
  change (l0 (_mm_mul_ps (mk4 n n n n) (mk4 r r r r))) with (fmul n r).
  pose proof (flushed_down n r Fn Dr) as D. set (g := fmul n r) in *.
  assert (C : fcos g = nan) by (destruct D as [-> | ->]; apply (sp_cos M SP)).
  assert (S : fsin g = nan) by (destruct D as [-> | ->]; apply (sp_sin M SP)).
  rewrite C, S. reflexivity.
Qed.
Print Assumptions C46_exp_line_refuted.
Lemma tiny_mul1 x : tiny x -> tiny (fmul (fz 1) x) /\ (nonzero x -> nonzero (fmul (fz 1) x)).
Proof.
  intros [F T]. destruct (fz_ok 1) as [F1 V1]; [lia|].
  assert (L : bpow radix2 (-65) <= big) by (apply bpow_le; lia).
  destruct (mul_ok (fz 1) x F1 F) as [G V]; [rewrite V1, Rmult_1_l; lra|].
  rewrite V1, Rmult_1_l in V. assert (R : rnd (val x) = val x) by (apply round_generic; [typeclasses eauto|apply val_format]).
  rewrite R in V. split; [split; [exact G|rewrite V; exact T]|].
  intro N. unfold nonzero in *. destruct (Beqb (fmul (fz 1) x) pzero) eqn:E; [|reflexivity].
  rewrite (Beqb_correct 24 128 _ pzero G eq_refl) in E. fold (val (fmul (fz 1) x)) in E. rewrite V in E. rewrite <- N. symmetry.
  rewrite (Beqb_correct 24 128 x pzero F eq_refl). exact E.
Qed.
Theorem C46_log_motor_refuted : forall (B : Build) (M : machine), let FL := Flo_f32 M in ieee_specials M ->
  forall (w x y z : f32) (b : m128 f32), tiny x -> tiny y -> tiny z -> nonzero x \/ nonzero y \/ nonzero z ->
  Forall nonfinite (reg_list (line_p1 (motor_log (mkmotor (mk4 w x y z) b)))).
Proof.
  intros B M FL SP w x y z b Tx Ty Tz NZ. unfold motor_log, log_kernel. cbn [motor_p1 motor_p2].
  destruct (tiny_mul1 x Tx) as [Tx' Nx]. destruct (tiny_mul1 y Ty) as [Ty' Ny]. destruct (tiny_mul1 z Tz) as [Tz' Nz].
  change (_mm_mul_ps (_mm_set_ps (fz 1) (fz 1) (fz 1) (fz 0)) (mk4 w x y z))
    with (mk4 (fmul (fz 0 : f32) w) (fmul (fz 1) x) (fmul (fz 1) y) (fmul (fz 1) z)).
  set (a := mk4 _ _ _ _).
  assert (NZ' : nonzero (l1 a) \/ nonzero (l2 a) \/ nonzero (l3 a)) by (destruct NZ as [H | [H | H]]; auto).
  match goal with |- context [all4 ?t] => assert (A : all4 t = false) by exact (not_all_zero M a NZ'); rewrite A end.
  destruct (hi_dp_bc_tiny B (fmul (fz 0) w) _ _ _ Tx' Ty' Tz') as (n & Fn & E). fold a in E.
  destruct (rsqrt_nr1_down4 M SP n Fn) as (r & Dr & Er).
  change (@flo_arith f32 FL) with Arith_f32. rewrite E. cbv zeta. change (FLd M) with FL in Er. rewrite Er. cbn [line_p1].
  apply down_nonfinite in Dr.
  repeat apply Forall_cons; try apply Forall_nil; (apply fmul_nonfinite_r; apply fmul_nonfinite_r; exact Dr).
Qed.
Print Assumptions C46_log_motor_refuted.
(** and the norm and the normalization of planes, branches and directions *)
Theorem C46_tiny_norms_refuted : forall (B : Build) (M : machine), let FL := Flo_f32 M in ieee_specials M ->
  forall w x y z : f32, tiny x -> tiny y -> tiny z ->
  nonfinite (plane_norm (mkplane (mk4 w x y z))) /\
  Forall nonfinite [l1 (plane_p0 (plane_normalized (mkplane (mk4 w x y z)))); l2 (plane_p0 (plane_normalized (mkplane (mk4 w x y z))));
                    l3 (plane_p0 (plane_normalized (mkplane (mk4 w x y z))))] /\
  Forall nonfinite (coefs (k := KBranch) (branch_normalized (mkbranch (mk4 w x y z)))) /\
  Forall nonfinite (coefs (k := KDirection) (direction_normalized (mkdirection (mk4 w x y z)))).
Proof.
  intros B M FL SP w x y z Tx Ty Tz.
  destruct (hi_dp_bc_tiny B w x y z Tx Ty Tz) as (n & Fn & E). destruct (rsqrt_nr1_down4 M SP n Fn) as (r & Dr & Er). change (FLd M) with FL in Er.
  split; [exact (down_nonfinite _ (sqrt_nr1_down M SP _ (hi_dp_tiny B w x y z Tx Ty Tz)))|].
  unfold plane_normalized, branch_normalized, direction_normalized. change (@flo_arith f32 FL) with Arith_f32.
  cbn [plane_p0 branch_p1 direction_p3]. rewrite E, Er.
  assert (K : Forall nonfinite (reg_list (_mm_mul_ps (mk4 w x y z) (mk4 r r r r)))).
  { apply down_nonfinite in Dr. repeat apply Forall_cons; try apply Forall_nil; (apply fmul_nonfinite_r; exact Dr). }
  split; [|exact (conj K K)].
  destruct B as [[|]]; repeat apply Forall_cons; try apply Forall_nil;
    (unfold nonfinite; destruct Dr as [-> | ->]; [reflexivity|]);
    match goal with |- is_finite ?t = false => change (nonfinite t) end.
  all: match goal with |- nonfinite ?t => first [change (nonfinite (fmul minf x))|change (nonfinite (fmul minf y))|change (nonfinite (fmul minf z))] end;
    rewrite ExprSyntax.mul_comm_f32; apply fmul_nonfinite_r; reflexivity.
Qed.
Print Assumptions C46_tiny_norms_refuted.
(** The part that holds: motors and lines without a bivector part. *)
Lemma zero_lane x : val x = 0 -> fin x -> Beqb x pzero = true.
Proof. intros V F. rewrite (Beqb_correct 24 128 x pzero F eq_refl). fold (val x). rewrite V. apply Req_bool_true. reflexivity. Qed.
Theorem C46_motors_partial : forall (B : Build) (M : machine), let FL := Flo_f32 M in
  forall w x y z : f32, fin w -> fin x -> fin y -> fin z -> val x = 0 -> val y = 0 -> val z = 0 ->
  (forall b, motor_log (mkmotor (mk4 w x y z) b) = mkline (mk4 pzero pzero pzero pzero) b) /\
  (forall b, val w = 0 -> line_exp (mkline (mk4 w x y z) b) = mkmotor (mk4 (f32_of 1 0) pzero pzero pzero) b).
Proof.
  intros B M FL w x y z Fw Fx Fy Fz Vx Vy Vz. split; intro b.
  - unfold motor_log, log_kernel. cbn [motor_p1 motor_p2].
    change (_mm_mul_ps (_mm_set_ps (fz 1) (fz 1) (fz 1) (fz 0)) (mk4 w x y z))
      with (mk4 (fmul (fz 0 : f32) w) (fmul (fz 1) x) (fmul (fz 1) y) (fmul (fz 1) z)).
    set (a := mk4 _ _ _ _).
    assert (K : forall c v : f32, fin c -> fin v -> val c * val v = 0 -> Beqb (fmul c v) pzero = true).
    { intros c v Fc Fv E. destruct (mul_ok c v Fc Fv) as [F V]; [rewrite E, Rabs_R0; apply bpow_ge_0|].
      apply zero_lane; [|exact F]. rewrite V, E. apply (rnd_Z 0). lia. }
    match goal with |- context [all4 ?t] => assert (A : all4 t = true) end.
    { destruct (fz_ok 0) as [F0 V0]; [lia|]. destruct (fz_ok 1) as [F1 V1]; [lia|]. unfold all4, a.
      rewrite !andb_true_iff. repeat split; apply K; try assumption; [rewrite V0|rewrite Vx|rewrite Vy|rewrite Vz]; ring. }
    rewrite A. reflexivity.
  - intro Vw. unfold line_exp, exp_kernel. cbn [line_p1 line_p2].
    match goal with |- context [all4 ?t] => assert (A : all4 t = true) end.
    { unfold all4. rewrite !andb_true_iff. repeat split; apply zero_lane; assumption. }
    rewrite A. reflexivity.
Qed.
Print Assumptions C46_motors_partial.
(** a machine with the documented special values; tiny numbers that are not zero *)
Example C46_machine : ieee_specials ideal_machine. Proof. exact ideal_specials. Qed.
Example C46_operand : tiny (f32_of 1 (-66)) /\ nonzero (f32_of 1 (-66)) /\ tiny pzero.
Proof.
  split; [split; [reflexivity|]|split; [reflexivity|split; [reflexivity|]]].
  - assert (V : val (f32_of 1 (-66)) = bpow radix2 (-66)) by (vm_compute; lra).
    rewrite V, Rabs_pos_eq by apply bpow_ge_0. apply bpow_le. lia.
  - change (val pzero) with 0. rewrite Rabs_R0. apply bpow_ge_0.
Qed.

(** ** C62.  The constants.  util.hpp 13-48 gives decimal literals; the compiler makes a
    long double of them, of unspecified precision, and rounds that to [float]. *)
Definition literal (m : Z) (digits : Z) : R := IZR m / IZR (10 ^ digits).
(** [c] is the float nearest to [x], and the one obtained from any number that agrees
    with the literal [l] to 50 bits *)
Definition correctly_rounded (c : f32) (x l : R) : Prop :=
  fin c /\ val c = rnd x /\ (forall l', Rabs (l' - l) <= bpow radix2 (-50) * Rabs l -> rnd l' = val c).
Lemma rnd_near m e x : (2 ^ 23 < m < 2 ^ 24 - 1)%Z -> (-149 <= e)%Z -> Rabs (x - IZR m * bpow radix2 e) < bpow radix2 (e - 1) ->
  rnd x = IZR m * bpow radix2 e.
Proof.
  intros Hm He H. assert (B0 : 0 < bpow radix2 e) by apply bpow_gt_0.
  assert (B1 : bpow radix2 (e - 1) = bpow radix2 e / 2) by (replace (e - 1)%Z with (e + -1)%Z by lia; rewrite bpow_plus; reflexivity).
  rewrite B1 in H. apply Rabs_lt_inv in H.
  assert (M1 : IZR (2 ^ 23 + 1) <= IZR m) by (apply IZR_le; lia). assert (M2 : IZR m <= IZR (2 ^ 24 - 2)) by (apply IZR_le; lia).
  cbn in M1, M2.
  assert (L : mag radix2 x = (24 + e)%Z :> Z).
  { apply mag_unique. replace (24 + e - 1)%Z with (23 + e)%Z by lia. rewrite !bpow_plus. change (bpow radix2 23) with 8388608. change (bpow radix2 24) with 16777216.
    rewrite Rabs_pos_eq; nra. }
  unfold rnd, round, scaled_mantissa, cexp, F2R. cbn [Fnum Fexp]. rewrite L. replace (FLT_exp (-149) 24 (24 + e)) with e by (unfold FLT_exp; lia).
  f_equal. f_equal. apply Znearest_imp. rewrite bpow_opp.
  apply Rabs_lt. split; apply Rmult_lt_reg_r with (bpow radix2 e); try exact B0;
    replace ((x * / bpow radix2 e - IZR m) * bpow radix2 e) with (x - IZR m * bpow radix2 e) by (field; lra); lra.
Qed.

Lemma rounded m e x l : (2 ^ 23 < m < 2 ^ 24 - 1)%Z -> (-149 <= e)%Z ->
  fin (f32_of m e) -> val (f32_of m e) = IZR m * bpow radix2 e ->
  Rabs (x - IZR m * bpow radix2 e) < bpow radix2 (e - 1) ->
  Rabs (l - IZR m * bpow radix2 e) + bpow radix2 (-50) * Rabs l < bpow radix2 (e - 1) -> correctly_rounded (f32_of m e) x l.
Proof.
  intros Hm He F V X L. split; [exact F|]. rewrite V. split; [symmetry; apply rnd_near; assumption|].
  intros l' L'. apply rnd_near; [assumption|assumption|].
  replace (l' - IZR m * bpow radix2 e) with ((l' - l) + (l - IZR m * bpow radix2 e)) by ring.
  eapply Rle_lt_trans; [apply Rabs_triang|]. lra.
Qed.
Lemma lit36 m : literal m 36 = IZR m / 1000000000000000000000000000000000000. Proof. unfold literal. f_equal. Qed.
Lemma lit35 m : literal m 35 = IZR m / 100000000000000000000000000000000000. Proof. unfold literal. f_equal. Qed.
(** the floats the model uses; [kpi_2] is the one in the rotor's Euler angles *)
Definition kpi : f32 := f32_of 13176795 (-22).
Definition kpi_2 : f32 := f32_of 13176795 (-23).
Definition kpi_4 : f32 := f32_of 13176795 (-24).
Definition ktau : f32 := f32_of 13176795 (-21).
Definition ke : f32 := f32_of 11401300 (-22).
Definition ksqrt2 : f32 := f32_of 11863283 (-23).
Definition ksqrt2_2 : f32 := f32_of 11863283 (-24).
Lemma PI_bounds : 31415926535 / 10000000000 <= PI <= 31415926536 / 10000000000.
Proof.
  pose proof (PI_2_3_7_ineq 5) as H. unfold tg_alt, PI_2_3_7_tg, Ratan_seq in H. cbn in H. lra.
Qed.
Fixpoint zf (n : nat) : Z := match n with O => 1%Z | S m => (Z.of_nat (S m) * zf m)%Z end.
Lemma zf_fact n : IZR (zf n) = INR (fact n).
Proof. induction n as [|n IH]; [reflexivity|]. cbn [zf]. rewrite mult_IZR, IH, fact_simpl, mult_INR, <- INR_IZR_INZ. reflexivity. Qed.
Lemma fact_decr : Un_decreasing (fun n => / IZR (zf n)).
Proof. intro n. rewrite !zf_fact. apply Rinv_le_contravar; [apply INR_fact_lt_0|]. apply le_INR. rewrite fact_simpl. nia. Qed.
Lemma exp_neg1 : 36787944117 / 100000000000 <= exp (-1) <= 36787944118 / 100000000000.
Proof.
  assert (C : Un_cv (fun n => / IZR (zf n)) 0).
  { intros e He. destruct (cv_speed_pow_fact 1 e He) as [N HN]. exists N. intros n Hn. specialize (HN n Hn).
    unfold Rdiv in HN. rewrite pow1, Rmult_1_l in HN. rewrite zf_fact. exact HN. }
  assert (L : Un_cv (fun N => sum_f_R0 (tg_alt (fun n => / IZR (zf n))) N) (exp (-1))).
  { unfold exp. destruct (exist_exp (-1)) as [l Hl]. cbn [proj1_sig]. intros e He. destruct (Hl e He) as [N HN]. exists N. intros n Hn.
    specialize (HN n Hn). erewrite sum_eq; [exact HN|]. intros i _. unfold tg_alt. rewrite zf_fact. ring. }
  pose proof (alternated_series_ineq _ _ 7 fact_decr C L) as H. cbn [sum_f_R0 Nat.mul Nat.add] in H. unfold tg_alt in H.
  repeat match type of H with context [zf ?n] => let z := eval vm_compute in (zf n) in change (zf n) with z in H end.
  cbn [pow] in H. lra.
Qed.
Lemma exp_bounds : 27182818283 / 10000000000 <= exp 1 <= 27182818285 / 10000000000.
Proof.
  pose proof exp_neg1 as H. replace (-1) with (- (1)) in H by lra. rewrite exp_Ropp in H. pose proof (exp_pos 1) as P.
  assert (I : / exp 1 * exp 1 = 1) by (apply Rinv_l; lra). set (x := exp 1) in *. nra.
Qed.
Theorem C62_constants :
  correctly_rounded kpi PI (literal 3141592653589793238462643383279502884 36) /\
  correctly_rounded kpi_2 (PI / 2) (literal 1570796326794896619231321691639751442 36) /\
  correctly_rounded kpi_4 (PI / 4) (literal 785398163397448309615660845819875721 36) /\
  correctly_rounded ktau (2 * PI) (literal 628318530717958647692528676655900577 35) /\
  correctly_rounded ke (exp 1) (literal 2718281828459045235360287471352662498 36) /\
  correctly_rounded ksqrt2 (sqrt 2) (literal 1414213562373095048801688724209698079 36) /\
  correctly_rounded ksqrt2_2 (sqrt 2 / 2) (literal 707106781186547524400844362104849039 36) /\
  (forall M, fpi_2 (Flo := Flo_f32 M) = kpi_2).
Proof.
  assert (S : 14142135623 / 10000000000 <= sqrt 2 <= 14142135624 / 10000000000).
  { split; [apply Rsqr_incr_0_var; [|apply sqrt_pos]|apply Rsqr_incr_0_var; [|lra]]; unfold Rsqr; rewrite sqrt_sqrt by lra; lra. }
  pose proof PI_bounds as P. pose proof exp_bounds as E.
  refine (conj _ (conj _ (conj _ (conj _ (conj _ (conj _ (conj _ _))))))); [..|reflexivity];
    (apply rounded; [lia|lia|reflexivity|vm_compute; lra| |]); rewrite ?lit36, ?lit35;
    change (bpow radix2 (-50)) with (/ 1125899906842624); change (bpow radix2 (-21)) with (/ 2097152);
    change (bpow radix2 (-22)) with (/ 4194304); change (bpow radix2 (-23)) with (/ 8388608); change (bpow radix2 (-24)) with (/ 16777216);
    change (bpow radix2 (-21 - 1)) with (/ 4194304); change (bpow radix2 (-22 - 1)) with (/ 8388608);
    change (bpow radix2 (-23 - 1)) with (/ 16777216); change (bpow radix2 (-24 - 1)) with (/ 33554432).
  all: try (apply Rabs_lt; lra).
  all: rewrite (Rabs_pos_eq (_ / _)) by lra;
    match goal with |- Rabs ?t + ?b < _ => destruct (Rcase_abs t) as [K|K]; [rewrite Rabs_left by lra|rewrite (Rabs_right t) by lra]; lra end.
Qed.
Print Assumptions C62_constants.
