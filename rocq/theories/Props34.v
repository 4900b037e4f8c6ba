(** Property C83: matrices made from motors, in binary32. *)
From Coq Require Import ZArith Reals List Bool Lra Lia Psatz.
From Flocq Require Import Core BinarySingleNaN.
From Verif Require Import AlgTac SpecMass FloatMass Closed FloR ExpSeries KernelExpLog ExpLog LogExp2 Float32 FloatFacts ExprSyntax FloatErr FloatAbs FloatApx FloatNR FloatNorm FloatIdeal FloatLibm FloatOps Props06 Props11 Props21 Props22 SpecGeom Props23 Props24 Props26 Props27 Props28 Props29 Props30 Props31 Props32 KernelMat.
Import ListNotations.
Local Open Scope R_scope.

(** the column (x, y, z, w) a user multiplies with the matrix, and the point it stands for *)
Definition column {F} (p : point F) : m128 F := let v := point_p3 p in mk4 (l1 v) (l2 v) (l3 v) (l0 v).
Definition of_column {F} (y : m128 F) : point F := mkpoint (mk4 (l3 y) (l0 y) (l1 y) (l2 y)).
Definition mat_of {F} {A : Arith F} {B : Build} (nrm : bool) (m : motor F) : mat4 F := mat4x4_12_t nrm (motor_p1 m) (motor_p2 m).
Definition mat_on_point {F} {A : Arith F} {B : Build} (nrm : bool) (m : motor F) (p : point F) : point F := of_column (mat_apply (mat_of nrm m) (column p)).
Definition o_mat (B : Build) : op2 KMotor KPoint KPoint := fun F A (a : ent KMotor F) (b : ent KPoint F) => (mat_on_point false a b : ent KPoint F).
Lemma o_mat_natural B : natural (o_mat B). Proof. intros F A x. destruct B as [[|]]; reflexivity. Qed.
Lemma o_mat_correct B : correct (o_mat B) SSandwich.
Proof.
  intros a b Wa Wb. assert (E : o_mat B R Arith_R a b = motor_on_point a b).
  { destruct (C24_motor_mat4x4 B a) as (M & H & K). specialize (K b). unfold motor_as_mat4x4 in H. injection H as <-. unfold o_mat, mat_on_point, mat_of.
    change (column b) with (xyzw b). change (@flo_arith R _) with Arith_R in K. rewrite K. destruct (motor_on_point a b) as [[w x y z]]. reflexivity. }
  rewrite E. exact (o_motor_on_point_correct B a b Wa Wb).
Qed.

(** ** The stored entries *)
Lemma lanes8_bounded (v w : m128 f32) : Forall (bounded 20) (reg_list v ++ reg_list w) -> forall n, fin (lanes8 v w n) /\ Rabs (val (lanes8 v w n)) <= IZR (2 ^ 20).
Proof.
  intros H n. rewrite (IZR_Zpower radix2) by lia. change (bounded 20 (lanes8 v w n)). unfold lanes8. rewrite Forall_forall in H.
  destruct (nth_in_or_default n [l0 v; l1 v; l2 v; l3 v; l0 w; l1 w; l2 w; l3 w] (B754_zero false)) as [I|I]; [apply H; exact I|rewrite I; apply bounded_zero].
Qed.
Lemma entry (v w : m128 f32) e V Q d : Forall (bounded 20) (reg_list v ++ reg_list w) -> fits_any 20 (-122) e = true -> (dep e <= d)%nat -> (d <= 64)%nat ->
  eval (A := Arith_R) (fun n => val (lanes8 v w n)) e = V -> absv (fun n => val (lanes8 v w n)) e <= Q ->
  fin (eval (lanes8 v w) e) /\ Rabs (val (eval (lanes8 v w) e) - V) <= INR d * u * (1 + / 100000) * Q + bpow radix2 (-122).
Proof.
  intros H C D D64 HV HQ. unfold fits_any in C. apply andb_prop in C. destruct C as [C C3]. apply andb_prop in C. destruct C as [C1 C2]. apply Z.leb_le in C2.
  pose proof (lanes8_bounded v w H) as X.
  destruct (rounding_any (lanes8 v w) (2 ^ 20) e ltac:(lia) X C1 ltac:(lia)) as (F & E). split; [exact F|]. rewrite HV in E. eapply Rle_trans; [exact E|].
  pose proof (P_lin (dep e) ltac:(lia)) as PL. pose proof (absv_nonneg (fun n => val (lanes8 v w n)) e) as A0. apply Rplus_le_compat.
  - assert (INR (dep e) <= INR d) by (apply le_INR; exact D). assert (0 <= INR (dep e)) by apply pos_INR. assert (INR (dep e) * u <= INR d * u) by (apply Rmult_le_compat_r; [unfold u; lra|assumption]).
    apply Rmult_le_compat; [pose proof (P_pos (dep e)); pose proof (P_mono 0 (dep e) ltac:(lia)) as P0; cbn in P0; lra|exact A0| |exact HQ]. lra.
  - assert (L : IZR (slack (2 ^ 20) e) <= bpow radix2 (149 + -122)) by (rewrite <- IZR_Zpower by lia; apply IZR_le; exact C2).
    assert (Q2 : P (dep e) <= 2). { assert (INR (dep e) <= 64) by (rewrite INR_IZR_INZ; apply IZR_le; lia). pose proof (pos_INR (dep e)). unfold u in PL. nra. }
    replace (bpow radix2 (-122)) with (2 * (eta * bpow radix2 (149 + -122))).
    2: { unfold eta. rewrite <- bpow_plus. change 2 with (bpow radix2 1). rewrite <- bpow_plus. f_equal. }
    pose proof (P_pos (dep e)). pose proof eta_pos. pose proof (IZR_le _ _ (slack_nonneg (2 ^ 20) e ltac:(lia))).
    apply Rmult_le_compat; [lra|apply Rmult_le_pos; lra|exact Q2|]. apply Rmult_le_compat_l; [lra|exact L].
Qed.
Definition map_mat (M : mat4 f32) : mat4 R := mkmat (map4 val (col0 M)) (map4 val (col1 M)) (map4 val (col2 M)) (map4 val (col3 M)).
Definition close3 (b : R) (v w : m128 R) : Prop := Rabs (l0 v - l0 w) <= b /\ Rabs (l1 v - l1 w) <= b /\ Rabs (l2 v - l2 w) <= b.
Definition entries (M : mat4 f32) : list f32 := reg_list (col0 M) ++ reg_list (col1 M) ++ reg_list (col2 M) ++ reg_list (col3 M).
Definition mcode (B : Build) (nrm : bool) : mat4 expr := mat_of nrm (mkmotor (vreg 0) (vreg 4)).
Lemma mcode_gen {F} {A : Arith F} {B : Build} nrm (x : nat -> F) : mat_of nrm (mkmotor (map4 (eval x) (vreg 0)) (map4 (eval x) (vreg 4))) =
  let h := map4 (eval x) in let c := mcode B nrm in mkmat (h (col0 c)) (h (col1 c)) (h (col2 c)) (h (col3 c)).
Proof. destruct B as [[|]], nrm; reflexivity. Qed.
Lemma mcode_ok {B : Build} nrm (m : motor f32) : mat_of nrm m =
  let h := map4 (eval (lanes8 (motor_p1 m) (motor_p2 m))) in let c := mcode B nrm in mkmat (h (col0 c)) (h (col1 c)) (h (col2 c)) (h (col3 c)).
Proof. destruct m as [[a b c d] [e f g h]]. exact (mcode_gen nrm (lanes8 (mk4 a b c d) (mk4 e f g h))). Qed.
(** expressions that are 0 whatever the variables hold *)
Fixpoint nil_expr (e : expr) : bool :=
  match e with EVar _ => false | ECst z => (z =? 0)%Z | EAdd a b | ESub a b => nil_expr a && nil_expr b | EMul a b => nil_expr a || nil_expr b | EOpp a => nil_expr a end.
Lemma nil_ok (x : nat -> f32) e : (forall n, fin (x n) /\ Rabs (val (x n)) <= IZR (2 ^ 20)) -> mild (2 ^ 20) e = true -> (dep e <= 64)%nat -> nil_expr e = true -> val (eval x e) = 0.
Proof.
  intro X. assert (FN : forall e, mild (2 ^ 20) e = true -> (dep e <= 64)%nat -> fin (eval x e)) by (intros f C D; apply (rounding_any x (2 ^ 20) f ltac:(lia) X C D)).
  assert (BG : forall y, val y = 0 -> Rabs (val y) <= big) by (intros y ->; rewrite Rabs_R0; unfold big; apply bpow_ge_0).
  induction e as [n|z|a IHa b IHb|a IHa b IHb|a IHa b IHb|a IHa]; intros C D N; cbn [eval mild dep nil_expr] in *; try discriminate;
    apply andb_prop in C; destruct C as [_ C]; try (apply andb_prop in C; destruct C as [Ca Cb]).
  - apply Z.eqb_eq in N. subst z. apply (fz_ok 0). lia.
  - apply andb_prop in N. destruct N as [Na Nb]. specialize (IHa Ca ltac:(lia) Na). specialize (IHb Cb ltac:(lia) Nb). pose proof (FN a Ca ltac:(lia)) as Fa. pose proof (FN b Cb ltac:(lia)) as Fb.
    destruct (add_zero _ _ Fa IHa Fb (BG _ IHb)) as (_ & E & _). rewrite E. exact IHb.
  - apply andb_prop in N. destruct N as [Na Nb]. specialize (IHa Ca ltac:(lia) Na). specialize (IHb Cb ltac:(lia) Nb). pose proof (FN a Ca ltac:(lia)) as Fa. pose proof (FN b Cb ltac:(lia)) as Fb.
    apply (sub_zero _ _ Fa IHa Fb IHb).
  - pose proof (FN a Ca ltac:(lia)) as Fa. pose proof (FN b Cb ltac:(lia)) as Fb. apply orb_prop in N. destruct N as [N|N].
    + specialize (IHa Ca ltac:(lia) N). destruct (zero_lane _ _ Fb Fa IHa) as (_ & _ & _ & E). exact E.
    + specialize (IHb Cb ltac:(lia) N). destruct (zero_lane _ _ Fa Fb IHb) as (_ & E & _). exact E.
  - specialize (IHa C ltac:(lia) N). destruct (opp_ok (eval x a) (FN a C ltac:(lia))) as [_ E]. rewrite E, IHa. ring.
Qed.
Definition three (e : m128 expr) (y : nat -> R) (q : R) : Prop := absv y (l0 e) <= q /\ absv y (l1 e) <= q /\ absv y (l2 e) <= q.
Lemma masses (B : Build) nrm y : let c := mcode B nrm in let p1 := mk4 (y 0%nat) (y 1%nat) (y 2%nat) (y 3%nat) in let p2 := mk4 (y 4%nat) (y 5%nat) (y 6%nat) (y 7%nat) in
  three (col0 c) y (q4 p1 p1) /\ three (col1 c) y (q4 p1 p1) /\ three (col2 c) y (q4 p1 p1) /\ three (col3 c) y (2 * (n4 p1 * n4 p2)) /\ absv y (l3 (col3 (mcode B false))) <= q4 p1 p1.
Proof.
  intros c p1 p2.
  assert (MB : forall b0 b1 b2 b3, n4 (mk4 b0 b1 b2 b3) = n4 p2 -> 2 * (Rabs (l0 p1) * Rabs b0 + Rabs (l1 p1) * Rabs b1 + Rabs (l2 p1) * Rabs b2 + Rabs (l3 p1) * Rabs b3) <= 2 * (n4 p1 * n4 p2)).
  { intros b0 b1 b2 b3' Hb. apply Rmult_le_compat_l; [lra|]. rewrite <- Hb. apply mass_bound. }
  assert (A2 : forall s t : R, 2 * (Rabs s * Rabs t) <= Rabs s * Rabs s + Rabs t * Rabs t) by (intros s t; pose proof (Rle_0_sqr (Rabs s - Rabs t)); unfold Rsqr in *; lra).
  assert (NE : q4 p1 p1 = Rabs (l0 p1) * Rabs (l0 p1) + Rabs (l1 p1) * Rabs (l1 p1) + Rabs (l2 p1) * Rabs (l2 p1) + Rabs (l3 p1) * Rabs (l3 p1)).
  { assert (Q : forall x, x * x = Rabs x * Rabs x) by (intro t; rewrite <- Rabs_mult, Rabs_pos_eq by apply Rle_0_sqr; reflexivity). unfold q4. rewrite <- !Q. reflexivity. }
  pose proof (A2 (l0 p1) (l1 p1)). pose proof (A2 (l0 p1) (l2 p1)). pose proof (A2 (l0 p1) (l3 p1)). pose proof (A2 (l1 p1) (l2 p1)). pose proof (A2 (l1 p1) (l3 p1)). pose proof (A2 (l2 p1) (l3 p1)).
  destruct (n4_perm (l0 p2) (l1 p2) (l2 p2) (l3 p2)) as (P1 & P2 & P3). pose proof (MB _ _ _ _ P1) as M1. pose proof (MB _ _ _ _ P2) as M2. pose proof (MB _ _ _ _ P3) as M3. clear MB A2 P1 P2 P3.
  rewrite NE. clear NE. set (T := n4 p1 * n4 p2) in *. clearbody T. unfold p1, p2 in *. cbn [l0 l1 l2 l3] in *. unfold three, c.
  destruct B as [[|]], nrm; repeat split; cbn; change (IZR 0) with 0; rewrite ?Rabs_Ropp; lra.
Qed.
Lemma columns (B : Build) nrm (m : motor f32) : Forall (bounded 20) (coefs (k := KMotor) m) ->
  let M := mat_of nrm m in let E := mat_of (A := Arith_R) nrm (mkmotor (mv1 m) (mv2 m)) in let N := q4 (mv1 m) (mv1 m) in let T := n4 (mv1 m) * n4 (mv2 m) in
  let b := 4 * u * (1 + / 100000) * N + bpow radix2 (-122) in let b3 := 6 * u * (1 + / 100000) * (2 * T) + bpow radix2 (-122) in
  Forall fin (entries M) /\ close3 b (col0 (map_mat M)) (col0 E) /\ close3 b (col1 (map_mat M)) (col1 E) /\ close3 b (col2 (map_mat M)) (col2 E) /\ close3 b3 (col3 (map_mat M)) (col3 E) /\
  val (l3 (col0 M)) = 0 /\ val (l3 (col1 M)) = 0 /\ val (l3 (col2 M)) = 0 /\
  Rabs (val (l3 (col3 M)) - (if nrm then 1 else N)) <= (if nrm then 0 else 6 * u * (1 + / 100000) * N + bpow radix2 (-122)).
Proof.
  intros H M E N T b b3. destruct m as [v w]. change (coefs (k := KMotor) (mkmotor v w)) with (reg_list v ++ reg_list w) in H.
  assert (K : forall e Q d, absv (fun n => val (lanes8 v w n)) e <= Q -> fits_any 20 (-122) e && ((dep e <=? d)%nat && (d <=? 64)%nat) = true ->
    Rabs (val (eval (lanes8 v w) e) - eval (A := Arith_R) (fun n => val (lanes8 v w n)) e) <= INR d * u * (1 + / 100000) * Q + bpow radix2 (-122)).
  { intros e Q d H4 H2. apply andb_prop in H2. destruct H2 as [H1 H2]. apply andb_prop in H2. destruct H2 as [H2 H2']. apply Nat.leb_le in H2. apply Nat.leb_le in H2'. apply entry; try assumption. reflexivity. }
  assert (X : forall n, fin (lanes8 v w n) /\ Rabs (val (lanes8 v w n)) <= IZR (2 ^ 20)) by (apply lanes8_bounded; exact H).
  assert (NZ : forall e, mild (2 ^ 20) e && (dep e <=? 64)%nat && nil_expr e = true -> val (eval (lanes8 v w) e) = 0).
  { intros e C. apply andb_prop in C. destruct C as [C N3]. apply andb_prop in C. destruct C as [C1 C2]. apply Nat.leb_le in C2. apply nil_ok; assumption. }
  assert (FS : forall e, fits_any 20 (-122) e && (dep e <=? 64)%nat = true -> fin (eval (lanes8 v w) e)).
  { intros e C. apply andb_prop in C. destruct C as [C C']. apply Nat.leb_le in C'. apply (entry v w e (eval (A := Arith_R) (fun n => val (lanes8 v w n)) e) (absv (fun n => val (lanes8 v w n)) e) 64 H C C'); [lia|reflexivity|apply Rle_refl]. }
  destruct (masses B nrm (fun n => val (lanes8 v w n))) as ((a00 & a01 & a02) & (a10 & a11 & a12) & (a20 & a21 & a22) & (a30 & a31 & a32) & a33).
  split; [|split; [|split; [|split; [|split; [|split; [|split; [|split]]]]]]].
  - assert (Q : forallb (fun e => fits_any 20 (-122) e && (dep e <=? 64)%nat) (let c := mcode B nrm in reg_list (col0 c) ++ reg_list (col1 c) ++ reg_list (col2 c) ++ reg_list (col3 c)) = true) by (destruct B as [[|]], nrm; vm_compute; reflexivity).
    rewrite forallb_forall in Q. unfold M. rewrite mcode_ok. cbv zeta. cbn [motor_p1 motor_p2]. set (c := mcode B nrm) in *. apply Forall_forall. intros x I.
    assert (J : In x (map (eval (lanes8 v w)) (reg_list (col0 c) ++ reg_list (col1 c) ++ reg_list (col2 c) ++ reg_list (col3 c)))) by (rewrite !map_app; exact I).
    apply in_map_iff in J. destruct J as (e & <- & J). apply FS, Q, J.
  - unfold b. replace 4 with (INR 4) by (cbn; ring). apply (K _ _ 4%nat) in a00, a01, a02; [|destruct B as [[|]], nrm; vm_compute; reflexivity..]. destruct B as [[|]], nrm; (split; [exact a00|split; [exact a01|exact a02]]).
  - unfold b. replace 4 with (INR 4) by (cbn; ring). apply (K _ _ 4%nat) in a10, a11, a12; [|destruct B as [[|]], nrm; vm_compute; reflexivity..]. destruct B as [[|]], nrm; (split; [exact a10|split; [exact a11|exact a12]]).
  - unfold b. replace 4 with (INR 4) by (cbn; ring). apply (K _ _ 4%nat) in a20, a21, a22; [|destruct B as [[|]], nrm; vm_compute; reflexivity..]. destruct B as [[|]], nrm; (split; [exact a20|split; [exact a21|exact a22]]).
  - unfold b3. replace 6 with (INR 6) by (cbn; ring). apply (K _ _ 6%nat) in a30, a31, a32; [|destruct B as [[|]], nrm; vm_compute; reflexivity..]. destruct B as [[|]], nrm; (split; [exact a30|split; [exact a31|exact a32]]).
  - pose proof (NZ (l3 (col0 (mcode B nrm)))) as Z. destruct B as [[|]], nrm; apply Z; vm_compute; reflexivity.
  - pose proof (NZ (l3 (col1 (mcode B nrm)))) as Z. destruct B as [[|]], nrm; apply Z; vm_compute; reflexivity.
  - pose proof (NZ (l3 (col2 (mcode B nrm)))) as Z. destruct B as [[|]], nrm; apply Z; vm_compute; reflexivity.
  - destruct (fz_ok 1 ltac:(lia)) as [Fz1 Vz1]. destruct nrm.
    + replace (val (l3 (col3 M))) with 1; [rewrite Rminus_diag_eq, Rabs_R0 by reflexivity; apply Rle_refl|]. symmetry. destruct B as [[|]]; [exact Vz1|].
      set (e := match l3 (col3 (mcode (mkBuild false) true)) with EAdd a _ => a | f => f end). assert (Ze : val (eval (lanes8 v w) e) = 0) by (apply NZ; vm_compute; reflexivity). assert (Fe : fin (eval (lanes8 v w) e)) by (apply FS; vm_compute; reflexivity).
      destruct (add_zero _ _ Fe Ze Fz1) as (_ & Q & _); [rewrite Vz1; unfold big; rewrite Rabs_R1; change 1 with (bpow radix2 0); apply bpow_le; lia|]. rewrite Vz1 in Q. exact Q.
    + replace 6 with (INR 6) by (cbn; ring). apply (K _ _ 6%nat) in a33; [|destruct B as [[|]]; vm_compute; reflexivity]. 
      assert (EV : val (l3 (col3 M)) = val (eval (lanes8 v w) (l3 (col3 (mcode B false))))) by (unfold M; rewrite mcode_ok; reflexivity).
      assert (NV : N = eval (A := Arith_R) (fun n => val (lanes8 v w n)) (l3 (col3 (mcode B false)))) by (unfold N, q4, mv1; cbn [motor_p1]; destruct B as [[|]]; cbn; ring).
      rewrite EV, NV at 1. exact a33.
Qed.

(** ** The matrix as a motion *)
(** the 3x3 block on a vector, and the whole matrix on the point with that position, in exact arithmetic *)
Definition mat_lin (M : mat4 R) (x : vec) : vec :=
  V (l0 (col0 M) * vx x + l0 (col1 M) * vy x + l0 (col2 M) * vz x) (l1 (col0 M) * vx x + l1 (col1 M) * vy x + l1 (col2 M) * vz x) (l2 (col0 M) * vx x + l2 (col1 M) * vy x + l2 (col2 M) * vz x).
Definition mat_shift (M : mat4 R) : vec := V (l0 (col3 M)) (l1 (col3 M)) (l2 (col3 M)).
Definition mat_place (M : mat4 R) (x : vec) : vec := vadd (mat_lin M x) (mat_shift M).
(** the rotation part of a motion *)
Definition swung (e : motor R) (x : vec) : vec := vsub (moved e x) (moved e (V 0 0 0)).
Lemma swung_turn e x : swung e x = turn (motor_p1 e) x.
Proof.
  unfold swung, moved. rewrite !image_turn. destruct e as [[a b c d] p2], x as [x y z]. set (s := vpart _). destruct s as [s1 s2 s3]. unfold turn, vpart, qm, lift, rev4, vsub, vscale. cbn [l0 l1 l2 l3 vx vy vz motor_p1]. f_equal; ring.
Qed.
Lemma exact_lin (B : Build) nrm p1 p2 x : mat_lin (mat_of (A := Arith_R) nrm (mkmotor p1 p2)) x = turn p1 x.
Proof.
  destruct p1 as [a b c d], p2 as [e f g h], x as [x y z]. destruct B as [[|]], nrm; cbv -[Rplus Rmult Ropp Rminus IZR]; f_equal; ring.
Qed.
Lemma exact_shift (B : Build) nrm p1 p2 : mat_shift (mat_of (A := Arith_R) nrm (mkmotor p1 p2)) = vscale (-2) (vpart (qm p1 p2)).
Proof.
  destruct p1 as [a b c d], p2 as [e f g h]. destruct B as [[|]], nrm; cbv -[Rplus Rmult Ropp Rminus IZR]; f_equal; ring.
Qed.
Lemma lin_close b (M E : mat4 R) x : 0 <= b -> close3 b (col0 M) (col0 E) -> close3 b (col1 M) (col1 E) -> close3 b (col2 M) (col2 E) -> vlen (vsub (mat_lin M x) (mat_lin E x)) <= 3 * b * vlen x.
Proof.
  intros Hb (A0 & A1 & A2) (B0 & B1 & B2) (C0 & C1 & C2).
  assert (K : forall a a' c c' d d', Rabs (a - a') <= b -> Rabs (c - c') <= b -> Rabs (d - d') <= b -> Rabs ((a * vx x + c * vy x + d * vz x) - (a' * vx x + c' * vy x + d' * vz x)) <= b * (Rabs (vx x) + Rabs (vy x) + Rabs (vz x)) + 0).
  { intros a a' c c' d d' H1 H2 H3. replace (_ - _) with ((a - a') * vx x + (c - c') * vy x + (d - d') * vz x) by ring.
    eapply Rle_trans; [apply Rabs_triang|]. pose proof (Rabs_triang ((a - a') * vx x) ((c - c') * vy x)) as T. rewrite !Rabs_mult in *.
    pose proof (Rmult_le_compat_r _ _ _ (Rabs_pos (vx x)) H1). pose proof (Rmult_le_compat_r _ _ _ (Rabs_pos (vy x)) H2). pose proof (Rmult_le_compat_r _ _ _ (Rabs_pos (vz x)) H3). lra. }
  pose proof (vlen_sum (vsub (mat_lin M x) (mat_lin E x)) b x 0 Hb (Rle_refl _)) as Q. eapply Rle_trans; [apply Q|lra].
  intros y [<-|[<-|[<-|[]]]]; apply K; assumption.
Qed.
Lemma shift_close b (M E : mat4 R) : 0 <= b -> close3 b (col3 M) (col3 E) -> vlen (vsub (mat_shift M) (mat_shift E)) <= 7 / 4 * b.
Proof.
  intros Hb (A0 & A1 & A2). pose proof (vlen_sum (vsub (mat_shift M) (mat_shift E)) 0 (V 0 0 0) b (Rle_refl _) Hb) as Q.
  eapply Rle_trans; [apply Q|pose proof (vlen_pos (V 0 0 0)); lra]. intros y H. rewrite Rmult_0_l, Rplus_0_l. destruct H as [<-|[<-|[<-|[]]]]; assumption.
Qed.
(** what the stored matrix does, against what the stored motor does *)
Lemma mat_moves (B : Build) nrm (m : motor f32) : Forall (bounded 20) (coefs (k := KMotor) m) -> let M := map_mat (mat_of nrm m) in let N := q4 (mv1 m) (mv1 m) in
  (forall x, vlen (vsub (mat_lin M x) (turn (mv1 m) x)) <= (121 / 10 * u * N + bpow radix2 (-120)) * vlen x) /\
  vlen (vsub (mat_shift M) (vscale (-2) (vpart (qm (mv1 m) (mv2 m))))) <= 211 / 10 * u * (n4 (mv1 m) * n4 (mv2 m)) + bpow radix2 (-121).
Proof.
  intros H M N. destruct (columns B nrm m H) as (_ & C0 & C1 & C2 & C3 & _). cbv zeta in C0, C1, C2, C3. fold M N in C0, C1, C2, C3. set (T := n4 (mv1 m) * n4 (mv2 m)) in *.
  assert (N0 : 0 <= N) by apply q4_pos. assert (T0 : 0 <= T) by (apply Rmult_le_pos; apply n4_pos). pose proof (bpow_gt_0 radix2 (-122)) as t0. pose proof u_small as U.
  assert (U1 : 0 <= u * N) by (apply Rmult_le_pos; lra). assert (U2 : 0 <= u * T) by (apply Rmult_le_pos; lra).
  assert (P2 : bpow radix2 (-121) = 2 * bpow radix2 (-122)) by (change (-121)%Z with (1 + -122)%Z; rewrite bpow_plus; reflexivity).
  assert (P3 : bpow radix2 (-120) = 4 * bpow radix2 (-122)) by (change (-120)%Z with (2 + -122)%Z; rewrite bpow_plus; reflexivity). split.
  - intro x. rewrite <- (exact_lin B nrm (mv1 m) (mv2 m) x). eapply Rle_trans; [apply lin_close with (2 := C0) (3 := C1) (4 := C2); lra|]. apply Rmult_le_compat_r; [apply vlen_pos|]. rewrite P3. lra.
  - rewrite <- (exact_shift B nrm (mv1 m) (mv2 m)). eapply Rle_trans; [apply shift_close with (2 := C3); lra|]. rewrite P2. lra.
Qed.

Lemma near_bounded th r m e : near_motor th r m e -> th <= / 1000 -> r <= 2 ^ 19 -> Forall (bounded 20) (coefs (k := KMotor) m).
Proof.
  intros N T R2. assert (Y19 : 2 ^ 20 = 2 ^ 19 * 2) by ring. assert (Z19 : 1 <= 2 ^ 19) by (apply pow_R1_Rle; lra).
  destruct (near_motor_len _ _ _ _ N) as (A1 & A2 & T0 & r0). assert (P20 : bpow radix2 20 = 2 ^ 20) by (cbn; ring). assert (A3 : (1 + th) * r <= 2 * r) by (apply Rmult_le_compat_r; lra).
  apply motor_bounded; [lia|apply N| |]; rewrite P20, Y19; lra.
Qed.
Lemma tiny_u : bpow radix2 (-120) <= / 1000 * u.
Proof. apply (Rle_trans _ (bpow radix2 (-40))); [apply bpow_le; lia|]. unfold u. cbn. lra. Qed.
Lemma tiny_r r : / 2 ^ 60 <= r -> bpow radix2 (-120) <= / 1000 * u * r.
Proof.
  intro H. apply (Rle_trans _ (bpow radix2 (-40) * bpow radix2 (-60))); [rewrite <- bpow_plus; apply bpow_le; lia|].
  apply Rmult_le_compat; try apply bpow_ge_0; [unfold u; cbn; lra|]. replace (bpow radix2 (-60)) with (/ 2 ^ 60) by (cbn; f_equal; ring). exact H.
Qed.
(** The matrix made from a motor that stands for the motion [e]: all its entries are numbers, its last row is
    (0, 0, 0, 1) (exactly for mat3x4, up to rounding for mat4x4), and in exact arithmetic it turns every vector
    and moves every point nearly as [e] does. *)
Theorem C83_matrix : forall (B : Build) (nrm : bool) th r (m : motor f32) (e : motor R), near_motor th r m e -> th <= / 1000 -> / 2 ^ 60 <= r <= 2 ^ 19 ->
  exists M, (if nrm then motor_as_mat3x4 m else motor_as_mat4x4 m) = Ok M /\ Forall fin (entries M) /\
  val (l3 (col0 M)) = 0 /\ val (l3 (col1 M)) = 0 /\ val (l3 (col2 M)) = 0 /\ Rabs (val (l3 (col3 M)) - 1) <= (if nrm then 0 else 2001 / 1000 * th + 61 / 10 * / 2 ^ 24) /\
  forall x, vlen (vsub (mat_lin (map_mat M) x) (swung e x)) <= (2001 / 1000 * th + 122 / 10 * / 2 ^ 24) * vlen x /\
    vlen (vsub (mat_place (map_mat M) x) (moved e x)) <= (2001 / 1000 * th + 122 / 10 * / 2 ^ 24) * vlen x + (4002 / 1000 * th + 212 / 10 * / 2 ^ 24) * r.
Proof.
  intros B nrm th r m e H T [r1 r2]. exists (mat_of nrm m). split; [destruct nrm; reflexivity|]. pose proof (near_bounded _ _ _ _ H T r2) as Hm.
  destruct (columns B nrm m Hm) as (F & _ & _ & _ & _ & Z0 & Z1 & Z2 & W). cbv zeta in W. destruct (mat_moves B nrm m Hm) as [ML MS]. cbv zeta in ML, MS.
  destruct (near_motor_len _ _ _ _ H) as (A1 & A2 & T0 & r0). destruct H as (_ & (P & _) & Re & E1 & E2). rewrite u_pow. pose proof u_small as U. pose proof tiny_u as TU. pose proof (tiny_r r r1) as TR.
  set (M := mat_of nrm m) in *. clearbody M. set (p1 := mv1 m) in *. set (p2 := mv2 m) in *.
  pose proof (n4_pos p1) as P1. pose proof (n4_pos p2) as P2. pose proof (n4_diff p1 (motor_p1 e)) as D1. rewrite P in D1. pose proof (n4_pos (sub4 p1 (motor_p1 e))) as Q1. pose proof (n4_pos (sub4 p2 (motor_p2 e))) as Q2.
  assert (Q4 : q4 p1 p1 = n4 p1 * n4 p1) by (symmetry; apply n4_sq). assert (N1 : q4 p1 p1 <= 1001 / 1000 * (1001 / 1000)) by (rewrite Q4; apply Rmult_le_compat; lra).
  assert (B1 : bpow radix2 (-122) <= bpow radix2 (-120)) by (apply bpow_le; lia). assert (B2 : bpow radix2 (-121) <= bpow radix2 (-120)) by (apply bpow_le; lia).
  assert (U1 : u * q4 p1 p1 <= u * (10021 / 10000)) by (apply Rmult_le_compat_l; lra).
  split; [exact F|]. split; [exact Z0|]. split; [exact Z1|]. split; [exact Z2|]. split.
  { destruct nrm; [exact W|]. replace (val (l3 (col3 M)) - 1) with ((val (l3 (col3 M)) - q4 p1 p1) + (n4 p1 - 1) * (n4 p1 + 1)) by (rewrite Q4; ring). eapply Rle_trans; [apply Rabs_triang|]. rewrite Rabs_mult.
    assert (Rabs (n4 p1 - 1) * Rabs (n4 p1 + 1) <= th * (2001 / 1000)). { apply Rmult_le_compat; try apply Rabs_pos; [lra|]. rewrite Rabs_pos_eq; lra. } lra. }
  assert (L : forall x, vlen (vsub (mat_lin (map_mat M) x) (swung e x)) <= (2001 / 1000 * th + 122 / 10 * u) * vlen x).
  { intro x. rewrite swung_turn. eapply Rle_trans; [apply (vlen_via _ (turn p1 x))|]. pose proof (turn_diff p1 (motor_p1 e) x) as TD. rewrite P in TD. pose proof (vlen_pos x) as X0. specialize (ML x).
    assert (K1 : n4 (sub4 p1 (motor_p1 e)) * (n4 p1 + 1) <= th * (2001 / 1000)) by (apply Rmult_le_compat; lra). apply (Rmult_le_compat_r _ _ _ X0) in K1.
    assert (K2 : 121 / 10 * u * q4 p1 p1 + bpow radix2 (-120) <= 122 / 10 * u) by lra. apply (Rmult_le_compat_r _ _ _ X0) in K2. lra. }
  intro x. split; [apply L|].
  assert (SH : vlen (vsub (mat_shift (map_mat M)) (moved e (V 0 0 0))) <= (4002 / 1000 * th + 212 / 10 * u) * r).
  { eapply Rle_trans; [apply (vlen_via _ (vscale (-2) (vpart (qm p1 p2))))|].
    pose proof (image_near p1 p2 (motor_p1 e) (motor_p2 e) (V 0 0 0)) as I. rewrite P in I. change (motor_image (motor_p1 e) (motor_p2 e) 1 (V 0 0 0)) with (moved e (V 0 0 0)) in I.
    replace (motor_image p1 p2 1 (V 0 0 0)) with (vscale (-2) (vpart (qm p1 p2))) in I.
    2: { rewrite image_turn. destruct p1 as [a b c d]. set (s := vpart _). destruct s as [s1 s2 s3]. unfold turn, vpart, qm, lift, rev4, vsub, vscale. cbn [l0 l1 l2 l3 vx vy vz]. f_equal; ring. }
    replace (vlen (V 0 0 0)) with 0 in I by (unfold vlen, vdot; cbn [vx vy vz]; replace (_ + _) with 0 by ring; symmetry; apply sqrt_0).
    assert (A3 : n4 p2 <= 1001 / 1000 * r) by (apply (Rle_trans _ ((1 + th) * r)); [exact A2|apply Rmult_le_compat_r; lra]).
    assert (K2 : n4 (sub4 p1 (motor_p1 e)) * n4 p2 <= th * (1001 / 1000 * r)) by (apply Rmult_le_compat; lra).
    assert (K5 : n4 p1 * n4 p2 <= 1001 / 1000 * (1001 / 1000 * r)) by (apply Rmult_le_compat; lra).
    assert (K6 : u * (n4 p1 * n4 p2) <= u * (1001 / 1000 * (1001 / 1000 * r))) by (apply Rmult_le_compat_l; lra).
    assert (0 <= u * r) by (apply Rmult_le_pos; lra). lra. }
  replace (vsub (mat_place (map_mat M) x) (moved e x)) with (vadd (vsub (mat_lin (map_mat M) x) (swung e x)) (vsub (mat_shift (map_mat M)) (moved e (V 0 0 0)))).
  - eapply Rle_trans; [apply vlen_tri|]. specialize (L x). lra.
  - unfold mat_place, swung. set (a := mat_lin _ _). set (b := mat_shift _). set (c := moved e x). set (d := moved e (V 0 0 0)). destruct a as [a1 a2 a3], b as [b1 b2 b3], c as [c1 c2 c3], d as [d1 d2 d3]. unfold vadd, vsub. cbn [vx vy vz]. f_equal; ring.
Qed.

(** The 3x3 block is orthogonal up to rounding: it keeps lengths and angles. *)
Lemma vdot_abs a b : Rabs (vdot a b) <= vlen a * vlen b.
Proof. rewrite !vlen_n4. eapply Rle_trans; [|apply q4_cauchy]. apply Req_le. f_equal. unfold q4, vdot. cbn [l0 l1 l2 l3]. ring. Qed.
Lemma turn_dot p x y : vdot (turn p x) (turn p y) = q4 p p * q4 p p * vdot x y.
Proof. destruct p as [a b c d], x as [x1 x2 x3], y as [y1 y2 y3]. unfold turn, vpart, qm, lift, rev4, vdot, q4. cbn [l0 l1 l2 l3 vx vy vz]. ring. Qed.
Theorem C83_orthogonal : forall (B : Build) (nrm : bool) th r (m : motor f32) (e : motor R), near_motor th r m e -> th <= / 1000 -> / 2 ^ 60 <= r <= 2 ^ 19 ->
  exists M, (if nrm then motor_as_mat3x4 m else motor_as_mat4x4 m) = Ok M /\
  forall x y, let x' := mat_lin (map_mat M) x in let y' := mat_lin (map_mat M) y in
    Rabs (vdot x' y' - vdot x y) <= (403 / 100 * th + 246 / 10 * / 2 ^ 24) * (vlen x * vlen y) /\ Rabs (vlen x' - vlen x) <= (2001 / 1000 * th + 122 / 10 * / 2 ^ 24) * vlen x.
Proof.
  intros B nrm th r m e H T R. destruct (C83_matrix B nrm th r m e H T R) as (M & HM & _ & _ & _ & _ & _ & L). exists M. split; [exact HM|]. intros x y x' y'.
  destruct (near_motor_len _ _ _ _ H) as (_ & _ & T0 & _). destruct H as (_ & (P & _) & _). rewrite u_pow in *. pose proof u_small as U. set (d := 2001 / 1000 * th + 122 / 10 * u) in *.
  assert (D : 0 <= d <= 21 / 10000) by (unfold d; lra). pose proof (proj1 (L x)) as Lx. pose proof (proj1 (L y)) as Ly. rewrite swung_turn in Lx, Ly. fold x' in Lx. fold y' in Ly. clear L.
  assert (LEN : forall z, vlen (turn (motor_p1 e) z) = vlen z). { intro z. unfold vlen. rewrite turn_dot, <- n4_sq, P. f_equal. ring. }
  assert (DOT : vdot (turn (motor_p1 e) x) (turn (motor_p1 e) y) = vdot x y) by (rewrite turn_dot, <- n4_sq, P; ring).
  pose proof (LEN x) as Kx. pose proof (LEN y) as Ky. set (tx := turn (motor_p1 e) x) in *. set (ty := turn (motor_p1 e) y) in *. pose proof (vlen_pos x) as X0. pose proof (vlen_pos y) as Y0.
  assert (TRI : forall a b, vlen a <= vlen b + vlen (vsub a b)) by (intros a b; eapply Rle_trans; [|apply vlen_tri]; apply Req_le; f_equal; destruct a as [a1 a2 a3], b as [b1 b2 b3]; unfold vadd, vsub; cbn [vx vy vz]; f_equal; ring).
  assert (SYM : forall a b, vlen (vsub a b) = vlen (vsub b a)) by (intros a b; unfold vlen; f_equal; unfold vdot, vsub; cbn [vx vy vz]; ring). split.
  - rewrite <- DOT. replace (vdot x' y' - vdot tx ty) with (vdot (vsub x' tx) y' + vdot tx (vsub y' ty)) by (unfold vdot, vsub; cbn [vx vy vz]; ring). eapply Rle_trans; [apply Rabs_triang|].
    pose proof (vdot_abs (vsub x' tx) y') as V1. pose proof (vdot_abs tx (vsub y' ty)) as V2. rewrite Kx in V2. pose proof (TRI y' ty) as V3. rewrite Ky in V3. pose proof (vlen_pos (vsub x' tx)). pose proof (vlen_pos (vsub y' ty)). pose proof (vlen_pos y').
    assert (S : d * vlen y <= 21 / 10000 * vlen y) by (apply Rmult_le_compat_r; lra).
    assert (W1 : vlen (vsub x' tx) * vlen y' <= d * vlen x * (10021 / 10000 * vlen y)) by (apply Rmult_le_compat; lra).
    assert (W2 : vlen x * vlen (vsub y' ty) <= vlen x * (d * vlen y)) by (apply Rmult_le_compat_l; lra).
    assert (Z : 0 <= vlen x * vlen y) by (apply Rmult_le_pos; assumption). set (xy := vlen x * vlen y) in *.
    assert (W3 : vlen (vsub x' tx) * vlen y' + vlen x * vlen (vsub y' ty) <= 20021 / 10000 * d * xy) by (unfold xy; lra).
    assert (W4 : 20021 / 10000 * d <= 403 / 100 * th + 246 / 10 * u) by (unfold d; lra). apply (Rmult_le_compat_r _ _ _ Z) in W4. lra.
  - pose proof (TRI x' tx) as V1. pose proof (TRI tx x') as V2. rewrite (SYM tx x') in V2. rewrite Kx in V1, V2. apply Rabs_le. lra.
Qed.

(** ** The matrix applied to a point, in binary32 *)
Theorem C83_accurate : forall B : Build, accurate_any (k1 := KMotor) (k2 := KPoint) (k3 := KPoint) 20 8 (-122) (mat_on_point false) SSandwich.
Proof.
  intro B. refine (op_accurate_any (o_mat B) SSandwich 20 (-122) 8 (o_mat_natural B) (o_mat_correct B) _ _ _ _ _); [lia|lia|lia|destruct B as [[|]]; vm_compute; reflexivity..].
Qed.
(** the two routes and the exact image coincide on coordinates and coefficients that are integers up to 77 *)
Theorem C83_integers : forall B : Build, exact_on_integers (k1 := KMotor) (k2 := KPoint) (k3 := KPoint) 77 (mat_on_point false) SSandwich.
Proof.
  intro B. refine (op_integers (o_mat B) SSandwich 77 (o_mat_natural B) (o_mat_correct B) _ _); [lia|destruct B as [[|]]; vm_compute; reflexivity].
Qed.
(** mat3x4 and mat4x4 move the position alike; mat3x4 leaves the weight as it is *)
Lemma mat_same {F} {A : Arith F} {B : Build} nrm (m : motor F) c : let y := mat_apply (mat_of nrm m) c in let z := mat_apply (mat_of false m) c in (l0 y, l1 y, l2 y) = (l0 z, l1 z, l2 z).
Proof. destruct B as [[|]], nrm; reflexivity. Qed.
Lemma mat_pos (B : Build) nrm (m : motor f32) p : pos (mat_on_point nrm m p) = pos (mat_on_point false m p).
Proof.
  pose proof (mat_same nrm m (column p)) as H. cbv zeta in H. unfold mat_on_point, of_column, pos. cbn [point_p3 l1 l2 l3]. set (y := mat_apply (mat_of nrm m) (column p)) in *. set (z := mat_apply (mat_of false m) (column p)) in *. clearbody y z.
  injection H as H0 H1 H2. rewrite H0, H1, H2. reflexivity.
Qed.
Lemma mat_weight (B : Build) (m : motor f32) p : Forall (bounded 20) (coefs (k := KMotor) m) -> Forall (bounded 20) (coefs (k := KPoint) p) -> fin (l0 (point_p3 (mat_on_point true m p))) /\ wt (mat_on_point true m p) = wt p.
Proof.
  intros Hm Hp. destruct (columns B true m Hm) as (F & _ & _ & _ & _ & Z0 & Z1 & Z2 & W). cbv zeta in W. unfold mat_on_point, of_column, wt. cbn [point_p3 l0]. set (M := mat_of true m) in *. clearbody M.
  destruct p as [[w x y z]]. change (coefs (k := KPoint) (mkpoint (mk4 w x y z))) with [w; x; y; z] in Hp. unfold column. cbn [point_p3 l0 l1 l2 l3].
  inversion_clear Hp as [|? ? [Fw Bw] P1]. inversion_clear P1 as [|? ? [Fx _] P2]. inversion_clear P2 as [|? ? [Fy _] P3]. inversion_clear P3 as [|? ? [Fzz _] _].
  assert (FI : forall c, In c (entries M) -> fin c) by (apply Forall_forall; exact F).
  assert (F0 : fin (l3 (col0 M))) by (apply FI; cbn; tauto). assert (F1 : fin (l3 (col1 M))) by (apply FI; cbn; tauto). assert (F2 : fin (l3 (col2 M))) by (apply FI; cbn; tauto). assert (F3 : fin (l3 (col3 M))) by (apply FI; cbn; tauto).
  assert (V3 : val (l3 (col3 M)) = 1). { pose proof (Rabs_pos (val (l3 (col3 M)) - 1)) as A. assert (A' : Rabs (val (l3 (col3 M)) - 1) = 0) by lra. destruct (Req_dec (val (l3 (col3 M)) - 1) 0) as [D|D]; [lra|apply Rabs_no_R0 in D; lra]. }
  destruct M as [[a0 a1 a2 a3] [b0 b1 b2 b3] [c0 c1 c2 c3] [d0 d1 d2 d3]]. cbn [col0 col1 col2 col3 l3] in *. clear F FI W. unfold mat_apply. cbn [col0 col1 col2 col3].
  assert (BG : forall v, val v = 0 -> Rabs (val v) <= big) by (intros v ->; rewrite Rabs_R0; unfold big; apply bpow_ge_0).
  change (fin (fadd (fadd (fadd (fmul a3 x) (fmul b3 y)) (fmul c3 z)) (fmul d3 w)) /\ val (fadd (fadd (fadd (fmul a3 x) (fmul b3 y)) (fmul c3 z)) (fmul d3 w)) = val w).
  destruct (zero_lane _ _ Fx F0 Z0) as (_ & _ & G0 & Y0). destruct (zero_lane _ _ Fy F1 Z1) as (_ & _ & G1 & Y1). destruct (zero_lane _ _ Fzz F2 Z2) as (_ & _ & G2 & Y2).
  destruct (add_zero _ _ G0 Y0 G1 (BG _ Y1)) as (G3 & Y3 & _). rewrite Y1 in Y3. destruct (add_zero _ _ G3 Y3 G2 (BG _ Y2)) as (G4 & Y4 & _). rewrite Y2 in Y4.
  assert (BW : Rabs (val d3 * val w) <= big) by (rewrite V3, Rmult_1_l; eapply Rle_trans; [exact Bw|]; unfold big; apply bpow_le; lia).
  destruct (mul_ok d3 w F3 Fw BW) as [G5 Y5]. rewrite V3, Rmult_1_l, round_generic in Y5 by (auto with typeclass_instances; apply val_format).
  destruct (add_zero _ _ G4 Y4 G5) as (G6 & Y6 & _); [rewrite Y5; rewrite V3, Rmult_1_l in BW; exact BW|]. split; [exact G6|]. rewrite Y6. exact Y5.
Qed.
Lemma moves_from (m : motor f32) (p : point f32) (Y : point f32) : wt p = 1 ->
  (forall i, Rabs (mv_point (mkpoint (map4 val (point_p3 Y))) i - sandwich (mv_motor (mkmotor (mv1 m) (mv2 m))) (mv_point (mkpoint (mk4 (wt p) (vx (pos p)) (vy (pos p)) (vz (pos p))))) i) <=
    8 * (1 + / 100000) * / 2 ^ 24 * sandwich_mass (mv_motor (mkmotor (mv1 m) (mv2 m))) (mv_point (mkpoint (mk4 (wt p) (vx (pos p)) (vy (pos p)) (vz (pos p))))) i + bpow radix2 (-122)) ->
  vlen (vsub (pos Y) (motor_image (mv1 m) (mv2 m) 1 (pos p))) <= 241 / 10 * u * (q4 (mv1 m) (mv1 m) * vlen (pos p)) + 281 / 10 * u * (n4 (mv1 m) * n4 (mv2 m)) + bpow radix2 (-121) /\
  Rabs (wt Y - q4 (mv1 m) (mv1 m)) <= 81 / 10 * u * q4 (mv1 m) (mv1 m) + bpow radix2 (-122).
Proof.
  intros Hw E. destruct Y as [[y0 y1 y2 y3]]. cbn [point_p3] in E. set (p1 := mv1 m) in *. set (p2 := mv2 m) in *. clearbody p1 p2. pose proof u_small as U.
  set (N := q4 p1 p1). assert (N0 : 0 <= N) by apply q4_pos. set (T := n4 p1 * n4 p2). assert (T0 : 0 <= T) by (apply Rmult_le_pos; apply n4_pos).
  set (k := 8 * (1 + / 100000) * / 2 ^ 24) in *.
  assert (k0 : 0 < k <= 801 / 100 * u) by (unfold k, u; lra).
  set (x := pos p) in *. set (t := bpow radix2 (-122)) in *. assert (t0 : 0 < t) by apply bpow_gt_0.
  assert (E' : forall i, Rabs (mv_point (mkpoint (map4 val (mk4 y0 y1 y2 y3))) i -
      sandwich (mv_motor (mkmotor p1 p2)) (mv_point (mkpoint (mk4 (val (l0 (point_p3 p))) (vx x) (vy x) (vz x)))) i) <=
      k * sandwich_mass (mv_motor (mkmotor p1 p2)) (mv_point (mkpoint (mk4 (val (l0 (point_p3 p))) (vx x) (vy x) (vz x)))) i + t) by exact E.
 unfold wt in Hw. rewrite Hw in E'. clear E. set (y := pos (mkpoint (mk4 y0 y1 y2 y3))).
  assert (Uk : 0 <= u * N) by (apply Rmult_le_pos; lra). assert (Nk : k * N <= 801 / 100 * u * N) by (apply Rmult_le_compat_r; lra). split.
  2: { specialize (E' (Bl false true true true)).
    rewrite weight_exact, weight_mass, Rabs_R1, !Rmult_1_r in E'. fold N in E'. apply (Rle_trans _ (k * N + t)); [exact E'|]. lra. }
  assert (K : forall i, In i (Bl true false true true :: Bl true true false true :: Bl true true true false :: nil) ->
    Rabs (mv_point (mkpoint (mk4 0 (vx y) (vy y) (vz y))) i -
      sandwich (mv_motor (mkmotor p1 p2)) (mv_point (mkpoint (mk4 1 (vx x) (vy x) (vz x)))) i) <= k * N * (Rabs (vx x) + Rabs (vy x) + Rabs (vz x)) + (2 * k * T + t)).
  { intros i Hi. apply (Rle_trans _ (k * sandwich_mass (mv_motor (mkmotor p1 p2)) (mv_point (mkpoint (mk4 1 (vx x) (vy x) (vz x)))) i + t)).
    - specialize (E' i). destruct Hi as [<-|[<-|[<-|[]]]]; exact E'.
    - pose proof (image_mass p1 p2 1 x i Hi) as Q. rewrite Rabs_R1 in Q. fold N T in Q.
      assert (k * sandwich_mass (mv_motor (mkmotor p1 p2)) (mv_point (mkpoint (mk4 1 (vx x) (vy x) (vz x)))) i <= k * (N * (Rabs (vx x) + Rabs (vy x) + Rabs (vz x)) + 2 * T * 1)) by (apply Rmult_le_compat_l; lra). lra. }
  assert (V1 : vlen (vsub y (motor_image p1 p2 1 x)) <= 3 * (k * N) * vlen x + 7 / 4 * (2 * k * T + t)).
  { apply vlen_sum; [apply Rmult_le_pos; lra|assert (0 <= k * T) by (apply Rmult_le_pos; lra); lra|].
    intros v [<-|[<-|[<-|[]]]].
    - rewrite <- Rabs_Ropp. eapply Rle_trans; [|apply (K (Bl true false true true)); cbn; tauto]. apply Req_le. f_equal. unfold vsub, motor_image. cbn [vx vy vz]. cbn [mv_point mv_p3 point_p3 l0 l1 l2 l3]. ring.
    - eapply Rle_trans; [|apply (K (Bl true true false true)); cbn; tauto]. apply Req_le. f_equal.
    - rewrite <- Rabs_Ropp. eapply Rle_trans; [|apply (K (Bl true true true false)); cbn; tauto]. apply Req_le. f_equal. unfold vsub, motor_image. cbn [vx vy vz]. cbn [mv_point mv_p3 point_p3 l0 l1 l2 l3]. ring. }
  eapply Rle_trans; [exact V1|]. pose proof (vlen_pos x) as X0.
  assert (Nx : 0 <= N * vlen x) by (apply Rmult_le_pos; assumption).
  assert (k * (N * vlen x) <= 801 / 100 * u * (N * vlen x)) by (apply Rmult_le_compat_r; lra).
  assert (k * T <= 801 / 100 * u * T) by (apply Rmult_le_compat_r; lra).
  assert (0 <= u * (N * vlen x)) by (apply Rmult_le_pos; [unfold u; lra|exact Nx]). assert (0 <= u * T) by (apply Rmult_le_pos; [unfold u; lra|exact T0]).
  replace (bpow radix2 (-121)) with (2 * t) by (unfold t; change (-121)%Z with (1 + -122)%Z; rewrite bpow_plus; reflexivity). lra.
Qed.
Lemma column_fin (y z : m128 f32) : (l0 y, l1 y, l2 y) = (l0 z, l1 z, l2 z) -> Forall fin (coefs (k := KPoint) (of_column z)) -> fin (l0 (point_p3 (of_column y))) -> Forall fin (coefs (k := KPoint) (of_column y)).
Proof.
  intros S FI Fw. injection S as S0 S1 S2. change (Forall fin [l3 z; l0 z; l1 z; l2 z]) in FI. change (Forall fin [l3 y; l0 y; l1 y; l2 y]). rewrite S0, S1, S2. inversion_clear FI as [|? ? _ FJ]. constructor; assumption.
Qed.
Lemma mat_point_fin (B : Build) nrm (m : motor f32) (p : point f32) : Forall (bounded 20) (coefs (k := KMotor) m) -> Forall (bounded 20) (coefs (k := KPoint) p) -> Forall fin (coefs (k := KPoint) (mat_on_point nrm m p)).
Proof.
  intros Hm Hp. pose proof (proj1 (C83_accurate B m p Hm Hp I I)) as FI. destruct nrm; [|exact FI].
  exact (column_fin (mat_apply (mat_of true m) (column p)) (mat_apply (mat_of false m) (column p)) (mat_same true m (column p)) FI (proj1 (mat_weight B m p Hm Hp))).
Qed.
Lemma mat_point_moves (B : Build) nrm (m : motor f32) (p : point f32) :
  Forall (bounded 20) (coefs (k := KMotor) m) -> Forall (bounded 20) (coefs (k := KPoint) p) -> wt p = 1 -> let q := mat_on_point nrm m p in
  vlen (vsub (pos q) (motor_image (mv1 m) (mv2 m) 1 (pos p))) <= 241 / 10 * u * (q4 (mv1 m) (mv1 m) * vlen (pos p)) + 281 / 10 * u * (n4 (mv1 m) * n4 (mv2 m)) + bpow radix2 (-121) /\
  Rabs (wt q - (if nrm then 1 else q4 (mv1 m) (mv1 m))) <= (if nrm then 0 else 81 / 10 * u * q4 (mv1 m) (mv1 m) + bpow radix2 (-122)).
Proof.
  intros Hm Hp Hw q. pose proof (proj2 (C83_accurate B m p Hm Hp I I)) as E. destruct (moves_from m p (mat_on_point false m p) Hw E) as [P1 P2]. clear E. unfold q. rewrite mat_pos. split; [exact P1|].
  destruct nrm; [|exact P2]. destruct (mat_weight B m p Hm Hp) as [_ W]. rewrite W, Hw, Rminus_diag_eq, Rabs_R0 by reflexivity. apply Rle_refl.
Qed.
Lemma mat_on_eq {F} {A : Arith F} {B : Build} nrm (m : motor F) p : of_column (mat_apply (mat_of nrm m) (column p)) = mat_on_point nrm m p.
Proof. reflexivity. Qed.
(** The matrix applied to a point stored with weight 1, all in binary32. *)
Lemma apply_core (nrm : bool) th r (m : motor f32) (e : motor R) (p q : point f32) : near_motor th r m e -> th <= / 1000 -> / 2 ^ 60 <= r ->
  vlen (vsub (pos q) (motor_image (mv1 m) (mv2 m) 1 (pos p))) <= 241 / 10 * u * (q4 (mv1 m) (mv1 m) * vlen (pos p)) + 281 / 10 * u * (n4 (mv1 m) * n4 (mv2 m)) + bpow radix2 (-121) ->
  Rabs (wt q - (if nrm then 1 else q4 (mv1 m) (mv1 m))) <= (if nrm then 0 else 81 / 10 * u * q4 (mv1 m) (mv1 m) + bpow radix2 (-122)) ->
  vlen (vsub (pos q) (moved e (pos p))) <= (2001 / 1000 * th + 242 / 10 * u) * vlen (pos p) + (4002 / 1000 * th + 282 / 10 * u) * r /\
  Rabs (wt q - 1) <= (if nrm then 0 else 2001 / 1000 * th + 82 / 10 * u).
Proof.
  intros H T r1 MP MW. destruct (near_motor_len _ _ _ _ H) as (A1 & A2 & T0 & r0). destruct H as (_ & (P & _) & Re & E1 & E2).
  pose proof u_small as U. pose proof tiny_u as TU. pose proof (tiny_r r r1) as TR. set (p1 := mv1 m) in *. set (p2 := mv2 m) in *. clearbody p1 p2.
  pose proof (n4_pos p1) as P1. pose proof (n4_pos p2) as P2. pose proof (n4_diff p1 (motor_p1 e)) as D1. rewrite P in D1. pose proof (n4_pos (sub4 p1 (motor_p1 e))) as Q1. pose proof (n4_pos (sub4 p2 (motor_p2 e))) as Q2.
  assert (Q4 : q4 p1 p1 = n4 p1 * n4 p1) by (symmetry; apply n4_sq). assert (N1 : q4 p1 p1 <= 1001 / 1000 * (1001 / 1000)) by (rewrite Q4; apply Rmult_le_compat; lra).
  assert (B1 : bpow radix2 (-122) <= bpow radix2 (-120)) by (apply bpow_le; lia). assert (B2 : bpow radix2 (-121) <= bpow radix2 (-120)) by (apply bpow_le; lia). pose proof (vlen_pos (pos p)) as X0.
  assert (U1 : u * q4 p1 p1 <= u * (10021 / 10000)) by (apply Rmult_le_compat_l; lra). split.
  - eapply Rle_trans; [apply (vlen_via _ (motor_image p1 p2 1 (pos p)))|]. pose proof (image_near p1 p2 (motor_p1 e) (motor_p2 e) (pos p)) as I2. rewrite P in I2. fold (moved e (pos p)) in I2.
    assert (A3 : n4 p2 <= 1001 / 1000 * r) by (apply (Rle_trans _ ((1 + th) * r)); [exact A2|apply Rmult_le_compat_r; lra]).
    assert (K1 : n4 (sub4 p1 (motor_p1 e)) * (n4 p1 + 1) <= th * (2001 / 1000)) by (apply Rmult_le_compat; lra). apply (Rmult_le_compat_r _ _ _ X0) in K1.
    assert (K2 : n4 (sub4 p1 (motor_p1 e)) * n4 p2 <= th * (1001 / 1000 * r)) by (apply Rmult_le_compat; lra).
    assert (K4 : u * q4 p1 p1 * vlen (pos p) <= u * (10021 / 10000) * vlen (pos p)) by (apply Rmult_le_compat_r; lra).
    assert (K5 : n4 p1 * n4 p2 <= 1001 / 1000 * (1001 / 1000 * r)) by (apply Rmult_le_compat; lra).
    assert (K6 : u * (n4 p1 * n4 p2) <= u * (1001 / 1000 * (1001 / 1000 * r))) by (apply Rmult_le_compat_l; lra).
    assert (0 <= u * r) by (apply Rmult_le_pos; lra). assert (0 <= u * vlen (pos p)) by (apply Rmult_le_pos; lra). lra.
  - destruct nrm; [exact MW|]. replace (wt q - 1) with ((wt q - q4 p1 p1) + (n4 p1 - 1) * (n4 p1 + 1)) by (rewrite Q4; ring). eapply Rle_trans; [apply Rabs_triang|]. rewrite Rabs_mult.
    assert (Rabs (n4 p1 - 1) * Rabs (n4 p1 + 1) <= th * (2001 / 1000)). { apply Rmult_le_compat; try apply Rabs_pos; [lra|]. rewrite Rabs_pos_eq; lra. } lra.
Qed.
Theorem C83_apply : forall (B : Build) (nrm : bool) th r (m : motor f32) (e : motor R) (p : point f32), near_motor th r m e -> th <= / 1000 -> / 2 ^ 60 <= r <= 2 ^ 19 ->
  Forall (bounded 20) (coefs (k := KPoint) p) -> wt p = 1 ->
  exists M, (if nrm then motor_as_mat3x4 m else motor_as_mat4x4 m) = Ok M /\ let q := of_column (mat_apply M (column p)) in Forall fin (coefs (k := KPoint) q) /\
  vlen (vsub (pos q) (moved e (pos p))) <= (2001 / 1000 * th + 242 / 10 * / 2 ^ 24) * vlen (pos p) + (4002 / 1000 * th + 282 / 10 * / 2 ^ 24) * r /\
  Rabs (wt q - 1) <= (if nrm then 0 else 2001 / 1000 * th + 82 / 10 * / 2 ^ 24).
Proof.
  intros B nrm th r m e p H T [r1 r2] Hp Hw. exists (mat_of nrm m). split; [destruct nrm; reflexivity|]. pose proof (near_bounded _ _ _ _ H T r2) as Hm. cbv zeta. rewrite mat_on_eq, u_pow.
  split; [exact (mat_point_fin B nrm m p Hm Hp)|]. destruct (mat_point_moves B nrm m p Hm Hp Hw) as [MP MW]. exact (apply_core nrm th r m e p _ H T r1 MP MW).
Qed.
(** The two routes from a motor and a point to the moved point, with the matrix and without, agree up to rounding for
    every stored motor, normalized or not. *)
Theorem C83_routes : forall (B : Build) (nrm : bool) (m : motor f32) (p : point f32),
  Forall (bounded 20) (coefs (k := KMotor) m) -> Forall (bounded 20) (coefs (k := KPoint) p) -> wt p = 1 ->
  exists M, (if nrm then motor_as_mat3x4 m else motor_as_mat4x4 m) = Ok M /\
  vlen (vsub (pos (of_column (mat_apply M (column p)))) (pos (motor_on_point m p))) <=
    461 / 10 * / 2 ^ 24 * (n4 (mv1 m) * n4 (mv1 m) * vlen (pos p)) + 531 / 10 * / 2 ^ 24 * (n4 (mv1 m) * n4 (mv2 m)) + / 2 ^ 120.
Proof.
  intros B nrm m p Hm Hp Hw. exists (mat_of nrm m). split; [destruct nrm; reflexivity|]. destruct (mat_point_moves B nrm m p Hm Hp Hw) as [MP _]. pose proof (motor_moves B m p Hm Hp Hw) as MM. cbv zeta in MM.
  rewrite mat_on_eq. set (q := mat_on_point nrm m p) in *. clearbody q. set (q' := motor_on_point m p) in *. clearbody q'.
  change (map4 val (motor_p1 m)) with (mv1 m) in MM. change (map4 val (motor_p2 m)) with (mv2 m) in MM. rewrite n4_sq. eapply Rle_trans; [apply (vlen_via _ (motor_image (mv1 m) (mv2 m) 1 (pos p)))|].
  assert (SYM : forall a b, vlen (vsub a b) = vlen (vsub b a)) by (intros a b; unfold vlen; f_equal; unfold vdot, vsub; cbn [vx vy vz]; ring). rewrite (SYM _ (pos q')).
  rewrite u_pow. replace (/ 2 ^ 120) with (2 * bpow radix2 (-121)); [lra|]. change (2 * bpow radix2 (-121)) with (bpow radix2 1 * bpow radix2 (-121)). rewrite <- bpow_plus. cbn. f_equal. ring.
Qed.

(** The hypotheses are met by the turn of a third around the diagonal with a shift along it (C79), and by a point of the scene. *)
Example C83_hypotheses : let p := mkpoint (mk4 (f32_of 1 0) (f32_of 3 0) (f32_of (-5) (-1)) (f32_of 7 3)) in
  near_motor 0 4 third third_e /\ (0 <= / 1000) /\ / 2 ^ 60 <= 4 <= 2 ^ 19 /\ Forall (bounded 20) (coefs (k := KPoint) p) /\ wt p = 1 /\ vlen (pos p) <> 0 /\ Forall (bounded 20) (coefs (k := KMotor) third) /\
  swung third_e (V 1 2 3) <> V 1 2 3 /\ moved third_e (V 0 0 0) <> V 0 0 0.
Proof.
  intro p. assert (V3 : val (f32_of 3 0) = 3) by (vm_compute; lra). assert (V1 : val (f32_of 1 0) = 1) by (vm_compute; lra). assert (V5 : val (f32_of (-5) (-1)) = - (5 / 2)) by (vm_compute; lra). assert (V7 : val (f32_of 7 3) = 56) by (vm_compute; lra).
  assert (X : 4 <= 2 ^ 19) by (replace (2 ^ 19) with 524288 by ring; lra). assert (P20 : bpow radix2 20 = 1048576) by (cbn; lra).
  assert (I60 : / 2 ^ 60 <= 4) by (apply (Rle_trans _ 1); [|lra]; rewrite <- Rinv_1; apply Rinv_le_contravar; [lra|apply pow_R1_Rle; lra]).
  split; [exact near_third|]. split; [lra|]. split; [split; [exact I60|exact X]|]. split.
  { change (Forall (bounded 20) [f32_of 1 0; f32_of 3 0; f32_of (-5) (-1); f32_of 7 3]). repeat apply Forall_cons; try apply Forall_nil; (split; [reflexivity|]); rewrite P20; [rewrite V1|rewrite V3|rewrite V5|rewrite V7]; apply Rabs_le; lra. }
  split; [exact V1|]. split.
  { assert (0 < vlen (pos p)); [|lra]. unfold vlen. apply sqrt_lt_R0. unfold vdot, pos, p. cbn [point_p3 l1 l2 l3 vx vy vz]. rewrite V3, V5, V7. lra. }
  split; [apply (near_bounded 0 4 _ _ near_third); lra|]. split.
  - rewrite swung_turn. intro H. apply (f_equal vx) in H. unfold turn, vpart, qm, lift, rev4, third_e in H. cbn [motor_p1 l0 l1 l2 l3 vx vy vz] in H. lra.
  - unfold moved. rewrite image_turn. intro H. apply (f_equal vx) in H. unfold turn, vpart, vsub, vscale, qm, lift, rev4, third_e in H. cbn [motor_p1 motor_p2 l0 l1 l2 l3 vx vy vz] in H. lra.
Qed.
Print Assumptions C83_matrix.
Print Assumptions C83_orthogonal.
Print Assumptions C83_accurate.
Print Assumptions C83_integers.
Print Assumptions C83_apply.
Print Assumptions C83_routes.
