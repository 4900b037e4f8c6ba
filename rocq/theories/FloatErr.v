(** Binary operations on entities in binary32: exactness on integers and forward
    error, reduced to computations on the expressions of ExprSyntax.v. *)
From Coq Require Import ZArith Reals Bool List Lia Lra Psatz.
From Flocq Require Import Core BinarySingleNaN.
From Verif Require Import AlgTac Float32 FloatFacts ExprSyntax.
Import ListNotations.
Local Open Scope R_scope.

(** ** The entity classes as one family *)
Inductive kind := KPlane | KPoint | KDirection | KIdeal | KBranch | KLine | KRotor | KTranslator | KMotor | KDual | KScalar.
Definition ent (k : kind) (F : Type) : Type :=
  match k with
  | KPlane => plane F | KPoint => point F | KDirection => direction F | KIdeal => ideal_line F
  | KBranch => branch F | KLine => line F | KRotor => rotor F | KTranslator => translator F
  | KMotor => motor F | KDual => dual F | KScalar => F
  end.
Definition reg_list {F} (v : m128 F) : list F := [l0 v; l1 v; l2 v; l3 v].
(** all the floats an entity is made of *)
Definition coefs {k F} : ent k F -> list F :=
  match k with
  | KPlane => fun a => reg_list (plane_p0 a)
  | KPoint => fun a => reg_list (point_p3 a)
  | KDirection => fun a => reg_list (direction_p3 a)
  | KIdeal => fun a => reg_list (ideal_line_p2 a)
  | KBranch => fun a => reg_list (branch_p1 a)
  | KLine => fun a => reg_list (line_p1 a) ++ reg_list (line_p2 a)
  | KRotor => fun a => reg_list (rotor_p1 a)
  | KTranslator => fun a => reg_list (translator_p2 a)
  | KMotor => fun a => reg_list (motor_p1 a) ++ reg_list (motor_p2 a)
  | KDual => fun a => [dual_p a; dual_q a]
  | KScalar => fun a => [a]
  end.
Definition emap {k F G} (f : F -> G) : ent k F -> ent k G :=
  match k with
  | KPlane => fun a => mkplane (map4 f (plane_p0 a))
  | KPoint => fun a => mkpoint (map4 f (point_p3 a))
  | KDirection => fun a => mkdirection (map4 f (direction_p3 a))
  | KIdeal => fun a => mkideal_line (map4 f (ideal_line_p2 a))
  | KBranch => fun a => mkbranch (map4 f (branch_p1 a))
  | KLine => fun a => mkline (map4 f (line_p1 a)) (map4 f (line_p2 a))
  | KRotor => fun a => mkrotor (map4 f (rotor_p1 a))
  | KTranslator => fun a => mktranslator (map4 f (translator_p2 a))
  | KMotor => fun a => mkmotor (map4 f (motor_p1 a)) (map4 f (motor_p2 a))
  | KDual => fun a => mkdual (f (dual_p a)) (f (dual_q a))
  | KScalar => fun a => f a
  end.
(** the multivector it stands for *)
Definition mvof {k} : ent k R -> mv :=
  match k with
  | KPlane => mv_plane | KPoint => mv_point | KDirection => mv_direction | KIdeal => mv_ideal
  | KBranch => mv_branch | KLine => mv_line | KRotor => mv_rotor | KTranslator => mv_translator
  | KMotor => mv_motor | KDual => mv_dual | KScalar => scalar_mv
  end.
Definition wfe {k} : ent k R -> Prop :=
  match k with
  | KDirection => wf_direction | KIdeal => wf_ideal | KBranch => wf_branch | KLine => wf_line
  | KTranslator => wf_translator | _ => fun _ => True
  end.
(** without the implicit 1 of a translator *)
Definition hom {k} : ent k R -> mv :=
  match k with KTranslator => fun a => mv_p12 (mk4 0 0 0 0) (translator_p2 a) | _ => mvof end.
Definition vreg (o : nat) : m128 expr := mk4 (EVar o) (EVar (1 + o)) (EVar (2 + o)) (EVar (3 + o)).
Definition var (k : kind) (o : nat) : ent k expr :=
  match k with
  | KPlane => mkplane (vreg o) | KPoint => mkpoint (vreg o) | KDirection => mkdirection (vreg o)
  | KIdeal => mkideal_line (vreg o) | KBranch => mkbranch (vreg o) | KLine => mkline (vreg o) (vreg (4 + o))
  | KRotor => mkrotor (vreg o) | KTranslator => mktranslator (vreg o) | KMotor => mkmotor (vreg o) (vreg (4 + o))
  | KDual => mkdual (EVar o) (EVar (1 + o)) | KScalar => EVar o
  end.
Definition env {k1 k2 F} (z : F) (a : ent k1 F) (b : ent k2 F) (n : nat) : F :=
  if Nat.ltb n 8 then nth n (coefs a) z else nth (n - 8) (coefs b) z.

Ltac ents := repeat match goal with
  | x : ent ?k _ |- _ => destruct k; cbn in x
  | x : plane _ |- _ => destruct x as [[? ? ? ?]]
  | x : point _ |- _ => destruct x as [[? ? ? ?]]
  | x : direction _ |- _ => destruct x as [[? ? ? ?]]
  | x : ideal_line _ |- _ => destruct x as [[? ? ? ?]]
  | x : branch _ |- _ => destruct x as [[? ? ? ?]]
  | x : line _ |- _ => destruct x as [[? ? ? ?] [? ? ? ?]]
  | x : rotor _ |- _ => destruct x as [[? ? ? ?]]
  | x : translator _ |- _ => destruct x as [[? ? ? ?]]
  | x : motor _ |- _ => destruct x as [[? ? ? ?] [? ? ? ?]]
  | x : dual _ |- _ => destruct x as [? ?]
  end.
Lemma env_a {k1 k2 F} `{A : Arith F} z (a : ent k1 F) (b : ent k2 F) : emap (eval (env z a b)) (var k1 0) = a.
Proof. destruct k1; cbn in a; ents; reflexivity. Qed.
Lemma env_b {k1 k2 F} `{A : Arith F} z (a : ent k1 F) (b : ent k2 F) : emap (eval (env z a b)) (var k2 8) = b.
Proof. destruct k2; cbn in b; ents; reflexivity. Qed.
Lemma coefs_emap {k F G} (f : F -> G) (a : ent k F) : coefs (emap f a) = map f (coefs a).
Proof. destruct k; reflexivity. Qed.
Lemma emap_emap {k F G H} (f : F -> G) (g : G -> H) (a : ent k F) : emap g (emap f a) = emap (fun x => g (f x)) a.
Proof. destruct k; reflexivity. Qed.
Lemma emap_ext {k F G} (f g : F -> G) (a : ent k F) : Forall (fun x => f x = g x) (coefs a) -> emap f a = emap g a.
Proof.
  destruct k; cbn; intro H; unfold reg_list in H; cbn in H;
  repeat match goal with H : Forall _ (_ :: _) |- _ => inversion_clear H end;
  cbv beta in *; unfold map4; congruence.
Qed.
Lemma env_emap {k1 k2 F G} (f : F -> G) z (a : ent k1 F) (b : ent k2 F) n :
  f (env z a b n) = env (f z) (emap f a) (emap f b) n.
Proof.
  unfold env. rewrite !coefs_emap. destruct (Nat.ltb n 8).
  - symmetry. apply map_nth.
  - symmetry. apply map_nth.
Qed.
Lemma env_all {k1 k2 F} (Q : F -> Prop) z (a : ent k1 F) (b : ent k2 F) n :
  Q z -> Forall Q (coefs a) -> Forall Q (coefs b) -> Q (env z a b n).
Proof.
  intros Hz Ha Hb. unfold env. rewrite Forall_forall in Ha, Hb. destruct (Nat.ltb n 8).
  - destruct (nth_in_or_default n (coefs a) z) as [I | ->]; auto.
  - destruct (nth_in_or_default (n - 8) (coefs b) z) as [I | ->]; auto.
Qed.
Lemma eval_ext {F} `{A : Arith F} (x y : nat -> F) e : (forall n, x n = y n) -> eval x e = eval y e.
Proof. intro H. induction e; cbn; congruence. Qed.
Lemma absv_ext (x y : nat -> R) e : (forall n, x n = y n) -> absv x e = absv y e.
Proof. intro H. induction e; cbn; try congruence. destruct (cancels e1 e2); congruence. Qed.

(** ** Operations *)
Definition op2 (k1 k2 k3 : kind) := forall F, Arith F -> ent k1 F -> ent k2 F -> ent k3 F.
(** an operation only combines its operands: running it is evaluating what it does to variables *)
Definition natural {k1 k2 k3} (op : op2 k1 k2 k3) : Prop := forall F (A : Arith F) (x : nat -> F),
  op F A (emap (eval x) (var k1 0)) (emap (eval x) (var k2 8)) =
  emap (eval x) (op expr Arith_expr (var k1 0) (var k2 8)).
Definition code {k1 k2 k3} (op : op2 k1 k2 k3) : ent k3 expr := op expr Arith_expr (var k1 0) (var k2 8).
Lemma natural_code {k1 k2 k3} (op : op2 k1 k2 k3) F (A : Arith F) z a b : natural op ->
  op F A a b = emap (eval (env z a b)) (code op).
Proof. intro N. unfold code. rewrite <- (N F A (env z a b)), env_a, env_b. reflexivity. Qed.

(** *** Integers *)
Definition integer (N : Z) (x : f32) : Prop := fin x /\ exists k : Z, val x = IZR k /\ (Z.abs k <= N)%Z.
Lemma integer_zero N : (0 <= N)%Z -> integer N (B754_zero false).
Proof. intro H. split; [reflexivity|]. exists 0%Z. split; [reflexivity|lia]. Qed.
Lemma eval_IZR (k : nat -> Z) e : eval (A := Arith_R) (fun n => IZR (k n)) e = IZR (eval (A := Arith_Z) k e).
Proof. induction e; cbn; rewrite ?plus_IZR, ?minus_IZR, ?mult_IZR, ?opp_IZR; congruence. Qed.
Definition val_Z (x : f32) : Z := Zfloor (val x).
Theorem op_exact {k1 k2 k3} (op : op2 k1 k2 k3) N : natural op -> (0 <= N)%Z ->
  forallb (small N (2 ^ 24)) (coefs (code op)) = true ->
  forall a b, Forall (integer N) (coefs a) -> Forall (integer N) (coefs b) ->
  Forall fin (coefs (op f32 _ a b)) /\ emap val (op f32 _ a b) = op R _ (emap val a) (emap val b).
Proof.
  intros Nat HN C a b Ha Hb.
  set (x := env (B754_zero false : f32) a b).
  assert (X : forall n, fin (x n) /\ val (x n) = IZR (val_Z (x n)) /\ (Z.abs (val_Z (x n)) <= N)%Z).
  { intro n. destruct (env_all (integer N) (B754_zero false) a b n (integer_zero N HN) Ha Hb) as (F & k & V & B).
    fold x in F, V. unfold val_Z. rewrite V, Zfloor_IZR. auto. }
  rewrite (natural_code op f32 _ (B754_zero false) a b Nat). fold x.
  rewrite (natural_code op R _ (val (B754_zero false)) (emap val a) (emap val b) Nat).
  rewrite forallb_forall in C. split.
  - rewrite coefs_emap, Forall_forall. intros v I. apply in_map_iff in I. destruct I as (e & <- & I).
    apply (integers_exact x (fun n => val_Z (x n)) N e HN X (C e I)).
  - rewrite emap_emap. apply emap_ext. rewrite Forall_forall. intros e I.
    destruct (integers_exact x (fun n => val_Z (x n)) N e HN X (C e I)) as (_ & V & _). rewrite V.
    rewrite <- eval_IZR. apply eval_ext. intro n. rewrite <- (env_emap val). fold x. symmetry. apply X.
Qed.

(** *** Rounding *)
(** zero, or between 2^lo and 2^hi in magnitude *)
Definition safe (lo hi : Z) (x : f32) : Prop :=
  fin x /\ (val x = 0 \/ bpow radix2 lo <= Rabs (val x) <= bpow radix2 hi).
Lemma safe_onto lo hi x : (-126 <= lo)%Z -> safe lo hi x -> onto (lo - 23) (val x).
Proof.
  intros L [F [-> | [G _]]].
  - exists 0%Z. ring.
  - assert (N : val x <> 0). { intro E. rewrite E, Rabs_R0 in G. pose proof (bpow_gt_0 radix2 lo). lra. }
    pose proof (val_format x) as K. unfold generic_format in K.
    apply (onto_weaken (cexp radix2 fexp32 (val x))).
    + unfold cexp, FLT_exp. assert (lo + 1 <= mag radix2 (val x))%Z by (apply mag_ge_bpow; replace (lo + 1 - 1)%Z with lo by lia; exact G). lia.
    + rewrite K at 2. unfold F2R. cbn. eexists. reflexivity.
Qed.
Lemma safe_zero lo hi : safe lo hi (B754_zero false).
Proof. split; [reflexivity|left; reflexivity]. Qed.
Definition fits (lo hi : Z) (e : expr) : bool :=
  ((23 - lo) * deg e <=? 149)%Z && small (2 ^ hi) (2 ^ 126) e && (dep e <=? 64)%nat.
Lemma hom_diff {k} (f g h : expr -> R) (c : ent k expr) : Forall (fun e => Rabs (f e - g e) <= h e) (coefs c) ->
  forall i, Rabs (hom (emap f c) i - hom (emap g c) i) <= Rabs (hom (emap h c) i).
Proof.
  intros H i. assert (Z : forall x, Rabs (x - x) <= Rabs x) by (intro x; rewrite Rminus_diag_eq, Rabs_R0 by reflexivity; apply Rabs_pos).
  assert (N : forall x y z, Rabs (x - y) <= z -> Rabs (- x - - y) <= Rabs (- z)).
  { intros x y z K. rewrite Rabs_Ropp. replace (- x - - y) with (- (x - y)) by ring. rewrite Rabs_Ropp.
    eapply Rle_trans; [exact K|apply Rle_abs]. }
  assert (M : forall x y z, Rabs (x - y) <= z -> Rabs (x - y) <= Rabs z) by (intros x y z K; eapply Rle_trans; [exact K|apply Rle_abs]).
  destruct k; cbn in c; ents; cbn in H; unfold reg_list in H; cbn in H; repeat match goal with H : Forall _ (_ :: _) |- _ => inversion_clear H end;
  destruct i as [[|] [|] [|] [|]]; cbv -[Rplus Rmult Ropp Rminus Rabs IZR Rle];
  repeat match goal with |- context [IZR 0 + ?x] => rewrite (Rplus_0_l x) | |- context [?x + IZR 0] => rewrite (Rplus_0_r x)
     | |- context [- 0] => rewrite Ropp_0 end;
  try (apply N; assumption); try (apply M; assumption); try apply Z.
  all: rewrite ?Rmult_1_r, ?Rmult_0_r; try (apply M; assumption); try apply Z.
Qed.
Lemma hom_scale {k} c (f : expr -> R) (x : ent k expr) i : hom (emap (fun e => c * f e) x) i = c * hom (emap f x) i.
Proof. destruct k; destruct i as [[|] [|] [|] [|]]; mvcbv; ring. Qed.
Lemma mvof_hom {k} (x y : ent k R) i : mvof x i - mvof y i = hom x i - hom y i.
Proof. destruct k; try reflexivity. destruct i as [[|] [|] [|] [|]]; mvcbv; ring. Qed.

(** an expression times the number of its roundings *)
Definition weigh (e : expr) : expr := EMul (ECst (Z.of_nat (dep e))) e.
Theorem op_error {k1 k2 k3} (op : op2 k1 k2 k3) lo hi : natural op -> (-126 <= lo <= 0)%Z -> (0 <= hi)%Z ->
  forallb (fits lo hi) (coefs (code op)) = true ->
  forall a b, Forall (safe lo hi) (coefs a) -> Forall (safe lo hi) (coefs b) ->
  Forall fin (coefs (op f32 _ a b)) /\
  forall i, Rabs (mvof (emap val (op f32 _ a b)) i - mvof (op R _ (emap val a) (emap val b)) i) <=
    u * (1 + / 100000) * Rabs (hom (emap (absv (env 0 (emap val a) (emap val b))) (emap weigh (code op))) i).
Proof.
  intros Nat Hlo Hhi C a b Ha Hb.
  set (x := env (B754_zero false : f32) a b).
  set (y := env 0 (emap val a) (emap val b)).
  assert (Y : forall n, val (x n) = y n) by (intro n; apply (env_emap val)).
  assert (X : forall n, fin (x n) /\ Rabs (val (x n)) <= IZR (2 ^ hi) /\ onto (- (23 - lo)) (val (x n))).
  { intro n. pose proof (env_all (safe lo hi) (B754_zero false) a b n (safe_zero lo hi) Ha Hb) as S. fold x in S.
    split; [apply S|]. split.
    - rewrite (IZR_Zpower radix2) by exact Hhi. destruct S as [_ [-> | [_ S]]]; [rewrite Rabs_R0; apply bpow_ge_0|exact S].
    - replace (- (23 - lo))%Z with (lo - 23)%Z by ring. apply (safe_onto lo hi); [lia|exact S]. }
  rewrite (natural_code op f32 _ (B754_zero false) a b Nat). fold x.
  rewrite (natural_code op R _ 0 (emap val a) (emap val b) Nat). fold y.
  rewrite forallb_forall in C.
  assert (K : forall e, In e (coefs (code op)) -> fin (eval x e) /\
    Rabs (val (eval x e) - eval (A := Arith_R) y e) <= u * (1 + / 100000) * absv y (weigh e)).
  { intros e I. specialize (C e I). unfold fits in C. apply andb_prop in C. destruct C as [C C3]. apply andb_prop in C. destruct C as [C1 C2].
    apply Z.leb_le in C1. apply Nat.leb_le in C3.
    destruct (rounding_error x (23 - lo) (2 ^ hi) e ltac:(lia) ltac:(apply Z.pow_nonneg; lia) X C1 C2 C3) as (F & _ & E).
    split; [exact F|]. rewrite (eval_ext _ y e Y), (absv_ext _ y e Y) in E. eapply Rle_trans; [exact E|].
    cbn [weigh absv]. rewrite Z.abs_eq by lia. rewrite <- INR_IZR_INZ.
    replace (u * (1 + / 100000) * (INR (dep e) * absv y e)) with (INR (dep e) * u * (1 + / 100000) * absv y e) by ring.
    apply Rmult_le_compat_r; [apply absv_nonneg|]. apply P_lin. exact C3. }
  split.
  - rewrite coefs_emap, Forall_forall. intros v I. apply in_map_iff in I. destruct I as (e & <- & I). apply (K e I).
  - intro i. rewrite emap_emap, mvof_hom. eapply Rle_trans.
    + apply (hom_diff _ _ (fun e => u * (1 + / 100000) * absv y (weigh e))). rewrite Forall_forall. intros e I. apply (K e I).
    + rewrite (hom_scale (u * (1 + / 100000)) (fun e => absv y (weigh e))), Rabs_mult, (Rabs_right (u * (1 + / 100000))).
      2: unfold u; lra. rewrite (emap_emap weigh (absv y)). lra.
Qed.
