(** Properties C30, C31, C39, C44, C45, C61: the shader port, the C bindings,
    constrain, the linear structure, well-formedness, loads and stores. *)
From Coq Require Import Reals ZArith Lra Lia Setoid Morphisms List Bool.
From Verif Require Import AlgTac SpecGeom FloR Closed Geom AlgGP AlgSW AlgNorm Motion Wf Glsl CApi MemIO
  KernelSW KernelMat KernelGP KernelEI KernelExpLog.
From Verif Require AlgInv ExpSeries Props05.
Import ListNotations.
Local Open Scope R_scope.

(** * C30 *)
Ltac eqlanes := opn; gcbv; repeat match goal with
  | |- @eq R _ _ => ring
  | |- _ = _ => f_equal
  end.
Theorem C30_glsl : forall B : Build,
  (forall a b : rotor R, glsl_mul_rotor a b = rotor_mul_rotor a b) /\
  (forall a b : translator R, glsl_mul_translator a b = translator_mul_translator a b) /\
  (forall a b : motor R, glsl_mul_motor a b = motor_mul_motor a b) /\
  (forall (r : rotor R) p, glsl_apply_rotor_plane r p = rotor_on_plane r p) /\
  (forall (m : motor R) p, glsl_apply_motor_plane m p = motor_on_plane m p) /\
  (forall (r : rotor R) x, glsl_apply_rotor_point r x = rotor_on_point r x) /\
  (forall (m : motor R) x, glsl_apply_motor_point m x = motor_on_point m x) /\
  (forall m : motor R, glsl_apply_motor_origin m = motor_on_origin m).
Proof.
  intro B. split; [eqlanes|]. split; [eqlanes|]. split; [eqlanes|]. split; [eqlanes|].
  split; [eqlanes|]. split; [eqlanes|]. split; eqlanes.
Qed.
(** Hence the shader computes the products and the sandwiches themselves. *)
Theorem C30_glsl_spec :
  (forall a b : rotor R, mv_rotor (glsl_mul_rotor a b) == gp (mv_rotor a) (mv_rotor b)) /\
  (forall a b : motor R, mv_motor (glsl_mul_motor a b) == gp (mv_motor a) (mv_motor b)) /\
  (forall (r : rotor R) p, mv_plane (glsl_apply_rotor_plane r p) == sandwich (mv_rotor r) (mv_plane p)) /\
  (forall (m : motor R) p, mv_plane (glsl_apply_motor_plane m p) == sandwich (mv_motor m) (mv_plane p)) /\
  (forall (r : rotor R) x, mv_point (glsl_apply_rotor_point r x) == sandwich (mv_rotor r) (mv_point x)) /\
  (forall (m : motor R) x, mv_point (glsl_apply_motor_point m x) == sandwich (mv_motor m) (mv_point x)).
Proof.
  destruct (C30_glsl SSE3) as (H1 & _ & H3 & H4 & H5 & H6 & H7 & _).
  split; [intros; rewrite H1; apply (rotor_mul_rotor_gp SSE3)|].
  split; [intros; rewrite H3; apply (motor_mul_motor_gp SSE3)|].
  split; [intros; rewrite H4; apply (rotor_on_plane_sw SSE3)|].
  split; [intros; rewrite H5; apply (motor_on_plane_sw SSE3)|].
  split; [intros; rewrite H6; apply (rotor_on_point_sw SSE3)|].
  intros; rewrite H7; apply (motor_on_point_sw SSE3).
Qed.
(** test/test_glsl? replayed over the integers: one motor, one plane *)
Example C30_ex : glsl_apply_motor_plane (motor_ctor 1 4 3 2 5 6 7 8)%Z (plane_ctor 3 2 1 (-1))%Z
  = motor_on_plane (B := SSE3) (motor_ctor 1 4 3 2 5 6 7 8)%Z (plane_ctor 3 2 1 (-1))%Z.
Proof. vm_compute. reflexivity. Qed.

(** * C31 *)
Section C31.
Context (rcp rsqrt : R -> R) (sz : bool) (Hrcp : exact_rcp rcp).
Local Instance FL7 : Flo R := Flo_R rcp rsqrt sz.

(** what the header comments promise, where they agree with the code *)
Theorem C31_c_api_partial : forall B : Build,
  (forall a b c d, mv_plane (kln_plane_init a b c d)
     == mvadd (mvadd (mvadd (mvscale a e1) (mvscale b e2)) (mvscale c e3)) (mvscale d e0)) /\
  (forall p x, mv_point (kln_reflect_point p x) == sandwich (mv_plane p) (mv_point x)) /\
  (forall p l, wf_line l -> mv_line (kln_reflect_line p l) == sandwich (mv_plane p) (mv_line l)) /\
  (forall p q, mv_plane (kln_reflect_plane p q) == sandwich (mv_plane p) (mv_plane q)) /\
  (forall r x, mv_point (kln_rotate_point r x) == sandwich (mv_rotor r) (mv_point x)) /\
  (forall r l, wf_line l -> mv_line (kln_rotate_line r l) == sandwich (mv_rotor r) (mv_line l)) /\
  (forall r p, mv_plane (kln_rotate_plane r p) == sandwich (mv_rotor r) (mv_plane p)) /\
  (forall t x, wf_translator t -> mv_point (kln_translate_point t x) == sandwich (mv_translator t) (mv_point x)) /\
  (forall t l, wf_translator t -> wf_line l ->
     mv_line (kln_translate_line t l) == sandwich (mv_translator t) (mv_line l)) /\
  (forall m x, mv_point (kln_motor_point m x) == sandwich (mv_motor m) (mv_point x)) /\
  (forall m l, wf_line l -> mv_line (kln_motor_line m l) == sandwich (mv_motor m) (mv_line l)) /\
  (forall m p, mv_plane (kln_motor_plane m p) == sandwich (mv_motor m) (mv_plane p)) /\
  (forall a b, mv_rotor (kln_compose_rotors a b) == gp (mv_rotor b) (mv_rotor a)) /\
  (forall a b, wf_translator a -> wf_translator b ->
     mv_translator (kln_compose_translators a b) == gp (mv_translator b) (mv_translator a)) /\
  (forall r t, wf_translator t -> mv_motor (kln_compose_rotor_translator r t) == gp (mv_translator t) (mv_rotor r)) /\
  (forall t r, wf_translator t -> mv_motor (kln_compose_translator_rotor t r) == gp (mv_rotor r) (mv_translator t)) /\
  (forall a b, mv_motor (kln_compose_motors a b) == gp (mv_motor b) (mv_motor a)).
Proof.
  intro B.
  split; [intros; mvring|].
  split; [apply (plane_on_point_sw B)|]. split; [apply (plane_on_line_sw B)|].
  split; [apply (plane_on_plane_sw B)|].
  split; [apply (rotor_on_point_sw B)|]. split; [apply (rotor_on_line_sw B)|].
  split; [apply (rotor_on_plane_sw B)|].
  split; [apply (translator_on_point_sw B)|]. split; [apply (translator_on_line_sw B)|].
  split; [apply (motor_on_point_sw B)|]. split; [apply (motor_on_line_sw B)|].
  split; [apply (motor_on_plane_sw B)|].
  split; [intros; apply (rotor_mul_rotor_gp B)|].
  split; [intros; apply (translator_mul_translator_gp B)|].
  split; [intros; apply (translator_mul_rotor_gp B); assumption|].
  split; [intros; apply (rotor_mul_translator_gp B); assumption|].
  intros; apply (motor_mul_motor_gp B).
Qed.

(** kln_line_init (klein.h 75-84) documents d e12 + e e31 + f e23; the code
    puts d in e23 and f in e12 *)
Definition documented_line (a b c d e f : R) : mv :=
  mvadd (mvadd (mvadd (mvadd (mvadd (mvscale a (gp e0 e1)) (mvscale b (gp e0 e2))) (mvscale c (gp e0 e3)))
    (mvscale d (gp e1 e2))) (mvscale e (gp e3 e1))) (mvscale f (gp e2 e3)).
Theorem C31_line_init : forall a b c d e f,
  mv_line (kln_line_init a b c d e f) == documented_line a b c f e d /\
  (mv_line (kln_line_init a b c d e f) == documented_line a b c d e f <-> d = f).
Proof.
  intros. assert (H : mv_line (kln_line_init a b c d e f) == documented_line a b c f e d) by mvring.
  split; [exact H|]. split.
  - intro K. assert (K1 := K (Bl false false true true)). revert K1. mvcbv. lra.
  - intros ->. exact H.
Qed.
Theorem C31_line_init_refuted : exists a b c d e f,
  ~ mv_line (kln_line_init a b c d e f) == documented_line a b c d e f.
Proof.
  exists 0, 0, 0, 1, 0, 0. intro K. apply (proj1 (proj2 (C31_line_init 0 0 0 1 0 0))) in K. lra.
Qed.
(** kln_point_init (klein.h 94-96) documents e123 + x e023 + y e031 + z e012;
    that trivector is the point (-x,-y,-z), the code builds (x,y,z) *)
Definition documented_point (x y z : R) : mv :=
  mvadd (mvadd (mvadd (gp e1 (gp e2 e3)) (mvscale x (gp e0 (gp e2 e3)))) (mvscale y (gp e0 (gp e3 e1))))
    (mvscale z (gp e0 (gp e1 e2))).
Theorem C31_point_init : forall x y z,
  mv_point (kln_point_init x y z) == documented_point (- x) (- y) (- z) /\
  pos (kln_point_init x y z) = V x y z /\
  (mv_point (kln_point_init x y z) == documented_point x y z <-> x = 0 /\ y = 0 /\ z = 0).
Proof.
  intros. assert (H : mv_point (kln_point_init x y z) == documented_point (- x) (- y) (- z)) by mvring.
  split; [exact H|]. split.
  - apply vec_eq; gcbv; field.
  - split.
    + intro K. assert (K1 := K (Bl true false true true)). assert (K2 := K (Bl true true false true)).
      assert (K3 := K (Bl true true true false)). revert K1 K2 K3. mvcbv. intros. repeat split; lra.
    + intros (-> & -> & ->). rewrite !Ropp_0 in H. exact H.
Qed.
Theorem C31_point_init_refuted : exists x y z, ~ mv_point (kln_point_init x y z) == documented_point x y z.
Proof. exists 1, 0, 0. intro K. apply (proj1 (proj2 (proj2 (C31_point_init 1 0 0)))) in K. lra. Qed.
(** kln_compose_translator_rotor (klein.h 157-159) documents translator * rotor
    and computes rotor * translator: the origin ends up on the wrong side *)
Theorem C31_compose_translator_rotor_refuted : forall B : Build, exists t r, wf_translator t /\ unit (mv_rotor r) /\
  ~ mv_motor (kln_compose_translator_rotor t r) == gp (mv_translator t) (mv_rotor r) /\
  pos (motor_on_origin (kln_compose_translator_rotor t r)) = V 2 0 0 /\
  pos (motor_on_origin (kln_compose_rotor_translator r t)) = V (-2) 0 0.
Proof.
  intro B. exists (mktranslator (mk4 0 1 0 0)), (mkrotor (mk4 0 0 1 0)).
  split; [reflexivity|]. split; [apply unit_rotor_iff; gcbv; ring|]. split.
  - intro K. assert (K1 := K (Bl true false false true)). revert K1. mvcbv. lra.
  - split; apply vec_eq; gcbv; field.
Qed.
Example C31_ex : wf_line (kln_line_init 1 2 3 4 5 6) /\ pos (kln_point_init 1 2 3) = V 1 2 3.
Proof. split; [split; reflexivity|]. apply C31_point_init. Qed.
Theorem C31_translate_plane : forall (B : Build) t p, wf_translator t ->
  mv_plane (kln_translate_plane t p) == sandwich (mv_translator t) (mv_plane p).
Proof. intros B t p W. exact (AlgInv.translator_on_plane_sw rcp rsqrt sz Hrcp B t p W). Qed.
(** the exponential and the logarithm exported to C (klein_c.cpp 171-179) *)
Theorem C31_exp_log : exact_rsqrt rsqrt -> forall B : Build,
  (forall l, wf_line l -> ExpSeries.is_exp (mv_line l) (mv_motor (line_exp_c l))) /\
  (forall m, unit (mv_motor m) -> 0 < dot3 (motor_p1 m) (motor_p1 m) -> 1 / 1000000 <= Rabs (motor_scalar m) ->
     ExpSeries.is_exp (mv_line (motor_log_c m)) (mv_motor m)).
Proof.
  intros Hrsq B. assert (E := proj1 (Props05.C19_exp_series_partial rcp rsqrt sz Hrcp Hrsq B)).
  split; [exact E|]. intros m U N C. assert (L := proj1 (Props05.C20_exp_log_partial rcp rsqrt sz Hrcp Hrsq B m U) N C).
  exact (eq_ind _ (fun x => ExpSeries.is_exp (mv_line (motor_log_c m)) (mv_motor x)) (E _ (wf_motor_log rcp rsqrt sz B m U)) _ L).
Qed.
Example C31_exp_ex : let m := mkmotor (mk4 (3/5) 0 (4/5) 0) (mk4 4 7 3 9) in
  unit (mv_motor m) /\ 0 < dot3 (motor_p1 m) (motor_p1 m) /\ 1 / 1000000 <= Rabs (motor_scalar m).
Proof. exact Props05.C20_ex. Qed.
End C31.

(** * C39 *)
Section C39.
Context (rcp rsqrt : R -> R) (sz : bool).
Local Instance FL39 : Flo R := Flo_R rcp rsqrt sz.

Theorem C39_constrain : forall B : Build,
  (forall r, (rotor_constrained r = r \/ rotor_constrained r = rotor_neg r) /\
     0 <= rotor_scalar (rotor_constrained r) /\
     (forall x, rotor_on_point (rotor_constrained r) x = rotor_on_point r x) /\
     (forall x, rotor_on_plane (rotor_constrained r) x = rotor_on_plane r x) /\
     (forall x, rotor_on_line (rotor_constrained r) x = rotor_on_line r x) /\
     (forall x, rotor_on_branch (rotor_constrained r) x = rotor_on_branch r x) /\
     (forall x, rotor_on_direction (rotor_constrained r) x = rotor_on_direction r x)) /\
  (forall m, (motor_constrained m = m \/ motor_constrained m = motor_neg m) /\
     0 <= motor_scalar (motor_constrained m) /\
     (forall x, motor_on_point (motor_constrained m) x = motor_on_point m x) /\
     (forall x, motor_on_plane (motor_constrained m) x = motor_on_plane m x) /\
     (forall x, motor_on_line (motor_constrained m) x = motor_on_line m x) /\
     (forall x, motor_on_direction (motor_constrained m) x = motor_on_direction m x)).
Proof.
  intro B. split.
  - intro r. assert (E : (rotor_constrained r = r /\ 0 <= rotor_scalar r) \/
                         (rotor_constrained r = rotor_neg r /\ 0 <= rotor_scalar (rotor_neg r))).
    { destruct r as [[r0 r1 r2 r3]]. unfold rotor_constrained, rotor_neg, sign_mask, rotor_scalar.
      cbn. destruct (Rlt_dec r0 0); [right; split; [reflexivity|lra]|].
      destruct (Req_EM_T r0 0); [|left; split; [reflexivity|lra]].
      subst. destruct sz; [right|left]; split; (reflexivity || lra). }
    destruct E as [[-> H] | [-> H]].
    + repeat split; auto.
    + split; [auto|]. split; [exact H|]. clear H. repeat split; eqlanes.
  - intro m. assert (E : (motor_constrained m = m /\ 0 <= motor_scalar m) \/
                         (motor_constrained m = motor_neg m /\ 0 <= motor_scalar (motor_neg m))).
    { destruct m as [[r0 r1 r2 r3] [s0 s1 s2 s3]]. unfold motor_constrained, motor_neg, sign_mask, motor_scalar.
      cbn. destruct (Rlt_dec r0 0); [right; split; [reflexivity|lra]|].
      destruct (Req_EM_T r0 0); [|left; split; [reflexivity|lra]].
      subst. destruct sz; [right|left]; split; (reflexivity || lra). }
    destruct E as [[-> H] | [-> H]].
    + repeat split; auto.
    + split; [auto|]. split; [exact H|]. clear H. repeat split; eqlanes.
Qed.
Example C39_ex : rotor_constrained (mkrotor (mk4 (-3/5) 0 (4/5) 0)) = mkrotor (mk4 (3/5) (-0) (-(4/5)) (-0)).
Proof.
  unfold rotor_constrained, sign_mask. cbn. destruct (Rlt_dec (-3/5) 0); [|lra]. cbv -[Rdiv Ropp IZR].
  f_equal. f_equal; lra.
Qed.
End C39.
(** Constraining twice changes nothing, in any arithmetic in which negation
    flips the sign bit (as xor with -0.f does for every float, NaN included). *)
Theorem C39_idempotent : forall (F : Type) (FL : Flo F), (forall x : F, fsign (fopp x) = negb (fsign x)) ->
  (forall r : rotor F, fsign (rotor_scalar (rotor_constrained r)) = false /\
     rotor_constrained (rotor_constrained r) = rotor_constrained r) /\
  (forall m : motor F, fsign (motor_scalar (motor_constrained m)) = false /\
     motor_constrained (motor_constrained m) = motor_constrained m).
Proof.
  intros F FL H. split.
  - intros [[r0 r1 r2 r3]]. unfold rotor_constrained, sign_mask, rotor_scalar. cbn.
    destruct (fsign r0) eqn:E; cbn; rewrite ?H, ?E; cbn; auto.
  - intros [[r0 r1 r2 r3] [s0 s1 s2 s3]]. unfold motor_constrained, sign_mask, motor_scalar. cbn.
    destruct (fsign r0) eqn:E; cbn; rewrite ?H, ?E; cbn; auto.
Qed.

(** * C44 *)
(** [emb] turns every listed operator into the multivector operation. *)
Definition linear {T} (emb : T -> mv) (adds subs : list (T -> T -> T))
    (muls : list (T -> R -> T)) (muls_i : list (T -> Z -> T)) (divs : list (T -> R -> T)) (divs_i : list (T -> Z -> T)) : Prop :=
  Forall (fun f => forall a b, emb (f a b) == mvadd (emb a) (emb b)) adds /\
  Forall (fun f => forall a b, emb (f a b) == mvsub (emb a) (emb b)) subs /\
  Forall (fun f => forall a s, emb (f a s) == mvscale s (emb a)) muls /\
  Forall (fun f => forall a n, emb (f a n) == mvscale (IZR n) (emb a)) muls_i /\
  Forall (fun f => forall a s, s <> 0 -> emb (f a s) == mvscale (/ s) (emb a)) divs /\
  Forall (fun f => forall a n, n <> 0%Z -> emb (f a n) == mvscale (/ IZR n) (emb a)) divs_i.
Definition swp {A B C} (f : A -> B -> C) : B -> A -> C := fun b a => f a b.

Section C44.
Context (rcp rsqrt : R -> R) (sz : bool) (Hrcp : exact_rcp rcp).
Local Instance FL44 : Flo R := Flo_R rcp rsqrt sz.
(** the displacement part of a translator (its scalar 1 is implicit) *)
Definition mv_disp (t : translator R) : mv := mv_p2 (translator_p2 t).

Lemma div_factor s : s <> 0 -> rcp_nr1 (_mm_set1_ps s) = _mm_set1_ps (/ s).
Proof.
  intro H. unfold rcp_nr1, _mm_rcp_ps, _mm_set1_ps, map4. cbn. rewrite (Hrcp s H).
  unfold _mm_mul_ps, _mm_sub_ps, map4_2. cbn. f_equal; field; exact H.
Qed.
Ltac lin1 := intros; repeat open1; unfold swp; mvring.
Ltac lind := intros; unfold FL44, plane_div_i, point_div_i, direction_div_i, ideal_line_div_i, branch_div_i, line_div_i,
    rotor_div_i, translator_div_i, motor_div_i,
    plane_div_f, point_div_f, direction_div_f, ideal_line_div_f, branch_div_f, line_div_f, rotor_div_f, translator_div_f, motor_div_f,
    plane_idiv_f, point_idiv_f, direction_idiv_f, ideal_line_idiv_f, branch_idiv_f, line_idiv_f, rotor_idiv_f, translator_idiv_f, motor_idiv_f,
    plane_idiv_i, point_idiv_i, direction_idiv_i, ideal_line_idiv_i, branch_idiv_i, line_idiv_i, rotor_idiv_i, translator_idiv_i, motor_idiv_i;
  change (Flo_R rcp rsqrt sz) with FL44;
  repeat match goal with |- context [@fz R ?I ?n] => change (@fz R I n) with (IZR n) end;
  rewrite div_factor by (assumption || (apply not_0_IZR; assumption));
  match goal with |- context [/ ?s] => generalize (/ s) end; intro; repeat open1; mvring.
Ltac lall := unfold linear; repeat split;
  repeat match goal with |- Forall _ (_ :: _) => apply Forall_cons | |- Forall _ [] => apply Forall_nil end;
  first [solve [lin1] | solve [lind] |
    intros; repeat open1; let k := fresh "k" in intro k; destruct k as [[|] [|] [|] [|]]; mvcbv; field; assumption].

Theorem C44_linear :
  linear mv_plane [plane_add; plane_iadd] [plane_sub; plane_isub] [plane_mul_f; plane_imul_f; swp f_mul_plane]
    [plane_mul_i; plane_imul_i; swp i_mul_plane] [plane_div_f; plane_idiv_f] [plane_div_i; plane_idiv_i] /\
  linear mv_point [point_add; point_iadd] [point_sub; point_isub] [point_mul_f; point_imul_f; swp f_mul_point]
    [point_mul_i; point_imul_i; swp i_mul_point] [point_div_f; point_idiv_f] [point_div_i; point_idiv_i] /\
  linear mv_direction [direction_add; direction_iadd] [direction_sub; direction_isub]
    [direction_mul_f; direction_imul_f; swp f_mul_direction]
    [direction_mul_i; direction_imul_i; swp i_mul_direction] [direction_div_f; direction_idiv_f] [direction_div_i; direction_idiv_i] /\
  linear mv_ideal [ideal_line_add; ideal_line_iadd] [ideal_line_sub; ideal_line_isub]
    [ideal_line_mul_f; ideal_line_imul_f; swp f_mul_ideal_line]
    [ideal_line_mul_i; ideal_line_imul_i; swp i_mul_ideal_line] [ideal_line_div_f; ideal_line_idiv_f]
    [ideal_line_div_i; ideal_line_idiv_i] /\
  linear mv_branch [branch_add; branch_iadd] [branch_sub; branch_isub] [branch_mul_f; branch_imul_f; swp f_mul_branch]
    [branch_mul_i; branch_imul_i; swp i_mul_branch] [branch_div_f; branch_idiv_f] [branch_div_i; branch_idiv_i] /\
  linear mv_line [line_add; line_iadd] [line_sub; line_isub] [line_mul_f; line_imul_f; swp f_mul_line]
    [line_mul_i; line_imul_i; swp i_mul_line] [line_div_f; line_idiv_f] [line_div_i; line_idiv_i] /\
  linear mv_rotor [rotor_add; rotor_iadd] [rotor_sub; rotor_isub] [rotor_mul_f; rotor_imul_f; swp f_mul_rotor]
    [rotor_mul_i; rotor_imul_i; swp i_mul_rotor] [rotor_div_f; rotor_idiv_f] [rotor_div_i; rotor_idiv_i] /\
  linear mv_disp [translator_add; translator_iadd] [translator_sub; translator_isub]
    [translator_mul_f; translator_imul_f; swp f_mul_translator]
    [translator_mul_i; translator_imul_i; swp i_mul_translator] [translator_div_f; translator_idiv_f]
    [translator_div_i; translator_idiv_i] /\
  linear mv_motor [motor_add; motor_iadd] [motor_sub; motor_isub] [motor_mul_f; motor_imul_f; swp f_mul_motor]
    [motor_mul_i; motor_imul_i; swp i_mul_motor] [motor_div_f; motor_idiv_f] [motor_div_i; motor_idiv_i] /\
  linear mv_dual [dual_add; dual_iadd] [dual_sub; dual_isub] [dual_mul_f; dual_imul_f; swp f_mul_dual]
    [] [dual_div_f; dual_idiv_f] [].
Proof. repeat match goal with |- linear _ _ _ _ _ _ _ /\ _ => split end; lall. Qed.

(** unary minus: the negative, except that planes keep their e0 and points
    their e123 component (as documented) *)
Theorem C44_negation :
  (forall x, mv_direction (direction_neg x) == mvscale (-1) (mv_direction x)) /\
  (forall x, mv_ideal (ideal_line_neg x) == mvscale (-1) (mv_ideal x)) /\
  (forall x, mv_branch (branch_neg x) == mvscale (-1) (mv_branch x)) /\
  (forall x, mv_line (line_neg x) == mvscale (-1) (mv_line x)) /\
  (forall x, mv_rotor (rotor_neg x) == mvscale (-1) (mv_rotor x)) /\
  (forall x, mv_motor (motor_neg x) == mvscale (-1) (mv_motor x)) /\
  (forall x, plane_d (plane_neg x) = plane_d x /\ plane_x (plane_neg x) = - plane_x x /\
     plane_y (plane_neg x) = - plane_y x /\ plane_z (plane_neg x) = - plane_z x) /\
  (forall x, point_w (point_neg x) = point_w x /\ point_x (point_neg x) = - point_x x /\
     point_y (point_neg x) = - point_y x /\ point_z (point_neg x) = - point_z x).
Proof.
  repeat match goal with |- (forall _, _ == _) /\ _ => split; [intros; repeat open1; mvring|] end.
  split; intros [[a b c d]]; repeat split.
Qed.
(** "changing orientation only" (plane.hpp 308-309) is not what happens to the
    plane as a set of points: -p is p reflected in the origin *)
Theorem C44_plane_minus_moves_refuted : exists p x, plane_has p x /\ ~ plane_has (plane_neg p) x /\
  plane_has (plane_neg p) (V (- vx x) (- vy x) (- vz x)).
Proof.
  exists (plane_ctor 1 0 0 (-1)), (V 1 0 0). unfold plane_has.
  repeat split; gcbv; lra.
Qed.

(** accessors are the coefficients on the products of generators they name *)
Definition lc (l : list (R * mv)) : mv := fold_right (fun t acc => mvadd (mvscale (fst t) (snd t)) acc) mvzero l.
Theorem C44_accessors :
  (forall p, mv_plane p == lc [(plane_x p, e1); (plane_y p, e2); (plane_z p, e3); (plane_d p, e0)]) /\
  (forall p, mv_point p == lc [(point_w p, gp e1 (gp e2 e3)); (point_x p, gp e0 (gp e3 e2));
     (point_y p, gp e0 (gp e1 e3)); (point_z p, gp e0 (gp e2 e1))]) /\
  (forall d, wf_direction d -> mv_direction d == lc [(direction_x d, gp e0 (gp e3 e2));
     (direction_y d, gp e0 (gp e1 e3)); (direction_z d, gp e0 (gp e2 e1))]) /\
  (forall l, wf_ideal l ->
     mv_ideal l == lc [(ideal_line_e01 l, gp e0 e1); (ideal_line_e02 l, gp e0 e2); (ideal_line_e03 l, gp e0 e3)] /\
     mv_ideal l == lc [(ideal_line_e10 l, gp e1 e0); (ideal_line_e20 l, gp e2 e0); (ideal_line_e30 l, gp e3 e0)]) /\
  (forall b, wf_branch b ->
     mv_branch b == lc [(branch_e12 b, gp e1 e2); (branch_e23 b, gp e2 e3); (branch_e31 b, gp e3 e1)] /\
     mv_branch b == lc [(branch_e21 b, gp e2 e1); (branch_e32 b, gp e3 e2); (branch_e13 b, gp e1 e3)]) /\
  (forall l, wf_line l ->
     mv_line l == lc [(line_e12 l, gp e1 e2); (line_e23 l, gp e2 e3); (line_e31 l, gp e3 e1);
                      (line_e01 l, gp e0 e1); (line_e02 l, gp e0 e2); (line_e03 l, gp e0 e3)] /\
     mv_line l == lc [(line_e21 l, gp e2 e1); (line_e32 l, gp e3 e2); (line_e13 l, gp e1 e3);
                      (line_e10 l, gp e1 e0); (line_e20 l, gp e2 e0); (line_e30 l, gp e3 e0)]) /\
  (forall r,
     mv_rotor r == lc [(rotor_scalar r, one); (rotor_e12 r, gp e1 e2); (rotor_e23 r, gp e2 e3); (rotor_e31 r, gp e3 e1)] /\
     mv_rotor r == lc [(rotor_scalar r, one); (rotor_e21 r, gp e2 e1); (rotor_e32 r, gp e3 e2); (rotor_e13 r, gp e1 e3)]) /\
  (forall t, wf_translator t ->
     mv_translator t == lc [(translator_scalar t, one); (translator_e01 t, gp e0 e1); (translator_e02 t, gp e0 e2);
                            (translator_e03 t, gp e0 e3)] /\
     mv_translator t == lc [(translator_scalar t, one); (translator_e10 t, gp e1 e0); (translator_e20 t, gp e2 e0);
                            (translator_e30 t, gp e3 e0)]) /\
  (forall m,
     mv_motor m == lc [(motor_scalar m, one); (motor_e12 m, gp e1 e2); (motor_e23 m, gp e2 e3); (motor_e31 m, gp e3 e1);
                       (motor_e01 m, gp e0 e1); (motor_e02 m, gp e0 e2); (motor_e03 m, gp e0 e3); (motor_e0123 m, I4)] /\
     mv_motor m == lc [(motor_scalar m, one); (motor_e21 m, gp e2 e1); (motor_e32 m, gp e3 e2); (motor_e13 m, gp e1 e3);
                       (motor_e10 m, gp e1 e0); (motor_e20 m, gp e2 e0); (motor_e30 m, gp e3 e0); (motor_e0123 m, I4)]).
Proof.
  repeat split; intros; repeat open1; open_wf; mvring.
Qed.
(** constructors build the documented multivectors *)
Theorem C44_constructors :
  (forall a b c d, mv_plane (plane_ctor a b c d) == lc [(a, e1); (b, e2); (c, e3); (d, e0)]) /\
  (forall x y z, mv_point (point_ctor x y z) == lc [(1, gp e1 (gp e2 e3)); (x, gp e0 (gp e3 e2));
     (y, gp e0 (gp e1 e3)); (z, gp e0 (gp e2 e1))]) /\
  mv_point origin == gp e1 (gp e2 e3) /\
  (forall a b c, mv_ideal (ideal_line_ctor a b c) == lc [(a, gp e0 e1); (b, gp e0 e2); (c, gp e0 e3)]) /\
  (forall a b c, mv_branch (branch_ctor a b c) == lc [(a, gp e2 e3); (b, gp e3 e1); (c, gp e1 e2)]) /\
  (forall a b c d e f, mv_line (line_ctor a b c d e f) == lc [(a, gp e0 e1); (b, gp e0 e2); (c, gp e0 e3);
     (d, gp e2 e3); (e, gp e3 e1); (f, gp e1 e2)]) /\
  (forall a b c d e f g h, mv_motor (motor_ctor a b c d e f g h) == lc [(a, one); (b, gp e2 e3); (c, gp e3 e1);
     (d, gp e1 e2); (e, gp e0 e1); (f, gp e0 e2); (g, gp e0 e3); (h, I4)]).
Proof. repeat split; intros; mvring. Qed.
End C44.
Example C44_ex : plane_add (plane_ctor 1 2 3 4)%Z (plane_imul_i (plane_ctor 1 0 0 2)%Z 3%Z) = (plane_ctor 4 2 3 10)%Z.
Proof. reflexivity. Qed.

(** * C45 *)
Theorem C45_well_formed : forall rcp rsqrt sz,
  (forall x, built_line rcp rsqrt sz x -> wf_line x) /\
  (forall x, built_branch rcp rsqrt sz x -> wf_branch x) /\
  (forall x, built_ideal rcp rsqrt sz x -> wf_ideal x) /\
  (forall x, built_translator rcp rsqrt sz x -> wf_translator x) /\
  (forall x, built_direction rcp rsqrt sz x -> wf_direction x).
Proof. exact built_wf. Qed.
(** a chain of operations: the dual of the join of two points, moved, plus a
    line, divided by 3 *)
Example C45_ex : forall rcp rsqrt sz (B : Build) (p q : point R) (m : motor R) a b c d e f,
  built_line rcp rsqrt sz
    (@line_div_i R (FLwf rcp rsqrt sz) (line_add (motor_on_line m (dual_of_line (point_join_point p q))) (line_ctor a b c d e f)) 3).
Proof.
  intros. apply B_line_div_i; [exact B|]. apply B_line_add; [exact B| |apply B_line_ctor; exact B].
  apply B_motor_on_line; [exact B|]. apply B_dual_of_line; [exact B|]. apply B_point_join_point. exact B.
Qed.
(** why it matters: the SSE3 sandwich reads the hidden lane (C28_ill_formed);
    and log of a motor violating the Study condition breaks it *)
Theorem C45_log_needs_unit : forall rcp rsqrt sz (B : Build), exists m,
  ~ wf_line (@motor_log R (FLwf rcp rsqrt sz) B m).
Proof.
  intros. exists (mkmotor (mk4 1 0 0 0) (mk4 1 0 0 0)). unfold motor_log, log_kernel.
  destruct (all4 _) eqn:E.
  - intros [_ H]. revert H. cbn. lra.
  - exfalso. revert E. unfold all4. cbn -[Rmult IZR Reqb]. unfold Reqb.
    repeat (destruct (Req_EM_T _ _); [|exfalso; lra]). discriminate.
Qed.

(** * C61: loads and stores *)
Section C61.
Context {F : Type}.
Local Open Scope Z_scope.
Lemma write4_at (m : @cells F) p v i : (0 <= i < 4) -> write4 m p v (p + i) = lane v (Z.to_nat i).
Proof.
  intro H. unfold write4. assert (C : i = 0 \/ i = 1 \/ i = 2 \/ i = 3) by lia.
  destruct C as [-> | [-> | [-> | ->]]]; cbn [Z.to_nat Pos.to_nat Pos.iter_op lane];
  repeat match goal with |- context [?a =? ?b] => destruct (Z.eqb_spec a b); try lia end; reflexivity.
Qed.
Theorem C61_store : forall (m : @cells F) p v,
  ((4 * p) mod 16 = 0 ->
    exists m', _mm_store_ps m p v = Ok m' /\ _mm_loadu_ps m' p = v /\
      forall i, ~ (p <= i < p + 4) -> m' i = m i) /\
  ((4 * p) mod 16 <> 0 -> _mm_store_ps m p v = UB).
Proof.
  intros m p v. unfold _mm_store_ps, aligned16. split; intro H.
  - rewrite (proj2 (Z.eqb_eq _ _) H). eexists. split; [reflexivity|]. split.
    + unfold _mm_loadu_ps. rewrite <- (Z.add_0_r p) at 2. rewrite !write4_at by lia. destruct v; reflexivity.
    + intros i Hi. unfold write4.
      repeat match goal with |- context [?a =? ?b] => destruct (Z.eqb_spec a b); try lia end. reflexivity.
  - rewrite (proj2 (Z.eqb_neq _ _) H). reflexivity.
Qed.
(** store() followed by load gives the entity back (16-byte aligned buffers) *)
Theorem C61_round_trip : forall (m : @cells F) p, (4 * p) mod 16 = 0 ->
  (forall x, exists m', point_store m p x = Ok m' /\ point_load m' p = x) /\
  (forall x, exists m', rotor_store m p x = Ok m' /\ rotor_load_normalized m' p = x) /\
  (forall (m' : @cells F) a, a = motor_load m' p ->
     motor_p1 a = mk4 (m' p) (m' (p + 1)) (m' (p + 2)) (m' (p + 3)) /\
     motor_p2 a = mk4 (m' (p + 4)) (m' (p + 5)) (m' (p + 6)) (m' (p + 7))).
Proof.
  intros m p H. split; [|split].
  - intros [v]. destruct (proj1 (C61_store m p v) H) as (m' & E & L & _). exists m'.
    split; [exact E|]. unfold point_load. rewrite L. reflexivity.
  - intros [v]. destruct (proj1 (C61_store m p v) H) as (m' & E & L & _). exists m'.
    split; [exact E|]. unfold rotor_load_normalized. rewrite L. reflexivity.
  - intros m' a ->. split; [reflexivity|]. cbn. unfold _mm_loadu_ps. f_equal; f_equal; lia.
Qed.
(** "Store m128 contents into an array of 4 floats": an array of floats need
    only be 4-byte aligned, and then the store is undefined *)
Theorem C61_store_unaligned_refuted : forall (m : @cells F) (x : point F) (r : rotor F) (b : branch F), exists p,
  point_store m p x = UB /\ rotor_store m p r = UB /\ branch_store m p b = UB /\
  forall n, read_component m p (point_p3 x) n = UB.
Proof. intros. exists 1. repeat split. Qed.
(** the component accessors are right when the compiler aligns their local array *)
Theorem C61_accessor : forall (m : @cells F) out v n, (4 * out) mod 16 = 0 -> (n < 4)%nat ->
  read_component m out v n = Ok (lane v n).
Proof.
  intros m out v n H N. unfold read_component. unfold _mm_store_ps, aligned16. rewrite (proj2 (Z.eqb_eq _ _) H).
  f_equal. rewrite write4_at by lia. f_equal. lia.
Qed.
(** every load reads exactly its four cells, at any alignment *)
Theorem C61_load : forall (m m' : @cells F) p, (forall i, p <= i < p + 4 -> m i = m' i) ->
  plane_load m p = plane_load m' p /\ point_load m p = point_load m' p /\
  direction_load m p = direction_load m' p /\ rotor_load_normalized m p = rotor_load_normalized m' p /\
  translator_load_normalized m p = translator_load_normalized m' p.
Proof.
  intros m m' p H. unfold plane_load, point_load, direction_load, rotor_load_normalized, translator_load_normalized, _mm_loadu_ps.
  rewrite !H by lia. repeat split.
Qed.
End C61.
Theorem C61_plane_layout : forall a b c d : R,
  plane_load (fun i => if (i =? 7)%Z then d else if (i =? 8)%Z then a else if (i =? 9)%Z then b else c) 7 = plane_ctor a b c d.
Proof. reflexivity. Qed.

Print Assumptions C30_glsl.
Print Assumptions C30_glsl_spec.
Print Assumptions C31_c_api_partial.
Print Assumptions C31_line_init.
Print Assumptions C31_line_init_refuted.
Print Assumptions C31_point_init.
Print Assumptions C31_point_init_refuted.
Print Assumptions C31_translate_plane.
Print Assumptions C31_exp_log.
Print Assumptions C31_compose_translator_rotor_refuted.
Print Assumptions C39_constrain.
Print Assumptions C39_idempotent.
Print Assumptions C44_linear.
Print Assumptions C44_negation.
Print Assumptions C44_plane_minus_moves_refuted.
Print Assumptions C44_accessors.
Print Assumptions C44_constructors.
Print Assumptions C45_well_formed.
Print Assumptions C45_log_needs_unit.
Print Assumptions C61_store.
Print Assumptions C61_round_trip.
Print Assumptions C61_store_unaligned_refuted.
Print Assumptions C61_accessor.
Print Assumptions C61_load.
Print Assumptions C61_plane_layout.
