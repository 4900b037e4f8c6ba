(** Well-formedness of lines, branches, ideal lines, translators and
    directions: the lane the type does not use is zero, and no operation
    disturbs it.

    [built_k x] says that [x] is the result of some finite sequence of public
    operations (any of the overloads returning a [k]), with arbitrary planes,
    points, rotors, motors, dual numbers and scalars along the way. *)
From Coq Require Import Reals ZArith Lra.
From Verif Require Import AlgTac FloR KernelGP KernelEI KernelSW KernelMat KernelExpLog Geom Closed AlgNorm.
Local Open Scope R_scope.

Section Wf.
Context (rcp rsqrt : R -> R) (sz : bool).
Local Instance FLwf : Flo R := Flo_R rcp rsqrt sz.
Ltac wcbv := cbv -[Rplus Rmult Ropp Rminus Rdiv Rinv IZR sqrt sin cos asin acos Ratan2 Rabs PI].
Ltac wf := intros; repeat open1; open_wf; try match goal with B : Build |- _ => destruct B as [[|]] end;
  repeat split; wcbv; try ring.

Lemma wf_ideal_line_ctor (B : Build) (a : R) (b : R) (c : R) : wf_ideal (ideal_line_ctor a b c).
Proof. wf. Qed.
Lemma wf_branch_ctor (B : Build) (a : R) (b : R) (c : R) : wf_branch (branch_ctor a b c).
Proof. wf. Qed.
Lemma wf_line_ctor (B : Build) (a : R) (b : R) (c : R) (d : R) (e : R) (f : R) : wf_line (line_ctor a b c d e f).
Proof. wf. Qed.
Lemma wf_line_of_ideal (B : Build) (l : ideal_line R) : wf_ideal l -> wf_line (line_of_ideal l).
Proof. wf. Qed.
Lemma wf_line_of_branch (B : Build) (b : branch R) : wf_branch b -> wf_line (line_of_branch b).
Proof. wf. Qed.
Lemma wf_dual_mul_line (B : Build) (a : dual R) (b : line R) : wf_line b -> wf_line (dual_mul_line a b).
Proof. wf. Qed.
Lemma wf_line_mul_dual (B : Build) (b : line R) (a : dual R) : wf_line b -> wf_line (line_mul_dual b a).
Proof. wf. Qed.
Lemma wf_translator_mul_translator (B : Build) (a : translator R) (b : translator R) : wf_translator a -> wf_translator b -> wf_translator (translator_mul_translator a b).
Proof. wf. Qed.
Lemma wf_plane_ext_plane (B : Build) (a : plane R) (b : plane R) : wf_line (plane_ext_plane a b).
Proof. wf. Qed.
Lemma wf_dual_of_line (B : Build) (l : line R) : wf_line l -> wf_line (dual_of_line l).
Proof. wf. Qed.
Lemma wf_dual_of_ideal (B : Build) (l : ideal_line R) : wf_ideal l -> wf_branch (dual_of_ideal l).
Proof. wf. Qed.
Lemma wf_dual_of_branch (B : Build) (b : branch R) : wf_branch b -> wf_ideal (dual_of_branch b).
Proof. wf. Qed.
Lemma wf_point_join_point (B : Build) (a : point R) (b : point R) : wf_line (point_join_point a b).
Proof. wf. Qed.
Lemma wf_plane_dot_point (B : Build) (a : plane R) (b : point R) : wf_line (plane_dot_point a b).
Proof. wf. Qed.
Lemma wf_point_dot_plane (B : Build) (a : point R) (b : plane R) : wf_line (point_dot_plane a b).
Proof. wf. Qed.
Lemma wf_project_line_plane (B : Build) (a : line R) (b : plane R) : wf_line a -> wf_line (project_line_plane a b).
Proof. wf. Qed.
Lemma wf_project_line_point (B : Build) (a : line R) (b : point R) : wf_line a -> wf_line (project_line_point a b).
Proof. wf. Qed.
Lemma wf_plane_on_line (B : Build) (q : plane R) (l : line R) : wf_line l -> wf_line (plane_on_line q l).
Proof. wf. Qed.
Lemma wf_translator_on_line (B : Build) (t : translator R) (l : line R) : wf_translator t -> wf_line l -> wf_line (translator_on_line t l).
Proof. wf. Qed.
Lemma wf_rotor_on_branch (B : Build) (r : rotor R) (b : branch R) : wf_branch b -> wf_branch (rotor_on_branch r b).
Proof. wf. Qed.
Lemma wf_rotor_on_line (B : Build) (r : rotor R) (l : line R) : wf_line l -> wf_line (rotor_on_line r l).
Proof. wf. Qed.
Lemma wf_rotor_on_direction (B : Build) (r : rotor R) (d : direction R) : wf_direction d -> wf_direction (rotor_on_direction r d).
Proof. wf. Qed.
Lemma wf_motor_on_line (B : Build) (m : motor R) (l : line R) : wf_line l -> wf_line (motor_on_line m l).
Proof. wf. Qed.
Lemma wf_motor_on_direction (B : Build) (m : motor R) (d : direction R) : wf_direction d -> wf_direction (motor_on_direction m d).
Proof. wf. Qed.
Lemma wf_translator_inverse (B : Build) (t : translator R) : wf_translator t -> wf_translator (translator_inverse t).
Proof. wf. Qed.
Lemma wf_point_mul_point (B : Build) (a : point R) (b : point R) : wf_translator (point_mul_point a b).
Proof. wf. Qed.
Lemma wf_direction_normalized (B : Build) (d : direction R) : wf_direction d -> wf_direction (direction_normalized d).
Proof. wf. Qed.
Lemma wf_direction_ctor (B : Build) (x : R) (y : R) (z : R) : wf_direction (direction_ctor x y z).
Proof. wf. Qed.
Lemma wf_branch_normalized (B : Build) (b : branch R) : wf_branch b -> wf_branch (branch_normalized b).
Proof. wf. Qed.
Lemma wf_branch_inverse (B : Build) (b : branch R) : wf_branch b -> wf_branch (branch_inverse b).
Proof. wf. Qed.
Lemma wf_line_normalized (B : Build) (l : line R) : wf_line l -> wf_line (line_normalized l).
Proof. wf. Qed.
Lemma wf_line_inverse (B : Build) (l : line R) : wf_line l -> wf_line (line_inverse l).
Proof. wf. Qed.
Lemma wf_translator_ctor (B : Build) (delta : R) (x : R) (y : R) (z : R) : wf_translator (translator_ctor delta x y z).
Proof. wf. Qed.
Lemma wf_motor_log (B : Build) (m : motor R) : unit (mv_motor m) -> wf_line (motor_log m).
Proof.
  intros U. apply unit_motor_iff in U. destruct U as [U V].
  unfold motor_log, log_kernel. destruct m as [[a0 a1 a2 a3] [b0 b1 b2 b3]].
  destruct (all4 _) eqn:E.
  - unfold all4 in E. rewrite !Bool.andb_true_iff in E. destruct E as [[[_ E1] E2] E3].
    revert E1 E2 E3 U V. cbn -[Rplus Rmult Ropp Rminus IZR Reqb]. unfold Reqb.
    repeat (destruct (Req_EM_T _ _); [|discriminate]). intros _ _ _ U V.
    split; [reflexivity|]. cbn. revert U V. unfold study, dot4, neg0. cbn. intros. assert (a1 = 0) by lra. assert (a2 = 0) by lra. assert (a3 = 0) by lra. subst. assert (K : a0 * b0 = 0) by lra. apply Rmult_integral in K. destruct K; [subst; lra|assumption].
  - split; wcbv; ring.
Qed.
Lemma wf_translator_log (B : Build) (t : translator R) : wf_translator t -> wf_ideal (translator_log t).
Proof. wf. Qed.
Lemma wf_ideal_line_exp (B : Build) (l : ideal_line R) : wf_ideal l -> wf_translator (ideal_line_exp l).
Proof. wf. Qed.
Lemma wf_rotor_log (B : Build) (r : rotor R) : wf_branch (rotor_log r).
Proof. wf. Qed.
Lemma wf_translator_sqrt (B : Build) (t : translator R) : wf_translator t -> wf_translator (translator_sqrt t).
Proof. wf. Qed.
Lemma wf_point_quo_point (B : Build) (a : point R) (b : point R) : wf_translator (point_quo_point a b).
Proof. wf. Qed.
Lemma wf_translator_quo_translator (B : Build) (a : translator R) (b : translator R) : wf_translator a -> wf_translator b -> wf_translator (translator_quo_translator a b).
Proof. wf. Qed.
Lemma wf_direction_iadd (B : Build) (a : direction R) (b : direction R) : wf_direction a -> wf_direction b -> wf_direction (direction_iadd a b).
Proof. wf. Qed.
Lemma wf_direction_add (B : Build) (a : direction R) (b : direction R) : wf_direction a -> wf_direction b -> wf_direction (direction_add a b).
Proof. wf. Qed.
Lemma wf_direction_isub (B : Build) (a : direction R) (b : direction R) : wf_direction a -> wf_direction b -> wf_direction (direction_isub a b).
Proof. wf. Qed.
Lemma wf_direction_sub (B : Build) (a : direction R) (b : direction R) : wf_direction a -> wf_direction b -> wf_direction (direction_sub a b).
Proof. wf. Qed.
Lemma wf_direction_imul_f (B : Build) (a : direction R) (s : R) : wf_direction a -> wf_direction (direction_imul_f a s).
Proof. wf. Qed.
Lemma wf_direction_imul_i (B : Build) (a : direction R) (s : Z) : wf_direction a -> wf_direction (direction_imul_i a s).
Proof. wf. Qed.
Lemma wf_direction_mul_f (B : Build) (a : direction R) (s : R) : wf_direction a -> wf_direction (direction_mul_f a s).
Proof. wf. Qed.
Lemma wf_f_mul_direction (B : Build) (s : R) (a : direction R) : wf_direction a -> wf_direction (f_mul_direction s a).
Proof. wf. Qed.
Lemma wf_direction_mul_i (B : Build) (a : direction R) (s : Z) : wf_direction a -> wf_direction (direction_mul_i a s).
Proof. wf. Qed.
Lemma wf_i_mul_direction (B : Build) (s : Z) (a : direction R) : wf_direction a -> wf_direction (i_mul_direction s a).
Proof. wf. Qed.
Lemma wf_ideal_line_iadd (B : Build) (a : ideal_line R) (b : ideal_line R) : wf_ideal a -> wf_ideal b -> wf_ideal (ideal_line_iadd a b).
Proof. wf. Qed.
Lemma wf_ideal_line_add (B : Build) (a : ideal_line R) (b : ideal_line R) : wf_ideal a -> wf_ideal b -> wf_ideal (ideal_line_add a b).
Proof. wf. Qed.
Lemma wf_ideal_line_isub (B : Build) (a : ideal_line R) (b : ideal_line R) : wf_ideal a -> wf_ideal b -> wf_ideal (ideal_line_isub a b).
Proof. wf. Qed.
Lemma wf_ideal_line_sub (B : Build) (a : ideal_line R) (b : ideal_line R) : wf_ideal a -> wf_ideal b -> wf_ideal (ideal_line_sub a b).
Proof. wf. Qed.
Lemma wf_ideal_line_imul_f (B : Build) (a : ideal_line R) (s : R) : wf_ideal a -> wf_ideal (ideal_line_imul_f a s).
Proof. wf. Qed.
Lemma wf_ideal_line_imul_i (B : Build) (a : ideal_line R) (s : Z) : wf_ideal a -> wf_ideal (ideal_line_imul_i a s).
Proof. wf. Qed.
Lemma wf_ideal_line_mul_f (B : Build) (a : ideal_line R) (s : R) : wf_ideal a -> wf_ideal (ideal_line_mul_f a s).
Proof. wf. Qed.
Lemma wf_f_mul_ideal_line (B : Build) (s : R) (a : ideal_line R) : wf_ideal a -> wf_ideal (f_mul_ideal_line s a).
Proof. wf. Qed.
Lemma wf_ideal_line_mul_i (B : Build) (a : ideal_line R) (s : Z) : wf_ideal a -> wf_ideal (ideal_line_mul_i a s).
Proof. wf. Qed.
Lemma wf_i_mul_ideal_line (B : Build) (s : Z) (a : ideal_line R) : wf_ideal a -> wf_ideal (i_mul_ideal_line s a).
Proof. wf. Qed.
Lemma wf_branch_iadd (B : Build) (a : branch R) (b : branch R) : wf_branch a -> wf_branch b -> wf_branch (branch_iadd a b).
Proof. wf. Qed.
Lemma wf_branch_add (B : Build) (a : branch R) (b : branch R) : wf_branch a -> wf_branch b -> wf_branch (branch_add a b).
Proof. wf. Qed.
Lemma wf_branch_isub (B : Build) (a : branch R) (b : branch R) : wf_branch a -> wf_branch b -> wf_branch (branch_isub a b).
Proof. wf. Qed.
Lemma wf_branch_sub (B : Build) (a : branch R) (b : branch R) : wf_branch a -> wf_branch b -> wf_branch (branch_sub a b).
Proof. wf. Qed.
Lemma wf_branch_imul_f (B : Build) (a : branch R) (s : R) : wf_branch a -> wf_branch (branch_imul_f a s).
Proof. wf. Qed.
Lemma wf_branch_imul_i (B : Build) (a : branch R) (s : Z) : wf_branch a -> wf_branch (branch_imul_i a s).
Proof. wf. Qed.
Lemma wf_branch_mul_f (B : Build) (a : branch R) (s : R) : wf_branch a -> wf_branch (branch_mul_f a s).
Proof. wf. Qed.
Lemma wf_f_mul_branch (B : Build) (s : R) (a : branch R) : wf_branch a -> wf_branch (f_mul_branch s a).
Proof. wf. Qed.
Lemma wf_branch_mul_i (B : Build) (a : branch R) (s : Z) : wf_branch a -> wf_branch (branch_mul_i a s).
Proof. wf. Qed.
Lemma wf_i_mul_branch (B : Build) (s : Z) (a : branch R) : wf_branch a -> wf_branch (i_mul_branch s a).
Proof. wf. Qed.
Lemma wf_line_iadd (B : Build) (a : line R) (b : line R) : wf_line a -> wf_line b -> wf_line (line_iadd a b).
Proof. wf. Qed.
Lemma wf_line_add (B : Build) (a : line R) (b : line R) : wf_line a -> wf_line b -> wf_line (line_add a b).
Proof. wf. Qed.
Lemma wf_line_isub (B : Build) (a : line R) (b : line R) : wf_line a -> wf_line b -> wf_line (line_isub a b).
Proof. wf. Qed.
Lemma wf_line_sub (B : Build) (a : line R) (b : line R) : wf_line a -> wf_line b -> wf_line (line_sub a b).
Proof. wf. Qed.
Lemma wf_line_imul_f (B : Build) (a : line R) (s : R) : wf_line a -> wf_line (line_imul_f a s).
Proof. wf. Qed.
Lemma wf_line_imul_i (B : Build) (a : line R) (s : Z) : wf_line a -> wf_line (line_imul_i a s).
Proof. wf. Qed.
Lemma wf_line_mul_f (B : Build) (a : line R) (s : R) : wf_line a -> wf_line (line_mul_f a s).
Proof. wf. Qed.
Lemma wf_f_mul_line (B : Build) (s : R) (a : line R) : wf_line a -> wf_line (f_mul_line s a).
Proof. wf. Qed.
Lemma wf_line_mul_i (B : Build) (a : line R) (s : Z) : wf_line a -> wf_line (line_mul_i a s).
Proof. wf. Qed.
Lemma wf_i_mul_line (B : Build) (s : Z) (a : line R) : wf_line a -> wf_line (i_mul_line s a).
Proof. wf. Qed.
Lemma wf_translator_iadd (B : Build) (a : translator R) (b : translator R) : wf_translator a -> wf_translator b -> wf_translator (translator_iadd a b).
Proof. wf. Qed.
Lemma wf_translator_add (B : Build) (a : translator R) (b : translator R) : wf_translator a -> wf_translator b -> wf_translator (translator_add a b).
Proof. wf. Qed.
Lemma wf_translator_isub (B : Build) (a : translator R) (b : translator R) : wf_translator a -> wf_translator b -> wf_translator (translator_isub a b).
Proof. wf. Qed.
Lemma wf_translator_sub (B : Build) (a : translator R) (b : translator R) : wf_translator a -> wf_translator b -> wf_translator (translator_sub a b).
Proof. wf. Qed.
Lemma wf_translator_imul_f (B : Build) (a : translator R) (s : R) : wf_translator a -> wf_translator (translator_imul_f a s).
Proof. wf. Qed.
Lemma wf_translator_imul_i (B : Build) (a : translator R) (s : Z) : wf_translator a -> wf_translator (translator_imul_i a s).
Proof. wf. Qed.
Lemma wf_translator_mul_f (B : Build) (a : translator R) (s : R) : wf_translator a -> wf_translator (translator_mul_f a s).
Proof. wf. Qed.
Lemma wf_f_mul_translator (B : Build) (s : R) (a : translator R) : wf_translator a -> wf_translator (f_mul_translator s a).
Proof. wf. Qed.
Lemma wf_translator_mul_i (B : Build) (a : translator R) (s : Z) : wf_translator a -> wf_translator (translator_mul_i a s).
Proof. wf. Qed.
Lemma wf_i_mul_translator (B : Build) (s : Z) (a : translator R) : wf_translator a -> wf_translator (i_mul_translator s a).
Proof. wf. Qed.
Lemma wf_direction_neg (B : Build) (d : direction R) : wf_direction d -> wf_direction (direction_neg d).
Proof. wf. Qed.
Lemma wf_ideal_line_neg (B : Build) (l : ideal_line R) : wf_ideal l -> wf_ideal (ideal_line_neg l).
Proof. wf. Qed.
Lemma wf_ideal_line_rev (B : Build) (l : ideal_line R) : wf_ideal l -> wf_ideal (ideal_line_rev l).
Proof. wf. Qed.
Lemma wf_branch_neg (B : Build) (b : branch R) : wf_branch b -> wf_branch (branch_neg b).
Proof. wf. Qed.
Lemma wf_branch_rev (B : Build) (b : branch R) : wf_branch b -> wf_branch (branch_rev b).
Proof. wf. Qed.
Lemma wf_line_neg (B : Build) (l : line R) : wf_line l -> wf_line (line_neg l).
Proof. wf. Qed.
Lemma wf_line_rev (B : Build) (l : line R) : wf_line l -> wf_line (line_rev l).
Proof. wf. Qed.
Lemma wf_direction_idiv_f (B : Build) (a : direction R) (s : R) : wf_direction a -> wf_direction (direction_idiv_f a s).
Proof. wf. Qed.
Lemma wf_direction_idiv_i (B : Build) (a : direction R) (s : Z) : wf_direction a -> wf_direction (direction_idiv_i a s).
Proof. wf. Qed.
Lemma wf_direction_div_f (B : Build) (a : direction R) (s : R) : wf_direction a -> wf_direction (direction_div_f a s).
Proof. wf. Qed.
Lemma wf_direction_div_i (B : Build) (a : direction R) (s : Z) : wf_direction a -> wf_direction (direction_div_i a s).
Proof. wf. Qed.
Lemma wf_ideal_line_idiv_f (B : Build) (a : ideal_line R) (s : R) : wf_ideal a -> wf_ideal (ideal_line_idiv_f a s).
Proof. wf. Qed.
Lemma wf_ideal_line_idiv_i (B : Build) (a : ideal_line R) (s : Z) : wf_ideal a -> wf_ideal (ideal_line_idiv_i a s).
Proof. wf. Qed.
Lemma wf_ideal_line_div_f (B : Build) (a : ideal_line R) (s : R) : wf_ideal a -> wf_ideal (ideal_line_div_f a s).
Proof. wf. Qed.
Lemma wf_ideal_line_div_i (B : Build) (a : ideal_line R) (s : Z) : wf_ideal a -> wf_ideal (ideal_line_div_i a s).
Proof. wf. Qed.
Lemma wf_branch_idiv_f (B : Build) (a : branch R) (s : R) : wf_branch a -> wf_branch (branch_idiv_f a s).
Proof. wf. Qed.
Lemma wf_branch_idiv_i (B : Build) (a : branch R) (s : Z) : wf_branch a -> wf_branch (branch_idiv_i a s).
Proof. wf. Qed.
Lemma wf_branch_div_f (B : Build) (a : branch R) (s : R) : wf_branch a -> wf_branch (branch_div_f a s).
Proof. wf. Qed.
Lemma wf_branch_div_i (B : Build) (a : branch R) (s : Z) : wf_branch a -> wf_branch (branch_div_i a s).
Proof. wf. Qed.
Lemma wf_line_idiv_f (B : Build) (a : line R) (s : R) : wf_line a -> wf_line (line_idiv_f a s).
Proof. wf. Qed.
Lemma wf_line_idiv_i (B : Build) (a : line R) (s : Z) : wf_line a -> wf_line (line_idiv_i a s).
Proof. wf. Qed.
Lemma wf_line_div_f (B : Build) (a : line R) (s : R) : wf_line a -> wf_line (line_div_f a s).
Proof. wf. Qed.
Lemma wf_line_div_i (B : Build) (a : line R) (s : Z) : wf_line a -> wf_line (line_div_i a s).
Proof. wf. Qed.
Lemma wf_translator_idiv_f (B : Build) (a : translator R) (s : R) : wf_translator a -> wf_translator (translator_idiv_f a s).
Proof. wf. Qed.
Lemma wf_translator_idiv_i (B : Build) (a : translator R) (s : Z) : wf_translator a -> wf_translator (translator_idiv_i a s).
Proof. wf. Qed.
Lemma wf_translator_div_f (B : Build) (a : translator R) (s : R) : wf_translator a -> wf_translator (translator_div_f a s).
Proof. wf. Qed.
Lemma wf_translator_div_i (B : Build) (a : translator R) (s : Z) : wf_translator a -> wf_translator (translator_div_i a s).
Proof. wf. Qed.

Inductive built_line : line R -> Prop :=
| B_line_ctor : forall (B : Build) (a : R) (b : R) (c : R) (d : R) (e : R) (f : R), built_line (line_ctor a b c d e f)
| B_line_of_ideal : forall (B : Build) (l : ideal_line R), built_ideal l -> built_line (line_of_ideal l)
| B_line_of_branch : forall (B : Build) (b : branch R), built_branch b -> built_line (line_of_branch b)
| B_dual_mul_line : forall (B : Build) (a : dual R) (b : line R), built_line b -> built_line (dual_mul_line a b)
| B_line_mul_dual : forall (B : Build) (b : line R) (a : dual R), built_line b -> built_line (line_mul_dual b a)
| B_plane_ext_plane : forall (B : Build) (a : plane R) (b : plane R), built_line (plane_ext_plane a b)
| B_dual_of_line : forall (B : Build) (l : line R), built_line l -> built_line (dual_of_line l)
| B_point_join_point : forall (B : Build) (a : point R) (b : point R), built_line (point_join_point a b)
| B_plane_dot_point : forall (B : Build) (a : plane R) (b : point R), built_line (plane_dot_point a b)
| B_point_dot_plane : forall (B : Build) (a : point R) (b : plane R), built_line (point_dot_plane a b)
| B_project_line_plane : forall (B : Build) (a : line R) (b : plane R), built_line a -> built_line (project_line_plane a b)
| B_project_line_point : forall (B : Build) (a : line R) (b : point R), built_line a -> built_line (project_line_point a b)
| B_plane_on_line : forall (B : Build) (q : plane R) (l : line R), built_line l -> built_line (plane_on_line q l)
| B_translator_on_line : forall (B : Build) (t : translator R) (l : line R), built_translator t -> built_line l -> built_line (translator_on_line t l)
| B_rotor_on_line : forall (B : Build) (r : rotor R) (l : line R), built_line l -> built_line (rotor_on_line r l)
| B_motor_on_line : forall (B : Build) (m : motor R) (l : line R), built_line l -> built_line (motor_on_line m l)
| B_line_normalized : forall (B : Build) (l : line R), built_line l -> built_line (line_normalized l)
| B_line_inverse : forall (B : Build) (l : line R), built_line l -> built_line (line_inverse l)
| B_motor_log : forall (B : Build) (m : motor R), unit (mv_motor m) -> built_line (motor_log m)
| B_line_iadd : forall (B : Build) (a : line R) (b : line R), built_line a -> built_line b -> built_line (line_iadd a b)
| B_line_add : forall (B : Build) (a : line R) (b : line R), built_line a -> built_line b -> built_line (line_add a b)
| B_line_isub : forall (B : Build) (a : line R) (b : line R), built_line a -> built_line b -> built_line (line_isub a b)
| B_line_sub : forall (B : Build) (a : line R) (b : line R), built_line a -> built_line b -> built_line (line_sub a b)
| B_line_imul_f : forall (B : Build) (a : line R) (s : R), built_line a -> built_line (line_imul_f a s)
| B_line_imul_i : forall (B : Build) (a : line R) (s : Z), built_line a -> built_line (line_imul_i a s)
| B_line_mul_f : forall (B : Build) (a : line R) (s : R), built_line a -> built_line (line_mul_f a s)
| B_f_mul_line : forall (B : Build) (s : R) (a : line R), built_line a -> built_line (f_mul_line s a)
| B_line_mul_i : forall (B : Build) (a : line R) (s : Z), built_line a -> built_line (line_mul_i a s)
| B_i_mul_line : forall (B : Build) (s : Z) (a : line R), built_line a -> built_line (i_mul_line s a)
| B_line_neg : forall (B : Build) (l : line R), built_line l -> built_line (line_neg l)
| B_line_rev : forall (B : Build) (l : line R), built_line l -> built_line (line_rev l)
| B_line_idiv_f : forall (B : Build) (a : line R) (s : R), built_line a -> built_line (line_idiv_f a s)
| B_line_idiv_i : forall (B : Build) (a : line R) (s : Z), built_line a -> built_line (line_idiv_i a s)
| B_line_div_f : forall (B : Build) (a : line R) (s : R), built_line a -> built_line (line_div_f a s)
| B_line_div_i : forall (B : Build) (a : line R) (s : Z), built_line a -> built_line (line_div_i a s)
with built_branch : branch R -> Prop :=
| B_branch_ctor : forall (B : Build) (a : R) (b : R) (c : R), built_branch (branch_ctor a b c)
| B_dual_of_ideal : forall (B : Build) (l : ideal_line R), built_ideal l -> built_branch (dual_of_ideal l)
| B_rotor_on_branch : forall (B : Build) (r : rotor R) (b : branch R), built_branch b -> built_branch (rotor_on_branch r b)
| B_branch_normalized : forall (B : Build) (b : branch R), built_branch b -> built_branch (branch_normalized b)
| B_branch_inverse : forall (B : Build) (b : branch R), built_branch b -> built_branch (branch_inverse b)
| B_rotor_log : forall (B : Build) (r : rotor R), built_branch (rotor_log r)
| B_branch_iadd : forall (B : Build) (a : branch R) (b : branch R), built_branch a -> built_branch b -> built_branch (branch_iadd a b)
| B_branch_add : forall (B : Build) (a : branch R) (b : branch R), built_branch a -> built_branch b -> built_branch (branch_add a b)
| B_branch_isub : forall (B : Build) (a : branch R) (b : branch R), built_branch a -> built_branch b -> built_branch (branch_isub a b)
| B_branch_sub : forall (B : Build) (a : branch R) (b : branch R), built_branch a -> built_branch b -> built_branch (branch_sub a b)
| B_branch_imul_f : forall (B : Build) (a : branch R) (s : R), built_branch a -> built_branch (branch_imul_f a s)
| B_branch_imul_i : forall (B : Build) (a : branch R) (s : Z), built_branch a -> built_branch (branch_imul_i a s)
| B_branch_mul_f : forall (B : Build) (a : branch R) (s : R), built_branch a -> built_branch (branch_mul_f a s)
| B_f_mul_branch : forall (B : Build) (s : R) (a : branch R), built_branch a -> built_branch (f_mul_branch s a)
| B_branch_mul_i : forall (B : Build) (a : branch R) (s : Z), built_branch a -> built_branch (branch_mul_i a s)
| B_i_mul_branch : forall (B : Build) (s : Z) (a : branch R), built_branch a -> built_branch (i_mul_branch s a)
| B_branch_neg : forall (B : Build) (b : branch R), built_branch b -> built_branch (branch_neg b)
| B_branch_rev : forall (B : Build) (b : branch R), built_branch b -> built_branch (branch_rev b)
| B_branch_idiv_f : forall (B : Build) (a : branch R) (s : R), built_branch a -> built_branch (branch_idiv_f a s)
| B_branch_idiv_i : forall (B : Build) (a : branch R) (s : Z), built_branch a -> built_branch (branch_idiv_i a s)
| B_branch_div_f : forall (B : Build) (a : branch R) (s : R), built_branch a -> built_branch (branch_div_f a s)
| B_branch_div_i : forall (B : Build) (a : branch R) (s : Z), built_branch a -> built_branch (branch_div_i a s)
with built_ideal : ideal_line R -> Prop :=
| B_ideal_line_ctor : forall (B : Build) (a : R) (b : R) (c : R), built_ideal (ideal_line_ctor a b c)
| B_dual_of_branch : forall (B : Build) (b : branch R), built_branch b -> built_ideal (dual_of_branch b)
| B_translator_log : forall (B : Build) (t : translator R), built_translator t -> built_ideal (translator_log t)
| B_ideal_line_iadd : forall (B : Build) (a : ideal_line R) (b : ideal_line R), built_ideal a -> built_ideal b -> built_ideal (ideal_line_iadd a b)
| B_ideal_line_add : forall (B : Build) (a : ideal_line R) (b : ideal_line R), built_ideal a -> built_ideal b -> built_ideal (ideal_line_add a b)
| B_ideal_line_isub : forall (B : Build) (a : ideal_line R) (b : ideal_line R), built_ideal a -> built_ideal b -> built_ideal (ideal_line_isub a b)
| B_ideal_line_sub : forall (B : Build) (a : ideal_line R) (b : ideal_line R), built_ideal a -> built_ideal b -> built_ideal (ideal_line_sub a b)
| B_ideal_line_imul_f : forall (B : Build) (a : ideal_line R) (s : R), built_ideal a -> built_ideal (ideal_line_imul_f a s)
| B_ideal_line_imul_i : forall (B : Build) (a : ideal_line R) (s : Z), built_ideal a -> built_ideal (ideal_line_imul_i a s)
| B_ideal_line_mul_f : forall (B : Build) (a : ideal_line R) (s : R), built_ideal a -> built_ideal (ideal_line_mul_f a s)
| B_f_mul_ideal_line : forall (B : Build) (s : R) (a : ideal_line R), built_ideal a -> built_ideal (f_mul_ideal_line s a)
| B_ideal_line_mul_i : forall (B : Build) (a : ideal_line R) (s : Z), built_ideal a -> built_ideal (ideal_line_mul_i a s)
| B_i_mul_ideal_line : forall (B : Build) (s : Z) (a : ideal_line R), built_ideal a -> built_ideal (i_mul_ideal_line s a)
| B_ideal_line_neg : forall (B : Build) (l : ideal_line R), built_ideal l -> built_ideal (ideal_line_neg l)
| B_ideal_line_rev : forall (B : Build) (l : ideal_line R), built_ideal l -> built_ideal (ideal_line_rev l)
| B_ideal_line_idiv_f : forall (B : Build) (a : ideal_line R) (s : R), built_ideal a -> built_ideal (ideal_line_idiv_f a s)
| B_ideal_line_idiv_i : forall (B : Build) (a : ideal_line R) (s : Z), built_ideal a -> built_ideal (ideal_line_idiv_i a s)
| B_ideal_line_div_f : forall (B : Build) (a : ideal_line R) (s : R), built_ideal a -> built_ideal (ideal_line_div_f a s)
| B_ideal_line_div_i : forall (B : Build) (a : ideal_line R) (s : Z), built_ideal a -> built_ideal (ideal_line_div_i a s)
with built_translator : translator R -> Prop :=
| B_translator_mul_translator : forall (B : Build) (a : translator R) (b : translator R), built_translator a -> built_translator b -> built_translator (translator_mul_translator a b)
| B_translator_inverse : forall (B : Build) (t : translator R), built_translator t -> built_translator (translator_inverse t)
| B_point_mul_point : forall (B : Build) (a : point R) (b : point R), built_translator (point_mul_point a b)
| B_translator_ctor : forall (B : Build) (delta : R) (x : R) (y : R) (z : R), built_translator (translator_ctor delta x y z)
| B_ideal_line_exp : forall (B : Build) (l : ideal_line R), built_ideal l -> built_translator (ideal_line_exp l)
| B_translator_sqrt : forall (B : Build) (t : translator R), built_translator t -> built_translator (translator_sqrt t)
| B_point_quo_point : forall (B : Build) (a : point R) (b : point R), built_translator (point_quo_point a b)
| B_translator_quo_translator : forall (B : Build) (a : translator R) (b : translator R), built_translator a -> built_translator b -> built_translator (translator_quo_translator a b)
| B_translator_iadd : forall (B : Build) (a : translator R) (b : translator R), built_translator a -> built_translator b -> built_translator (translator_iadd a b)
| B_translator_add : forall (B : Build) (a : translator R) (b : translator R), built_translator a -> built_translator b -> built_translator (translator_add a b)
| B_translator_isub : forall (B : Build) (a : translator R) (b : translator R), built_translator a -> built_translator b -> built_translator (translator_isub a b)
| B_translator_sub : forall (B : Build) (a : translator R) (b : translator R), built_translator a -> built_translator b -> built_translator (translator_sub a b)
| B_translator_imul_f : forall (B : Build) (a : translator R) (s : R), built_translator a -> built_translator (translator_imul_f a s)
| B_translator_imul_i : forall (B : Build) (a : translator R) (s : Z), built_translator a -> built_translator (translator_imul_i a s)
| B_translator_mul_f : forall (B : Build) (a : translator R) (s : R), built_translator a -> built_translator (translator_mul_f a s)
| B_f_mul_translator : forall (B : Build) (s : R) (a : translator R), built_translator a -> built_translator (f_mul_translator s a)
| B_translator_mul_i : forall (B : Build) (a : translator R) (s : Z), built_translator a -> built_translator (translator_mul_i a s)
| B_i_mul_translator : forall (B : Build) (s : Z) (a : translator R), built_translator a -> built_translator (i_mul_translator s a)
| B_translator_idiv_f : forall (B : Build) (a : translator R) (s : R), built_translator a -> built_translator (translator_idiv_f a s)
| B_translator_idiv_i : forall (B : Build) (a : translator R) (s : Z), built_translator a -> built_translator (translator_idiv_i a s)
| B_translator_div_f : forall (B : Build) (a : translator R) (s : R), built_translator a -> built_translator (translator_div_f a s)
| B_translator_div_i : forall (B : Build) (a : translator R) (s : Z), built_translator a -> built_translator (translator_div_i a s)
with built_direction : direction R -> Prop :=
| B_rotor_on_direction : forall (B : Build) (r : rotor R) (d : direction R), built_direction d -> built_direction (rotor_on_direction r d)
| B_motor_on_direction : forall (B : Build) (m : motor R) (d : direction R), built_direction d -> built_direction (motor_on_direction m d)
| B_direction_normalized : forall (B : Build) (d : direction R), built_direction d -> built_direction (direction_normalized d)
| B_direction_ctor : forall (B : Build) (x : R) (y : R) (z : R), built_direction (direction_ctor x y z)
| B_direction_iadd : forall (B : Build) (a : direction R) (b : direction R), built_direction a -> built_direction b -> built_direction (direction_iadd a b)
| B_direction_add : forall (B : Build) (a : direction R) (b : direction R), built_direction a -> built_direction b -> built_direction (direction_add a b)
| B_direction_isub : forall (B : Build) (a : direction R) (b : direction R), built_direction a -> built_direction b -> built_direction (direction_isub a b)
| B_direction_sub : forall (B : Build) (a : direction R) (b : direction R), built_direction a -> built_direction b -> built_direction (direction_sub a b)
| B_direction_imul_f : forall (B : Build) (a : direction R) (s : R), built_direction a -> built_direction (direction_imul_f a s)
| B_direction_imul_i : forall (B : Build) (a : direction R) (s : Z), built_direction a -> built_direction (direction_imul_i a s)
| B_direction_mul_f : forall (B : Build) (a : direction R) (s : R), built_direction a -> built_direction (direction_mul_f a s)
| B_f_mul_direction : forall (B : Build) (s : R) (a : direction R), built_direction a -> built_direction (f_mul_direction s a)
| B_direction_mul_i : forall (B : Build) (a : direction R) (s : Z), built_direction a -> built_direction (direction_mul_i a s)
| B_i_mul_direction : forall (B : Build) (s : Z) (a : direction R), built_direction a -> built_direction (i_mul_direction s a)
| B_direction_neg : forall (B : Build) (d : direction R), built_direction d -> built_direction (direction_neg d)
| B_direction_idiv_f : forall (B : Build) (a : direction R) (s : R), built_direction a -> built_direction (direction_idiv_f a s)
| B_direction_idiv_i : forall (B : Build) (a : direction R) (s : Z), built_direction a -> built_direction (direction_idiv_i a s)
| B_direction_div_f : forall (B : Build) (a : direction R) (s : R), built_direction a -> built_direction (direction_div_f a s)
| B_direction_div_i : forall (B : Build) (a : direction R) (s : Z), built_direction a -> built_direction (direction_div_i a s).

Scheme bi_line := Minimality for built_line Sort Prop
with bi_branch := Minimality for built_branch Sort Prop
with bi_ideal := Minimality for built_ideal Sort Prop
with bi_translator := Minimality for built_translator Sort Prop
with bi_direction := Minimality for built_direction Sort Prop.
Combined Scheme built_mind from bi_line, bi_branch, bi_ideal, bi_translator, bi_direction.
Theorem built_wf : (forall x, built_line x -> wf_line x) /\ (forall x, built_branch x -> wf_branch x) /\ (forall x, built_ideal x -> wf_ideal x) /\ (forall x, built_translator x -> wf_translator x) /\ (forall x, built_direction x -> wf_direction x).
Proof.
  apply built_mind; intros.
  - apply (wf_line_ctor _); assumption.
  - apply (wf_line_of_ideal _); assumption.
  - apply (wf_line_of_branch _); assumption.
  - apply (wf_dual_mul_line _); assumption.
  - apply (wf_line_mul_dual _); assumption.
  - apply (wf_plane_ext_plane _); assumption.
  - apply (wf_dual_of_line _); assumption.
  - apply (wf_point_join_point _); assumption.
  - apply (wf_plane_dot_point _); assumption.
  - apply (wf_point_dot_plane _); assumption.
  - apply (wf_project_line_plane _); assumption.
  - apply (wf_project_line_point _); assumption.
  - apply (wf_plane_on_line _); assumption.
  - apply (wf_translator_on_line _); assumption.
  - apply (wf_rotor_on_line _); assumption.
  - apply (wf_motor_on_line _); assumption.
  - apply (wf_line_normalized _); assumption.
  - apply (wf_line_inverse _); assumption.
  - apply (wf_motor_log _); assumption.
  - apply (wf_line_iadd _); assumption.
  - apply (wf_line_add _); assumption.
  - apply (wf_line_isub _); assumption.
  - apply (wf_line_sub _); assumption.
  - apply (wf_line_imul_f _); assumption.
  - apply (wf_line_imul_i _); assumption.
  - apply (wf_line_mul_f _); assumption.
  - apply (wf_f_mul_line _); assumption.
  - apply (wf_line_mul_i _); assumption.
  - apply (wf_i_mul_line _); assumption.
  - apply (wf_line_neg _); assumption.
  - apply (wf_line_rev _); assumption.
  - apply (wf_line_idiv_f _); assumption.
  - apply (wf_line_idiv_i _); assumption.
  - apply (wf_line_div_f _); assumption.
  - apply (wf_line_div_i _); assumption.
  - apply (wf_branch_ctor _); assumption.
  - apply (wf_dual_of_ideal _); assumption.
  - apply (wf_rotor_on_branch _); assumption.
  - apply (wf_branch_normalized _); assumption.
  - apply (wf_branch_inverse _); assumption.
  - apply (wf_rotor_log _); assumption.
  - apply (wf_branch_iadd _); assumption.
  - apply (wf_branch_add _); assumption.
  - apply (wf_branch_isub _); assumption.
  - apply (wf_branch_sub _); assumption.
  - apply (wf_branch_imul_f _); assumption.
  - apply (wf_branch_imul_i _); assumption.
  - apply (wf_branch_mul_f _); assumption.
  - apply (wf_f_mul_branch _); assumption.
  - apply (wf_branch_mul_i _); assumption.
  - apply (wf_i_mul_branch _); assumption.
  - apply (wf_branch_neg _); assumption.
  - apply (wf_branch_rev _); assumption.
  - apply (wf_branch_idiv_f _); assumption.
  - apply (wf_branch_idiv_i _); assumption.
  - apply (wf_branch_div_f _); assumption.
  - apply (wf_branch_div_i _); assumption.
  - apply (wf_ideal_line_ctor _); assumption.
  - apply (wf_dual_of_branch _); assumption.
  - apply (wf_translator_log _); assumption.
  - apply (wf_ideal_line_iadd _); assumption.
  - apply (wf_ideal_line_add _); assumption.
  - apply (wf_ideal_line_isub _); assumption.
  - apply (wf_ideal_line_sub _); assumption.
  - apply (wf_ideal_line_imul_f _); assumption.
  - apply (wf_ideal_line_imul_i _); assumption.
  - apply (wf_ideal_line_mul_f _); assumption.
  - apply (wf_f_mul_ideal_line _); assumption.
  - apply (wf_ideal_line_mul_i _); assumption.
  - apply (wf_i_mul_ideal_line _); assumption.
  - apply (wf_ideal_line_neg _); assumption.
  - apply (wf_ideal_line_rev _); assumption.
  - apply (wf_ideal_line_idiv_f _); assumption.
  - apply (wf_ideal_line_idiv_i _); assumption.
  - apply (wf_ideal_line_div_f _); assumption.
  - apply (wf_ideal_line_div_i _); assumption.
  - apply (wf_translator_mul_translator _); assumption.
  - apply (wf_translator_inverse _); assumption.
  - apply (wf_point_mul_point _); assumption.
  - apply (wf_translator_ctor _); assumption.
  - apply (wf_ideal_line_exp _); assumption.
  - apply (wf_translator_sqrt _); assumption.
  - apply (wf_point_quo_point _); assumption.
  - apply (wf_translator_quo_translator _); assumption.
  - apply (wf_translator_iadd _); assumption.
  - apply (wf_translator_add _); assumption.
  - apply (wf_translator_isub _); assumption.
  - apply (wf_translator_sub _); assumption.
  - apply (wf_translator_imul_f _); assumption.
  - apply (wf_translator_imul_i _); assumption.
  - apply (wf_translator_mul_f _); assumption.
  - apply (wf_f_mul_translator _); assumption.
  - apply (wf_translator_mul_i _); assumption.
  - apply (wf_i_mul_translator _); assumption.
  - apply (wf_translator_idiv_f _); assumption.
  - apply (wf_translator_idiv_i _); assumption.
  - apply (wf_translator_div_f _); assumption.
  - apply (wf_translator_div_i _); assumption.
  - apply (wf_rotor_on_direction _); assumption.
  - apply (wf_motor_on_direction _); assumption.
  - apply (wf_direction_normalized _); assumption.
  - apply (wf_direction_ctor _); assumption.
  - apply (wf_direction_iadd _); assumption.
  - apply (wf_direction_add _); assumption.
  - apply (wf_direction_isub _); assumption.
  - apply (wf_direction_sub _); assumption.
  - apply (wf_direction_imul_f _); assumption.
  - apply (wf_direction_imul_i _); assumption.
  - apply (wf_direction_mul_f _); assumption.
  - apply (wf_f_mul_direction _); assumption.
  - apply (wf_direction_mul_i _); assumption.
  - apply (wf_i_mul_direction _); assumption.
  - apply (wf_direction_neg _); assumption.
  - apply (wf_direction_idiv_f _); assumption.
  - apply (wf_direction_idiv_i _); assumption.
  - apply (wf_direction_div_f _); assumption.
  - apply (wf_direction_div_i _); assumption.
Qed.
End Wf.
