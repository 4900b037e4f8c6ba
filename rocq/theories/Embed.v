(** How the library's entities denote multivectors.

    The partition layout is the one documented in
    /repo/public/klein/detail/x86/x86_geometric_product.hpp 9-22:
      p0: (e0, e1, e2, e3)      p1: (1, e23, e31, e12)
      p2: (e0123, e01, e02, e03)  p3: (e123, e032, e013, e021).
    Blades of [SpecPGA] are written in increasing index order, so e31 = -e13,
    e032 = -e023 and e021 = -e012; [mv_p1_gen] ... check the layout against
    products of the generators. *)
From Coq Require Import Reals ZArith.
From Verif Require Import Scalar SSE ApiTypes SpecPGA.
Local Open Scope R_scope.

Definition mv_p0 (v : m128 R) : mv := fun k =>
  match k with
  | Bl true  false false false => l0 v
  | Bl false true  false false => l1 v
  | Bl false false true  false => l2 v
  | Bl false false false true  => l3 v
  | _ => 0
  end.
Definition mv_p1 (v : m128 R) : mv := fun k =>
  match k with
  | Bl false false false false => l0 v
  | Bl false false true  true  => l1 v
  | Bl false true  false true  => - l2 v
  | Bl false true  true  false => l3 v
  | _ => 0
  end.
Definition mv_p2 (v : m128 R) : mv := fun k =>
  match k with
  | Bl true true  true  true  => l0 v
  | Bl true true  false false => l1 v
  | Bl true false true  false => l2 v
  | Bl true false false true  => l3 v
  | _ => 0
  end.
Definition mv_p3 (v : m128 R) : mv := fun k =>
  match k with
  | Bl false true  true  true  => l0 v
  | Bl true  false true  true  => - l1 v
  | Bl true  true  false true  => l2 v
  | Bl true  true  true  false => - l3 v
  | _ => 0
  end.
Definition mv_p12 (b c : m128 R) : mv := fun k => mv_p1 b k + mv_p2 c k.

Definition mv_plane (x : plane R) : mv := mv_p0 (plane_p0 x).
Definition mv_point (x : point R) : mv := mv_p3 (point_p3 x).
Definition mv_direction (x : direction R) : mv := mv_p3 (direction_p3 x).
Definition mv_ideal (x : ideal_line R) : mv := mv_p2 (ideal_line_p2 x).
Definition mv_branch (x : branch R) : mv := mv_p1 (branch_p1 x).
Definition mv_line (x : line R) : mv := mv_p12 (line_p1 x) (line_p2 x).
Definition mv_rotor (x : rotor R) : mv := mv_p1 (rotor_p1 x).
(** the scalar part 1 of a translator is implicit (translator.hpp 168-171) *)
Definition mv_translator (x : translator R) : mv :=
  mv_p12 (mk4 1 0 0 0) (translator_p2 x).
Definition mv_motor (x : motor R) : mv := mv_p12 (motor_p1 x) (motor_p2 x).
(** dual.hpp 12-14: p + q e0123 *)
Definition mv_dual (x : dual R) : mv :=
  mv_p12 (mk4 (dual_p x) 0 0 0) (mk4 (dual_q x) 0 0 0).

(** Well-formed objects: the lane an entity does not use is zero.  Every
    constructor establishes this and every operation preserves it
    (Wf.v). *)
Definition wf_direction (x : direction R) : Prop := l0 (direction_p3 x) = 0.
Definition wf_ideal (x : ideal_line R) : Prop := l0 (ideal_line_p2 x) = 0.
Definition wf_branch (x : branch R) : Prop := l0 (branch_p1 x) = 0.
Definition wf_line (x : line R) : Prop := l0 (line_p1 x) = 0 /\ l0 (line_p2 x) = 0.
Definition wf_translator (x : translator R) : Prop := l0 (translator_p2 x) = 0.

(** the layout in terms of generators *)
Definition combo (v : m128 R) (a b c d : mv) : mv :=
  mvadd (mvadd (mvadd (mvscale (l0 v) a) (mvscale (l1 v) b)) (mvscale (l2 v) c)) (mvscale (l3 v) d).
Ltac embgen := intros [? ? ? ?]; mvring.
Lemma mv_p0_gen : forall v, mv_p0 v == combo v e0 e1 e2 e3. Proof. embgen. Qed.
Lemma mv_p1_gen : forall v, mv_p1 v == combo v one (gp e2 e3) (gp e3 e1) (gp e1 e2).
Proof. embgen. Qed.
Lemma mv_p2_gen : forall v, mv_p2 v == combo v I4 (gp e0 e1) (gp e0 e2) (gp e0 e3).
Proof. embgen. Qed.
Lemma mv_p3_gen : forall v,
  mv_p3 v == combo v (gp e1 (gp e2 e3)) (gp e0 (gp e3 e2)) (gp e0 (gp e1 e3)) (gp e0 (gp e2 e1)).
Proof. embgen. Qed.

(** embeddings are injective *)
Lemma mv_p0_inj a b : mv_p0 a == mv_p0 b -> a = b.
Proof.
  destruct a, b. intro H.
  f_equal; [apply (H (Bl true false false false)) | apply (H (Bl false true false false))
    | apply (H (Bl false false true false)) | apply (H (Bl false false false true))].
Qed.
