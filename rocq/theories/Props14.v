(** Property C67: the formulas written in the comments.  The kernels carry the
    expanded polynomial of each product as a comment, and the skeletal
    animation case study expands m P ~m.  Each formula is transcribed from the
    comment (file and lines given; the transcription of the kernel comments is
    mechanical) and compared with the modelled kernel lane by lane.  Lanes the
    comment does not mention are 0.  Exact real arithmetic. *)
From Coq Require Import Reals ZArith Lra Lia Setoid Morphisms.
From Verif Require Import AlgTac FloR Closed Geom AlgGP AlgSW AlgNorm KernelGP KernelEI KernelSW KernelMat.
Local Open Scope R_scope.

Ltac cm := match goal with |- forall _ : Build, _ => let B := fresh "B" in intro B; destruct B as [[|]] | _ =>
      idtac end;
  repeat match goal with |- _ /\ _ => split end; intros;
  try apply (f_equal2 pair); apply m128_ext; gcbv; ring.

Theorem C67_gp_comments : forall B : Build,
  (** x86_geometric_product.hpp 32-40 *)
  (forall a0 a1 a2 a3 b0 b1 b2 b3 : R, gp00 (mk4 a0 a1 a2 a3) (mk4 b0 b1 b2 b3) =
     (mk4 (a1 * b1 + a2 * b2 + a3 * b3) (a2 * b3 - a3 * b2) (a3 * b1 - a1 * b3) (a1 * b2 - a2 * b1), mk4 0 (a0 * b1
      - a1 * b0) (a0 * b2 - a2 * b0) (a0 * b3 - a3 * b0))) /\
  (** x86_geometric_product.hpp 72-78 *)
  (forall a0 a1 a2 a3 b0 b1 b2 b3 : R, gp03 false (mk4 a0 a1 a2 a3) (mk4 b0 b1 b2 b3) =
     (mk4 0 (a1 * b0) (a2 * b0) (a3 * b0), mk4 (a0 * b0 + a1 * b1 + a2 * b2 + a3 * b3) (a3 * b2 - a2 * b3) (a1 * b3
      - a3 * b1) (a2 * b1 - a1 * b2))) /\
  (** x86_geometric_product.hpp 82-88 *)
  (forall a0 a1 a2 a3 b0 b1 b2 b3 : R, gp03 true (mk4 a0 a1 a2 a3) (mk4 b0 b1 b2 b3) =
     (mk4 0 (a1 * b0) (a2 * b0) (a3 * b0), mk4 (- (a0 * b0 + a1 * b1 + a2 * b2 + a3 * b3)) (a3 * b2 - a2 * b3) (a1
      * b3 - a3 * b1) (a2 * b1 - a1 * b2))) /\
  (** x86_geometric_product.hpp 140-143 *)
  (forall a0 a1 a2 a3 b0 b1 b2 b3 : R, gp11 (mk4 a0 a1 a2 a3) (mk4 b0 b1 b2 b3) =
     mk4 (a0 * b0 - a1 * b1 - a2 * b2 - a3 * b3) (a0 * b1 - a2 * b3 + a1 * b0 + a3 * b2) (a0 * b2 - a3 * b1 + a2 *
      b0 + a1 * b3) (a0 * b3 - a1 * b2 + a3 * b0 + a2 * b1)) /\
  (** x86_geometric_product.hpp 218-221 *)
  (forall a0 a1 a2 a3 b0 b1 b2 b3 : R, gpRT true (mk4 a0 a1 a2 a3) (mk4 b0 b1 b2 b3) =
     mk4 (a1 * b1 + a2 * b2 + a3 * b3) (a0 * b1 + a2 * b3 - a3 * b2) (a0 * b2 + a3 * b1 - a1 * b3) (a0 * b3 + a1 *
      b2 - a2 * b1)) /\
  (** x86_geometric_product.hpp 236-239 *)
  (forall a0 a1 a2 a3 b0 b1 b2 b3 : R, gpRT false (mk4 a0 a1 a2 a3) (mk4 b0 b1 b2 b3) =
     mk4 (a1 * b1 + a2 * b2 + a3 * b3) (a0 * b1 + a3 * b2 - a2 * b3) (a0 * b2 + a1 * b3 - a3 * b1) (a0 * b3 + a2 *
      b1 - a1 * b2)) /\
  (** x86_geometric_product.hpp 315-327 *)
  (forall a0 a1 a2 a3 b0 b1 b2 b3 c0 c1 c2 c3 d0 d1 d2 d3 : R, gpMM (mk4 a0 a1 a2 a3) (mk4 b0 b1 b2 b3) (mk4 c0 c1
      c2 c3) (mk4 d0 d1 d2 d3) =
     (mk4 (a0 * c0 - a1 * c1 - a2 * c2 - a3 * c3) (a0 * c1 + a3 * c2 + a1 * c0 - a2 * c3) (a0 * c2 + a1 * c3 + a2 *
      c0 - a3 * c1) (a0 * c3 + a2 * c1 + a3 * c0 - a1 * c2), mk4 (a0 * d0 + b0 * c0 + a1 * d1 + b1 * c1 + a2 * d2 +
      a3 * d3 + b2 * c2 + b3 * c3) (a0 * d1 + b1 * c0 + a3 * d2 + b3 * c2 - a1 * d0 - a2 * d3 - b0 * c1 - b2 * c3)
      (a0 * d2 + b2 * c0 + a1 * d3 + b1 * c3 - a2 * d0 - a3 * d1 - b0 * c2 - b3 * c1) (a0 * d3 + b3 * c0 + a2 * d1
      + b2 * c1 - a3 * d0 - a1 * d2 - b0 * c3 - b1 * c2))).
Proof. cm. Qed.
Theorem C67_ext_dot_comments : forall B : Build,
  (** x86_exterior_product.hpp 21-27 *)
  (forall a0 a1 a2 a3 b0 b1 b2 b3 : R, ext00 (mk4 a0 a1 a2 a3) (mk4 b0 b1 b2 b3) =
     (mk4 0 (a2 * b3 - a3 * b2) (a3 * b1 - a1 * b3) (a1 * b2 - a2 * b1), mk4 0 (a0 * b1 - a1 * b0) (a0 * b2 - a2 *
      b0) (a0 * b3 - a3 * b0))) /\
  (** x86_exterior_product.hpp 47-50 *)
  (forall a0 a1 a2 a3 b0 b1 b2 b3 : R, extPB (mk4 a0 a1 a2 a3) (mk4 b0 b1 b2 b3) =
     mk4 (a1 * b1 + a2 * b2 + a3 * b3) (- a0 * b1) (- a0 * b2) (- a0 * b3)) /\
  (** x86_exterior_product.hpp 60-62 *)
  (forall a0 a1 a2 a3 b0 b1 b2 b3 : R, ext02 (mk4 a0 a1 a2 a3) (mk4 b0 b1 b2 b3) =
     mk4 0 (a2 * b3 - a3 * b2) (a3 * b1 - a1 * b3) (a1 * b2 - a2 * b1)) /\
  (** x86_exterior_product.hpp 76-76 *)
  (forall a0 a1 a2 a3 b0 b1 b2 b3 : R, ext03 false (mk4 a0 a1 a2 a3) (mk4 b0 b1 b2 b3) =
     mk4 (a0 * b0 + a1 * b1 + a2 * b2 + a3 * b3) 0 0 0) /\
  (** x86_inner_product.hpp 18-18 *)
  (forall a0 a1 a2 a3 b0 b1 b2 b3 : R, dot00 (mk4 a0 a1 a2 a3) (mk4 b0 b1 b2 b3) =
     mk4 (a1 * b1 + a2 * b2 + a3 * b3) 0 0 0) /\
  (** x86_inner_product.hpp 28-33 *)
  (forall a0 a1 a2 a3 b0 b1 b2 b3 : R, dot03 (mk4 a0 a1 a2 a3) (mk4 b0 b1 b2 b3) =
     (mk4 0 (a1 * b0) (a2 * b0) (a3 * b0), mk4 0 (a3 * b2 - a2 * b3) (a1 * b3 - a3 * b1) (a2 * b1 - a1 * b2))) /\
  (** x86_inner_product.hpp 59-59 *)
  (forall a0 a1 a2 a3 b0 b1 b2 b3 : R, dot33 (mk4 a0 a1 a2 a3) (mk4 b0 b1 b2 b3) =
     mk4 (- a0 * b0) 0 0 0) /\
  (** x86_inner_product.hpp 99-102 *)
  (forall a0 a1 a2 a3 b0 b1 b2 b3 c0 c1 c2 c3 : R, dotPL false (mk4 a0 a1 a2 a3) (mk4 b0 b1 b2 b3) (mk4 c0 c1 c2 c3) =
     mk4 (- (a1 * c1 + a2 * c2 + a3 * c3)) (a3 * b2 - a2 * b3) (a1 * b3 - a3 * b1) (a2 * b1 - a1 * b2)) /\
  (** x86_inner_product.hpp 113-116 *)
  (forall a0 a1 a2 a3 b0 b1 b2 b3 c0 c1 c2 c3 : R, dotPL true (mk4 a0 a1 a2 a3) (mk4 b0 b1 b2 b3) (mk4 c0 c1 c2 c3) =
     mk4 (a1 * c1 + a2 * c2 + a3 * c3) (a2 * b3 - a3 * b2) (a3 * b1 - a1 * b3) (a1 * b2 - a2 * b1)).
Proof. cm. Qed.
Theorem C67_sandwich_comments : forall B : Build,
  (** x86_sandwich.hpp 34-37 *)
  (forall a0 a1 a2 a3 b0 b1 b2 b3 : R, sw00 (mk4 a0 a1 a2 a3) (mk4 b0 b1 b2 b3) =
     mk4 (2 * a0 * (a2 * b2 + a3 * b3 + a1 * b1) - b0 * (a1 * a1 + a2 * a2 + a3 * a3)) (2 * a1 * (a2 * b2 + a3 *
      b3) + b1 * (a1 * a1 - a2 * a2 - a3 * a3)) (2 * a2 * (a3 * b3 + a1 * b1) + b2 * (a2 * a2 - a3 * a3 - a1 * a1))
      (2 * a3 * (a1 * b1 + a2 * b2) + b3 * (a3 * a3 - a1 * a1 - a2 * a2))) /\
  (** x86_sandwich.hpp 66-73 *)
  (forall a0 a1 a2 a3 b0 b1 b2 b3 : R, sw10 (mk4 a0 a1 a2 a3) (mk4 b0 b1 b2 b3) =
     (mk4 (b0 * (a1 * a1 + a2 * a2 + a3 * a3)) (2 * a1 * (a2 * b2 + a3 * b3) + b1 * (a1 * a1 - a2 * a2 - a3 * a3))
      (2 * a2 * (a3 * b3 + a1 * b1) + b2 * (a2 * a2 - a3 * a3 - a1 * a1)) (2 * a3 * (a1 * b1 + a2 * b2) + b3 * (a3
      * a3 - a1 * a1 - a2 * a2)), mk4 0 (2 * a0 * (a2 * b3 - a3 * b2)) (2 * a0 * (a3 * b1 - a1 * b3)) (2 * a0 * (a1
      * b2 - a2 * b1)))) /\
  (** x86_sandwich.hpp 102-105 *)
  (forall a0 a1 a2 a3 b0 b1 b2 b3 : R, sw20 (mk4 a0 a1 a2 a3) (mk4 b0 b1 b2 b3) =
     mk4 (- b0 * (a1 * a1 + a2 * a2 + a3 * a3)) (- 2 * a1 * (a2 * b2 + a3 * b3) + b1 * (a2 * a2 + a3 * a3 - a1 *
      a1)) (- 2 * a2 * (a3 * b3 + a1 * b1) + b2 * (a3 * a3 + a1 * a1 - a2 * a2)) (- 2 * a3 * (a1 * b1 + a2 * b2) +
      b3 * (a1 * a1 + a2 * a2 - a3 * a3))) /\
  (** x86_sandwich.hpp 126-129 *)
  (forall a0 a1 a2 a3 b0 b1 b2 b3 : R, sw30 (mk4 a0 a1 a2 a3) (mk4 b0 b1 b2 b3) =
     mk4 (b0 * (a1 * a1 + a2 * a2 + a3 * a3)) (- 2 * a1 * (a0 * b0 + a3 * b3 + a2 * b2) + b1 * (a2 * a2 + a3 * a3 -
      a1 * a1)) (- 2 * a2 * (a0 * b0 + a1 * b1 + a3 * b3) + b2 * (a3 * a3 + a1 * a1 - a2 * a2)) (- 2 * a3 * (a0 *
      b0 + a2 * b2 + a1 * b1) + b3 * (a1 * a1 + a2 * a2 - a3 * a3))) /\
  (** x86_sandwich.hpp 199-207 *)
  (forall a0 a1 a2 a3 d0 d1 d2 d3 c0 c1 c2 c3 : R, swL2 (mk4 a0 a1 a2 a3) (mk4 d0 d1 d2 d3) (mk4 c0 c1 c2 c3) =
     (mk4 a0 a1 a2 a3, mk4 (2 * a0 * c0 + d0) (2 * (a2 * c3 - a3 * c2 - a1 * c0) + d1) (2 * (a3 * c1 - a1 * c3 - a2
      * c0) + d2) (2 * (a1 * c2 - a2 * c1 - a3 * c0) + d3))) /\
  (** x86_sandwich.hpp 236-239 *)
  (forall a0 a1 a2 a3 b0 b1 b2 b3 : R, sw32 (mk4 a0 a1 a2 a3) (mk4 b0 b1 b2 b3) =
     mk4 a0 (a1 - 2 * a0 * b1) (a2 - 2 * a0 * b2) (a3 - 2 * a0 * b3)) /\
  (** x86_sandwich.hpp 416-431 *)
  (forall a0 a1 a2 a3 b0 b1 b2 b3 c0 c1 c2 c3 : R, sw012_motor (mk4 a0 a1 a2 a3) (mk4 b0 b1 b2 b3) (mk4 c0 c1 c2 c3) =
     mk4 (2 * a3 * (b0 * c3 + b1 * c2 + b3 * c0 - b2 * c1) + 2 * a2 * (b0 * c2 + b3 * c1 + b2 * c0 - b1 * c3) + 2 *
      a1 * (b0 * c1 + b2 * c3 + b1 * c0 - b3 * c2) + a0 * (b2 * b2 + b1 * b1 + b0 * b0 + b3 * b3)) (2 * a2 * (b0 *
      b3 + b2 * b1) + 2 * a3 * (b1 * b3 - b0 * b2) + a1 * (b0 * b0 + b1 * b1 - b3 * b3 - b2 * b2)) (2 * a3 * (b0 *
      b1 + b3 * b2) + 2 * a1 * (b2 * b1 - b0 * b3) + a2 * (b0 * b0 + b2 * b2 - b1 * b1 - b3 * b3)) (2 * a1 * (b0 *
      b2 + b1 * b3) + 2 * a2 * (b3 * b2 - b0 * b1) + a3 * (b0 * b0 + b3 * b3 - b2 * b2 - b1 * b1))) /\
  (** x86_sandwich.hpp 522-537 *)
  (forall a0 a1 a2 a3 b0 b1 b2 b3 c0 c1 c2 c3 : R, sw312_motor (mk4 a0 a1 a2 a3) (mk4 b0 b1 b2 b3) (mk4 c0 c1 c2 c3) =
     mk4 (a0 * (b1 * b1 + b0 * b0 + b2 * b2 + b3 * b3)) (2 * a0 * (b2 * c3 - b0 * c1 - b3 * c2 - b1 * c0) + 2 * a3
      * (b1 * b3 - b0 * b2) + 2 * a2 * (b0 * b3 + b2 * b1) + a1 * (b0 * b0 + b1 * b1 - b3 * b3 - b2 * b2)) (2 * a0
      * (b3 * c1 - b0 * c2 - b1 * c3 - b2 * c0) + 2 * a1 * (b2 * b1 - b0 * b3) + 2 * a3 * (b0 * b1 + b3 * b2) + a2
      * (b0 * b0 + b2 * b2 - b1 * b1 - b3 * b3)) (2 * a0 * (b1 * c2 - b0 * c3 - b2 * c1 - b3 * c0) + 2 * a2 * (b3 *
      b2 - b0 * b1) + 2 * a1 * (b0 * b2 + b1 * b3) + a3 * (b0 * b0 + b3 * b3 - b2 * b2 - b1 * b1))).
Proof. cm. Qed.
(** x86_sandwich.hpp 262-268 and 298-320 *)
Theorem C67_swMM_comment : forall (B : Build) (a0 a1 a2 a3 b0 b1 b2 b3 c0 c1 c2 c3 d0 d1 d2 d3 : R),
  swMM_line (mk4 a0 a1 a2 a3) (mk4 d0 d1 d2 d3) (mk4 b0 b1 b2 b3) (mk4 c0 c1 c2 c3) =
   (mk4 (a0 * (b0 * b0 + b1 * b1 + b2 * b2 + b3 * b3)) (a1 * (b1 * b1 + b0 * b0 - b3 * b3 - b2 * b2) + 2 * a2 * (b0
      * b3 + b1 * b2) + 2 * a3 * (b1 * b3 - b0 * b2)) (a2 * (b2 * b2 + b0 * b0 - b1 * b1 - b3 * b3) + 2 * a3 * (b0
      * b1 + b2 * b3) + 2 * a1 * (b2 * b1 - b0 * b3)) (a3 * (b3 * b3 + b0 * b0 - b2 * b2 - b1 * b1) + 2 * a1 * (b0
      * b2 + b3 * b1) + 2 * a2 * (b3 * b2 - b0 * b1)),
    mk4 (2 * a0 * (b0 * c0 - b1 * c1 - b2 * c2 - b3 * c3) + d0 * (b1 * b1 + b0 * b0 + b2 * b2 + b3 * b3)) (2 * a1 *
      (b1 * c1 - b0 * c0 - b3 * c3 - b2 * c2) + 2 * a3 * (b1 * c3 + b2 * c0 + b3 * c1 - b0 * c2) + 2 * a2 * (b1 *
      c2 + b0 * c3 + b2 * c1 - b3 * c0) + 2 * d2 * (b0 * b3 + b2 * b1) + 2 * d3 * (b1 * b3 - b0 * b2) + d1 * (b0 *
      b0 + b1 * b1 - b3 * b3 - b2 * b2)) (2 * a2 * (b2 * c2 - b0 * c0 - b3 * c3 - b1 * c1) + 2 * a1 * (b2 * c1 + b3
      * c0 + b1 * c2 - b0 * c3) + 2 * a3 * (b2 * c3 + b0 * c1 + b3 * c2 - b1 * c0) + 2 * d3 * (b0 * b1 + b3 * b2) +
      2 * d1 * (b2 * b1 - b0 * b3) + d2 * (b0 * b0 + b2 * b2 - b1 * b1 - b3 * b3)) (2 * a3 * (b3 * c3 - b0 * c0 -
      b1 * c1 - b2 * c2) + 2 * a2 * (b3 * c2 + b1 * c0 + b2 * c3 - b0 * c1) + 2 * a1 * (b3 * c1 + b0 * c2 + b1 * c3
      - b2 * c0) + 2 * d1 * (b0 * b2 + b1 * b3) + 2 * d2 * (b3 * b2 - b0 * b1) + d3 * (b0 * b0 + b3 * b3 - b2 * b2
      - b1 * b1))).
Proof. cm. Qed.
(** x86_sandwich.hpp 435-440 and 540-544, the remarks below the formulas:
    without translation part the motor acts as the rotor, the e1, e2, e3 lanes
    of a plane never see the translation part, and a normalized rotor leaves
    the e123 lane of a point alone *)
Theorem C67_remarks : forall (B : Build) (a b c : m128 R) c0,
  sw012_motor a b (mk4 0 0 0 0) = sw012_rotor a b /\
  sw312_motor a b (mk4 c0 0 0 0) =
    (let r := sw312_rotor a b in let k := - 2 * l0 a * c0 in
     mk4 (l0 r) (l1 r + k * l1 b) (l2 r + k * l2 b) (l3 r + k * l3 b)) /\
  sw312_motor a b (mk4 0 0 0 0) = sw312_rotor a b /\
  l1 (sw012_motor a b c) = l1 (sw012_rotor a b) /\
  l2 (sw012_motor a b c) = l2 (sw012_rotor a b) /\
  l3 (sw012_motor a b c) = l3 (sw012_rotor a b) /\
  (dot4 b b = 1 -> l0 (sw312_motor a b c) = l0 a).
Proof.
  intros B [a0 a1 a2 a3] [b0 b1 b2 b3] [c0' c1 c2 c3] c0. destruct B as [[|]];
  repeat match goal with |- _ /\ _ => split end;
  try (apply m128_ext; gcbv; ring); try (gcbv; ring);
  intro H; transitivity (a0 * dot4 (mk4 b0 b1 b2 b3) (mk4 b0 b1 b2 b3)); try (rewrite H; cbn; ring); gcbv; ring.
Qed.
(** formulas that hold because the lane they leave out is 0 in every well-formed
    line: x86_geometric_product.hpp 202-207, x86_inner_product.hpp 66-69 *)
Theorem C67_line_comments : forall (B : Build) (u v a0 a1 a2 a3 b1 b2 b3 c1 c2 c3 : R),
  (let b0 := 0 in let c0 := 0 in gpDL u v (mk4 b0 b1 b2 b3) (mk4 c0 c1 c2 c3) =
   (mk4 0 (b1 * u) (b2 * u) (b3 * u),
    mk4 0 (- b1 * v + c1 * u) (- b2 * v + c2 * u) (- b3 * v + c3 * u))) /\
  (let b0 := 0 in dotPTL (mk4 a0 a1 a2 a3) (mk4 b0 b1 b2 b3) =
    mk4 (a1 * b1 + a2 * b2 + a3 * b3) (- a0 * b1) (- a0 * b2) (- a0 * b3)).
Proof. intro B; destruct B as [[|]]; intros; split; cbv zeta; try apply (f_equal2 pair); apply m128_ext; gcbv;
      ring. Qed.
(** a low lane other than 0 leaks into both, and into [dotPTL] only in the SSE3
    build *)
Theorem C67_low_lanes : forall (B : Build) (u v a0 a1 a2 a3 b0 b1 b2 b3 c0 c1 c2 c3 : R),
  (let '(p1, p2) := gpDL u v (mk4 b0 b1 b2 b3) (mk4 c0 c1 c2 c3) in
   l0 p1 = u * b0 /\ l0 p2 = c0 * u - b0 * v) /\
  l0 (dotPTL (mk4 a0 a1 a2 a3) (mk4 b0 b1 b2 b3)) =
    a1 * b1 + a2 * b2 + a3 * b3 + (if sse41 then 0 else a0 * b0).
Proof. intro B; destruct B as [[|]]; intros; split; [split| |split|]; gcbv; ring. Qed.
(** x86_geometric_product.hpp 265-272: the ideal half is right, the two lanes of
    the rotational half are exchanged.  [gpLL] computes the formula with e12
    and e23 swapped. *)
Theorem C67_gpLL_comment_refuted : forall B : Build,
  (exists a0 a1 a2 a3 b0 b1 b2 b3 c0 c1 c2 c3 d0 d1 d2 d3 : R,
   gpLL (mk4 a0 a1 a2 a3) (mk4 d0 d1 d2 d3) (mk4 b0 b1 b2 b3) (mk4 c0 c1 c2 c3) <>
   (mk4 (- a1 * b1 - a3 * b3 - a2 * b2) (a3 * b2 - a2 * b3) (a1 * b3 - a3 * b1) (a2 * b1 - a1 * b2),
    mk4 (a1 * c1 + a3 * c3 + a2 * c2 + b1 * d1 + b3 * d3 + b2 * d2) (a3 * c2 - a2 * c3 + b2 * d3 - b3 * d2) (a1 *
      c3 - a3 * c1 + b3 * d1 - b1 * d3) (a2 * c1 - a1 * c2 + b1 * d2 - b2 * d1))) /\
  (forall a0 a1 a2 a3 b0 b1 b2 b3 c0 c1 c2 c3 d0 d1 d2 d3 : R,
   let '(p1, p2) := gpLL (mk4 a0 a1 a2 a3) (mk4 d0 d1 d2 d3) (mk4 b0 b1 b2 b3) (mk4 c0 c1 c2 c3) in
   (mk4 (l0 p1) (l3 p1) (l2 p1) (l1 p1), p2) =
   (mk4 (- a1 * b1 - a3 * b3 - a2 * b2) (a3 * b2 - a2 * b3) (a1 * b3 - a3 * b1) (a2 * b1 - a1 * b2),
    mk4 (a1 * c1 + a3 * c3 + a2 * c2 + b1 * d1 + b3 * d3 + b2 * d2) (a3 * c2 - a2 * c3 + b2 * d3 - b3 * d2) (a1 *
      c3 - a3 * c1 + b3 * d1 - b1 * d3) (a2 * c1 - a1 * c2 + b1 * d2 - b2 * d1))).
Proof.
  intro B. split.
  - exists 0, 1, 0, 0, 0, 0, 1, 0, 0, 0, 0, 0, 0, 0, 0, 0. intro H. apply (f_equal (fun p => l1 (fst p))) in H.
    destruct B as [[|]]; revert H; gcbv; lra.
  - destruct B as [[|]]; intros; apply (f_equal2 pair); apply m128_ext; gcbv; ring.
Qed.
(** x86_sandwich.hpp 609-612 and 624: for a normalized motor *)
Theorem C67_swo12_comment : forall (B : Build) (b0 b1 b2 b3 c0 c1 c2 c3 : R),
  b0 * b0 + b1 * b1 + b2 * b2 + b3 * b3 = 1 ->
  swo12 (mk4 b0 b1 b2 b3) (mk4 c0 c1 c2 c3) =
  mk4 (b0 * b0 + b1 * b1 + b2 * b2 + b3 * b3) (2 * (b2 * c3 - b1 * c0 - b0 * c1 - b3 * c2)) (2 * (b3 * c1 - b2 * c0
      - b0 * c2 - b1 * c3)) (2 * (b1 * c2 - b3 * c0 - b0 * c3 - b2 * c1)).
Proof. intro B; destruct B as [[|]]; intros; apply m128_ext; gcbv; lra. Qed.

Section F.
Context (rcp rsqrt : R -> R) (sz : bool) (Hrcp : exact_rcp rcp) (Hrsq : exact_rsqrt rsqrt).
Local Instance FLx : Flo R := Flo_R rcp rsqrt sz.
(** x86_sandwich.hpp 168-171 *)
Theorem C67_sw02_comment : forall (B : Build) (a0 a1 a2 a3 b0 b1 b2 b3 : R), b0 <> 0 ->
  sw02 (mk4 a0 a1 a2 a3) (mk4 b0 b1 b2 b3) =
  mk4 (a0 + 2 * a1 * b1 / b0 + 2 * a2 * b2 / b0 + 2 * a3 * b3 / b0) a1 a2 a3.
Proof.
  intros B a0 a1 a2 a3 b0 b1 b2 b3 N. unfold sw02. unfold FLx. rewrite rcp_nr1_R.
  assert (E := nr_rcp_exact rcp b0 Hrcp N). destruct B as [[|]]; apply m128_ext; rcbv; rewrite ?E; field; assumption.
Qed.
(** x86_geometric_product.hpp 172-177.  The terms of the comment are divided by
    - a0 b0 (the text says a0 b0); the scalar 1 is not stored. *)
Theorem C67_gp33_comment : forall (B : Build) (a0 a1 a2 a3 b0 b1 b2 b3 : R), a0 * b0 <> 0 ->
  gp33 (mk4 a0 a1 a2 a3) (mk4 b0 b1 b2 b3) =
  mk4 0 ((- a0 * b1 + a1 * b0) / - (a0 * b0)) ((- a0 * b2 + a2 * b0) / - (a0 * b0)) ((- a0 * b3 + a3 * b0) / - (a0
      * b0)).
Proof.
  intros B a0 a1 a2 a3 b0 b1 b2 b3 N. unfold gp33. unfold FLx. rewrite rcp_nr1_R.
  assert (N' : a0 * b0 * -2 + a0 * b0 <> 0) by lra.
  assert (E := nr_rcp_exact rcp _ Hrcp N').
  assert (Na : a0 <> 0) by (intro Z; apply N; rewrite Z; ring).
  assert (Nb : b0 <> 0) by (intro Z; apply N; rewrite Z; ring).
  destruct B as [[|]]; apply m128_ext; rcbv; rewrite ?E; field; repeat split; assumption || lra.
Qed.
End F.
(** x86_matrix.hpp 63-66, 77-80, 90-93, 104-107: the columns *)
Theorem C67_matrix_comments : forall (B : Build) (b0 b1 b2 b3 c0 c1 c2 c3 : R),
  mat4x4_12_t false (mk4 b0 b1 b2 b3) (mk4 c0 c1 c2 c3) =
  mkmat (mk4 (b0 * b0 + b1 * b1 - b3 * b3 - b2 * b2) (2 * (b1 * b2 - b3 * b0)) (2 * (b2 * b0 + b1 * b3)) 0)
        (mk4 (2 * (b0 * b3 + b2 * b1)) (- (b1 * b1) - b3 * b3 + b0 * b0 + b2 * b2) (2 * (b2 * b3 - b0 * b1)) 0)
        (mk4 (2 * (- b0 * b2 + b1 * b3)) (2 * (b1 * b0 + b2 * b3)) (- (b2 * b2) + b0 * b0 + b3 * b3 - b1 * b1) 0)
        (mk4 (2 * (b2 * c3 - b0 * c1 - b3 * c2 - b1 * c0)) (2 * (b3 * c1 - b1 * c3 - b0 * c2 - b2 * c0))
             (2 * (b1 * c2 - b2 * c1 - b0 * c3 - b3 * c0)) (b0 * b0 + b1 * b1 + b2 * b2 + b3 * b3)).
Proof.
  intro B; destruct B as [[|]]; intros; match goal with |- ?x = mkmat ?p ?q ?r ?s =>
    transitivity (mkmat (col0 x) (col1 x) (col2 x) (col3 x)); [reflexivity|] end.
  all: f_equal; apply m128_ext; gcbv; ring.
Qed.

(** ga_skeletal_animation.md 173-210: m P ~m with the coefficients named as in
    the text, e12 first.  The text writes the last term of P as a3 e023; with
    a3 e032 the formula is the sandwich product. *)
Definition doc_P (a0 a1 a2 a3 : R) : mv := mv_point (mkpoint (mk4 a0 a3 a2 a1)).
Definition doc_m (b0 b1 b2 b3 c0 c1 c2 c3 : R) : mv := mv_motor (mkmotor (mk4 b0 b3 b2 b1) (mk4 c0 c1 c2 c3)).
Definition doc_mPm (a0 a1 a2 a3 b0 b1 b2 b3 c0 c1 c2 c3 : R) : mv := doc_P
  (a0 * (b0 * b0 + b1 * b1 + b2 * b2 + b3 * b3))
  (2 * a0 * (b3 * c2 - b0 * c3 - b2 * c1 - b1 * c0) + 2 * a2 * (b1 * b2 - b0 * b3) +
   2 * a3 * (b0 * b2 + b1 * b3) + a1 * (b0 * b0 + b1 * b1 - b2 * b2 - b3 * b3))
  (2 * a0 * (b1 * c1 - b0 * c2 - b3 * c3 - b2 * c0) + 2 * a3 * (b2 * b3 - b0 * b1) +
   2 * a1 * (b0 * b3 + b1 * b2) + a2 * (b0 * b0 + b2 * b2 - b1 * b1 - b3 * b3))
  (2 * a0 * (b2 * c3 - b0 * c1 - b1 * c2 - b3 * c0) + 2 * a1 * (b1 * b3 - b0 * b2) +
   2 * a2 * (b0 * b1 + b2 * b3) + a3 * (b0 * b0 + b3 * b3 - b1 * b1 - b2 * b2)).
Theorem C67_case_study_formula : forall a0 a1 a2 a3 b0 b1 b2 b3 c0 c1 c2 c3,
  b0 * c0 = b1 * c3 + b2 * c2 + b3 * c1 ->
  sandwich (doc_m b0 b1 b2 b3 c0 c1 c2 c3) (doc_P a0 a1 a2 a3) == doc_mPm a0 a1 a2 a3 b0 b1 b2 b3 c0 c1 c2 c3.
Proof. intros. unfold doc_m, doc_P, doc_mPm. blades; lra. Qed.
(** read literally (a3 e023 = - a3 e032 in P) it is not *)
Theorem C67_case_study_sign_refuted : exists a0 a1 a2 a3 b0 b1 b2 b3 c0 c1 c2 c3,
  b0 * c0 = b1 * c3 + b2 * c2 + b3 * c1 /\ b0 * b0 + b1 * b1 + b2 * b2 + b3 * b3 = 1 /\
  ~ sandwich (doc_m b0 b1 b2 b3 c0 c1 c2 c3) (doc_P a0 a1 a2 (- a3)) == doc_mPm a0 a1 a2 a3 b0 b1 b2 b3 c0 c1 c2 c3.
Proof.
  exists 1, 0, 0, 1, 1, 0, 0, 0, 0, 0, 0, 0. repeat split; try lra.
  intro H. specialize (H (Bl true false true true)). revert H. unfold doc_m, doc_P, doc_mPm. mvcbv. lra.
Qed.

(** x86_exp_log.hpp 50-115: the derivation of the exponential.  For a bivector
    with coefficients a (p1) and b (p2), n = a.a, g = a.b: minus its square is
    n - 2 g e0123, the square root of that and the inverse of the root are as
    stated, the normalized bivector squares to -1, and the products of the
    Euclidean axes with e0123 are as listed. *)
Theorem C67_exp_derivation : forall l, wf_line l -> 0 < dot3 (line_p1 l) (line_p1 l) ->
  let n := dot3 (line_p1 l) (line_p1 l) in let g := dot3 (line_p1 l) (line_p2 l) in
  let norm := mv_dual (mkdual (sqrt n) (- (g / sqrt n))) in
  let inv := mv_dual (mkdual (1 / sqrt n) (g / (sqrt n * sqrt n * sqrt n))) in
  mvscale (-1) (gp (mv_line l) (mv_line l)) == mv_dual (mkdual n (- (2 * g))) /\
  gp norm norm == mv_dual (mkdual n (- (2 * g))) /\
  gp norm inv == one /\
  gp (gp inv (mv_line l)) (gp inv (mv_line l)) == scalar_mv (-1) /\
  gp norm (gp inv (mv_line l)) == mv_line l.
Proof.
  intros l W P n g norm inv.
  assert (PS : 0 < sqrt n) by (apply sqrt_lt_R0; exact P).
  assert (Q : sqrt n * sqrt n = n) by (apply sqrt_sqrt; unfold n; lra).
  assert (H1 : mvscale (-1) (gp (mv_line l) (mv_line l)) == mv_dual (mkdual n (- (2 * g)))).
  { unfold n, g. clear - W. destruct l as [[a0 a1 a2 a3] [b0 b1 b2 b3]], W as [W1 W2]. cbn in W1, W2. subst a0 b0.
      unfold dot3. blades; ring. }
  assert (H2 : gp norm norm == mv_dual (mkdual n (- (2 * g)))).
  { transitivity (mv_dual (mkdual (sqrt n * sqrt n) (- (2 * g)))); [|rewrite Q; reflexivity].
    unfold norm. set (r := sqrt n) in *. clearbody r g. clear - PS. blades; field; lra. }
  assert (H3 : gp norm inv == one).
  { unfold norm, inv. set (r := sqrt n) in *. clearbody r g. clear - PS. blades; field; lra. }
  assert (H4 : gp inv norm == one).
  { unfold norm, inv. set (r := sqrt n) in *. clearbody r g. clear - PS. blades; field; lra. }
  assert (C : gp (mv_line l) inv == gp inv (mv_line l)).
  { unfold inv. generalize (1 / sqrt n) (g / (sqrt n * sqrt n * sqrt n)). clear - W.
    destruct l as [[a0 a1 a2 a3] [b0 b1 b2 b3]], W as [W1 W2]. cbn in W1, W2. subst a0 b0. intros. blades; ring. }
  clearbody norm inv. repeat match goal with |- _ /\ _ => split end; try assumption.
  - rewrite gp_assoc, <- (gp_assoc (mv_line l) inv), C, (gp_assoc inv (mv_line l) (mv_line l)).
    assert (H5 : gp (mv_line l) (mv_line l) == mvscale (-1) (gp norm norm)).
    { rewrite H2, <- H1. intro k. unfold mvscale. ring. }
    rewrite H5, !gp_scale_r, <- (gp_assoc inv norm norm), H4, gp_one_l, H4. reflexivity.
  - rewrite <- gp_assoc, H3. apply gp_one_l.
Qed.
Theorem C67_axes : let I := mv_dual (mkdual 0 1) in
  let e23 := mv_branch (branch_ctor 1 0 0) in let e31 := mv_branch (branch_ctor 0 1 0) in let e12 := mv_branch
      (branch_ctor 0 0 1) in
  let e01 := mv_ideal (ideal_line_ctor 1 0 0) in let e02 := mv_ideal (ideal_line_ctor 0 1 0) in let e03 := mv_ideal
      (ideal_line_ctor 0 0 1) in
  (gp e12 I == mvscale (-1) e03 /\ gp e31 I == mvscale (-1) e02 /\ gp e23 I == mvscale (-1) e01) /\
  (gp I e12 == gp e12 I /\ gp I e31 == gp e31 I /\ gp I e23 == gp e23 I).
Proof. cbv zeta. repeat match goal with |- _ /\ _ => split end; blades; ring. Qed.

(** x86_sse.hpp 83-86 and 97-101: the Newton-Raphson steps.  f, its derivative
    and the refinement they give. *)
Definition newton (f f' : R -> R) (x : R) : R := x - f x / f' x.
Theorem C67_newton_rcp : forall a x, x <> 0 ->
  derivable_pt_lim (fun x => 1 / x - a) x (- / (x * x)) /\
  newton (fun x => 1 / x - a) (fun x => - / (x * x)) x = x * (2 - a * x) /\ nr_rcp (fun _ => x) a = x * (2 - a * x).
Proof.
  intros a x N. repeat match goal with |- _ /\ _ => split end.
  - replace (- / (x * x)) with ((0 * x - 1 * 1) / Rsqr x - 0) by (unfold Rsqr; field; exact N).
    apply (derivable_pt_lim_minus (fun x => 1 / x) (fun _ => a)); [|apply derivable_pt_lim_const].
    apply (derivable_pt_lim_div (fun _ => 1) (fun x => x)); [apply derivable_pt_lim_const|apply
      derivable_pt_lim_id|exact N].
  - unfold newton. field. exact N.
  - unfold nr_rcp. ring.
Qed.
Theorem C67_newton_rsqrt : forall a x, x <> 0 ->
  derivable_pt_lim (fun x => 1 / (x * x) - a) x (- 2 / (x * x * x)) /\
  newton (fun x => 1 / (x * x) - a) (fun x => - 2 / (x * x * x)) x = / 2 * x * (3 - a * (x * x)) /\
  nr_rsqrt (fun _ => x) a = / 2 * x * (3 - a * (x * x)).
Proof.
  intros a x N. assert (N2 : x * x <> 0) by (apply Rmult_integral_contrapositive; split; exact N).
  repeat match goal with |- _ /\ _ => split end.
  - replace (- 2 / (x * x * x)) with ((0 * (x * x) - (1 * x + x * 1) * 1) / Rsqr (x * x) - 0) by (unfold Rsqr;
      field; exact N).
    apply (derivable_pt_lim_minus (fun x => 1 / (x * x)) (fun _ => a)); [|apply derivable_pt_lim_const].
    apply (derivable_pt_lim_div (fun _ => 1) (fun x => x * x)); [apply derivable_pt_lim_const| |exact N2].
    apply (derivable_pt_lim_mult (fun x => x) (fun x => x)); apply derivable_pt_lim_id.
  - unfold newton. field. exact N.
  - unfold nr_rsqrt. field.
Qed.
(** the derivative the comment gives, -1/(2 x^(3/2)), is not that of 1/x^2 - a *)
Theorem C67_newton_derivative_refuted : exists x, 0 < x /\ forall a,
  ~ derivable_pt_lim (fun x => 1 / (x * x) - a) x (- (1 / (2 * (x * sqrt x)))).
Proof.
  exists 1. split; [lra|]. intros a H.
  assert (K := uniqueness_limite _ _ _ _ H (proj1 (C67_newton_rsqrt a 1 ltac:(lra)))).
  rewrite sqrt_1 in K. lra.
Qed.
Example C67_ex : let l := line_ctor 1 2 3 4 5 6 in wf_line l /\ 0 < dot3 (line_p1 l) (line_p1 l) /\ dot3 (line_p1
      l) (line_p2 l) <> 0.
Proof. cbv zeta. split; [split; reflexivity|]. unfold dot3. cbn. lra. Qed.
Example C67_case_study_ex : let b0 := 1/2 in let c0 := 10 in b0 * c0 = 1 * 2 + 1 * 1 + 1 * 2.
Proof. cbv zeta. lra. Qed.

Print Assumptions C67_gp_comments.
Print Assumptions C67_ext_dot_comments.
Print Assumptions C67_sandwich_comments.
Print Assumptions C67_swMM_comment.
Print Assumptions C67_remarks.
Print Assumptions C67_line_comments.
Print Assumptions C67_low_lanes.
Print Assumptions C67_gpLL_comment_refuted.
Print Assumptions C67_swo12_comment.
Print Assumptions C67_sw02_comment.
Print Assumptions C67_gp33_comment.
Print Assumptions C67_matrix_comments.
Print Assumptions C67_case_study_formula.
Print Assumptions C67_case_study_sign_refuted.
Print Assumptions C67_exp_derivation.
Print Assumptions C67_axes.
Print Assumptions C67_newton_rcp.
Print Assumptions C67_newton_rsqrt.
Print Assumptions C67_newton_derivative_refuted.
