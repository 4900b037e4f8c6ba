(** Tactics shared by the algebraic proofs. *)
From Coq Require Import Reals ZArith.
From Verif Require Export Scalar SSE ApiTypes ApiLin Api SpecPGA Embed.
Local Open Scope R_scope.

(** open every entity into its lanes, using well-formedness hypotheses *)
Ltac open1 :=
  match goal with
  | x : plane R |- _ => destruct x as [[?c ?c ?c ?c]]
  | x : point R |- _ => destruct x as [[?c ?c ?c ?c]]
  | x : direction R |- _ => destruct x as [[?c ?c ?c ?c]]
  | x : ideal_line R |- _ => destruct x as [[?c ?c ?c ?c]]
  | x : branch R |- _ => destruct x as [[?c ?c ?c ?c]]
  | x : line R |- _ => destruct x as [[?c ?c ?c ?c] [?c ?c ?c ?c]]
  | x : rotor R |- _ => destruct x as [[?c ?c ?c ?c]]
  | x : translator R |- _ => destruct x as [[?c ?c ?c ?c]]
  | x : motor R |- _ => destruct x as [[?c ?c ?c ?c] [?c ?c ?c ?c]]
  | x : dual R |- _ => destruct x as [?c ?c]
  | x : m128 R |- _ => destruct x as [?c ?c ?c ?c]
  | B : Build |- _ => destruct B as [[|]]
  end.
Ltac open_wf :=
  repeat match goal with
  | H : wf_direction _ |- _ => unfold wf_direction in H; cbn [direction_p3 l0] in H
  | H : wf_ideal _ |- _ => unfold wf_ideal in H; cbn [ideal_line_p2 l0] in H
  | H : wf_branch _ |- _ => unfold wf_branch in H; cbn [branch_p1 l0] in H
  | H : wf_translator _ |- _ => unfold wf_translator in H; cbn [translator_p2 l0] in H
  | H : wf_line _ |- _ => let K := fresh H in
      destruct H as [H K]; cbn [line_p1 line_p2 l0] in H, K
  end; subst.
Ltac opn := intros; repeat open1; open_wf.
Ltac alg := opn; mvring.
