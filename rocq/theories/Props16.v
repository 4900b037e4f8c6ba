(** C66 (sessions of the symbolic tool) and C68 (the geometry primer
    docs/geometry-potpourri.md). *)
From Coq Require Import List Bool ZArith NArith String Ascii Lia Reals Lra Setoid Morphisms.
From Coq Require Import Nsatz.
From Verif Require Import AlgTac SpecGeom Geom Closed AlgNorm SymMap SymPoly SymPolyFacts SymGA SymGAFacts SymMVFacts SymPGA SymParse
  SymLexFacts SymParseFacts SymDen SymSession Props01 Props04 Props08 Props09.
Import ListNotations.
Local Open Scope string_scope.
Local Open Scope R_scope.

(** ** Sessions *)
Section S.
Context {C : Type} `{Coef C}.
Variables (num : string -> C) (show_f : C -> string) (show_z : Z -> string).
Notation session := (SymSession.session num show_f show_z).
Notation run := (SymSession.run num show_f show_z).
(** the command .break changes nothing that is ever printed *)
Theorem C66_break_no_effect ls : forall b b', run b ls = run b' ls.
Proof.
  induction ls as [|l ls IH]; intros b b'; [reflexivity|]. cbn [SymSession.run]. unfold run_line.
  destruct (repl_line l) as [[e| | |e]| | |]; cbn [bind]; try reflexivity; cbn [fst snd].
  - rewrite (IH b b'). reflexivity.
  - rewrite (IH (negb b) (negb b')). reflexivity.
  - rewrite (IH b b'). reflexivity.
  - destruct (parse num pga l); cbn [bind fst snd]; try reflexivity; rewrite (IH b b'); reflexivity.
Qed.
(** the output is produced line by line: a session is the sessions of its parts *)
Theorem C66_line_by_line xs ys o1 o2 : session xs = Val o1 -> session ys = Val o2 ->
  session (xs ++ ys)%list = Val (o1 ++ o2).
Proof.
  unfold SymSession.session. generalize false at 1 3 as b. revert o1.
  induction xs as [|l xs IH]; intros o1 b R1 R2.
  - cbn in R1. injection R1 as R1. subst. cbn [app]. rewrite (C66_break_no_effect ys b false). rewrite R2. reflexivity.
  - cbn [app SymSession.run] in *. destruct (run_line num show_f show_z b l) as [[b' s]| | |]; try discriminate.
    cbn [bind fst snd] in *. destruct (run b' xs) as [o| | |] eqn:E; try discriminate. cbn [bind] in *.
    injection R1 as R1. subst o1. rewrite (IH o b' E R2). cbn [bind].
    f_equal. clear. induction s as [|c s IHs]; cbn; [reflexivity|]. f_equal. exact IHs.
Qed.
(** comments and empty lines are copied to the output, as docs/shell.md says *)
Theorem C66_comment_echoed w s : all_chars isspace w = true -> all_chars ascii7 s = true ->
  session [w ++ String "#" s] = Val (w ++ String "#" s ++ nl) /\ session [""] = Val nl.
Proof.
  intros W S. split; [|reflexivity]. unfold SymSession.session. cbn [SymSession.run]. unfold run_line.
  rewrite C63_comment by assumption. cbn [bind fst snd]. rewrite !append_assoc'. cbn [append]. reflexivity.
Qed.
End S.

(** the session of docs/shell.md lines 18-36: what the tool prints is not what
    is documented, whatever numbers look like *)
Definition shell_input : list string := [
  "# test.klein";
  "# My klein test";
  "";
  "(a0 e123 + a1 e021 + a2 e013 + a3 e032) * (b0 + b1 e12 + b2 e31 + b3 e23)"].
Definition documented_output : string :=
  "# test.klein" ++ nl ++ "# My klein test" ++ nl ++ nl ++
  "a0 b0 e0 + -a0 b3 e012 + a0 b2 e013 + -a0 b1 e023" ++ nl.
Definition actual_output : string :=
  "# test.klein" ++ nl ++ "# My klein test" ++ nl ++ nl ++
  "(a1 b1 + a2 b2 + a3 b3) e0 + -a0 b3 e1 + -a0 b2 e2 + -a0 b1 e3 + (-a1 b0 + -a2 b3 + a3 b2) e012 + (-a1 b3 + a2 b0 + a3 b1) e013 + (-a1 b2 + a2 b1 + -a3 b0) e023 + a0 b0 e123" ++ nl.
Theorem C66_shell_session : forall show_f show_z, session Examples.num show_f show_z shell_input = Val actual_output.
Proof. intros. vm_compute. reflexivity. Qed.
Theorem C66_shell_session_refuted : exists ls, ls = shell_input /\
  forall show_f show_z, session Examples.num show_f show_z ls <> Val documented_output.
Proof.
  exists shell_input. split; [reflexivity|]. intros show_f show_z E. rewrite C66_shell_session in E.
  vm_compute in E. discriminate E.
Qed.
(** blank lines are not copied: a line of spaces is printed as an empty line *)
Theorem C66_whitespace_refuted : exists w, w <> "" /\ all_chars isspace w = true /\
  forall show_f show_z, session Examples.num show_f show_z [w] = Val nl.
Proof. exists "  ". repeat split; discriminate. Qed.

(** ** C68: the geometry primer, docs/geometry-potpourri.md
    The worked equations: the tool gives both sides the same value. *)
Definition agree (s t : string) : Prop :=
  exists v w, parse Examples.num pga s = Val v /\ parse Examples.num pga t = Val w /\ forall rho, pga_eval rho v == pga_eval rho w.
Ltac agr := match goal with |- agree ?s ?t =>
    let r := eval vm_compute in (parse Examples.num pga s) in let q := eval vm_compute in (parse Examples.num pga t) in
    match r with Val ?v => match q with Val ?w => exists v, w end end end;
  split; [vm_compute; reflexivity|]; split; [vm_compute; reflexivity|];
  let rho := fresh "rho" in intro rho; let k := fresh "k" in intro k; destruct k as [[|] [|] [|] [|]];
  cbv -[Rplus Rmult Ropp Rminus Rinv IZR]; ring.
Theorem C68_equations :
  (* 93-96, 102-105 *)
  agree "e01 * e0" "0" /\ agree "e20 * e2" "-e0" /\
  (* 112-116 *)
  agree "e12 * e3" "e123" /\ agree "-e132" "e123" /\ agree "e312" "e123" /\
  agree "e02 * e1" "e021" /\ agree "-e201" "e021" /\ agree "e210" "e021" /\
  agree "e01 * e3" "e013" /\ agree "-e031" "e013" /\ agree "e301" "e013" /\
  agree "e03 * e2" "e032" /\ agree "-e302" "e032" /\ agree "e320" "e032" /\
  (* 136-140, 182-185, 215-218, 284-288 *)
  agree "(4e1 - 2e32) * (3e012 + e10)" "4e1 * (3e012 + e10) - 2e32 * (3e012 + e10)" /\
  agree "(4e1 - 2e32) * (3e012 + e10)" "-12e02 + 4e0 - 6e301 - 2e3210" /\
  agree "(4e1 - 2e32) * (3e012 + e10)" "4e0 - 12e02 - 6e013 - 2e0123" /\
  agree "(4e1 - 2e32) | (3e012 + e10)" "4e0 - 12e02" /\
  agree "e12 | e02" "0" /\
  agree "(4e1 - 2e32) ^ (3e012 + e10)" "-2e0123" /\
  agree "(4e032 + 2e01) ^ (-3e3 - e23)" "-6e013 - 2e0123" /\
  agree "(4e1 - 2e32) & (3e012 + e10)" "-2 - 6e2" /\
  (* 415-417, 452, 481-483 *)
  agree "(3e0 + e1 + e3) ^ (e0 + e3)" "3e03 + e10 + e13 + e30" /\
  agree "(3e0 + e1 + e3) ^ (e0 + e3)" "-e01 + 2e03 - e31" /\
  agree "(-2e0 + 2e1) ^ e1" "-2e01" /\
  agree "(-e01 + 2e03 - e31) ^ (e1 + e2)" "-e012 + 2e031 + 2e032 - e312" /\
  agree "(-e01 + 2e03 - e31) ^ (e1 + e2)" "-e123 + 2e032 + 2e031 + e021" /\
  agree "-((-e01 + 2e03 - e31) ^ (e1 + e2))" "e123 - 2e032 + 2e013 - e021" /\
  agree "(e1 + e2) ^ (-e01 + 2e03 - e31)" "(-e01 + 2e03 - e31) ^ (e1 + e2)" /\
  (* 598-599, 620-621, 640-642, 648-652 *)
  agree "(e123 + 2e032 + e013) | (3e0 + e1)" "e23 - e03" /\
  agree "(3e0 + e1) | (e123 + 2e032 + e013)" "e23 - e03" /\
  agree "(e123 + 2e032 + e013) ^ (3e0 + e1)" "-5e0123" /\
  agree "(e123 + 2e032 + e013) & (3e0 + e1)" "5" /\
  (* 684-686, 719-721 *)
  agree "(e23 - e03) * (3e0 + e1)" "3e023 + e123 - e031" /\
  agree "(e23 - e03) * (3e0 + e1)" "e123 - 3e032 + e013" /\
  agree "(3e0 + e1) | (e32 + e13)" "e3" /\
  agree "((3e0 + e1) | (e32 + e13)) * (3e0 + e1)" "-3e03 - e13" /\
  agree "((e32 + e13) | (3e0 + e1)) * (3e0 + e1)" "3e03 + e13" /\
  (* 764-769 *)
  agree "(e0 + e2 + e3) ^ (e31 + e01)" "-e013 - e021 + e123 + e013" /\
  agree "(e123 + e013 + e021) & (e02 + e23)" "-e3 + e0".
Proof. repeat apply conj; agr. Qed.

(** ** C68: the formulas, for all operands *)
Theorem C68_vector_product : forall p q : plane R,
  (* exercise 226: between vectors the product is the sum of inner and exterior product *)
  gp (mv_plane p) (mv_plane q) == mvadd (dot (mv_plane p) (mv_plane q)) (ext (mv_plane p) (mv_plane q)).
Proof. intros [[]] [[]]. mvring. Qed.
Theorem C68_projections : forall (B : Build),
  (* 595-616: the line through P perpendicular to p does not depend on e0, and P.p = p.P *)
  (forall (a : point R) (p : plane R) t, plane_dot_point p a = point_dot_plane a p /\
     dot (mv_point a) (mvadd (mv_plane p) (mvscale t e0)) == dot (mv_point a) (mv_plane p)) /\
  (* 675-698: (p.P)p is the projection of P, also written (p.P)^p and (P.p)p *)
  (forall (a : point R) (p : plane R),
     gp (dot (mv_plane p) (mv_point a)) (mv_plane p) == mv_point (project_point_plane a p) /\
     ext (dot (mv_plane p) (mv_point a)) (mv_plane p) == mv_point (project_point_plane a p) /\
     gp (dot (mv_point a) (mv_plane p)) (mv_plane p) == mv_point (project_point_plane a p)) /\
  (* 702-711, 741: (p.l)p is a bivector, the projection of l with the opposite sign of (l.p)p *)
  (forall (l : line R) (p : plane R), wf_line l ->
     gp (dot (mv_plane p) (mv_line l)) (mv_plane p) == mvopp (mv_line (project_line_plane l p)) /\
     gp (dot (mv_line l) (mv_plane p)) (mv_plane p) == mv_line (project_line_plane l p)) /\
  (* 751: (P.l)l is the projection of P to l, for lines (l^l = 0) *)
  (forall (a : point R) (l : line R), wf_line l -> vdot (line_u l) (line_m l) = 0 ->
     gp (dot (mv_point a) (mv_line l)) (mv_line l) == mv_point (project_point_line a l)).
Proof.
  intro B. repeat apply conj.
  - intros. split; [apply (f_equal2 mkline); apply m128_ext; opn; cbv -[Rplus Rmult Ropp Rminus IZR]; ring|].
    destruct a as [[]], p as [[]]. mvring.
  - intros a p. repeat split; opn; alg.
  - intros l p W. repeat split; opn; alg.
  - intros a l W S. opn; cbv -[Rplus Rmult Ropp Rminus IZR] in S;
    intro k; destruct k as [[|] [|] [|] [|]]; cbv -[Rplus Rmult Ropp Rminus IZR]; nsatz.
Qed.
Example C68_projection_ex : exists a l, point_w a = 1 /\ wf_line l /\ line_u l = V 1 0 0 /\ vdot (line_u l) (line_m l) = 0 /\ line_m l <> vzero.
Proof.
  exists (point_ctor 0 1 1), (line_ctor 0 1 0 1 0 0). unfold vzero. repeat split; try (cbv -[Rplus Rmult Ropp Rminus IZR]; lra).
  cbv -[Rplus Rmult Ropp Rminus IZR]. intro E. injection E. lra.
Qed.
(** 675: the formula as printed, (p.P)P, is not a point; nor is the snippet of
    797, (p | l) * p *)
Theorem C68_printed_projection_refuted :
  (exists (p : plane R) (a : point R), unit (mv_plane p) /\ point_w a = 1 /\
     forall x : point R, ~ gp (dot (mv_plane p) (mv_point a)) (mv_point a) == mv_point x) /\
  (exists (l : line R) (a : point R), wf_line l /\ unit (mv_line l) /\ point_w a = 1 /\
     forall x : point R, ~ gp (dot (mv_point a) (mv_line l)) (mv_point a) == mv_point x).
Proof.
  split.
  - exists (plane_ctor 1 0 0 3), (point_ctor 2 1 0). split; [|split; [reflexivity|]].
    + unfold unit. mvring.
    + intros [[x0 x1 x2 x3]] E. specialize (E (Bl false true false false)). revert E. mvcbv. lra.
  - exists (line_ctor 0 1 0 1 0 0), (point_ctor 0 1 1). split; [split; reflexivity|]. split; [|split; [reflexivity|]].
    + unfold unit. mvring.
    + intros [[x0 x1 x2 x3]] E. specialize (E (Bl false false true true)). revert E. mvcbv. lra.
Qed.
(** 509-513: the snippet that is to intersect -e01 + 2e03 - e31 with e1 + e2 at
    (-2, 2, -1) builds the plane e2 + e3 instead; 364: the plane
    3 e0 + e1 + e3 is x + z + 3 = 0, not x + z - 3 = 0 *)
Theorem C68_snippets_refuted : forall B : Build,
  pos (line_ext_plane (line_ctor (-1) 0 2 0 (-1) 0) (plane_ctor 1 1 0 0)) = V (-2) 2 (-1) /\
  pos (line_ext_plane (line_ctor (-1) 0 2 0 (-1) 0) (plane_ctor 0 1 1 0)) <> V (-2) 2 (-1) /\
  (forall y, plane_has (plane_ctor 1 0 1 3) (V (-3) y 0) /\ ~ plane_has (plane_ctor 1 0 1 3) (V 3 y 0)) /\
  pos (point_ctor 2 0 1) <> V 2 1 0.
Proof.
  intro B. split; [|split; [|split]].
  - destruct B as [[|]]; apply vec_eq; cbv -[Rplus Rmult Ropp Rminus Rinv IZR]; field.
  - destruct B as [[|]]; cbv -[Rplus Rmult Ropp Rminus Rinv IZR]; intro E; injection E; intros; lra.
  - intro y. split; cbv -[Rplus Rmult Ropp Rminus Rinv IZR]; lra.
  - cbv -[Rplus Rmult Ropp Rminus Rinv IZR]. intro E. injection E. intros. lra.
Qed.
(** 767-784: the distance of the point (0,1,1) from the line *)
Example C68_distance_ex : forall B : Build,
  mv_plane (line_join_point (line_ctor 0 1 0 1 0 0) (point_ctor 0 1 1)) == mvadd e0 (mvopp e3).
Proof. intro B. alg. Qed.

Print Assumptions C66_break_no_effect.
Print Assumptions C66_line_by_line.
Print Assumptions C66_comment_echoed.
Print Assumptions C66_shell_session.
Print Assumptions C66_shell_session_refuted.
Print Assumptions C66_whitespace_refuted.
Print Assumptions C68_equations.
Print Assumptions C68_vector_product.
Print Assumptions C68_projections.
Print Assumptions C68_printed_projection_refuted.
Print Assumptions C68_snippets_refuted.
