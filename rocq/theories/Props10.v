(** C59: the script scripts/validation.klein, read by the model of the symbolic
    tool, and the SIMD operations.  For each line of the script that has a
    counterpart in the library, the multivector the tool computes is what the SIMD
    operation returns, for all values of the coefficients and both builds. *)
From Coq Require Import List Bool ZArith NArith String Ascii Lia Reals Lra Setoid Morphisms.
From Verif Require Import AlgTac SymMap SymPoly SymPolyFacts SymGA SymGAFacts SymMVFacts SymPGA SymParse
  SymLexFacts SymParseFacts SymDen Props01 Props08 Props09.
Import ListNotations.
Local Open Scope string_scope.
Local Open Scope R_scope.

(** integer coefficients; the script has the literal 1 only *)
Definition shows (s : string) (rho : string -> R) (x : mv) : Prop :=
  exists v, parse Examples.num pga s = Val v /\ pga_eval rho v == x.
Section Script.
Variable rho : string -> R.
(** the entities of the script, from the names of their coefficients *)
Definition reg4 (x : string) : m128 R := mk4 (rho (x ++ "0")) (rho (x ++ "1")) (rho (x ++ "2")) (rho (x ++ "3")).
Definition reg3 (x : string) : m128 R := mk4 0 (rho (x ++ "1")) (rho (x ++ "2")) (rho (x ++ "3")).
(** the same with the order of the last three, or of all four, reversed *)
Definition reg4r (x : string) : m128 R := mk4 (rho (x ++ "0")) (rho (x ++ "3")) (rho (x ++ "2")) (rho (x ++ "1")).
Definition reg3r (x : string) : m128 R := mk4 0 (rho (x ++ "3")) (rho (x ++ "2")) (rho (x ++ "1")).
Definition reg4R (x : string) : m128 R := mk4 (rho (x ++ "3")) (rho (x ++ "2")) (rho (x ++ "1")) (rho (x ++ "0")).
Definition P0 (x : string) : plane R := mkplane (reg4 x).
Definition P0r (x : string) : plane R := mkplane (reg4R x).
Definition P3 (x : string) : point R := mkpoint (reg4 x).
Definition P3r (x : string) : point R := mkpoint (reg4r x).
Definition DIr (x : string) : direction R := mkdirection (reg3r x).
Definition IL (x : string) : ideal_line R := mkideal_line (reg3 x).
Definition BR (x : string) : branch R := mkbranch (reg3 x).
Definition LN (x y : string) : line R := mkline (reg3 x) (reg3 y).
Definition LNi (x : string) : line R := mkline (mk4 0 0 0 0) (reg3 x).
Definition BRr (x : string) : branch R := mkbranch (reg3r x).
Definition LN0 (x : string) : line R := mkline (reg3 x) (mk4 0 0 0 0).
Definition RO (x : string) : rotor R := mkrotor (reg4 x).
Definition ROr (x : string) : rotor R := mkrotor (reg4r x).
Definition TR (x : string) : translator R := mktranslator (reg3 x).
Definition MO (x y : string) : motor R := mkmotor (reg4 x) (reg4 y).
Definition MOr (x y : string) : motor R := mkmotor (reg4r x) (reg4 y).
Ltac unfold_script :=
  cbv -[Rplus Rmult Ropp Rminus Rinv IZR];
  repeat match goal with H : rho _ = 0 |- _ => rewrite !H; clear H end;
  try match goal with H : _ = 1 |- _ => cbv -[Rplus Rmult Ropp Rminus Rinv IZR] in H end; first [ring | nra].
Ltac script :=
  match goal with |- shows ?s _ _ => let r := eval vm_compute in (parse Examples.num pga s) in
    match r with Val ?v => exists v end end;
  split; [vm_compute; reflexivity|];
  let k := fresh "k" in intro k; destruct k as [[|] [|] [|] [|]]; unfold_script.

(** ** products *)
Theorem C59_products : forall B : Build,
  (* validation.klein line 4: p0 * p0 *)
  shows "(a0 e0 + a1 e1 + a2 e2 + a3 e3) * (b0 e0 + b1 e1 + b2 e2 + b3 e3)" rho (mv_motor (plane_mul_plane (P0 "a") (P0 "b"))) /\
  (* validation.klein line 17: dual * line *)
  shows "(u + v e0123) * (b1 e23 + b2 e31 + b3 e12 + c1 e01 + c2 e02 + c3 e03)" rho (mv_line (dual_mul_line (mkdual (rho "u") (rho "v")) (LN "b" "c"))) /\
  (* validation.klein line 20: line * dual *)
  shows "(b1 e23 + b2 e31 + b3 e12 + c1 e01 + c2 e02 + c3 e03) * (u + v e0123)" rho (mv_line (line_mul_dual (LN "b" "c") (mkdual (rho "u") (rho "v")))) /\
  (* validation.klein line 32: rotor * translator *)
  shows "(a0 + a1 e23 + a2 e31 + a3 e12) * (1 + b1 e01 + b2 e02 + b3 e03)" rho (mv_motor (rotor_mul_translator (RO "a") (TR "b"))) /\
  (* validation.klein line 36: translator * rotor *)
  shows "(1 + b1 e01 + b2 e02 + b3 e03) * (a0 + a1 e23 + a2 e31 + a3 e12)" rho (mv_motor (translator_mul_rotor (TR "b") (RO "a"))) /\
  (* validation.klein line 52: p0 * p3 *)
  shows "(a0 e0 + a1 e1 + a2 e2 + a3 e3) * (b0 e123 + b1 e032 + b2 e013 + b3 e021)" rho (mv_motor (plane_mul_point (P0 "a") (P3 "b"))) /\
  (* validation.klein line 55: p3 * p0 *)
  shows "(b0 e123 + b1 e032 + b2 e013 + b3 e021) * (a0 e0 + a1 e1 + a2 e2 + a3 e3)" rho (mv_motor (point_mul_plane (P3 "b") (P0 "a"))) /\
  (* validation.klein line 61: p1 * p1 *)
  shows "(a0 + a1 e23 + a2 e31 + a3 e12) * (b0 + b1 e23 + b2 e31 + b3 e12)" rho (mv_rotor (rotor_mul_rotor (RO "a") (RO "b"))) /\
  (* validation.klein line 271: motor * motor *)
  shows "(a0 + a1 e23 + a2 e31 + a3 e12 + b1 e01 + b2 e02 + b3 e03 + b0 e0123) * (c0 + c1 e23 + c2 e31 + c3 e12 + d1 e01 + d2 e02 + d3 e03 + d0 e0123)" rho (mv_motor (motor_mul_motor (MO "a" "b") (MO "c" "d"))) /\
  (* validation.klein line 58: p0 * p3 *)
  shows "(a3 e0 + a2 e1 + a1 e2 + a0 e3) * (b0 e123 + b1 e032 + b2 e013 + b3 e021)" rho (mv_motor (plane_mul_point (P0r "a") (P3 "b"))).
Proof. intro B. repeat apply conj; intros; destruct B as [[|]]; script. Qed.

(** ** exterior *)
Theorem C59_exterior : forall B : Build,
  (* validation.klein line 85: p0 ^ p0 *)
  shows "(a0 e0 + a1 e1 + a2 e2 + a3 e3) ^ (b0 e0 + b1 e1 + b2 e2 + b3 e3)" rho (mv_line (plane_ext_plane (P0 "a") (P0 "b"))) /\
  (* validation.klein line 100: p0 ^ p3 *)
  shows "(a0 e0 + a1 e1 + a2 e2 + a3 e3) ^ (b0 e123 + b1 e032 + b2 e013 + b3 e021)" rho (mv_dual (plane_ext_point (P0 "a") (P3 "b"))) /\
  (* validation.klein line 103: p3 ^ p0 *)
  shows "(b0 e123 + b1 e032 + b2 e013 + b3 e021) ^ (a0 e0 + a1 e1 + a2 e2 + a3 e3)" rho (mv_dual (point_ext_plane (P3 "b") (P0 "a"))) /\
  (* validation.klein line 133: line ^ line *)
  shows "(a1 e23 + a2 e31 + a3 e12 + d1 e01 + d2 e02 + d3 e03) ^ (b1 e23 + b2 e31 + b3 e12 + c1 e01 + c2 e02 + c3 e03)" rho (mv_dual (line_ext_line (LN "a" "d") (LN "b" "c"))) /\
  (* validation.klein line 11: plane ^ line *)
  shows "(a0 e0 + a1 e1 + a2 e2 + a3 e3) ^ (b1 e23 + b2 e31 + b3 e12 + c1 e01 + c2 e02 + c3 e03)" rho (mv_point (plane_ext_line (P0 "a") (LN "b" "c"))) /\
  (* validation.klein line 139: line ^ plane *)
  shows "(b1 e23 + b2 e31 + b3 e12 + c1 e01 + c2 e02 + c3 e03) ^ (a0 e0 + a1 e1 + a2 e2 + a3 e3)" rho (mv_point (line_ext_plane (LN "b" "c") (P0 "a"))).
Proof. intro B. repeat apply conj; intros; destruct B as [[|]]; script. Qed.

(** ** regressive *)
Theorem C59_regressive : forall B : Build,
  (* validation.klein line 151: p0 & p3 *)
  shows "(a0 e3 + a1 e2 + a2 e1 + a3 e0) & (b0 e123 + b1 e032 + b2 e013 + b3 e021)" rho (mv_dual (plane_join_point (P0r "a") (P3 "b"))).
Proof. intro B. repeat apply conj; intros; destruct B as [[|]]; script. Qed.

(** ** inner *)
Theorem C59_inner : forall B : Build,
  (* validation.klein line 154: p0 | p0 *)
  shows "(a0 e0 + a1 e1 + a2 e2 + a3 e3) | (b0 e0 + b1 e1 + b2 e2 + b3 e3)" rho ((fun k => plane_dot_plane (P0 "a") (P0 "b") * one k)) /\
  (* validation.klein line 169: p0 | p3 *)
  shows "(a0 e0 + a1 e1 + a2 e2 + a3 e3) | (b0 e123 + b1 e032 + b2 e013 + b3 e021)" rho (mv_line (plane_dot_point (P0 "a") (P3 "b"))) /\
  (* validation.klein line 172: p3 | p0 *)
  shows "(b0 e123 + b1 e032 + b2 e013 + b3 e021) | (a0 e0 + a1 e1 + a2 e2 + a3 e3)" rho (mv_line (point_dot_plane (P3 "b") (P0 "a"))) /\
  (* validation.klein line 205: p3 | p3 *)
  shows "(a0 e123 + a1 e032 + a2 e013 + a3 e021) | (b0 e123 + b1 e032 + b2 e013 + b3 e021)" rho ((fun k => point_dot_point (P3 "a") (P3 "b") * one k)) /\
  (* validation.klein line 208: plane | line *)
  shows "(a0 e0 + a1 e1 + a2 e2 + a3 e3) | (b1 e23 + b2 e31 + b3 e12 + c1 e01 + c2 e02 + c3 e03)" rho (mv_plane (plane_dot_line (P0 "a") (LN "b" "c"))) /\
  (* validation.klein line 211: line | plane *)
  shows "(b1 e23 + b2 e31 + b3 e12 + c1 e01 + c2 e02 + c3 e03) | (a0 e0 + a1 e1 + a2 e2 + a3 e3)" rho (mv_plane (line_dot_plane (LN "b" "c") (P0 "a"))) /\
  (* validation.klein line 214: plane | ideal-line *)
  shows "(a0 e0 + a1 e1 + a2 e2 + a3 e3) | (c1 e01 + c2 e02 + c3 e03)" rho (mv_plane (plane_dot_ideal (P0 "a") (IL "c"))) /\
  (* validation.klein line 217: ideal-line | plane *)
  shows "(c1 e01 + c2 e02 + c3 e03) | (a0 e0 + a1 e1 + a2 e2 + a3 e3)" rho (mv_plane (ideal_dot_plane (IL "c") (P0 "a"))) /\
  (* validation.klein line 220: line | line *)
  shows "(a1 e23 + a2 e31 + a3 e12 + d1 e01 + d2 e02 + d3 e03) | (b1 e23 + b2 e31 + b3 e12 + c1 e01 + c2 e02 + c3 e03)" rho ((fun k => line_dot_line (LN "a" "d") (LN "b" "c") * one k)) /\
  (* validation.klein line 223: line | point *)
  shows "(b1 e23 + b2 e31 + b3 e12 + c1 e01 + c2 e02 + c3 e03) | (a0 e123 + a1 e032 + a2 e013 + a3 e021)" rho (mv_plane (line_dot_point (LN "b" "c") (P3 "a"))) /\
  (* validation.klein line 226: point | line *)
  shows "(a0 e123 + a1 e032 + a2 e013 + a3 e021) | (b1 e23 + b2 e31 + b3 e12 + c1 e01 + c2 e02 + c3 e03)" rho (mv_plane (point_dot_line (P3 "a") (LN "b" "c"))).
Proof. intro B. repeat apply conj; intros; destruct B as [[|]]; script. Qed.

(** ** sandwich *)
Theorem C59_sandwich : forall B : Build,
  (* validation.klein line 229: plane conjugate plane *)
  shows "(a0 e0 + a1 e1 + a2 e2 + a3 e3) * (b0 e0 + b1 e1 + b2 e2 + b3 e3) * (a0 e0 + a1 e1 + a2 e2 + a3 e3)" rho (mv_plane (plane_on_plane (P0 "a") (P0 "b"))) /\
  (* validation.klein line 238: plane conjugate point *)
  shows "(a0 e0 + a1 e1 + a2 e2 + a3 e3) * (b0 e123 + b1 e032 + b2 e013 + b3 e021) * (a0 e0 + a1 e1 + a2 e2 + a3 e3)" rho (mv_point (plane_on_point (P0 "a") (P3 "b"))) /\
  (* validation.klein line 232: plane conjugate p1 *)
  (rho "b0" = 0 -> shows "(a0 e0 + a1 e1 + a2 e2 + a3 e3) * (b0 + b1 e23 + b2 e31 + b3 e12) * (a0 e0 + a1 e1 + a2 e2 + a3 e3)" rho (mv_line (plane_on_line (P0 "a") (LN0 "b")))) /\
  (* validation.klein line 235: plane conjugate p2 *)
  (rho "b0" = 0 -> shows "(a0 e0 + a1 e1 + a2 e2 + a3 e3) * (b0 e0123 + b1 e01 + b2 e02 + b3 e03) * (a0 e0 + a1 e1 + a2 e2 + a3 e3)" rho (mv_line (plane_on_line (P0 "a") (LNi "b")))) /\
  (* validation.klein line 247: p1 * p1 * ~p1 *)
  (rho "a0" = 0 -> shows "(b0 + b1 e12 + b2 e31 + b3 e23) * (a0 + a1 e12 + a2 e31 + a3 e23) * (b0 - b1 e12 - b2 e31 - b3 e23) " rho (mv_branch (rotor_on_branch (ROr "b") (BRr "a")))) /\
  (* validation.klein line 253: p1 * p2 * ~p1 *)
  (rho "a0" = 0 -> shows "(b0 + b1 e12 + b2 e31 + b3 e23) * (a0 e0123 + a1 e01 + a2 e02 + a3 e03) * (b0 - b1 e12 - b2 e31 - b3 e23) " rho (mv_line (rotor_on_line (ROr "b") (LNi "a")))) /\
  (* validation.klein line 274: motor conjugate motor *)
  (rho "a0" = 0 -> rho "d0" = 0 -> shows "(b0 + b1 e23 + b2 e31 + b3 e12 + c1 e01 + c2 e02 + c3 e03 + c0 e0123) * (a0 + a1 e23 + a2 e31 + a3 e12 + d1 e01 + d2 e02 + d3 e03 + d0 e0123) * (b0 - b1 e23 - b2 e31 - b3 e12 - c1 e01 - c2 e02 - c3 e03 + c0 e0123) " rho (mv_line (motor_on_line (MO "b" "c") (LN "a" "d")))) /\
  (* validation.klein line 292: translate line *)
  (rho "c0" = 0 -> rho "a0" = 0 -> rho "d0" = 0 -> shows "(1 + c1 e01 + c2 e02 + c3 e03 + c0 e0123) * (a0 + a1 e23 + a2 e31 + a3 e12 + d1 e01 + d2 e02 + d3 e03 + d0 e0123) * (1 -c1 e01 - c2 e02 - c3 e03 + c0 e0123) " rho (mv_line (translator_on_line (TR "c") (LN "a" "d")))) /\
  (* validation.klein line 289: motor conjugate origin *)
  (rho "b0" * rho "b0" + rho "b1" * rho "b1" + rho "b2" * rho "b2" + rho "b3" * rho "b3" = 1 -> shows "(b0 + b1 e23 + b2 e31 + b3 e12 + c1 e01 + c2 e02 + c3 e03 + c0 e0123) * (e123) * (b0 - b1 e23 - b2 e31 - b3 e12 - c1 e01 - c2 e02 - c3 e03 + c0 e0123) " rho (mv_point (motor_on_origin (MO "b" "c")))) /\
  (* validation.klein line 244: translate point *)
  shows "(1 + c1 e01 + c2 e02 + c3 e03) * (a0 e123 + a1 e032 + a2 e013 + a3 e021) * (1 - c1 e01 - c2 e02 - c3 e03) " rho (mv_point (translator_on_point (TR "c") (P3 "a"))) /\
  (* validation.klein line 277: motor conjugate branch *)
  shows "(b0 + b1 e23 + b2 e31 + b3 e12 + c1 e01 + c2 e02 + c3 e03 + c0 e0123) * (a1 e23 + a2 e31 + a3 e12) * (b0 - b1 e23 - b2 e31 - b3 e12 - c1 e01 - c2 e02 - c3 e03 + c0 e0123) " rho (mv_line (motor_on_line (MO "b" "c") (LN0 "a"))) /\
  (* validation.klein line 280: rotor conjugate branch *)
  shows "(b0 + b1 e23 + b2 e31 + b3 e12) * (a1 e23 + a2 e31 + a3 e12) * (b0 - b1 e23 - b2 e31 - b3 e12) " rho (mv_branch (rotor_on_branch (RO "b") (BR "a"))) /\
  (* validation.klein line 283: motor conjugate plane *)
  shows "(b0 + b1 e23 + b2 e31 + b3 e12 + c1 e01 + c2 e02 + c3 e03 + c0 e0123) * (a0 e0 + a1 e1 + a2 e2 + a3 e3) * (b0 - b1 e23 - b2 e31 - b3 e12 - c1 e01 - c2 e02 - c3 e03 + c0 e0123) " rho (mv_plane (motor_on_plane (MO "b" "c") (P0 "a"))) /\
  (* validation.klein line 286: motor conjugate point *)
  shows "(b0 + b1 e23 + b2 e31 + b3 e12 + c1 e01 + c2 e02 + c3 e03 + c0 e0123) * (a0 e123 + a1 e032 + a2 e013 + a3 e021) * (b0 - b1 e23 - b2 e31 - b3 e12 - c1 e01 - c2 e02 - c3 e03 + c0 e0123) " rho (mv_point (motor_on_point (MO "b" "c") (P3 "a"))) /\
  (* validation.klein line 295: motor conjugate direction *)
  shows "(b0 + b1 e12 + b2 e31 + b3 e23 + c1 e01 + c2 e02 + c3 e03 + c0 e0123) * (a1 e021 + a2 e013 + a3 e032) * (b0 - b1 e12 - b2 e31 - b3 e23 - c1 e01 - c2 e02 - c3 e03 + c0 e0123) " rho (mv_direction (motor_on_direction (MOr "b" "c") (DIr "a"))) /\
  (* validation.klein line 298: rotor conjugate direction *)
  shows "(b0 + b1 e12 + b2 e31 + b3 e23) * (a1 e021 + a2 e013 + a3 e032) * (b0 - b1 e12 - b2 e31 - b3 e23) " rho (mv_direction (rotor_on_direction (ROr "b") (DIr "a"))).
Proof. intro B. repeat apply conj; intros; destruct B as [[|]]; script. Qed.

(** ** projection *)
Theorem C59_projection : forall B : Build,
  (* validation.klein line 178: (p3 | p0) ^ p0 *)
  shows "((b0 e123 + b1 e032 + b2 e013 + b3 e021) | (a0 e0 + a1 e1 + a2 e2 + a3 e3)) ^ (a0 e0 + a1 e1 + a2 e2 + a3 e3)" rho (mv_point (project_point_plane (P3 "b") (P0 "a"))) /\
  (* validation.klein line 308: point to plane *)
  shows "((b0 e0 + b1 e1 + b2 e2 + b3 e3) | (a0 e123 + a1 e021 + a2 e013 + a3 e032)) ^ (b0 e0 + b1 e1 + b2 e2 + b3 e3)" rho (mv_point (project_point_plane (P3r "a") (P0 "b"))) /\
  (* validation.klein line 313: line to plane *)
  shows "((b0 e0 + b1 e1 + b2 e2 + b3 e3) | (a1 e23 + a2 e31 + a3 e12 + d1 e01 + d2 e02 + d3 e03)) ^ (b0 e0 + b1 e1 + b2 e2 + b3 e3)" rho (mvopp (mv_line (project_line_plane (LN "a" "d") (P0 "b")))).
Proof. intro B. repeat apply conj; intros; destruct B as [[|]]; script. Qed.


(** line 241, translate plane: the code multiplies by a reciprocal of 1 *)
Theorem C59_translate_plane : forall (B : Build) rcp rsqrt sz, exact_rcp rcp ->
  shows "(1 + c1 e01 + c2 e02 + c3 e03) * (a0 e0 + a1 e1 + a2 e2 + a3 e3) * (1 - c1 e01 - c2 e02 - c3 e03) " rho
    (mv_plane (@translator_on_plane R (Flo_R rcp rsqrt sz) B (TR "c") (P0 "a"))).
Proof.
  intros B rcp rsqrt sz H.
  enough (shows "(1 + c1 e01 + c2 e02 + c3 e03) * (a0 e0 + a1 e1 + a2 e2 + a3 e3) * (1 - c1 e01 - c2 e02 - c3 e03) " rho
    (sandwich (mv_translator (TR "c")) (mv_plane (P0 "a")))) as [v [E K]].
  - exists v. split; [exact E|]. intro k. rewrite (K k). symmetry.
    exact (C05_translator_on_plane B rcp rsqrt sz (TR "c") (P0 "a") H eq_refl k).
  - script.
Qed.
End Script.

(** ** line 23, line * line: not what the library computes *)
Theorem C59_line_line_refuted : forall B : Build, exists rho : string -> R,
  ~ shows "(a1 e23 + a2 e31 + a3 e12 + d1 e01 + d2 e02 + d3 e03) * (b1 e23 + b2 e31 + b3 e12 + c1 e01 + c2 e02 + c3 e03)" rho
      (mv_motor (line_mul_line (LN rho "a" "d") (LN rho "b" "c"))).
Proof.
  intro B. exists (fun s => if String.eqb s "a1" then 1 else if String.eqb s "b2" then 1 else 0).
  intros (v & E & H). vm_compute in E. injection E as E. subst v.
  specialize (H (Bl false true true false)). destruct B as [[|]];
  cbv -[Rplus Rmult Ropp Rminus Rinv IZR] in H; lra.
Qed.

(** ** The whole script
    Every line of the file, in order.  None hangs, throws or is dropped, and the
    lines that are parsed are exactly the lines that are neither empty nor a comment. *)
Definition script : list string := [
  "# Various partition products";
  "";
  "# p0 * p0";
  "(a0 e0 + a1 e1 + a2 e2 + a3 e3) * (b0 e0 + b1 e1 + b2 e2 + b3 e3)";
  "";
  "# p0 * p1";
  "(a0 e0 + a1 e1 + a2 e2 + a3 e3) * (b0 + b1 e23 + b2 e31 + b3 e12)";
  "";
  "# p0 * line";
  "(a0 e0 + a1 e1 + a2 e2 + a3 e3) * (b1 e23 + b2 e31 + b3 e12 + c1 e01 + c2 e02 + c3 e03)";
  "(a0 e0 + a1 e1 + a2 e2 + a3 e3) ^ (b1 e23 + b2 e31 + b3 e12 + c1 e01 + c2 e02 + c3 e03)";
  "";
  "# line * p0";
  "(b1 e23 + b2 e31 + b3 e12 + c1 e01 + c2 e02 + c3 e03) * (a0 e0 + a1 e1 + a2 e2 + a3 e3)";
  "";
  "# dual * line";
  "(u + v e0123) * (b1 e23 + b2 e31 + b3 e12 + c1 e01 + c2 e02 + c3 e03)";
  "";
  "# line * dual";
  "(b1 e23 + b2 e31 + b3 e12 + c1 e01 + c2 e02 + c3 e03) * (u + v e0123)";
  "";
  "# line * line";
  "(a1 e23 + a2 e31 + a3 e12 + d1 e01 + d2 e02 + d3 e03) * (b1 e23 + b2 e31 + b3 e12 + c1 e01 + c2 e02 + c3 e03)";
  "";
  "# line * ideal line";
  "(a1 e23 + a2 e31 + a3 e12 + d1 e01 + d2 e02 + d3 e03) * (c1 e01 + c2 e02 + c3 e03)";
  "";
  "# ideal line * line";
  "(c1 e01 + c2 e02 + c3 e03) * (a1 e23 + a2 e31 + a3 e12 + d1 e01 + d2 e02 + d3 e03)";
  "";
  "# rotor * translator";
  "(a0 + a1 e23 + a2 e31 + a3 e12) * (1 + b1 e01 + b2 e02 + b3 e03)";
  "(a0 + a1 e23 + a2 e31 + a3 e12) * (b1 e01 + b2 e02 + b3 e03)";
  "";
  "# translator * rotor";
  "(1 + b1 e01 + b2 e02 + b3 e03) * (a0 + a1 e23 + a2 e31 + a3 e12)";
  "(b1 e01 + b2 e02 + b3 e03) * (a0 + a1 e23 + a2 e31 + a3 e12)";
  "";
  "# p1 * p0";
  "(b0 + b1 e23 + b2 e31 + b3 e12) * (a0 e0 + a1 e1 + a2 e2 + a3 e3)";
  "";
  "# p0 * p2";
  "(a0 e0 + a1 e1 + a2 e2 + a3 e3) * (b0 e0123 + b1 e01 + b2 e02 + b3 e03)";
  "";
  "# p2 * p0";
  "(b0 e0123 + b1 e01 + b2 e02 + b3 e03) * (a0 e0 + a1 e1 + a2 e2 + a3 e3)";
  "";
  "# p2 * p2 (exactly zero)";
  "(a0 e0123 + a1 e01 + a2 e02 + a3 e03) * (b0 e0123 + b1 e01 + b2 e02 + b3 e03)";
  "";
  "# p0 * p3";
  "(a0 e0 + a1 e1 + a2 e2 + a3 e3) * (b0 e123 + b1 e032 + b2 e013 + b3 e021)";
  "";
  "# p3 * p0";
  "(b0 e123 + b1 e032 + b2 e013 + b3 e021) * (a0 e0 + a1 e1 + a2 e2 + a3 e3)";
  "";
  "# p0 * p3";
  "(a3 e0 + a2 e1 + a1 e2 + a0 e3) * (b0 e123 + b1 e032 + b2 e013 + b3 e021)";
  "";
  "# p1 * p1";
  "(a0 + a1 e23 + a2 e31 + a3 e12) * (b0 + b1 e23 + b2 e31 + b3 e12)";
  "";
  "# p1 * p2";
  "(a0 + a1 e23 + a2 e31 + a3 e12) * (b0 e0123 + b1 e01 + b2 e02 + b3 e03)";
  "";
  "# p2 * p1";
  "(b0 e0123 + b1 e01 + b2 e02 + b3 e03) * (a0 + a1 e23 + a2 e31 + a3 e12)";
  "";
  "# p1 * p3";
  "(a0 + a1 e23 + a2 e31 + a3 e12) * (b0 e123 + b1 e032 + b2 e013 + b3 e021)";
  "";
  "# p3 * p1";
  "(b0 e123 + b1 e032 + b2 e013 + b3 e021) * (a0 + a1 e23 + a2 e31 + a3 e12)";
  "";
  "# p2 * p3";
  "(a0 e0123 + a1 e01 + a2 e02 + a3 e03) * (b0 e123 + b1 e032 + b2 e013 + b3 e021)";
  "";
  "# p3 * p2";
  "(b0 e123 + b1 e032 + b2 e013 + b3 e021) * (a0 e0123 + a1 e01 + a2 e02 + a3 e03)";
  "";
  "# p3 * p3";
  "(a0 e123 + a1 e032 + a2 e013 + a3 e021) * (b0 e123 + b1 e032 + b2 e013 + b3 e021)";
  "";
  "# p0 ^ p0";
  "(a0 e0 + a1 e1 + a2 e2 + a3 e3) ^ (b0 e0 + b1 e1 + b2 e2 + b3 e3)";
  "";
  "# p0 ^ p1";
  "(a0 e0 + a1 e1 + a2 e2 + a3 e3) ^ (b0 + b1 e23 + b2 e31 + b3 e12)";
  "";
  "# p1 ^ p0 (note: matches p0 ^ p1)";
  "(b0 + b1 e23 + b2 e31 + b3 e12) ^ (a0 e0 + a1 e1 + a2 e2 + a3 e3)";
  "";
  "# p0 ^ p2";
  "(a0 e0 + a1 e1 + a2 e2 + a3 e3) ^ (b0 e0123 + b1 e01 + b2 e02 + b3 e03)";
  "";
  "# p2 ^ p0 (note: matches p0 ^ p2)";
  "(b0 e0123 + b1 e01 + b2 e02 + b3 e03) ^ (a0 e0 + a1 e1 + a2 e2 + a3 e3)";
  "";
  "# p0 ^ p3";
  "(a0 e0 + a1 e1 + a2 e2 + a3 e3) ^ (b0 e123 + b1 e032 + b2 e013 + b3 e021)";
  "";
  "# p3 ^ p0";
  "(b0 e123 + b1 e032 + b2 e013 + b3 e021) ^ (a0 e0 + a1 e1 + a2 e2 + a3 e3)";
  "";
  "# p1 ^ p1";
  "(a0 + a1 e23 + a2 e31 + a3 e12) ^ (b0 + b1 e23 + b2 e31 + b3 e12)";
  "";
  "# p1 ^ p2";
  "(a0 + a1 e23 + a2 e31 + a3 e12) ^ (b0 e0123 + b1 e01 + b2 e02 + b3 e03)";
  "";
  "# p2 ^ p1";
  "(b0 e0123 + b1 e01 + b2 e02 + b3 e03) ^ (a0 + a1 e23 + a2 e31 + a3 e12)";
  "";
  "# p1 ^ p3";
  "(a0 + a1 e23 + a2 e31 + a3 e12) ^ (b0 e123 + b1 e032 + b2 e013 + b3 e021)";
  "";
  "# p3 ^ p1";
  "(b0 e123 + b1 e032 + b2 e013 + b3 e021) ^ (a0 + a1 e23 + a2 e31 + a3 e12)";
  "";
  "# p2 ^ p2";
  "(a0 e0123 + a1 e01 + a2 e02 + a3 e03) ^ (b0 e0123 + b1 e01 + b2 e02 + b3 e03)";
  "";
  "# p2 ^ p3";
  "(a0 e0123 + a1 e01 + a2 e02 + a3 e03) ^ (b0 e123 + b1 e032 + b2 e013 + b3 e021)";
  "";
  "# p3 ^ p2";
  "(b0 e123 + b1 e032 + b2 e013 + b3 e021) ^ (a0 e0123 + a1 e01 + a2 e02 + a3 e03)";
  "";
  "# p3 ^ p3";
  "(a0 e123 + a1 e032 + a2 e013 + a3 e021) ^ (b0 e123 + b1 e032 + b2 e013 + b3 e021)";
  "";
  "# line ^ line";
  "(a1 e23 + a2 e31 + a3 e12 + d1 e01 + d2 e02 + d3 e03) ^ (b1 e23 + b2 e31 + b3 e12 + c1 e01 + c2 e02 + c3 e03)";
  "";
  "# plane ^ line";
  "(a0 e0 + a1 e1 + a2 e2 + a3 e3) ^ (b1 e23 + b2 e31 + b3 e12 + c1 e01 + c2 e02 + c3 e03)";
  "";
  "# line ^ plane";
  "(b1 e23 + b2 e31 + b3 e12 + c1 e01 + c2 e02 + c3 e03) ^ (a0 e0 + a1 e1 + a2 e2 + a3 e3)";
  "";
  "# p0 & p0 -> !(p3 ^ p3) = 0";
  "(a0 e3 + a1 e2 + a2 e1 + a3 e0) & (b0 e3 + b1 e2 + b2 e1 + b3 e0)";
  "";
  "# p0 & p1 -> !(p3 ^ p2) = 0";
  "(a0 e3 + a1 e2 + a2 e1 + a3 e0) & (b0 + b1 e23 + b2 e31 + b3 e12)";
  "";
  "# p0 & p2 -> !(p3 ^ p1). Bivector components of rhs are extinguished.";
  "(a0 e3 + a1 e2 + a2 e1 + a3 e0) & (b0 e0123 + b1 e01 + b2 e02 + b3 e03)";
  "";
  "# p0 & p3 -> !(p3 ^ p0). e0 meets with e123 so only a scalar is left.";
  "(a0 e3 + a1 e2 + a2 e1 + a3 e0) & (b0 e123 + b1 e032 + b2 e013 + b3 e021)";
  "";
  "# p0 | p0";
  "(a0 e0 + a1 e1 + a2 e2 + a3 e3) | (b0 e0 + b1 e1 + b2 e2 + b3 e3)";
  "";
  "# p0 | p1";
  "(a0 e0 + a1 e1 + a2 e2 + a3 e3) | (b0 + b1 e23 + b2 e31 + b3 e12)";
  "";
  "# p1 | p0";
  "(b0 + b1 e23 + b2 e31 + b3 e12) | (a0 e0 + a1 e1 + a2 e2 + a3 e3)";
  "";
  "# p0 | p2";
  "(a0 e0 + a1 e1 + a2 e2 + a3 e3) | (b0 e0123 + b1 e01 + b2 e02 + b3 e03)";
  "";
  "# p2 | p0";
  "(b0 e0123 + b1 e01 + b2 e02 + b3 e03) | (a0 e0 + a1 e1 + a2 e2 + a3 e3)";
  "";
  "# p0 | p3";
  "(a0 e0 + a1 e1 + a2 e2 + a3 e3) | (b0 e123 + b1 e032 + b2 e013 + b3 e021)";
  "";
  "# p3 | p0";
  "(b0 e123 + b1 e032 + b2 e013 + b3 e021) | (a0 e0 + a1 e1 + a2 e2 + a3 e3)";
  "";
  "# (p3 | p0) * p0";
  "((b0 e123 + b1 e032 + b2 e013 + b3 e021) | (a0 e0 + a1 e1 + a2 e2 + a3 e3)) * (a0 e0 + a1 e1 + a2 e2 + a3 e3)";
  "";
  "# (p3 | p0) ^ p0";
  "((b0 e123 + b1 e032 + b2 e013 + b3 e021) | (a0 e0 + a1 e1 + a2 e2 + a3 e3)) ^ (a0 e0 + a1 e1 + a2 e2 + a3 e3)";
  "";
  "# p1 | p1";
  "(a0 + a1 e23 + a2 e31 + a3 e12) | (b0 + b1 e23 + b2 e31 + b3 e12)";
  "";
  "# p1 | p2";
  "(a0 + a1 e23 + a2 e31 + a3 e12) | (b0 e0123 + b1 e01 + b2 e02 + b3 e03)";
  "";
  "# p2 | p1";
  "(b0 e0123 + b1 e01 + b2 e02 + b3 e03) | (a0 + a1 e23 + a2 e31 + a3 e12)";
  "";
  "# p1 | p3";
  "(a0 + a1 e23 + a2 e31 + a3 e12) | (b0 e123 + b1 e032 + b2 e013 + b3 e021)";
  "";
  "# p3 | p1";
  "(b0 e123 + b1 e032 + b2 e013 + b3 e021) | (a0 + a1 e23 + a2 e31 + a3 e12)";
  "";
  "# p2 | p2 = 0";
  "(a0 e0123 + a1 e01 + a2 e02 + a3 e03) | (b0 e0123 + b1 e01 + b2 e02 + b3 e03)";
  "";
  "# p2 | p3";
  "(a0 e0123 + a1 e01 + a2 e02 + a3 e03) | (b0 e123 + b1 e032 + b2 e013 + b3 e021)";
  "";
  "# p3 | p2";
  "(b0 e123 + b1 e032 + b2 e013 + b3 e021) | (a0 e0123 + a1 e01 + a2 e02 + a3 e03)";
  "";
  "# p3 | p3";
  "(a0 e123 + a1 e032 + a2 e013 + a3 e021) | (b0 e123 + b1 e032 + b2 e013 + b3 e021)";
  "";
  "# plane | line";
  "(a0 e0 + a1 e1 + a2 e2 + a3 e3) | (b1 e23 + b2 e31 + b3 e12 + c1 e01 + c2 e02 + c3 e03)";
  "";
  "# line | plane";
  "(b1 e23 + b2 e31 + b3 e12 + c1 e01 + c2 e02 + c3 e03) | (a0 e0 + a1 e1 + a2 e2 + a3 e3)";
  "";
  "# plane | ideal-line";
  "(a0 e0 + a1 e1 + a2 e2 + a3 e3) | (c1 e01 + c2 e02 + c3 e03)";
  "";
  "# ideal-line | plane";
  "(c1 e01 + c2 e02 + c3 e03) | (a0 e0 + a1 e1 + a2 e2 + a3 e3)";
  "";
  "# line | line";
  "(a1 e23 + a2 e31 + a3 e12 + d1 e01 + d2 e02 + d3 e03) | (b1 e23 + b2 e31 + b3 e12 + c1 e01 + c2 e02 + c3 e03)";
  "";
  "# line | point";
  "(b1 e23 + b2 e31 + b3 e12 + c1 e01 + c2 e02 + c3 e03) | (a0 e123 + a1 e032 + a2 e013 + a3 e021)";
  "";
  "# point | line";
  "(a0 e123 + a1 e032 + a2 e013 + a3 e021) | (b1 e23 + b2 e31 + b3 e12 + c1 e01 + c2 e02 + c3 e03)";
  "";
  "# plane conjugate plane";
  "(a0 e0 + a1 e1 + a2 e2 + a3 e3) * (b0 e0 + b1 e1 + b2 e2 + b3 e3) * (a0 e0 + a1 e1 + a2 e2 + a3 e3)";
  "";
  "# plane conjugate p1";
  "(a0 e0 + a1 e1 + a2 e2 + a3 e3) * (b0 + b1 e23 + b2 e31 + b3 e12) * (a0 e0 + a1 e1 + a2 e2 + a3 e3)";
  "";
  "# plane conjugate p2";
  "(a0 e0 + a1 e1 + a2 e2 + a3 e3) * (b0 e0123 + b1 e01 + b2 e02 + b3 e03) * (a0 e0 + a1 e1 + a2 e2 + a3 e3)";
  "";
  "# plane conjugate point";
  "(a0 e0 + a1 e1 + a2 e2 + a3 e3) * (b0 e123 + b1 e032 + b2 e013 + b3 e021) * (a0 e0 + a1 e1 + a2 e2 + a3 e3)";
  "";
  "# Translate plane";
  "(1 + c1 e01 + c2 e02 + c3 e03) * (a0 e0 + a1 e1 + a2 e2 + a3 e3) * (1 - c1 e01 - c2 e02 - c3 e03) ";
  "";
  "# Translate point";
  "(1 + c1 e01 + c2 e02 + c3 e03) * (a0 e123 + a1 e032 + a2 e013 + a3 e021) * (1 - c1 e01 - c2 e02 - c3 e03) ";
  "";
  "# p1 * p1 * ~p1";
  "(b0 + b1 e12 + b2 e31 + b3 e23) * (a0 + a1 e12 + a2 e31 + a3 e23) * (b0 - b1 e12 - b2 e31 - b3 e23) ";
  "";
  "# p2 * p1 * ~p2 (exactly zero)";
  "(b0 e0123 + b1 e021 + b2 e013 + b3 e032) * (a0 + a1 e12 + a2 e31 + a3 e23) * (b0 e0123 - b1 e021 - b2 e013 - b3 e032) ";
  "";
  "# p1 * p2 * ~p1";
  "(b0 + b1 e12 + b2 e31 + b3 e23) * (a0 e0123 + a1 e01 + a2 e02 + a3 e03) * (b0 - b1 e12 - b2 e31 - b3 e23) ";
  "";
  "# p2 * p2 * ~p2 (exactly zero)";
  "(b0 e0123 + b1 e021 + b2 e013 + b3 e032) * (a0 e0123 + a1 e01 + a2 e02 + a3 e03) * (b0 e0123 - b1 e021 - b2 e013 - b3 e032) ";
  "";
  "# p1 * p1 * ~p2";
  "(b0 + b1 e12 + b2 e31 + b3 e23) * (a0 + a1 e12 + a2 e31 + a3 e23) * (c0 e0123 - c1 e01 - c2 e02 - c3 e03) ";
  "";
  "# p1 * p2 * ~p2 (exactly zero)";
  "(b0 + b1 e12 + b2 e31 + b3 e23) * (a0 e0123 + a1 e01 + a2 e02 + a3 e03) * (c0 e0123 - c1 e01 - c2 e02 - c3 e03) ";
  "";
  "# p2 * p1 * ~p1";
  "(b0 e0123 + b1 e01 + b2 e02 + b3 e03) * (a0 + a1 e12 + a2 e31 + a3 e23) * (c0 - c1 e12 - c2 e31 - c3 e23) ";
  "";
  "# p2 * p2 * ~p1 (exactly zero)";
  "(b0 e0123 + b1 e01 + b2 e02 + b3 e03) * (a0 e0123 + a1 e01 + a2 e02 + a3 e03) * (c0 - c1 e12 - c2 e31 - c3 e23) ";
  "";
  "# Motor * motor";
  "(a0 + a1 e23 + a2 e31 + a3 e12 + b1 e01 + b2 e02 + b3 e03 + b0 e0123) * (c0 + c1 e23 + c2 e31 + c3 e12 + d1 e01 + d2 e02 + d3 e03 + d0 e0123)";
  "";
  "# Motor conjugate motor";
  "(b0 + b1 e23 + b2 e31 + b3 e12 + c1 e01 + c2 e02 + c3 e03 + c0 e0123) * (a0 + a1 e23 + a2 e31 + a3 e12 + d1 e01 + d2 e02 + d3 e03 + d0 e0123) * (b0 - b1 e23 - b2 e31 - b3 e12 - c1 e01 - c2 e02 - c3 e03 + c0 e0123) ";
  "";
  "# Motor conjugate branch";
  "(b0 + b1 e23 + b2 e31 + b3 e12 + c1 e01 + c2 e02 + c3 e03 + c0 e0123) * (a1 e23 + a2 e31 + a3 e12) * (b0 - b1 e23 - b2 e31 - b3 e12 - c1 e01 - c2 e02 - c3 e03 + c0 e0123) ";
  "";
  "# Rotor conjugate branch";
  "(b0 + b1 e23 + b2 e31 + b3 e12) * (a1 e23 + a2 e31 + a3 e12) * (b0 - b1 e23 - b2 e31 - b3 e12) ";
  "";
  "# Motor conjugate plane";
  "(b0 + b1 e23 + b2 e31 + b3 e12 + c1 e01 + c2 e02 + c3 e03 + c0 e0123) * (a0 e0 + a1 e1 + a2 e2 + a3 e3) * (b0 - b1 e23 - b2 e31 - b3 e12 - c1 e01 - c2 e02 - c3 e03 + c0 e0123) ";
  "";
  "# Motor conjugate point";
  "(b0 + b1 e23 + b2 e31 + b3 e12 + c1 e01 + c2 e02 + c3 e03 + c0 e0123) * (a0 e123 + a1 e032 + a2 e013 + a3 e021) * (b0 - b1 e23 - b2 e31 - b3 e12 - c1 e01 - c2 e02 - c3 e03 + c0 e0123) ";
  "";
  "# Motor conjugate origin";
  "(b0 + b1 e23 + b2 e31 + b3 e12 + c1 e01 + c2 e02 + c3 e03 + c0 e0123) * (e123) * (b0 - b1 e23 - b2 e31 - b3 e12 - c1 e01 - c2 e02 - c3 e03 + c0 e0123) ";
  "";
  "# Translate line";
  "(1 + c1 e01 + c2 e02 + c3 e03 + c0 e0123) * (a0 + a1 e23 + a2 e31 + a3 e12 + d1 e01 + d2 e02 + d3 e03 + d0 e0123) * (1 -c1 e01 - c2 e02 - c3 e03 + c0 e0123) ";
  "";
  "# Motor conjugate direction";
  "(b0 + b1 e12 + b2 e31 + b3 e23 + c1 e01 + c2 e02 + c3 e03 + c0 e0123) * (a1 e021 + a2 e013 + a3 e032) * (b0 - b1 e12 - b2 e31 - b3 e23 - c1 e01 - c2 e02 - c3 e03 + c0 e0123) ";
  "";
  "# Rotor conjugate direction (demonstrates that this is identical to motor conjugation)";
  "(b0 + b1 e12 + b2 e31 + b3 e23) * (a1 e021 + a2 e013 + a3 e032) * (b0 - b1 e12 - b2 e31 - b3 e23) ";
  "";
  "# Project point to line";
  "((b1 e23 + b2 e31 + b3 e12 + c1 e01 + c2 e02 + c3 e03) | (a0 e123 + a1 e021 + a2 e013 + a3 e032)) * (b1 e23 + b2 e31 + b3 e12 + c1 e01 + c2 e02 + c3 e03)";
  "";
  "(((b0 e0 + b1 e1 + b2 e2 + b3 e3) ^ (c0 e0 + c1 e1 + c2 e2 + c3 e3)) | (a0 e123 + a1 e021 + a2 e013 + a3 e032)) * ((b0 e0 + b1 e1 + b2 e2 + b3 e3) ^ (c0 e0 + c1 e1 + c2 e2 + c3 e3))";
  "";
  "# Project point to plane";
  "((b0 e0 + b1 e1 + b2 e2 + b3 e3) | (a0 e123 + a1 e021 + a2 e013 + a3 e032)) * (b0 e0 + b1 e1 + b2 e2 + b3 e3)";
  "";
  "((b0 e0 + b1 e1 + b2 e2 + b3 e3) | (a0 e123 + a1 e021 + a2 e013 + a3 e032)) ^ (b0 e0 + b1 e1 + b2 e2 + b3 e3)";
  "";
  "# Project line to plane";
  "((b0 e0 + b1 e1 + b2 e2 + b3 e3) | (a1 e23 + a2 e31 + a3 e12 + d1 e01 + d2 e02 + d3 e03)) * (b0 e0 + b1 e1 + b2 e2 + b3 e3)";
  "";
  "((b0 e0 + b1 e1 + b2 e2 + b3 e3) | (a1 e23 + a2 e31 + a3 e12 + d1 e01 + d2 e02 + d3 e03)) ^ (b0 e0 + b1 e1 + b2 e2 + b3 e3)"].
Definition runs (l : string) : bool :=
  match repl_line l with
  | Val (LParse _) => match parse Examples.num pga l with Val _ => negb (head_is (Ascii.eqb "#") l) | _ => false end
  | Val (LBlank _) => String.eqb l "" || head_is (Ascii.eqb "#") l
  | _ => false
  end.
Theorem C59_script_runs l : In l script ->
  (exists v, (exists b, repl_line l = Val (LParse b)) /\ parse Examples.num pga l = Val v) \/
  (exists b, repl_line l = Val (LBlank b)) /\ (l = "" \/ head_is (Ascii.eqb "#") l = true).
Proof.
  intro I. assert (K : forallb runs script = true) by (vm_compute; reflexivity).
  rewrite forallb_forall in K. specialize (K l I). unfold runs in K.
  destruct (repl_line l) as [[b| | |b]| | |] eqn:E; try discriminate.
  - right. split; [exists b; reflexivity|]. apply orb_true_iff in K. destruct K as [K|K]; [left; apply String.eqb_eq; exact K|right; exact K].
  - left. destruct (parse Examples.num pga l) as [v| | |] eqn:F; try discriminate.
    exists v. split; [exists b; reflexivity|reflexivity].
Qed.
Example script_length : List.length script = 313%nat. Proof. reflexivity. Qed.

Print Assumptions C59_products.
Print Assumptions C59_exterior.
Print Assumptions C59_regressive.
Print Assumptions C59_inner.
Print Assumptions C59_sandwich.
Print Assumptions C59_projection.
Print Assumptions C59_translate_plane.
Print Assumptions C59_line_line_refuted.
Print Assumptions C59_script_runs.
