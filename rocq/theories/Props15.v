(** C66: the scripts scripts/demo.klein and scripts/test.klein and the session
    shown in docs/shell.md, run by the model of the symbolic tool. *)
From Coq Require Import List Bool ZArith NArith String Ascii Lia Reals Lra Setoid Morphisms.
From Verif Require Import AlgTac SymMap SymPoly SymPolyFacts SymGA SymGAFacts SymMVFacts SymPGA SymParse
  SymLexFacts SymParseFacts SymDen SymSession Props01 Props08 Props09 Props10.
Import ListNotations.
Local Open Scope string_scope.
Local Open Scope R_scope.

Section Scripts.
Variable rho : string -> R.
Ltac unfold_script :=
  cbv -[Rplus Rmult Ropp Rminus Rinv IZR]; first [ring | lra].
Ltac script :=
  match goal with |- shows ?s _ _ => let r := eval vm_compute in (parse Examples.num pga s) in
    match r with Val ?v => exists v end end;
  split; [vm_compute; reflexivity|];
  let k := fresh "k" in intro k; destruct k as [[|] [|] [|] [|]]; unfold_script.

(** ** demo.klein: for all values of the coefficients, what the tool computes is
    what the SIMD operation returns *)
Theorem C66_demo : forall B : Build,
  (* demo.klein line 2: Translate a point *)
  shows "(1 + b1 e01 + b2 e02 + b3 e03) * (a0 e123 + a1 e032 + a2 e013 + a3 e021) * (1 - b1 e01 - b2 e02 - b3 e03)" rho (mv_point (translator_on_point (mktranslator (mk4 0 (rho "b1") (rho "b2") (rho "b3"))) (mkpoint (mk4 (rho "a0") (rho "a1") (rho "a2") (rho "a3"))))) /\
  (* demo.klein line 8: Rotate a point *)
  shows "(b0 + b1 e23 + b2 e31 + b3 e12) * (a0 e123 + a1 e021 + a2 e013 + a3 e032) * (b0 - b1 e23 - b2 e31 - b3 e12)" rho (mv_point (rotor_on_point (mkrotor (mk4 (rho "b0") (rho "b1") (rho "b2") (rho "b3"))) (mkpoint (mk4 (rho "a0") (rho "a3") (rho "a2") (rho "a1"))))) /\
  (* demo.klein line 11: Rotate a plane *)
  shows "(b0 + b1 e23 + b2 e31 + b3 e12) * (a3 e0 + a2 e1 + a1 e2 + a0 e3) * (b0 - b1 e23 - b2 e31 - b3 e12)" rho (mv_plane (rotor_on_plane (mkrotor (mk4 (rho "b0") (rho "b1") (rho "b2") (rho "b3"))) (mkplane (mk4 (rho "a3") (rho "a2") (rho "a1") (rho "a0"))))) /\
  (* demo.klein line 14: Conjugate point with a motor *)
  shows "(b0 + b1 e23 + b2 e31 + b3 e12 + c1 e01 + c2 e02 + c3 e03 + c0 e0123) * (a0 e123 + a1 e032 + a2 e013 + a3 e021) * (b0 - b1 e23 - b2 e31 - b3 e12 - c1 e01 - c2 e02 - c3 e03 + c0 e0123)" rho (mv_point (motor_on_point (mkmotor (mk4 (rho "b0") (rho "b1") (rho "b2") (rho "b3")) (mk4 (rho "c0") (rho "c1") (rho "c2") (rho "c3"))) (mkpoint (mk4 (rho "a0") (rho "a1") (rho "a2") (rho "a3"))))) /\
  (* demo.klein line 17: Example (motor * point * ~motor) *)
  shows "(1 + 2 e23 + 3 e31 + 4 e12 + 5 e01 + 6 e02 + 7 e03 + 8 e0123) * (1e123 + 2e021 + e013 - e032)* (1 - 2 e23 - 3 e31 - 4 e12 - 5 e01 - 6 e02 - 7 e03 + 8 e0123)" rho (mv_point (motor_on_point (mkmotor (mk4 1 2 3 4) (mk4 8 5 6 7)) (mkpoint (mk4 1 (-1) 1 2)))) /\
  (* demo.klein line 20: Conjugate plane with a motor *)
  shows "(b0 + b1 e23 + b2 e31 + b3 e12 + c1 e01 + c2 e02 + c3 e03 + c0 e0123) * (a0 e0 + a1 e1 + a2 e2 + a3 e3) * (b0 - b1 e23 - b2 e31 - b3 e12 - c1 e01 - c2 e02 - c3 e03 + c0 e0123)" rho (mv_plane (motor_on_plane (mkmotor (mk4 (rho "b0") (rho "b1") (rho "b2") (rho "b3")) (mk4 (rho "c0") (rho "c1") (rho "c2") (rho "c3"))) (mkplane (mk4 (rho "a0") (rho "a1") (rho "a2") (rho "a3"))))) /\
  (* demo.klein line 23: Example (motor * plane * ~motor) *)
  shows "(1 + 2 e23 + 3 e31 + 4 e12 + 5 e01 + 6 e02 + 7 e03 + 8 e0123) * (3e1 + 2e2 + e3 - e0)* (1 - 2 e23 - 3 e31 - 4 e12 - 5 e01 - 6 e02 - 7 e03 + 8 e0123)" rho (mv_plane (motor_on_plane (mkmotor (mk4 1 2 3 4) (mk4 8 5 6 7)) (mkplane (mk4 (-1) 3 2 1)))) /\
  (* demo.klein line 26: Rotor * Translator *)
  shows "(a0 + a1 e23 + a2 e31 + a3 e12) * (1 + b0 e01 + b1 e02 + b2 e03)" rho (mv_motor (rotor_mul_translator (mkrotor (mk4 (rho "a0") (rho "a1") (rho "a2") (rho "a3"))) (mktranslator (mk4 0 (rho "b0") (rho "b1") (rho "b2"))))) /\
  (* demo.klein line 29: Conjugate a line with a motor *)
  shows "(b0 + b1 e23 + b2 e31 + b3 e12 + c1 e01 + c2 e02 + c3 e03 + c0 e0123) * (a1 e23 + a2 e31 + a3 e12) * (b0 - b1 e23 - b2 e31 - b3 e12 - c1 e01 - c2 e02 - c3 e03 + c0 e0123)" rho (mv_line (motor_on_line (mkmotor (mk4 (rho "b0") (rho "b1") (rho "b2") (rho "b3")) (mk4 (rho "c0") (rho "c1") (rho "c2") (rho "c3"))) (mkline (mk4 0 (rho "a1") (rho "a2") (rho "a3")) (mk4 0 0 0 0)))) /\
  (* demo.klein line 32: Example (motor * euclidean line * ~motor) *)
  shows "(1 + 2 e23 + 3 e31 + 4 e12 + 5 e01 + 6 e02 + 7 e03 + 8 e0123) * (3e23 + 2e31 + e12 + 1e01 - 2e02)* (1 - 2 e23 - 3 e31 - 4 e12 - 5 e01 - 6 e02 - 7 e03 + 8 e0123)" rho (mv_line (motor_on_line (mkmotor (mk4 1 2 3 4) (mk4 8 5 6 7)) (mkline (mk4 0 3 2 1) (mk4 0 1 (-2) 0)))) /\
  (* demo.klein line 35: Conjugate origin with motor *)
  shows "(b0 + b1 e23 + b2 e31 + b3 e12 + c1 e01 + c2 e02 + c3 e03 + c0 e0123) * e123 * (b0 - b1 e23 - b2 e31 - b3 e12 - c1 e01 - c2 e02 - c3 e03 + c0 e0123)" rho (mv_point (motor_on_point (mkmotor (mk4 (rho "b0") (rho "b1") (rho "b2") (rho "b3")) (mk4 (rho "c0") (rho "c1") (rho "c2") (rho "c3"))) (mkpoint (mk4 1 0 0 0)))) /\
  (* demo.klein line 38: motor * ~motor *)
  shows "(b0 + b1 e23 + b2 e31 + b3 e12 + c1 e01 + c2 e02 + c3 e03 + c0 e0123) * (b0 - b1 e23 - b2 e31 - b3 e12 - c1 e01 - c2 e02 - c3 e03 + c0 e0123)" rho (mv_motor (motor_mul_motor (mkmotor (mk4 (rho "b0") (rho "b1") (rho "b2") (rho "b3")) (mk4 (rho "c0") (rho "c1") (rho "c2") (rho "c3"))) (mkmotor (mk4 (rho "b0") (- rho "b1") (- rho "b2") (- rho "b3")) (mk4 (rho "c0") (- rho "c1") (- rho "c2") (- rho "c3"))))) /\
  (* demo.klein line 44: Bivector squared norm *)
  shows "(a1 e23 + a2 e31 + a3 e12 + b1 e01 + b2 e02 + b3 e03) * (a1 e23 + a2 e31 + a3 e12 + b1 e01 + b2 e02 + b3 e03)" rho (mv_motor (line_mul_line (mkline (mk4 0 (rho "a1") (rho "a2") (rho "a3")) (mk4 0 (rho "b1") (rho "b2") (rho "b3"))) (mkline (mk4 0 (rho "a1") (rho "a2") (rho "a3")) (mk4 0 (rho "b1") (rho "b2") (rho "b3"))))) /\
  (* demo.klein line 52: rotor * ~rotor *)
  shows "(b0 + b1 e23 + b2 e31 + b3 e12) * (b0 - b1 e23 - b2 e31 - b3 e12)" rho (mv_rotor (rotor_mul_rotor (mkrotor (mk4 (rho "b0") (rho "b1") (rho "b2") (rho "b3"))) (mkrotor (mk4 (rho "b0") (- rho "b1") (- rho "b2") (- rho "b3"))))) /\
  (* demo.klein line 58: Plane-plane intersection *)
  shows "(3e0 + e1 + e3) ^ (e0 + e3)" rho (mv_line (plane_ext_plane (mkplane (mk4 3 1 0 1)) (mkplane (mk4 1 0 0 1)))) /\
  (* demo.klein line 61: Plane-line intersection *)
  shows "(-e01 + 2e03 - e31) ^ (e1 + e3)" rho (mv_point (line_ext_plane (mkline (mk4 0 0 (-1) 0) (mk4 0 (-1) 0 2)) (mkplane (mk4 0 1 0 1)))) /\
  (* demo.klein line 62: Plane-line intersection *)
  shows "(e1 + e3) ^ (-e01 + 2e03 - e31)" rho (mv_point (plane_ext_line (mkplane (mk4 0 1 0 1)) (mkline (mk4 0 0 (-1) 0) (mk4 0 (-1) 0 2)))).
Proof. intro B. repeat apply conj; intros; destruct B as [[|]]; script. Qed.
(** line 5, translate a plane; the library's translator has scalar part 1 *)
Theorem C66_demo_translate_plane : forall (B : Build) rcp rsqrt sz, exact_rcp rcp -> rho "b0" = 1 ->
  shows "(b0 + b1 e01 + b2 e02 + b3 e03) * (a0 e0 + a1 e1 + a2 e2 + a3 e3) * (b0 - b1 e01 - b2 e02 - b3 e03)" rho
    (mv_plane (@translator_on_plane R (Flo_R rcp rsqrt sz) B (TR rho "b") (P0 rho "a"))).
Proof.
  intros B rcp rsqrt sz H B0.
  enough (shows "(b0 + b1 e01 + b2 e02 + b3 e03) * (a0 e0 + a1 e1 + a2 e2 + a3 e3) * (b0 - b1 e01 - b2 e02 - b3 e03)" rho
    (sandwich (mv_translator (TR rho "b")) (mv_plane (P0 rho "a")))) as [v [E K]].
  - exists v. split; [exact E|]. intro k. rewrite (K k). symmetry.
    exact (C05_translator_on_plane B rcp rsqrt sz (TR rho "b") (P0 rho "a") H eq_refl k).
  - match goal with |- shows ?s _ _ => let r := eval vm_compute in (parse Examples.num pga s) in
      match r with Val ?v => exists v end end.
    split; [vm_compute; reflexivity|]. intro k; destruct k as [[|] [|] [|] [|]];
    cbv -[Rplus Rmult Ropp Rminus Rinv IZR]; cbv -[Rplus Rmult Ropp Rminus Rinv IZR] in B0; rewrite ?B0; ring.
Qed.
(** lines 47 and 49: "note that it commutes" *)
Theorem C66_demo_commutes : exists x,
  shows "(a1 e23 + a2 e31 + a3 e12 + b1 e01 + b2 e02 + b3 e03) * (a1 e23 + a2 e31 + a3 e12 + b1 e01 + b2 e02 + b3 e03) * e0123" rho x /\
  shows "(a1 e23 + a2 e31 + a3 e12 + b1 e01 + b2 e02 + b3 e03) * e0123 * (a1 e23 + a2 e31 + a3 e12 + b1 e01 + b2 e02 + b3 e03)" rho x /\
  x == mvscale (- (rho "a1" * rho "a1" + rho "a2" * rho "a2" + rho "a3" * rho "a3")) (fun k => match k with Bl true true true true => 1 | _ => 0 end).
Proof.
  exists (mvscale (- (rho "a1" * rho "a1" + rho "a2" * rho "a2" + rho "a3" * rho "a3")) (fun k => match k with Bl true true true true => 1 | _ => 0 end)).
  split; [script|]. split; [script|]. intro k. reflexivity.
Qed.

(** ** test.klein: the numbers the unit tests of the library were checked with *)
Theorem C66_test : forall B : Build,
  (* test.klein line 16: Plane ^ plane *)
  shows "(e1 + 2e2 + 3e3 + 4e0) ^ (2e1 + 3e2 - e3 - 2e0)" rho (mv_line (plane_ext_plane (mkplane (mk4 4 1 2 3)) (mkplane (mk4 (-2) 2 3 (-1))))) /\
  (* test.klein line 19: Plane ^ line *)
  shows "(e1 + 2e2 + 3e3 + 4e0) ^ (e03 - 2e12 + e31 + 4e23)" rho (mv_point (plane_ext_line (mkplane (mk4 4 1 2 3)) (mkline (mk4 0 4 1 (-2)) (mk4 0 0 0 1)))) /\
  (* test.klein line 22: Plane ^ ideal line *)
  shows "(e1 + 2e2 + 3e3 + 4e0) ^ (-2e01 + e02 + 4e03)" rho (mv_point (plane_ext_ideal (mkplane (mk4 4 1 2 3)) (mkideal_line (mk4 0 (-2) 1 4)))) /\
  (* test.klein line 25: Plane ^ point *)
  shows "(e1 + 2e2 + 3e3 + 4e0) ^ (e123 + -2e032 + e013 + 4e021)" rho (mv_dual (plane_ext_point (mkplane (mk4 4 1 2 3)) (mkpoint (mk4 1 (-2) 1 4)))) /\
  (* test.klein line 28: Line ^ plane *)
  shows "(e03 - 2e12 + e31 + 4e23) ^ (e1 + 2e2 + 3e3 + 4e0)" rho (mv_point (line_ext_plane (mkline (mk4 0 4 1 (-2)) (mk4 0 0 0 1)) (mkplane (mk4 4 1 2 3)))) /\
  (* test.klein line 31: Line ^ line *)
  shows "(e01 + e12 + 2e31 + 3e23) ^ (e02 - 2e12 + e31 + 4e23)" rho (mv_dual (line_ext_line (mkline (mk4 0 3 2 1) (mk4 0 1 0 0)) (mkline (mk4 0 4 1 (-2)) (mk4 0 0 1 0)))) /\
  (* test.klein line 34: Line ^ ideal line *)
  shows "(e03 - 2e12 + e31 + 4e23) ^ (-2e01 + e02 + 4e03)" rho (mv_dual (line_ext_ideal (mkline (mk4 0 4 1 (-2)) (mk4 0 0 0 1)) (mkideal_line (mk4 0 (-2) 1 4)))) /\
  (* test.klein line 40: Ideal line ^ plane *)
  shows "(-2e01 + e02 + 4e03) ^ (e1 + 2e2 + 3e3 + 4e0)" rho (mv_point (ideal_ext_plane (mkideal_line (mk4 0 (-2) 1 4)) (mkplane (mk4 4 1 2 3)))) /\
  (* test.klein line 43: Ideal line ^ line *)
  shows "(-2e01 + e02 + 4e03) ^ (e03 - 2e12 + e31 + 4e23)" rho (mv_dual (ideal_ext_line (mkideal_line (mk4 0 (-2) 1 4)) (mkline (mk4 0 4 1 (-2)) (mk4 0 0 0 1)))) /\
  (* test.klein line 46: Point ^ plane *)
  shows "(e123 + -2e032 + e013 + 4e021) ^ (e1 + 2e2 + 3e3 + 4e0)" rho (mv_dual (point_ext_plane (mkpoint (mk4 1 (-2) 1 4)) (mkplane (mk4 4 1 2 3)))) /\
  (* test.klein line 58: Plane | plane *)
  shows "(e1 + 2e2 + 3e3 + 4e0) | (2e1 + 3e2 -e3 -2e0)" rho (fun k => plane_dot_plane (mkplane (mk4 4 1 2 3)) (mkplane (mk4 (-2) 2 3 (-1))) * one k) /\
  (* test.klein line 61: Plane | line *)
  shows "(e1 + 2e2 + 3e3 + 4e0) | (e03 - 2e12 + e31 + 4e23)" rho (mv_plane (plane_dot_line (mkplane (mk4 4 1 2 3)) (mkline (mk4 0 4 1 (-2)) (mk4 0 0 0 1)))) /\
  (* test.klein line 64: Plane | ideal line *)
  shows "(e1 + 2e2 + 3e3 + 4e0) | (-2e01 + e02 + 4e03)" rho (mv_plane (plane_dot_ideal (mkplane (mk4 4 1 2 3)) (mkideal_line (mk4 0 (-2) 1 4)))) /\
  (* test.klein line 67: Plane | point *)
  shows "(e1 + 2e2 + 3e3 + 4e0) | (e123 -2e032 + e013 + 4e021)" rho (mv_line (plane_dot_point (mkplane (mk4 4 1 2 3)) (mkpoint (mk4 1 (-2) 1 4)))) /\
  (* test.klein line 70: Line | plane *)
  shows "(e03 - 2e12 + e31 + 4e23) | (e1 + 2e2 + 3e3 + 4e0)" rho (mv_plane (line_dot_plane (mkline (mk4 0 4 1 (-2)) (mk4 0 0 0 1)) (mkplane (mk4 4 1 2 3)))) /\
  (* test.klein line 73: Line | line *)
  shows "(e01 + e12 + 2e31 + 3e23) | (e02 - 2e12 + e31 + 4e23)" rho (fun k => line_dot_line (mkline (mk4 0 3 2 1) (mk4 0 1 0 0)) (mkline (mk4 0 4 1 (-2)) (mk4 0 0 1 0)) * one k) /\
  (* test.klein line 79: Line | point *)
  shows "(e03 + e12 + 2e31 + 3e23) | (e123 -2e032 + e013 + 4e021)" rho (mv_plane (line_dot_point (mkline (mk4 0 3 2 1) (mk4 0 0 0 1)) (mkpoint (mk4 1 (-2) 1 4)))) /\
  (* test.klein line 82: Ideal line | plane *)
  shows "(-2e01 + e02 + 4e03) | (e1 + 2e2 + 3e3 + 4e0)" rho (mv_plane (ideal_dot_plane (mkideal_line (mk4 0 (-2) 1 4)) (mkplane (mk4 4 1 2 3)))) /\
  (* test.klein line 91: Point | plane *)
  shows "(e123 - 2e032 + e013 + 4e021) | (e1 + 2e2 + 3e3 + 4e0)" rho (mv_line (point_dot_plane (mkpoint (mk4 1 (-2) 1 4)) (mkplane (mk4 4 1 2 3)))) /\
  (* test.klein line 94: Point | line *)
  shows "(e123 - 2e032 + e013 + 4e021) | (e03 + e12 + 2e31 + 3e23)" rho (mv_plane (point_dot_line (mkpoint (mk4 1 (-2) 1 4)) (mkline (mk4 0 3 2 1) (mk4 0 0 0 1)))) /\
  (* test.klein line 100: Point | point *)
  shows "(e123 + e032 + 2e013 + 3e021) | (e123 - 2e032 + e013 + 4e021)" rho (fun k => point_dot_point (mkpoint (mk4 1 1 2 3)) (mkpoint (mk4 1 (-2) 1 4)) * one k) /\
  (* test.klein line 106: Reflect plane *)
  shows "(3e1 + 2e2 + e3 - e0) * (e1 + 2e2 - e3 - 3e0) *(3e1 + 2e2 + e3 - e0)" rho (mv_plane (plane_on_plane (mkplane (mk4 (-1) 3 2 1)) (mkplane (mk4 (-3) 1 2 (-1))))) /\
  (* test.klein line 109: Reflect line *)
  shows "(3e1 + 2e2 + e3 - e0) * (e01 - 2e02 + 3e03 - 4e12 + 5e31 + 6e23) *(3e1 + 2e2 + e3 - e0)" rho (mv_line (plane_on_line (mkplane (mk4 (-1) 3 2 1)) (mkline (mk4 0 6 5 (-4)) (mk4 0 1 (-2) 3)))) /\
  (* test.klein line 112: Reflect point *)
  shows "(3e1 + 2e2 + e3 - e0) * (e123 + 4e032 - 2e013 - e021) *(3e1 + 2e2 + e3 - e0)" rho (mv_point (plane_on_point (mkplane (mk4 (-1) 3 2 1)) (mkpoint (mk4 1 4 (-2) (-1))))) /\
  (* test.klein line 115: Rotate plane *)
  shows "(1 + 2e12 - 3e31 + 4e23) * (2e0 + 3e1 + 4e2 + 5e3) * (1 - 2e12 + 3e31 - 4e23)" rho (mv_plane (rotor_on_plane (mkrotor (mk4 1 4 (-3) 2)) (mkplane (mk4 2 3 4 5)))) /\
  (* test.klein line 118: Rotate point *)
  shows "(1 + 2e12 - 3e31 + 4e23) * (2e123 + 3e032 + 4e013 + 5e021) * (1 - 2e12 + 3e31 - 4e23)" rho (mv_point (rotor_on_point (mkrotor (mk4 1 4 (-3) 2)) (mkpoint (mk4 2 3 4 5)))) /\
  (* test.klein line 121: Rotate line *)
  shows "(1 + 2e12 - 3e31 + 4e23) * (-e01 + 2e02 - 3e03 + 4e12 + 5e31 - 6e23) * (1 - 2e12 + 3e31 - 4e23)" rho (mv_line (rotor_on_line (mkrotor (mk4 1 4 (-3) 2)) (mkline (mk4 0 (-6) 5 4) (mk4 0 (-1) 2 (-3))))) /\
  (* test.klein line 124: Translate line *)
  shows "(1 - 5e01 - 2e02 + 2e03) * (-e01 + 2e02 - 3e03 + 4e12 + 5e31 - 6e23) * (1 + 5e01 + 2e02 - 2e03)" rho (mv_line (translator_on_line (mktranslator (mk4 0 (-5) (-2) 2)) (mkline (mk4 0 (-6) 5 4) (mk4 0 (-1) 2 (-3))))) /\
  (* test.klein line 127: Motorize line *)
  shows "(2 - e12 + 3e31 + 4e23 - 5e01 - 2e02 + 2e03 - 3e0123) * (-e01 + 2e02 - 3e03 + 4e12 + 5e31 - 6e23) * (2 + e12 - 3e31 - 4e23 + 5e01 + 2e02 - 2e03 - 3e0123)" rho (mv_line (motor_on_line (mkmotor (mk4 2 4 3 (-1)) (mk4 (-3) (-5) (-2) 2)) (mkline (mk4 0 (-6) 5 4) (mk4 0 (-1) 2 (-3))))) /\
  (* test.klein line 130: Motor plane *)
  shows "(1 + 2e12 - 3e31 + 4e23 + 5e01 + 6e02 + 7e03 + 8e0123) * (2e0 + 3e1 + 4e2 + 5e3) * (1 - 2e12 + 3e31 - 4e23 - 5e01 - 6e02 - 7e03 + 8e0123)" rho (mv_plane (motor_on_plane (mkmotor (mk4 1 4 (-3) 2) (mk4 8 5 6 7)) (mkplane (mk4 2 3 4 5)))) /\
  (* test.klein line 133: Motor point *)
  shows "(1 + 2e12 - 3e31 + 4e23 + 5e01 + 6e02 + 7e03 + 8e0123) * (2e123 + 3e032 + 4e013 + 5e021) * (1 - 2e12 + 3e31 - 4e23 - 5e01 - 6e02 - 7e03 + 8e0123)" rho (mv_point (motor_on_point (mkmotor (mk4 1 4 (-3) 2) (mk4 8 5 6 7)) (mkpoint (mk4 2 3 4 5)))) /\
  (* test.klein line 136: Motor origin *)
  shows "(1 + 2e12 - 3e31 + 4e23 + 5e01 + 6e02 + 7e03 + 8e0123) * e123 * (1 - 2e12 + 3e31 - 4e23 - 5e01 - 6e02 - 7e03 + 8e0123)" rho (mv_point (motor_on_point (mkmotor (mk4 1 4 (-3) 2) (mk4 8 5 6 7)) (mkpoint (mk4 1 0 0 0)))) /\
  (* test.klein line 139: Rotor * rotor *)
  shows "(2 + 3e23 + 4e31 + 5e12) * (6 + 7e23 + 8e31 + 9e12)" rho (mv_rotor (rotor_mul_rotor (mkrotor (mk4 2 3 4 5)) (mkrotor (mk4 6 7 8 9)))) /\
  (* test.klein line 142: Motor * motor *)
  shows "(2 + 3e23 + 4e31 + 5e12 + 6e01 + 7e02 + 8e03 + 9e0123) * (6 + 7e23 + 8e31 + 9e12 + 10e01 + 11e02 + 12e03 + 13e0123)" rho (mv_motor (motor_mul_motor (mkmotor (mk4 2 3 4 5) (mk4 9 6 7 8)) (mkmotor (mk4 6 7 8 9) (mk4 13 10 11 12)))) /\
  (* test.klein line 145: Branch * Branch *)
  shows "(e23 - 2e31 - 3e12) * (2e23 + e31 + 3e12)" rho (mv_rotor (branch_mul_branch (mkbranch (mk4 0 1 (-2) (-3))) (mkbranch (mk4 0 2 1 3)))).
Proof. intro B. repeat apply conj; intros; destruct B as [[|]]; script. Qed.
End Scripts.

(** ** Both scripts in full: none of their lines hangs, throws or is dropped *)
Definition demo : list string := [
  "# Translate a point";
  "(1 + b1 e01 + b2 e02 + b3 e03) * (a0 e123 + a1 e032 + a2 e013 + a3 e021) * (1 - b1 e01 - b2 e02 - b3 e03)";
  "";
  "# Translate a plane";
  "(b0 + b1 e01 + b2 e02 + b3 e03) * (a0 e0 + a1 e1 + a2 e2 + a3 e3) * (b0 - b1 e01 - b2 e02 - b3 e03)";
  "";
  "# Rotate a point";
  "(b0 + b1 e23 + b2 e31 + b3 e12) * (a0 e123 + a1 e021 + a2 e013 + a3 e032) * (b0 - b1 e23 - b2 e31 - b3 e12)";
  "";
  "# Rotate a plane";
  "(b0 + b1 e23 + b2 e31 + b3 e12) * (a3 e0 + a2 e1 + a1 e2 + a0 e3) * (b0 - b1 e23 - b2 e31 - b3 e12)";
  "";
  "# Conjugate point with a motor";
  "(b0 + b1 e23 + b2 e31 + b3 e12 + c1 e01 + c2 e02 + c3 e03 + c0 e0123) * (a0 e123 + a1 e032 + a2 e013 + a3 e021) * (b0 - b1 e23 - b2 e31 - b3 e12 - c1 e01 - c2 e02 - c3 e03 + c0 e0123)";
  "";
  "# Example (motor * point * ~motor)";
  "(1 + 2 e23 + 3 e31 + 4 e12 + 5 e01 + 6 e02 + 7 e03 + 8 e0123) * (1e123 + 2e021 + e013 - e032)* (1 - 2 e23 - 3 e31 - 4 e12 - 5 e01 - 6 e02 - 7 e03 + 8 e0123)";
  "";
  "# Conjugate plane with a motor";
  "(b0 + b1 e23 + b2 e31 + b3 e12 + c1 e01 + c2 e02 + c3 e03 + c0 e0123) * (a0 e0 + a1 e1 + a2 e2 + a3 e3) * (b0 - b1 e23 - b2 e31 - b3 e12 - c1 e01 - c2 e02 - c3 e03 + c0 e0123)";
  "";
  "# Example (motor * plane * ~motor)";
  "(1 + 2 e23 + 3 e31 + 4 e12 + 5 e01 + 6 e02 + 7 e03 + 8 e0123) * (3e1 + 2e2 + e3 - e0)* (1 - 2 e23 - 3 e31 - 4 e12 - 5 e01 - 6 e02 - 7 e03 + 8 e0123)";
  "";
  "# Rotor * Translator";
  "(a0 + a1 e23 + a2 e31 + a3 e12) * (1 + b0 e01 + b1 e02 + b2 e03)";
  "";
  "# Conjugate a line with a motor";
  "(b0 + b1 e23 + b2 e31 + b3 e12 + c1 e01 + c2 e02 + c3 e03 + c0 e0123) * (a1 e23 + a2 e31 + a3 e12) * (b0 - b1 e23 - b2 e31 - b3 e12 - c1 e01 - c2 e02 - c3 e03 + c0 e0123)";
  "";
  "# Example (motor * euclidean line * ~motor)";
  "(1 + 2 e23 + 3 e31 + 4 e12 + 5 e01 + 6 e02 + 7 e03 + 8 e0123) * (3e23 + 2e31 + e12 + 1e01 - 2e02)* (1 - 2 e23 - 3 e31 - 4 e12 - 5 e01 - 6 e02 - 7 e03 + 8 e0123)";
  "";
  "# Conjugate origin with motor";
  "(b0 + b1 e23 + b2 e31 + b3 e12 + c1 e01 + c2 e02 + c3 e03 + c0 e0123) * e123 * (b0 - b1 e23 - b2 e31 - b3 e12 - c1 e01 - c2 e02 - c3 e03 + c0 e0123)";
  "";
  "# motor * ~motor";
  "(b0 + b1 e23 + b2 e31 + b3 e12 + c1 e01 + c2 e02 + c3 e03 + c0 e0123) * (b0 - b1 e23 - b2 e31 - b3 e12 - c1 e01 - c2 e02 - c3 e03 + c0 e0123)";
  "";
  "# Inverse norm * motor";
  "(s + t e0123) * (b0 + b1 e23 + b2 e31 + b3 e12 + c1 e01 + c2 e02 + c3 e03 + c0 e0123)";
  "";
  "# Bivector squared norm";
  "(a1 e23 + a2 e31 + a3 e12 + b1 e01 + b2 e02 + b3 e03) * (a1 e23 + a2 e31 + a3 e12 + b1 e01 + b2 e02 + b3 e03)";
  "";
  "# Bivector times its ideal axis and vice versa (note that it commutes)";
  "(a1 e23 + a2 e31 + a3 e12 + b1 e01 + b2 e02 + b3 e03) * (a1 e23 + a2 e31 + a3 e12 + b1 e01 + b2 e02 + b3 e03) * e0123";
  "";
  "(a1 e23 + a2 e31 + a3 e12 + b1 e01 + b2 e02 + b3 e03) * e0123 * (a1 e23 + a2 e31 + a3 e12 + b1 e01 + b2 e02 + b3 e03)";
  "";
  "# rotor * ~rotor";
  "(b0 + b1 e23 + b2 e31 + b3 e12) * (b0 - b1 e23 - b2 e31 - b3 e12)";
  "";
  "# Regressive product";
  "(4e1 - 2e32) & (3e012 + e10)";
  "";
  "# Plane-plane intersection";
  "(3e0 + e1 + e3) ^ (e0 + e3)";
  "";
  "# Plane-line intersection";
  "(-e01 + 2e03 - e31) ^ (e1 + e3)";
  "(e1 + e3) ^ (-e01 + 2e03 - e31)"].
Definition test : list string := [
  "# Verification of computations used in various tests";
  "";
  "# Line * ideal line";
  "(e02 + e12 + 2 e31 + 3 e23) * (-2 e01 + e02 + 4 e03)";
  "";
  "# Line * point";
  "(e03 + e12 + 2 e31 + 3 e23) * (-2 e032 + e013 + 4 e021 + e123)";
  "";
  "# Point * line";
  "(-2 e032 + e013 + 4 e021 + e123) * (e03 + e12 + 2 e31 + 3 e23)";
  "";
  "# Dense * dense";
  "(1 + e0 + e1 + e2 + e3 + e12 + e31 + e23 + e01 + e02 + e03 + e123 + e021 + e013 + e032 + e0123) * (1 + e0 + e1 + e2 + e3 + e12 + e31 + e23 + e01 + e02 + e03 + e123 + e021 + e013 + e032 + e0123)";
  "";
  "# Plane ^ plane";
  "(e1 + 2e2 + 3e3 + 4e0) ^ (2e1 + 3e2 - e3 - 2e0)";
  "";
  "# Plane ^ line";
  "(e1 + 2e2 + 3e3 + 4e0) ^ (e03 - 2e12 + e31 + 4e23)";
  "";
  "# Plane ^ ideal line";
  "(e1 + 2e2 + 3e3 + 4e0) ^ (-2e01 + e02 + 4e03)";
  "";
  "# Plane ^ point";
  "(e1 + 2e2 + 3e3 + 4e0) ^ (e123 + -2e032 + e013 + 4e021)";
  "";
  "# Line ^ plane";
  "(e03 - 2e12 + e31 + 4e23) ^ (e1 + 2e2 + 3e3 + 4e0)";
  "";
  "# Line ^ line";
  "(e01 + e12 + 2e31 + 3e23) ^ (e02 - 2e12 + e31 + 4e23)";
  "";
  "# Line ^ ideal line";
  "(e03 - 2e12 + e31 + 4e23) ^ (-2e01 + e02 + 4e03)";
  "";
  "# Line ^ point";
  "(e01 + e12 + 2e31 + 3e23) ^ (e123 - 2e032 + e013 + 4e021)";
  "";
  "# Ideal line ^ plane";
  "(-2e01 + e02 + 4e03) ^ (e1 + 2e2 + 3e3 + 4e0)";
  "";
  "# Ideal line ^ line";
  "(-2e01 + e02 + 4e03) ^ (e03 - 2e12 + e31 + 4e23)";
  "";
  "# Point ^ plane";
  "(e123 + -2e032 + e013 + 4e021) ^ (e1 + 2e2 + 3e3 + 4e0)";
  "";
  "# Point ^ line";
  "(e123 - 2e032 + e013 + 4e021) ^ (e01 + e12 + 2e31 + 3e23)";
  "";
  "# Point ^ ideal line";
  "(e01 + 2e02 + 3e03) ^ (e123 - 2e032 + e013 + 4e021)";
  "";
  "# Point ^ point";
  "(e123 + e032 + 2e013 + 3e021) ^ (e123 - 2e032 + e013 + 4e021)";
  "";
  "# Plane | plane";
  "(e1 + 2e2 + 3e3 + 4e0) | (2e1 + 3e2 -e3 -2e0)";
  "";
  "# Plane | line";
  "(e1 + 2e2 + 3e3 + 4e0) | (e03 - 2e12 + e31 + 4e23)";
  "";
  "# Plane | ideal line";
  "(e1 + 2e2 + 3e3 + 4e0) | (-2e01 + e02 + 4e03)";
  "";
  "# Plane | point";
  "(e1 + 2e2 + 3e3 + 4e0) | (e123 -2e032 + e013 + 4e021)";
  "";
  "# Line | plane";
  "(e03 - 2e12 + e31 + 4e23) | (e1 + 2e2 + 3e3 + 4e0)";
  "";
  "# Line | line";
  "(e01 + e12 + 2e31 + 3e23) | (e02 - 2e12 + e31 + 4e23)";
  "";
  "# Line | ideal line";
  "(e03 - 2e12 + e31 + 4e23) | (-2e01 + e02 + 4e03)";
  "";
  "# Line | point";
  "(e03 + e12 + 2e31 + 3e23) | (e123 -2e032 + e013 + 4e021)";
  "";
  "# Ideal line | plane";
  "(-2e01 + e02 + 4e03) | (e1 + 2e2 + 3e3 + 4e0)";
  "";
  "# Ideal line | plane";
  "(-2e01 + e02 + 4e03) | (e03 + e12 + 2e31 + 3e23)";
  "";
  "# Ideal line | point";
  "(-2e01 + e02 + 4e03) | (e123 - 2e032 + 1e013 + 4e021)";
  "";
  "# Point | plane";
  "(e123 - 2e032 + e013 + 4e021) | (e1 + 2e2 + 3e3 + 4e0)";
  "";
  "# Point | line";
  "(e123 - 2e032 + e013 + 4e021) | (e03 + e12 + 2e31 + 3e23)";
  "";
  "# Point | line";
  "(e123 - 2e032 + e013 + 4e021) | (e01 + 2e02 + 3e03)";
  "";
  "# Point | point";
  "(e123 + e032 + 2e013 + 3e021) | (e123 - 2e032 + e013 + 4e021)";
  "";
  "# Dense | dense";
  "(1 + e0 + e1 + e2 + e3 + e12 + e31 + e23 + e01 + e02 + e03 + e123 + e021 + e013 + e032 + e0123) | (1 + e0 + e1 + e2 + e3 + e12 + e31 + e23 + e01 + e02 + e03 + e123 + e021 + e013 + e032 + e0123)";
  "";
  "# Reflect plane";
  "(3e1 + 2e2 + e3 - e0) * (e1 + 2e2 - e3 - 3e0) *(3e1 + 2e2 + e3 - e0)";
  "";
  "# Reflect line";
  "(3e1 + 2e2 + e3 - e0) * (e01 - 2e02 + 3e03 - 4e12 + 5e31 + 6e23) *(3e1 + 2e2 + e3 - e0)";
  "";
  "# Reflect point";
  "(3e1 + 2e2 + e3 - e0) * (e123 + 4e032 - 2e013 - e021) *(3e1 + 2e2 + e3 - e0)";
  "";
  "# Rotate plane";
  "(1 + 2e12 - 3e31 + 4e23) * (2e0 + 3e1 + 4e2 + 5e3) * (1 - 2e12 + 3e31 - 4e23)";
  "";
  "# Rotate point";
  "(1 + 2e12 - 3e31 + 4e23) * (2e123 + 3e032 + 4e013 + 5e021) * (1 - 2e12 + 3e31 - 4e23)";
  "";
  "# Rotate line";
  "(1 + 2e12 - 3e31 + 4e23) * (-e01 + 2e02 - 3e03 + 4e12 + 5e31 - 6e23) * (1 - 2e12 + 3e31 - 4e23)";
  "";
  "# Translate line";
  "(1 - 5e01 - 2e02 + 2e03) * (-e01 + 2e02 - 3e03 + 4e12 + 5e31 - 6e23) * (1 + 5e01 + 2e02 - 2e03)";
  "";
  "# Motorize line";
  "(2 - e12 + 3e31 + 4e23 - 5e01 - 2e02 + 2e03 - 3e0123) * (-e01 + 2e02 - 3e03 + 4e12 + 5e31 - 6e23) * (2 + e12 - 3e31 - 4e23 + 5e01 + 2e02 - 2e03 - 3e0123)";
  "";
  "# Motor plane";
  "(1 + 2e12 - 3e31 + 4e23 + 5e01 + 6e02 + 7e03 + 8e0123) * (2e0 + 3e1 + 4e2 + 5e3) * (1 - 2e12 + 3e31 - 4e23 - 5e01 - 6e02 - 7e03 + 8e0123)";
  "";
  "# Motor point";
  "(1 + 2e12 - 3e31 + 4e23 + 5e01 + 6e02 + 7e03 + 8e0123) * (2e123 + 3e032 + 4e013 + 5e021) * (1 - 2e12 + 3e31 - 4e23 - 5e01 - 6e02 - 7e03 + 8e0123)";
  "";
  "# Motor origin";
  "(1 + 2e12 - 3e31 + 4e23 + 5e01 + 6e02 + 7e03 + 8e0123) * e123 * (1 - 2e12 + 3e31 - 4e23 - 5e01 - 6e02 - 7e03 + 8e0123)";
  "";
  "# Rotor * rotor";
  "(2 + 3e23 + 4e31 + 5e12) * (6 + 7e23 + 8e31 + 9e12)";
  "";
  "# Motor * motor";
  "(2 + 3e23 + 4e31 + 5e12 + 6e01 + 7e02 + 8e03 + 9e0123) * (6 + 7e23 + 8e31 + 9e12 + 10e01 + 11e02 + 12e03 + 13e0123)";
  "";
  "# Branch * Branch";
  "(e23 - 2e31 - 3e12) * (2e23 + e31 + 3e12)"].
Theorem C66_scripts_run l : In l (demo ++ test)%list ->
  (exists v, (exists b, repl_line l = Val (LParse b)) /\ parse Examples.num pga l = Val v) \/
  (exists b, repl_line l = Val (LBlank b)) /\ (l = "" \/ head_is (Ascii.eqb "#") l = true).
Proof.
  intro I. assert (K : forallb runs (demo ++ test) = true) by (vm_compute; reflexivity).
  rewrite forallb_forall in K. specialize (K l I). unfold runs in K.
  destruct (repl_line l) as [[b| | |b]| | |] eqn:E; try discriminate.
  - right. split; [exists b; reflexivity|]. apply orb_true_iff in K. destruct K as [K|K]; [left; apply String.eqb_eq; exact K|right; exact K].
  - left. destruct (parse Examples.num pga l) as [v| | |] eqn:F; try discriminate.
    exists v. split; [exists b; reflexivity|reflexivity].
Qed.
Example scripts_length : List.length demo = 62%nat /\ List.length test = 145%nat. Proof. split; reflexivity. Qed.

Print Assumptions C66_demo.
Print Assumptions C66_demo_translate_plane.
Print Assumptions C66_demo_commutes.
Print Assumptions C66_test.
Print Assumptions C66_scripts_run.
