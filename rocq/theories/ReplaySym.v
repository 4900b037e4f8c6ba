(** The unit tests of the symbolic tool (/repo/sym/test.cpp), run on the model.
    Like [Replay.v] these are computations that check the transcription. *)
From Coq Require Import List Bool ZArith NArith String.
From Verif Require Import SymMap SymPoly SymGA SymParse Props09.
Import ListNotations.
Local Open Scope string_scope.
Local Open Scope Z_scope.

(** m.factors[x], p.terms.find(m)->second, v.terms[e] (created empty when
    absent), t.terms.begin()->second *)
Definition factor (m : mon) (x : string) : Z := match find str_lt x m with Some d => d | None => 0 end.
Definition coef (p : poly Z) (m : mon) : option Z := find mon_lt m p.
Definition at_ (v : smv Z) (e : N) : poly Z := match find elem_lt e v with Some p => p | None => [] end.
Definition first (p : poly Z) : option Z := match p with (_, c) :: _ => Some c | [] => None end.
Definition value (s : string) : smv Z := match parse Examples.num pga s with Val v => v | _ => [] end.
Definition var (x : string) (d : Z) : mon := mon_push [] x d.

(** "monomial-product", 8-23 *)
Definition m3 : mon := mon_mul (var "a" 2) (mon_push (var "a" (-1)) "b" 1).
Example monomial_product : factor m3 "a" = 1 /\ factor m3 "b" = 1. Proof. split; reflexivity. Qed.

(** "polynomial", 25-80 *)
Definition a := var "a" 1.
Definition b := var "b" 1.
Definition a2 := mon_mul a a.
Definition b2 := mon_mul b b.
Definition p1 : poly Z := poly_push (poly_push [] a 1) b 1.
Definition p2 : poly Z := poly_push (poly_push [] a 1) b (-1).
Definition p_one : poly Z := poly_push [] [] 1.
Definition p_two : poly Z := poly_push [] [] 2.
Example poly_sum : coef (poly_add p1 p2) b = None /\ coef (poly_add p1 p2) a = Some 2. Proof. split; reflexivity. Qed.
Example poly_sum_one : coef (poly_add p1 p_one) [] = Some 1 /\ coef (poly_add p1 p_one) a = Some 1. Proof. split; reflexivity. Qed.
Example poly_sum_one_two : coef (poly_add p_one p_two) [] = Some 3. Proof. reflexivity. Qed.
Example poly_product : coef (poly_mul p1 p2) a2 = Some 1 /\ coef (poly_mul p1 p2) b2 = Some (-1). Proof. split; reflexivity. Qed.

(** "ga", 82-138 *)
Definition pv (x : string) : poly Z := poly_push [] (var x 1) 1.
Definition mv1 : smv Z := smv_push (smv_push [] 1 (pv "a0")) 2 (pv "a1").
Definition mv2 : smv Z := smv_push (smv_push [] 1 (pv "b0")) 2 (pv "b1").
Definition mon2 (x y : string) : mon := mon_push (var x 1) y 1.
Definition mv3 : smv Z := smv_mul pga mv1 mv2.
Example ga_product : List.length mv3 = 2%nat /\ coef (at_ mv3 0) (mon2 "a1" "b1") = Some 1 /\
  coef (at_ mv3 3) (mon2 "a0" "b1") = Some 1 /\ coef (at_ mv3 3) (mon2 "a1" "b0") = Some (-1).
Proof. repeat split; reflexivity. Qed.

(** "parser", 140-227 *)
Example parser_add : first (at_ (value "1 + 3 * 2") 0) = Some 7 /\
  at_ (value "(3e0 + 3e012) + (3e0 - 3e012)") 7 = [] /\ first (at_ (value "(3e0 + 3e012) + (3e0 - 3e012)") 1) = Some 6.
Proof. repeat split; reflexivity. Qed.
Example parser_sub : first (at_ (value "1 - 3 - 2") 0) = Some (-4). Proof. reflexivity. Qed.
Example parser_product : first (at_ (value "2e012 * 2") 7) = Some 4 /\
  let v := value "(e23 + 2e012) * (2 - 3e01)" in
  first (at_ v 12) = Some 2 /\ first (at_ v 7) = Some 4 /\ first (at_ v 15) = Some (-3).
Proof. repeat split; reflexivity. Qed.
Example parser_exterior :
  (let v := value "(e3 + e2 + e1 + e0) ^ (e3 + 2e2 + 2e1 + 2e0)" in
   first (at_ v 9) = Some (-1) /\ first (at_ v 10) = Some (-1) /\ first (at_ v 12) = Some (-1) /\
   at_ v 6 = [] /\ at_ v 5 = [] /\ at_ v 3 = []) /\
  (let v := value "(e3 + e2 + e1 + e0) ^ (e123 + 2e021 + 2e013 + 2e032)" in
   first (at_ v 15) = Some 7 /\ List.length v = 1%nat).
Proof. repeat split; reflexivity. Qed.
Example parser_regressive : let v := value "e123 & (e123 + e032)" in List.length v = 1%nat /\ first (at_ v 12) = Some 1.
Proof. repeat split; reflexivity. Qed.
Example parser_inner :
  (let v := value "(e0 + e1 + e2 + e3) | (e0 + e1 + e2 + e3)" in List.length v = 1%nat /\ first (at_ v 0) = Some 3) /\
  (let v := value "(e0 + e1 + e2 + e3) | (2e0123 + 3e01 - 4e02 + 2e03)" in
   List.length v = 4%nat /\ first (at_ v 1) = Some (-1) /\ first (at_ v 7) = Some (-2) /\
   first (at_ v 11) = Some 2 /\ first (at_ v 13) = Some (-2)).
Proof. repeat split; reflexivity. Qed.
Example parser_reverse : first (at_ (value "~e02") 5) = Some (-1). Proof. reflexivity. Qed.
Example parser_rotor : let v := value "(2 + 3e12 + 4e31) * (5e0 + 7e1 + 11e2) * (2 - 3e12 - 4e31)" in
  first (at_ v 1) = Some 145 /\ first (at_ v 2) = Some (-15) /\ first (at_ v 4) = Some 37 /\ first (at_ v 8) = Some 376.
Proof. repeat split; reflexivity. Qed.
