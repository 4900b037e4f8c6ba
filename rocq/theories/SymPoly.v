(** Model of the symbolic polynomials, /repo/sym/poly.hpp and poly.cpp.

    std::string is [string] (operator< is the lexicographic order of unsigned
    chars), degrees are [Z] (an int in the source: sums of degrees outside the
    int range are not modelled), float coefficients are an abstract carrier
    with the operations the code applies. *)
From Coq Require Import List Bool ZArith String Ascii Reals.
From Verif Require Import Scalar SymMap.
Import ListNotations.
Local Open Scope Z_scope.

Class Coef (C : Type) := mkCoef {
  coef_arith :> Arith C;
  (** == on floats *)
  ceqb : C -> C -> bool
}.
#[global] Instance Coef_Z : Coef Z := mkCoef Z Arith_Z Z.eqb.
#[global] Instance Coef_R : Coef R := mkCoef R Arith_R Reqb.

(** ** Monomials (poly.hpp 6-19, 51-52) *)
Definition mon := list (string * Z).
(** std::string operator< *)
Definition str_lt (a b : string) : bool := String.ltb a b.

(** mon::push, poly.cpp 3-28 *)
Definition mon_push (m : mon) (var : string) (deg : Z) : mon :=
  if deg =? 0 then m
  else match find str_lt var m with
       | None => emplace str_lt var deg m
       | Some d => if d + deg =? 0 then erase str_lt var m
                   else assign str_lt var (d + deg) m
       end.
(** mon::degree, poly.cpp 30-38 *)
Definition mon_degree (m : mon) : Z := fold_left (fun out vd => out + snd vd) m 0.
(** operator==(mon, mon), poly.cpp 40-66 *)
Fixpoint mon_eq_loop (l r : mon) : bool :=
  match l, r with
  | (v1, d1) :: l', (v2, d2) :: r' =>
    if negb (String.eqb v1 v2) then false
    else if negb (d1 =? d2) then false
    else mon_eq_loop l' r'
  | _, _ => true
  end.
Definition mon_eqb (l r : mon) : bool :=
  if negb (Nat.eqb (List.length l) (List.length r)) then false else mon_eq_loop l r.
(** operator<(mon, mon), poly.cpp 67-116 *)
Fixpoint mon_lt_loop (l r : mon) : bool :=
  match l, r with
  | [], [] => false
  | [], _ :: _ => true
  | _ :: _, [] => false
  | (v1, d1) :: l', (v2, d2) :: r' =>
    if str_lt v1 v2 then true
    else if str_lt v2 v1 then false
    else if d1 <? d2 then true
    else if d2 <? d1 then false
    else mon_lt_loop l' r'
  end.
Definition mon_lt (l r : mon) : bool :=
  if mon_degree l <? mon_degree r then true
  else if mon_degree r <? mon_degree l then false
  else mon_lt_loop l r.
(** mon::operator*=, poly.cpp 118-142: loop body, then the loop over [other] *)
Definition mon_mul_step (m : mon) (vd : string * Z) : mon :=
  let '(v, d) := vd in
  match find str_lt v m with
  | None => emplace str_lt v d m
  | Some d0 => if d0 + d =? 0 then erase str_lt v m else assign str_lt v (d0 + d) m
  end.
(** operator*(mon, mon), poly.cpp 144-149 *)
Definition mon_mul (lhs rhs : mon) : mon := fold_left mon_mul_step rhs lhs.

(** ** Polynomials (poly.hpp 54-68) *)
Section Poly.
Context {C : Type} `{Coef C}.
Definition poly := list (mon * C).
Definition ceq0 (x : C) : bool := ceqb x (fz 0).

(** poly::push, poly.cpp 151-171 *)
Definition poly_push (p : poly) (m : mon) (f : C) : poly :=
  match find mon_lt m p with
  | None => emplace mon_lt m f p
  | Some c => if ceq0 (fadd c f) then erase mon_lt m p else assign mon_lt m (fadd c f) p
  end.
(** poly::operator-, poly.cpp 173-191 (both overloads; -1 is converted to float) *)
Definition poly_opp (p : poly) : poly :=
  map (fun mf => (fst mf, fmul (snd mf) (fz (-1)))) p.
(** poly::operator+=, poly.cpp 193-215; operator+, poly.cpp 217-222 *)
Definition poly_add_step (p : poly) (mf : mon * C) : poly :=
  let '(m, f) := mf in
  match find mon_lt m p with
  | None => emplace mon_lt m f p
  | Some c => if ceq0 (fadd c f) then erase mon_lt m p else assign mon_lt m (fadd c f) p
  end.
Definition poly_add (lhs rhs : poly) : poly := fold_left poly_add_step rhs lhs.
(** t.terms[m] += x : operator[] inserts 0.f when the key is absent *)
Definition poly_bump (t : poly) (m : mon) (x : C) : poly :=
  match find mon_lt m t with
  | None => emplace mon_lt m (fadd (fz 0) x) t
  | Some c => assign mon_lt m (fadd c x) t
  end.
(** operator*(poly, poly), poly.cpp 224-245; operator*=, 247-252 *)
Definition poly_mul_row (m1 : mon) (f1 : C) (rhs : poly) : poly :=
  fold_left (fun t mf =>
    let '(m2, f2) := mf in
    if negb (ceq0 (fmul f1 f2)) then poly_bump t (mon_mul m1 m2) (fmul f1 f2) else t) rhs [].
Definition poly_mul (lhs rhs : poly) : poly :=
  fold_left (fun out mf => let '(m1, f1) := mf in poly_add out (poly_mul_row m1 f1 rhs)) lhs [].

(** ** Printing, poly.cpp 254-326.  [show_f] and [show_z] stand for the
    library's output of a float and of an int. *)
Variable show_f : C -> string.
Variable show_z : Z -> string.
Local Open Scope string_scope.
(** operator<<(factor), poly.cpp 254-269 *)
Definition print_factor (vd : string * Z) : string :=
  let '(v, d) := vd in
  if (d =? 0)%Z then ""
  else v ++ (if negb (d =? 1)%Z then "^" ++ show_z d else "").
(** operator<<(term), poly.cpp 271-298 *)
Definition print_term (mf : mon * C) : string :=
  let '(m, f) := mf in
  (if ceqb f (fz (-1)) then "-" else if negb (ceqb f (fz 1)) then show_f f else "") ++
  match m with
  | [] => ""
  | x :: r => print_factor x ++ String.concat "" (map (fun y => " " ++ print_factor y) r)
  end.
(** operator<<(poly), poly.cpp 300-326 *)
Definition print_poly (p : poly) : string :=
  match p with
  | [] => ""
  | t :: r =>
    let multi := (1 <? List.length p)%nat in
    (if multi then "(" else "") ++ print_term t ++
    String.concat "" (map (fun y => " + " ++ print_term y) r) ++
    (if multi then ")" else "")
  end.
End Poly.
Arguments poly C : clear implicits.
