(** Model of the symbolic geometric algebra, /repo/sym/ga.hpp and ga.cpp.

    A basis blade is a uint32_t bit set ([N]); the result of a blade product is
    an int32_t ([Z]): the sign and 1 + the bit set, 0 for a vanishing product.
    Shifts and complements are written without the 32-bit wrap-around where
    the constructor's bound dim < 32 makes it unobservable; the two narrowing
    conversions that are observable (uint8_t bit in mul, the int32_t result)
    are explicit.  The asserts of [dual] are not modelled: [alg_dual] is what
    the function returns with asserts disabled or with p,q,r = 3,0,1. *)
From Coq Require Import List Bool ZArith NArith String Ascii.
From Verif Require Import Scalar SymMap SymPoly.
Import ListNotations.
Local Open Scope Z_scope.

(** popcnt, ga.cpp 6-9 *)
Fixpoint popcnt_pos (p : positive) : nat :=
  match p with xH => 1 | xO p => popcnt_pos p | xI p => S (popcnt_pos p) end.
Definition popcnt (n : N) : nat := match n with N0 => O | Npos p => popcnt_pos p end.
(** conversion to int32_t *)
Definition i32_of (z : Z) : Z := (z + 2 ^ 31) mod 2 ^ 32 - 2 ^ 31.

(** class algebra, ga.hpp 10-53; constructor ga.cpp 11-19 *)
Record algebra := Alg { alg_p : nat; alg_q : nat; alg_r : nat }.
Definition alg_dim (a : algebra) : nat := alg_p a + alg_q a + alg_r a.
(** the precondition asserted by the constructor *)
Definition alg_accepted (a : algebra) : Prop := (alg_dim a < 32)%nat.

(** algebra::mul, ga.cpp 26-74.  The loop runs over index = dim-1 .. 0;
    [None] is the early [return 0]. *)
Fixpoint mul_loop (a : algebra) (lhs rhs : N) (k : nat) (factor : Z) : option Z :=
  match k with
  | O => Some factor
  | S index =>
    let bit := (2 ^ N.of_nat index mod 256)%N in
    let lhs_e := (0 <? N.land lhs bit)%N in
    let rhs_e := (0 <? N.land rhs bit)%N in
    if lhs_e then
      let factor := if Nat.odd (popcnt (N.land rhs (bit - 1))) then - factor else factor in
      if rhs_e then
        if (0 <? alg_r a)%nat && (index <? alg_r a)%nat then None
        else if (alg_p a + alg_r a <=? index)%nat then mul_loop a lhs rhs index (- factor)
        else mul_loop a lhs rhs index factor
      else mul_loop a lhs rhs index factor
    else mul_loop a lhs rhs index factor
  end.
Definition alg_mul (a : algebra) (lhs rhs : N) : Z :=
  if (lhs =? 0)%N && (rhs =? 0)%N then 1
  else if (lhs =? 0)%N then i32_of (Z.of_N rhs + 1)
  else if (rhs =? 0)%N then i32_of (Z.of_N lhs + 1)
  else match mul_loop a lhs rhs (alg_dim a) 1 with
       | None => 0
       | Some factor => i32_of (factor * (Z.of_N (N.lxor lhs rhs) + 1))
       end.

(** algebra::ext, ga.cpp 76-99 *)
Definition alg_ext (a : algebra) (lhs rhs : N) : Z :=
  if (0 <? N.land lhs rhs)%N then 0
  else
    let factor := fold_left (fun factor i =>
      if (0 <? N.land rhs (2 ^ N.of_nat i))%N then
        let swaps := popcnt (N.ldiff lhs (2 ^ N.of_nat (i + 1) - 1)) in
        if Nat.odd swaps then - factor else factor
      else factor) (seq 0 (alg_dim a)) 1 in
    i32_of (factor * (Z.of_N (N.lor lhs rhs) + 1)).

(** algebra::dual, ga.cpp 101-149 *)
Definition alg_dual (inp : N) : Z :=
  match inp with
  | 0%N => 15 + 1
  | 1%N => 14 + 1
  | 2%N => - (13 + 1)
  | 4%N => 11 + 1
  | 8%N => - (7 + 1)
  | 3%N => 12 + 1
  | 5%N => - (10 + 1)
  | 9%N => 6 + 1
  | 6%N => 9 + 1
  | 10%N => - (5 + 1)
  | 12%N => 3 + 1
  | 7%N => - (8 + 1)
  | 11%N => 4 + 1
  | 13%N => - (2 + 1)
  | 14%N => 1 + 1
  | _ => 1
  end.
(** std::abs(x) - 1 as an unsigned blade *)
Definition blade_of (z : Z) : N := Z.to_N (Z.abs z - 1).

(** algebra::reg, ga.cpp 151-174 *)
Definition alg_reg (a : algebra) (lhs rhs : N) : Z :=
  let lhs_j := alg_dual lhs in
  let rhs_j := alg_dual rhs in
  let factor := if lhs_j <? 0 then -1 else 1 in
  let factor := if rhs_j <? 0 then factor * -1 else factor in
  let ext_j := alg_ext a (blade_of lhs_j) (blade_of rhs_j) in
  if ext_j <? 0 then factor * -1 * alg_dual (blade_of ext_j)
  else if ext_j =? 0 then 0
  else factor * alg_dual (blade_of ext_j).

(** algebra::dot, ga.cpp 176-203 *)
Definition alg_dot (a : algebra) (lhs rhs : N) : Z :=
  if (lhs =? 0)%N || (rhs =? 0)%N then 0
  else
    let g := alg_mul a lhs rhs in
    if g =? 0 then 0
    else
      let target := Z.abs (Z.of_nat (popcnt lhs) - Z.of_nat (popcnt rhs)) in
      if Z.of_nat (popcnt (blade_of g)) =? target then g else 0.

(** algebra::rev, ga.cpp 205-209: true when the sign flips *)
Definition alg_rev (inp : N) : bool := Nat.testbit (popcnt inp) 1.

(** struct elem_comp, ga.hpp 55-75 *)
Definition elem_lt (lhs rhs : N) : bool :=
  if (popcnt lhs <? popcnt rhs)%nat then true
  else if (popcnt rhs <? popcnt lhs)%nat then false
  else (lhs <? rhs)%N.

(** ** Multivectors, class mv: the map from blades to polynomials.  The
    algebra_ pointer is a parameter of the operations that read it. *)
Section MV.
Context {C : Type} `{Coef C}.
Definition smv := list (N * poly C).

(** mv::push, ga.cpp 215-233 *)
Definition smv_push (m : smv) (e : N) (p : poly C) : smv :=
  match find elem_lt e m with
  | None => emplace elem_lt e p m
  | Some q => let s := poly_add q p in
              match s with [] => erase elem_lt e m | _ => assign elem_lt e s m end
  end.
(** mv::operator-, ga.cpp 235-252 *)
Definition smv_opp (m : smv) : smv := map (fun ep => (fst ep, poly_opp (snd ep))) m.
(** mv::operator~, ga.cpp 254-277 *)
Definition smv_rev (m : smv) : smv :=
  map (fun ep => (fst ep, if alg_rev (fst ep) then poly_opp (snd ep) else snd ep)) m.
(** mv::operator+=, ga.cpp 279-287; operator+, 299-304 *)
Definition smv_add (m other : smv) : smv :=
  fold_left (fun m ep => smv_push m (fst ep) (snd ep)) other m.
(** mv::operator-=, ga.cpp 289-297 *)
Definition smv_sub (m other : smv) : smv :=
  fold_left (fun m ep => smv_push m (fst ep) (poly_opp (snd ep))) other m.
(** mv::prune, ga.cpp 478-493 *)
Definition smv_prune (m : smv) : smv :=
  filter (fun ep => match snd ep with [] => false | _ => true end) m.
(** The four products are the same loop around a different blade product:
    operator* 313-347, operator^ 356-390, operator& 399-433, operator| 442-476
    (and the compound assignments 306-311, 349-354, 392-397, 435-440) *)
Definition smv_acc (op : N -> N -> Z) (e1 : N) (p1 : poly C) (out : smv) (e2 : N) (p2 : poly C) : smv :=
  let result := op e1 e2 in
  if negb (result =? 0) then
    let e := blade_of result in
    let p12 := poly_mul p1 p2 in
    let out := match find elem_lt e out with None => emplace elem_lt e [] out | Some _ => out end in
    let old := match find elem_lt e out with Some q => q | None => [] end in
    assign elem_lt e (poly_add old (if result <? 0 then poly_opp p12 else p12)) out
  else out.
Definition smv_prod (op : N -> N -> Z) (lhs rhs : smv) : smv :=
  smv_prune
    (fold_left (fun out ep1 =>
       fold_left (fun out ep2 => smv_acc op (fst ep1) (snd ep1) out (fst ep2) (snd ep2)) rhs out)
     lhs []).
Definition smv_mul (a : algebra) := smv_prod (alg_mul a).
Definition smv_ext (a : algebra) := smv_prod (alg_ext a).
Definition smv_reg (a : algebra) := smv_prod (alg_reg a).
Definition smv_dot (a : algebra) := smv_prod (alg_dot a).

(** ** Printing, ga.cpp 495-536 *)
Variable show_f : C -> string.
Variable show_z : Z -> string.
Local Open Scope string_scope.
Definition digit_char (i : nat) : ascii := ascii_of_nat (48 + i).
(** operator<<(term), ga.cpp 495-516 *)
Definition print_blade (e : N) : string :=
  if (e =? 0)%N then ""
  else " e" ++ String.concat "" (map (fun i =>
         if (0 <? N.land e (2 ^ N.of_nat i))%N then String (digit_char i) "" else "") (seq 0 9)).
Definition print_mvterm (ep : N * poly C) : string :=
  print_poly show_f show_z (snd ep) ++ print_blade (fst ep).
(** operator<<(mv), ga.cpp 518-536 *)
Definition print_mv (m : smv) : string :=
  match m with
  | [] => "0"
  | t :: r => print_mvterm t ++ String.concat "" (map (fun y => " + " ++ print_mvterm y) r)
  end.
End MV.
Arguments smv C : clear implicits.

(** the algebra of the REPL: P(R*_{3,0,1}), repl.cpp 16 *)
Definition pga : algebra := Alg 3 0 1.
