(** Model of the expression parser of the symbolic tool, /repo/sym/parser.hpp
    and parser.cpp, and of the line loop of repl.cpp.

    Iterators are the rest of the string or of the token vector.  The outcomes
    are kept apart: a value, a thrown runtime_error, undefined behaviour, and
    [Fuel]: the bound on the number of loop iterations or nested calls was
    reached.  A run that is [Fuel] for every bound does not return.
    The C locale is assumed for <cctype>; on a char outside 0..127 (negative
    where char is signed) these functions are undefined. strtof is an oracle
    for the value of [digits[.digits]]; what it consumes is modelled. *)
From Coq Require Import List Bool ZArith NArith String Ascii.
From Verif Require Import Scalar SymMap SymPoly SymGA.
Import ListNotations.

Inductive res (A : Type) := Val (a : A) | Throw | Undef | Fuel.
Arguments Val {A} a. Arguments Throw {A}. Arguments Undef {A}. Arguments Fuel {A}.
Definition bind {A B} (x : res A) (f : A -> res B) : res B :=
  match x with Val a => f a | Throw => Throw | Undef => Undef | Fuel => Fuel end.

(** ** Characters *)
Definition ascii7 (c : ascii) : bool := (nat_of_ascii c <? 128)%nat.
Definition in_range (lo hi : nat) (c : ascii) : bool :=
  (lo <=? nat_of_ascii c)%nat && (nat_of_ascii c <=? hi)%nat.
Definition isdigit (c : ascii) : bool := in_range 48 57 c.
Definition isalnum (c : ascii) : bool := isdigit c || in_range 65 90 c || in_range 97 122 c.
Definition isspace (c : ascii) : bool := in_range 9 13 c || Ascii.eqb c " ".
Definition isop (c : ascii) : bool :=
  Ascii.eqb c "+" || Ascii.eqb c "-" || Ascii.eqb c "~" || Ascii.eqb c "*" ||
  Ascii.eqb c "^" || Ascii.eqb c "&" || Ascii.eqb c "|".
Definition isdelim (c : ascii) : bool := Ascii.eqb c "(" || Ascii.eqb c ")".
Definition digit_val (c : ascii) : nat := nat_of_ascii c - 48.

(** ** Tokens, parser.hpp 8-41 *)
Section Tokens.
Context {C : Type} `{Coef C}.
Inductive token :=
| TElem (value : N) (negative : bool)
| TNum (x : C)
| TId (s : string)
| TDelim (c : ascii)
| TOp (c : ascii)
| TEof.

(** value of the decimal number strtof reads *)
Variable num : string -> C.

(** the part of a digit-and-dot string strtof consumes: digits, then at most one
    dot with the digits after it *)
Fixpoint digits_prefix (s : string) : string :=
  match s with
  | String c r => if isdigit c then String c (digits_prefix r) else EmptyString
  | EmptyString => EmptyString
  end.
Fixpoint float_prefix (s : string) : string :=
  match s with
  | String c r =>
    if isdigit c then String c (float_prefix r)
    else if Ascii.eqb c "." then String c (digits_prefix r)
    else EmptyString
  | EmptyString => EmptyString
  end.
Fixpoint drop (n : nat) (s : string) : string :=
  match n, s with
  | O, _ => s
  | S n, String _ r => drop n r
  | S _, EmptyString => EmptyString
  end.

(** tokenize_number, parser.cpp 62-94: the copy into char buf[32].  Writing at
    index 32 or beyond is undefined, the terminating '\0' included. *)
Fixpoint num_scan (tmp : string) (buf_size : nat) : res string :=
  match tmp with
  | EmptyString => if (buf_size <? 32)%nat then Val EmptyString else Undef
  | String c r =>
    if (32 <? buf_size)%nat then Throw
    else if negb (ascii7 c) then Undef
    else if isdigit c || Ascii.eqb c "." then
      if (buf_size <? 32)%nat then bind (num_scan r (S buf_size)) (fun b => Val (String c b))
      else Undef
    else if (buf_size <? 32)%nat then Val EmptyString else Undef
  end.
Definition tokenize_number (it : string) : res (C * string) :=
  bind (num_scan it 0) (fun buf =>
    let f := float_prefix buf in
    Val (num f, drop (String.length f) it)).

(** tokenize_element, parser.cpp 96-133, after the 'e'.  [value] is a uint8_t,
    1 << bit an int. *)
Fixpoint elem_scan (it : string) (value : N) (negative : bool) : res (token * string) :=
  match it with
  | EmptyString => Val (TElem value negative, it)
  | String c r =>
    if negb (ascii7 c) then Undef
    else if isdigit c then
      let bit := digit_val c in
      if (0 <? N.land value (2 ^ N.of_nat bit))%N then Throw
      else
        let negative := if Nat.odd (popcnt (N.ldiff value (2 ^ N.of_nat bit - 1)))
                        then negb negative else negative in
        elem_scan r (N.lor value (2 ^ N.of_nat bit) mod 256) negative
    else Val (TElem value negative, it)
  end.

(** tokenize_identifier, parser.cpp 135-150 *)
Fixpoint id_scan (it : string) : res (string * string) :=
  match it with
  | EmptyString => Val (EmptyString, EmptyString)
  | String c r =>
    if negb (ascii7 c) then Undef
    else if isalnum c then bind (id_scan r) (fun x => Val (String c (fst x), snd x))
    else Val (EmptyString, it)
  end.

(** tokenize, parser.cpp 152-222.  One unit of fuel per iteration.  In the
    branch where nothing is read (a last character that is no digit, operator,
    delimiter or space) the iterator does not move and the uninitialised token
    pushed is never looked at, as the loop cannot end. *)
Fixpoint tokenize_loop (fuel : nat) (it : string) : res (list token) :=
  match fuel with
  | O => Fuel
  | S fuel =>
    match it with
    | EmptyString => Val [TEof]
    | String c r =>
      if negb (ascii7 c) then Undef
      else if isspace c then tokenize_loop fuel r
      else if isdelim c then bind (tokenize_loop fuel r) (fun l => Val (TDelim c :: l))
      else if Ascii.eqb c "000" then Val [TEof]
      else if isop c then bind (tokenize_loop fuel r) (fun l => Val (TOp c :: l))
      else if isdigit c then
        bind (tokenize_number it) (fun x =>
        bind (tokenize_loop fuel (snd x)) (fun l => Val (TNum (fst x) :: l)))
      else match r with
           | EmptyString => bind (tokenize_loop fuel it) (fun l => Val (TEof :: l))
           | String c' _ =>
             let identifier :=
               bind (id_scan it) (fun x =>
               bind (tokenize_loop fuel (snd x)) (fun l => Val (TId (fst x) :: l))) in
             if Ascii.eqb c "e" then
               if negb (ascii7 c') then Undef
               else if isdigit c' then
                 bind (elem_scan r 0 false) (fun x =>
                 bind (tokenize_loop fuel (snd x)) (fun l => Val (fst x :: l)))
               else identifier
             else identifier
           end
    end
  end.

(** ** The recursive descent, parser.cpp 241-443.
    [parse_factor d n]: [d] bounds the nesting of parentheses, [n] the number of
    iterations of each loop. *)
Variable a : algebra.
Definition presult := res (smv C * list token).

(** the unary prefix, parser.cpp 245-263 *)
Fixpoint unary_ops (it : list token) (negate reverse : bool) : res (bool * bool * list token) :=
  match it with
  | [] => Undef
  | TOp c :: r =>
    if Ascii.eqb c "-" then unary_ops r (negb negate) reverse
    else if Ascii.eqb c "~" then unary_ops r negate (negb reverse)
    else if negb (Ascii.eqb c "+") then Throw
    else unary_ops r negate reverse
  | _ => Val (negate, reverse, it)
  end.
Definition one_mon (s : string) : mon := mon_push [] s 1.
(** the identifier / number branch, parser.cpp 265-300 *)
Definition scaled_blade (p : poly C) (negate reverse : bool) (it : list token) : presult :=
  match it with
  | [] => Undef
  | TElem value negative :: r =>
    let negate := if negative then negb negate else negate in
    let out := smv_push [] value (if negate then poly_opp p else p) in
    Val (if reverse then smv_rev out else out, r)
  | _ =>
    let out := smv_push [] 0 (if negate then poly_opp p else p) in
    Val (if reverse then smv_rev out else out, it)
  end.
Definition factor_body (parse_expr : list token -> presult) (it : list token) : presult :=
  bind (unary_ops it false false) (fun x =>
  let '(negate, reverse, it) := x in
  match it with
  | [] => Undef
  | TId s :: r => scaled_blade (poly_push [] (one_mon s) (fz 1)) negate reverse r
  | TNum v :: r => scaled_blade (poly_push [] [] v) negate reverse r
  | TElem value negative :: r =>
    let negate := if negative then negb negate else negate in
    let p := poly_push [] [] (if negate then fz (-1) else fz 1) in
    let out := smv_push [] value p in
    Val (if reverse then smv_rev out else out, r)
  | TDelim c :: r =>
    if Ascii.eqb c "(" then
      bind (parse_expr r) (fun y =>
      let '(result, it) := y in
      match it with
      | [] => Undef
      | TDelim c' :: r' =>
        if Ascii.eqb c' ")" then
          let v := if reverse then smv_rev result else result in
          Val (if negate then smv_opp v else v, r')
        else Throw
      | _ => Throw
      end)
    else Throw
  | _ => Throw
  end).
(** the loops of parse_dot_factor 346-357, parse_reg_factor 359-370,
    parse_ext_factor 372-383 and parse_term 385-396 *)
Fixpoint left_loop (n : nat) (op : ascii) (f : smv C -> smv C -> smv C)
    (sub : list token -> presult) (out : smv C) (it : list token) : presult :=
  match n with
  | O => Fuel
  | S n =>
    match it with
    | TOp c :: r =>
      if Ascii.eqb c op then bind (sub r) (fun y => left_loop n op f sub (f out (fst y)) (snd y))
      else Val (out, it)
    | _ => Val (out, it)
    end
  end.
Definition level (n : nat) (op : ascii) (f : smv C -> smv C -> smv C)
    (sub : list token -> presult) (it : list token) : presult :=
  bind (sub it) (fun y => left_loop n op f sub (fst y) (snd y)).
(** parse_expr, parser.cpp 398-435 *)
Fixpoint sum_loop (n : nat) (sub : list token -> presult) (out : smv C) (it : list token) : presult :=
  match n with
  | O => Fuel
  | S n =>
    match it with
    | [] => Val (out, it)
    | TEof :: _ => Val (out, it)
    | TOp c :: r =>
      if Ascii.eqb c "+" then bind (sub r) (fun y => sum_loop n sub (smv_add out (fst y)) (snd y))
      else if Ascii.eqb c "-" then bind (sub r) (fun y => sum_loop n sub (smv_sub out (fst y)) (snd y))
      else Throw
    | TDelim _ :: _ => Val (out, it)
    | _ => Throw
    end
  end.
Definition dot_level n (factor : list token -> presult) := level n "|" (smv_dot a) factor.
Definition reg_level n factor := level n "&" (smv_reg a) (dot_level n factor).
Definition ext_level n factor := level n "^" (smv_ext a) (reg_level n factor).
Definition term_level n factor := level n "*" (smv_mul a) (ext_level n factor).
Definition expr_level n factor (it : list token) : presult :=
  bind (term_level n factor it) (fun y => sum_loop n (term_level n factor) (fst y) (snd y)).
Fixpoint parse_factor (d n : nat) (it : list token) : presult :=
  match d with
  | O => Fuel
  | S d => factor_body (expr_level n (parse_factor d n)) it
  end.
Definition parse_expr (d n : nat) (it : list token) : presult := expr_level n (parse_factor d n) it.

(** parse, parser.cpp 437-443: the remaining tokens are dropped.  The bounds are
    those shown sufficient in SymParseFacts. *)
Definition parse_tokens (l : list token) : res (smv C) :=
  bind (parse_expr (S (List.length l)) (S (List.length l)) l) (fun y => Val (fst y)).
Definition tokenize (input : string) : res (list token) := tokenize_loop (S (String.length input)) input.
Definition parse (input : string) : res (smv C) := bind (tokenize input) parse_tokens.
End Tokens.
Arguments token C : clear implicits.

(** ** repl::run, repl.cpp 14-79: what happens to one line *)
Inductive line_action :=
| LBlank (echo : bool)   (* nothing is parsed; the line itself ([echo]) or an empty line is printed *)
| LToggle                (* the command .break *)
| LIgnored               (* treated as a command, nothing happens *)
| LParse (echo : bool).  (* the line goes to the parser; [echo]: it is also copied to the output *)
(** the scan of the line, repl.cpp 29-52: (echoed, should_parse, issue_command) *)
Fixpoint scan_line (l : string) (should_parse : bool) : res (bool * bool * bool) :=
  match l with
  | EmptyString => Val (false, should_parse, false)
  | String c r =>
    if negb (ascii7 c) then Undef
    else if isspace c then scan_line r should_parse
    else if Ascii.eqb c "#" then Val (true, should_parse, false)
    else if Ascii.eqb c "." then Val (false, should_parse, true)
    else scan_line r true
  end.
Definition repl_line (l : string) : res line_action :=
  match l with
  | EmptyString => Val (LBlank false)
  | _ => bind (scan_line l false) (fun x =>
    let '(echo, should_parse, issue_command) := x in
    if issue_command then Val (if String.eqb l ".break" then LToggle else LIgnored)
    else if negb should_parse then Val (LBlank echo)
    else Val (LParse echo))
  end.
