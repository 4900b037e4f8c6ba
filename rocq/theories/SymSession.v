(** A whole run of the symbolic tool: the standard output of [repl::run]
    (/repo/sym/repl.cpp 14-79, main.cpp) for the lines of its standard input. *)
From Coq Require Import List Bool ZArith NArith String Ascii.
From Verif Require Import Scalar SymMap SymPoly SymGA SymParse.
Import ListNotations.
Local Open Scope string_scope.

Definition nl : string := String (ascii_of_nat 10) "".
Section Session.
Context {C : Type} `{Coef C}.
Variable num : string -> C.          (* std::stof *)
Variable show_f : C -> string.       (* operator<<(float) *)
Variable show_z : Z -> string.       (* operator<<(int) *)
(** one line of input: the new value of [break_lines] and the text written to
    standard output.  A parse error goes to standard error (repl.cpp 74-77), so
    only a possibly echoed comment appears. *)
Definition run_line (break_lines : bool) (l : string) : res (bool * string) :=
  bind (repl_line l) (fun act =>
    match act with
    | LBlank echo => Val (break_lines, (if echo then l else "") ++ nl)
    | LToggle => Val (negb break_lines, "")
    | LIgnored => Val (break_lines, "")
    | LParse echo =>
      match parse num pga l with
      | Val v => Val (break_lines, (if echo then l else "") ++ print_mv show_f show_z v ++ nl)
      | Throw => Val (break_lines, if echo then l else "")
      | Undef => Undef
      | Fuel => Fuel
      end
    end).
Fixpoint run (break_lines : bool) (ls : list string) : res string :=
  match ls with
  | [] => Val ""
  | l :: r => bind (run_line break_lines l) (fun x => bind (run (fst x) r) (fun o => Val (snd x ++ o)))
  end.
(** repl.hpp 9: [break_lines] starts false *)
Definition session (ls : list string) : res string := run false ls.
End Session.
