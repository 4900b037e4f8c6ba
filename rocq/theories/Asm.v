(** The assembly listings of /repo/docs/perf.md, kept as text, and an
    interpreter for them: AT&T syntax, the seventeen SSE mnemonics that occur.

    Simplifications: a register lane or memory word is either a float or a
    sign mask (0 or 0x80000000), other bit patterns do not occur; the two
    arguments and the red zone below the stack pointer are separate objects;
    flags, exceptions and the rounding mode are not modelled.  An aligned
    access to a misaligned address, an unknown mnemonic, a read of something
    never written and an exclusive-or of two floats stop the machine. *)
From Coq Require Import ZArith List String Ascii Bool.
From Verif Require Import Scalar SSE.
Import ListNotations.
Open Scope string_scope.

(** ** Syntax *)
Inductive base := RDI | RSI | RSP.
Inductive operand :=
| Xmm (n : nat)
| Rax
| Imm (z : Z)
| Mem (b : base) (off : Z)
| Lit (label : string).
Inductive instr :=
| Op (m : string) (s d : operand)
| Shufps (imm : Z) (s d : operand).

Definition is_sep (c : ascii) : bool :=
  match c with " "%char | ","%char | "009"%char => true | _ => false end.
Definition snoc (s : string) (c : ascii) : string := s ++ String c EmptyString.
Definition keep (w : string) (l : list string) : list string :=
  match w with EmptyString => l | _ => w :: l end.
Fixpoint words (s w : string) : list string :=
  match s with
  | EmptyString => keep w nil
  | String c t => if is_sep c then keep w (words t "") else words t (snoc w c)
  end.
Fixpoint lines (s w : string) : list string :=
  match s with
  | EmptyString => keep w nil
  | String "010"%char t => keep w (lines t "")
  | String c t => lines t (snoc w c)
  end.

Definition digit (c : ascii) : option Z :=
  let n := Z.of_nat (nat_of_ascii c) in
  if (48 <=? n)%Z && (n <=? 57)%Z then Some (n - 48)%Z else None.
(** leading digits and the rest *)
Fixpoint num (s : string) (acc : Z) : Z * string :=
  match s with
  | String c t => match digit c with Some d => num t (acc * 10 + d)%Z | None => (acc, s) end
  | EmptyString => (acc, s)
  end.
Definition znum (s : string) : Z * string :=
  match s with
  | String "-"%char t => let '(z, r) := num t 0 in ((- z)%Z, r)
  | _ => num s 0
  end.
Fixpoint upto (c : ascii) (s acc : string) : string * string :=
  match s with
  | EmptyString => (acc, s)
  | String d t => if Ascii.eqb c d then (acc, s) else upto c t (snoc acc d)
  end.

Definition operand_of (s : string) : option operand :=
  match s with
  | String "$"%char t => match znum t with (z, EmptyString) => Some (Imm z) | _ => None end
  | String "%"%char t =>
      if (t =? "rax") || (t =? "eax") then Some Rax
      else match t with
           | String "x"%char (String "m"%char (String "m"%char (String c r))) =>
               match num (String c r) 0 with
               | (z, EmptyString) => if (z <? 16)%Z then Some (Xmm (Z.to_nat z)) else None
               | _ => None
               end
           | _ => None
           end
  | String "."%char _ =>
      let '(l, r) := upto "("%char s "" in if r =? "(%rip)" then Some (Lit l) else None
  | _ =>
      let '(z, r) := znum s in
      if r =? "(%rdi)" then Some (Mem RDI z)
      else if r =? "(%rsi)" then Some (Mem RSI z)
      else if r =? "(%rsp)" then Some (Mem RSP z) else None
  end.

Definition instr_of (s : string) : option instr :=
  match words s "" with
  | [m; a; b] =>
      match operand_of a, operand_of b with Some x, Some y => Some (Op m x y) | _, _ => None end
  | [m; i; a; b] =>
      match operand_of i, operand_of a, operand_of b with
      | Some (Imm z), Some x, Some y =>
          if (m =? "shufps") && (0 <=? z)%Z && (z <? 256)%Z then Some (Shufps z x y) else None
      | _, _, _ => None
      end
  | _ => None
  end.

Fixpoint all {X Y} (f : X -> option Y) (l : list X) : option (list Y) :=
  match l with
  | nil => Some nil
  | x :: t => match f x, all f t with Some y, Some r => Some (y :: r) | _, _ => None end
  end.
Definition assemble (s : string) : option (list instr) := all instr_of (lines s "").

(** ** Semantics *)
Section Machine.
Context {F : Type} {FL : Flo F}.

Inductive word := Flt (x : F) | Msk (b : bool).

Definition fval (w : word) : F :=
  match w with Flt x => x | Msk b => if b then fopp (fz 0) else fz 0 end.
Definition wxor (v w : word) : option word :=
  match v, w with
  | Flt x, Msk b | Msk b, Flt x => Some (Flt (if b then fopp x else x))
  | Msk b, Msk c => Some (Msk (xorb b c))
  | Flt _, Flt _ => None
  end.
Definition zero : word := Msk false.

Record state := mkstate {
  xmm : nat -> option (m128 word);
  rax : option (word * word);
  ram : base -> Z -> option word;
  lit : list (string * m128 word) }.

Definition set_xmm (s : state) (n : nat) (v : m128 word) : state :=
  mkstate (fun k => if Nat.eqb k n then Some v else xmm s k) (rax s) (ram s) (lit s).
Definition set_rax (s : state) (v : word * word) : state :=
  mkstate (xmm s) (Some v) (ram s) (lit s).
Definition base_eqb (a b : base) : bool :=
  match a, b with RDI, RDI | RSI, RSI | RSP, RSP => true | _, _ => false end.
Definition set_ram (s : state) (b : base) (o : Z) (v : word) : state :=
  mkstate (xmm s) (rax s)
    (fun b' o' => if base_eqb b' b && (o' =? o)%Z then Some v else ram s b' o') (lit s).

(** The arguments are 16-byte aligned; at entry the stack pointer is 8 modulo
    16 (System V ABI). *)
Definition aligned (b : base) (o : Z) : bool :=
  ((match b with RSP => 8 | _ => 0 end + o) mod 16 =? 0)%Z.

Fixpoint pool (l : string) (k : list (string * m128 word)) : option (m128 word) :=
  match k with nil => None | (n, v) :: t => if l =? n then Some v else pool l t end.
Definition load4 (s : state) (b : base) (o : Z) : option (m128 word) :=
  match ram s b o, ram s b (o + 4)%Z, ram s b (o + 8)%Z, ram s b (o + 12)%Z with
  | Some w0, Some w1, Some w2, Some w3 => Some (mk4 w0 w1 w2 w3)
  | _, _, _, _ => None
  end.
(** 128-bit source operand *)
Definition src128 (s : state) (x : operand) : option (m128 word) :=
  match x with
  | Xmm n => xmm s n
  | Mem b o => if aligned b o then load4 s b o else None
  | Lit l => pool l (lit s)
  | _ => None
  end.
(** 32-bit source operand *)
Definition src32 (s : state) (x : operand) : option word :=
  match x with
  | Xmm n => option_map l0 (xmm s n)
  | Mem b o => ram s b o
  | _ => None
  end.

Definition fop (f : F -> F -> F) (d s : word) : word := Flt (f (fval d) (fval s)).
Definition packed (f : F -> F -> F) (st : state) (s d : operand) : option state :=
  match d with
  | Xmm n => match src128 st s, xmm st n with
             | Some v, Some w => Some (set_xmm st n (map4_2 (fop f) w v))
             | _, _ => None end
  | _ => None
  end.
Definition scalar (f : F -> F -> F) (st : state) (s d : operand) : option state :=
  match d with
  | Xmm n => match src32 st s, xmm st n with
             | Some v, Some w => Some (set_xmm st n (mk4 (fop f (l0 w) v) (l1 w) (l2 w) (l3 w)))
             | _, _ => None end
  | _ => None
  end.
Definition xor128 (v w : m128 word) : option (m128 word) :=
  match wxor (l0 v) (l0 w), wxor (l1 v) (l1 w), wxor (l2 v) (l2 w), wxor (l3 v) (l3 w) with
  | Some a, Some b, Some c, Some d => Some (mk4 a b c d)
  | _, _, _, _ => None
  end.

(** One instruction; the destination is the second operand. *)
Definition op (st : state) (m : string) (s d : operand) : option state :=
  if m =? "movaps" then
    match src128 st s, d with
    | Some v, Xmm n => Some (set_xmm st n v)
    | Some v, Mem b o =>
        if aligned b o then
          Some (set_ram (set_ram (set_ram (set_ram st b o (l0 v)) b (o + 4) (l1 v))
                         b (o + 8) (l2 v)) b (o + 12) (l3 v))
        else None
    | _, _ => None
    end
  else if m =? "movss" then
    match s, d with
    | Mem b o, Xmm n =>
        match ram st b o with
        | Some v => Some (set_xmm st n (mk4 v zero zero zero)) | None => None end
    | Xmm k, Xmm n =>
        match xmm st k, xmm st n with
        | Some v, Some w => Some (set_xmm st n (mk4 (l0 v) (l1 w) (l2 w) (l3 w)))
        | _, _ => None end
    | Xmm k, Mem b o =>
        match xmm st k with Some v => Some (set_ram st b o (l0 v)) | None => None end
    | _, _ => None
    end
  else if m =? "movq" then
    match s, d with
    | Mem b o, Xmm n =>
        match ram st b o, ram st b (o + 4)%Z with
        | Some v, Some w => Some (set_xmm st n (mk4 v w zero zero)) | _, _ => None end
    | Mem b o, Rax =>
        match ram st b o, ram st b (o + 4)%Z with
        | Some v, Some w => Some (set_rax st (v, w)) | _, _ => None end
    | Rax, Xmm n =>
        match rax st with
        | Some (v, w) => Some (set_xmm st n (mk4 v w zero zero)) | None => None end
    | Rax, Mem b o =>
        match rax st with
        | Some (v, w) => Some (set_ram (set_ram st b o v) b (o + 4) w) | None => None end
    | _, _ => None
    end
  else if m =? "movl" then
    match s, d with
    | Imm z, Rax =>
        if (z =? -2147483648)%Z then Some (set_rax st (Msk true, zero))
        else if (z =? 0)%Z then Some (set_rax st (zero, zero)) else None
    | _, _ => None
    end
  else if m =? "movd" then
    match rax st, s, d with
    | Some (v, _), Rax, Xmm n => Some (set_xmm st n (mk4 v zero zero zero))
    | _, _, _ => None
    end
  else if (m =? "pxor") || (m =? "xorps") then
    match d with
    | Xmm n => match src128 st s, xmm st n with
               | Some v, Some w => option_map (set_xmm st n) (xor128 w v)
               | _, _ => None end
    | _ => None
    end
  else if m =? "mulps" then packed fmul st s d
  else if m =? "addps" then packed fadd st s d
  else if m =? "subps" then packed fsub st s d
  else if m =? "mulss" then scalar fmul st s d
  else if m =? "addss" then scalar fadd st s d
  else if m =? "subss" then scalar fsub st s d
  else if m =? "divss" then scalar fdiv st s d
  else if m =? "unpcklps" then
    match d with
    | Xmm n => match src128 st s, xmm st n with
               | Some v, Some w => Some (set_xmm st n (mk4 (l0 w) (l0 v) (l1 w) (l1 v)))
               | _, _ => None end
    | _ => None
    end
  else if m =? "movlhps" then
    match d with
    | Xmm n => match src128 st s, xmm st n with
               | Some v, Some w => Some (set_xmm st n (mk4 (l0 w) (l1 w) (l0 v) (l1 v)))
               | _, _ => None end
    | _ => None
    end
  else None.

(** [shufps] has three operands: an immediate, the source and the destination;
    two bits each: two lanes of the destination, two lanes of the source. *)
Definition shufps (st : state) (imm : Z) (s d : operand) : option state :=
  let f k := Z.to_nat ((imm / 4 ^ k) mod 4) in
  match d with
  | Xmm n => match src128 st s, xmm st n with
             | Some v, Some w =>
                 Some (set_xmm st n (mk4 (lane w (f 0%Z)) (lane w (f 1%Z)) (lane v (f 2%Z)) (lane v (f 3%Z))))
             | _, _ => None end
  | _ => None
  end.

Definition step (st : state) (i : instr) : option state :=
  match i with Op m s d => op st m s d | Shufps z s d => shufps st z s d end.
Fixpoint run (st : state) (p : list instr) : option state :=
  match p with
  | nil => Some st
  | i :: t => match step st i with Some st' => run st' t | None => None end
  end.

(** Call a listing with arguments [a] at rdi and [b] at rsi (lists of floats)
    and constants [k]. *)
Definition words_at (a : list F) (o : Z) : option word :=
  if (0 <=? o)%Z && (o mod 4 =? 0)%Z then option_map Flt (nth_error a (Z.to_nat (o / 4))) else None.
Definition entry (k : list (string * m128 word)) (a b : list F) : state :=
  mkstate (fun _ => None) None
    (fun r => match r with RDI => words_at a | RSI => words_at b | RSP => fun _ => None end) k.
Definition call (k : list (string * m128 word)) (code : string) (a b : list F) : option state :=
  match assemble code with Some p => run (entry k a b) p | None => None end.

(** What the caller sees: a class holding one [__m128] comes back in xmm0, a
    struct of four floats in the low halves of xmm0 and xmm1. *)
Definition ret_m128 (r : option state) : option (m128 F) :=
  match r with Some s => option_map (map4 fval) (xmm s 0) | None => None end.
Definition ret_floats (r : option state) : option (m128 F) :=
  match r with
  | Some s => match xmm s 0, xmm s 1 with
              | Some v, Some w => Some (mk4 (fval (l0 v)) (fval (l1 v)) (fval (l0 w)) (fval (l1 w)))
              | _, _ => None end
  | None => None
  end.
End Machine.

(** docs/perf.md 48-71: rotor composition, Klein (24 instructions) *)
Definition klein_rotor : string :=
"movaps	(%rdi), %xmm0
movaps	(%rsi), %xmm1
movaps	%xmm0, %xmm2
shufps	$0, %xmm0, %xmm2
mulps	%xmm1, %xmm2
movaps	%xmm0, %xmm3
shufps	$121, %xmm0, %xmm3
movaps	%xmm1, %xmm4
shufps	$157, %xmm1, %xmm4
mulps	%xmm3, %xmm4
subps	%xmm4, %xmm2
movaps	%xmm0, %xmm3
shufps	$230, %xmm0, %xmm3
movaps	%xmm1, %xmm4
shufps	$2, %xmm1, %xmm4
mulps	%xmm3, %xmm4
shufps	$159, %xmm0, %xmm0
shufps	$123, %xmm1, %xmm1
mulps	%xmm0, %xmm1
addps	%xmm4, %xmm1
movl	$-2147483648, %eax
movd	%eax, %xmm0
pxor	%xmm1, %xmm0
addps	%xmm2, %xmm0".

(** docs/perf.md 152-174: rotor composition, RTM (23 instructions) *)
Definition rtm_rotor : string :=
"movaps	(%rdi), %xmm0
movaps	(%rsi), %xmm2
movaps	%xmm2, %xmm1
shufps	$0, %xmm2, %xmm1
movaps	%xmm2, %xmm3
shufps	$85, %xmm2, %xmm3
movaps	%xmm2, %xmm4
shufps	$170, %xmm2, %xmm4
shufps	$255, %xmm2, %xmm2
mulps	%xmm0, %xmm2
movaps	%xmm0, %xmm5
shufps	$27, %xmm0, %xmm5
mulps	%xmm5, %xmm1
shufps	$177, %xmm5, %xmm5
mulps	%xmm3, %xmm5
xorps	.LCPI0_0(%rip), %xmm1
shufps	$177, %xmm0, %xmm0
mulps	%xmm4, %xmm0
xorps	.LCPI0_1(%rip), %xmm5
xorps	.LCPI0_2(%rip), %xmm0
addps	%xmm2, %xmm1
addps	%xmm5, %xmm0
addps	%xmm1, %xmm0".

(** docs/perf.md 254-310: rotor composition, GLM (57 instructions) *)
Definition glm_rotor : string :=
"movss	(%rdi), %xmm4
movss	4(%rdi), %xmm3
movss	8(%rdi), %xmm2
movss	12(%rdi), %xmm0
movss	(%rsi), %xmm9
movss	4(%rsi), %xmm8
movss	8(%rsi), %xmm7
movss	12(%rsi), %xmm10
movaps	%xmm0, %xmm5
movaps	%xmm4, %xmm1
movaps	%xmm0, %xmm6
mulss	%xmm10, %xmm1
movaps	%xmm2, %xmm11
mulss	%xmm9, %xmm5
mulss	%xmm8, %xmm6
mulss	%xmm10, %xmm11
addss	%xmm1, %xmm5
movaps	%xmm3, %xmm1
mulss	%xmm7, %xmm1
addss	%xmm1, %xmm5
movaps	%xmm2, %xmm1
mulss	%xmm8, %xmm1
subss	%xmm1, %xmm5
movaps	%xmm3, %xmm1
mulss	%xmm10, %xmm1
addss	%xmm1, %xmm6
movaps	%xmm2, %xmm1
mulss	%xmm9, %xmm1
mulss	%xmm7, %xmm2
addss	%xmm1, %xmm6
movaps	%xmm4, %xmm1
mulss	%xmm7, %xmm1
subss	%xmm1, %xmm6
movaps	%xmm0, %xmm1
mulss	%xmm7, %xmm1
mulss	%xmm10, %xmm0
unpcklps	%xmm6, %xmm5
movaps	%xmm5, %xmm7
addss	%xmm11, %xmm1
movaps	%xmm4, %xmm11
mulss	%xmm8, %xmm11
mulss	%xmm9, %xmm4
addss	%xmm11, %xmm1
movaps	%xmm3, %xmm11
mulss	%xmm8, %xmm3
subss	%xmm4, %xmm0
mulss	%xmm9, %xmm11
subss	%xmm3, %xmm0
subss	%xmm11, %xmm1
subss	%xmm2, %xmm0
unpcklps	%xmm0, %xmm1
movlhps	%xmm1, %xmm7
movaps	%xmm7, -40(%rsp)
movq	-32(%rsp), %rax
movq	-40(%rsp), %xmm0
movq	%rax, %xmm1
movq	%rax, -16(%rsp)".

(** docs/perf.md 423-481: motor-point application, Klein (59 instructions) *)
Definition klein_motor : string :=
"movaps	(%rdi), %xmm3
movaps	16(%rdi), %xmm6
movaps	%xmm3, %xmm12
shufps	$0, %xmm3, %xmm12
movaps	%xmm3, %xmm11
movaps	%xmm3, %xmm10
movaps	%xmm12, %xmm8
movaps	%xmm12, %xmm9
movaps	%xmm3, %xmm4
movaps	%xmm3, %xmm1
movaps	%xmm6, %xmm7
mulps	%xmm6, %xmm12
movaps	%xmm6, %xmm0
shufps	$0, %xmm6, %xmm6
mulps	%xmm3, %xmm6
shufps	$156, %xmm3, %xmm3
mulps	%xmm3, %xmm11
shufps	$120, %xmm10, %xmm10
mulps	%xmm10, %xmm8
subps	%xmm8, %xmm11
mulps	%xmm3, %xmm9
mulps	%xmm10, %xmm4
addps	%xmm9, %xmm4
mulps	%xmm1, %xmm1
movaps	%xmm1, %xmm5
shufps	$1, %xmm1, %xmm5
addps	%xmm1, %xmm5
movaps	%xmm1, %xmm2
shufps	$158, %xmm1, %xmm2
shufps	$123, %xmm1, %xmm1
addps	%xmm2, %xmm1
movl	$-2147483648, %eax
movd	%eax, %xmm2
pxor	%xmm1, %xmm2
movaps	.LCPI3_0(%rip), %xmm1
mulps	%xmm1, %xmm11
mulps	%xmm1, %xmm4
subps	%xmm2, %xmm5
shufps	$156, %xmm7, %xmm7
mulps	%xmm10, %xmm7
subps	%xmm12, %xmm7
shufps	$120, %xmm0, %xmm0
mulps	%xmm3, %xmm0
subps	%xmm0, %xmm7
subps	%xmm6, %xmm7
mulps	%xmm1, %xmm7
movaps	(%rsi), %xmm0
movaps	%xmm0, %xmm1
shufps	$156, %xmm0, %xmm1
mulps	%xmm11, %xmm1
movaps	%xmm0, %xmm2
shufps	$120, %xmm0, %xmm2
mulps	%xmm4, %xmm2
addps	%xmm1, %xmm2
mulps	%xmm0, %xmm5
addps	%xmm2, %xmm5
shufps	$0, %xmm0, %xmm0
mulps	%xmm7, %xmm0
addps	%xmm5, %xmm0".

(** docs/perf.md 594-734: motor-point application, GLM (141 instructions) *)
Definition glm_motor : string :=
"movss	4(%rdi), %xmm1
movss	(%rdi), %xmm2
movss	8(%rdi), %xmm15
movss	12(%rdi), %xmm7
movaps	%xmm2, %xmm3
movaps	%xmm1, %xmm0
movaps	%xmm1, %xmm6
movss	(%rsi), %xmm10
mulss	%xmm1, %xmm0
movaps	%xmm7, %xmm5
movaps	%xmm2, %xmm4
movss	4(%rsi), %xmm9
mulss	%xmm2, %xmm3
movaps	%xmm15, %xmm14
movaps	%xmm2, %xmm11
movss	8(%rsi), %xmm8
movaps	%xmm15, %xmm12
movaps	%xmm15, %xmm13
addss	%xmm0, %xmm3
movaps	%xmm15, %xmm0
mulss	%xmm15, %xmm0
addss	%xmm0, %xmm3
movaps	%xmm7, %xmm0
mulss	%xmm7, %xmm0
addss	%xmm0, %xmm3
movaps	%xmm15, %xmm0
divss	%xmm3, %xmm5
divss	%xmm3, %xmm6
divss	%xmm3, %xmm4
divss	%xmm3, %xmm14
movaps	%xmm5, %xmm3
movaps	%xmm1, %xmm5
mulss	%xmm6, %xmm5
addss	%xmm6, %xmm6
mulss	%xmm3, %xmm7
addss	%xmm3, %xmm3
mulss	%xmm4, %xmm11
addss	%xmm4, %xmm4
mulss	%xmm6, %xmm13
movss	%xmm5, -56(%rsp)
mulss	%xmm3, %xmm2
movaps	%xmm1, %xmm5
mulss	%xmm3, %xmm1
mulss	%xmm4, %xmm12
movss	%xmm11, -40(%rsp)
mulss	%xmm4, %xmm5
movss	24(%rdi), %xmm11
movss	%xmm13, -16(%rsp)
mulss	%xmm3, %xmm15
movss	16(%rdi), %xmm13
movss	%xmm2, -24(%rsp)
movss	%xmm1, -20(%rsp)
movss	28(%rdi), %xmm1
movss	%xmm12, -28(%rsp)
movss	20(%rdi), %xmm12
movss	%xmm1, -12(%rsp)
mulss	%xmm14, %xmm0
addss	%xmm14, %xmm14
movss	-40(%rsp), %xmm1
movaps	%xmm5, %xmm2
subss	%xmm15, %xmm5
addss	%xmm15, %xmm2
movss	-16(%rsp), %xmm15
addss	%xmm7, %xmm1
subss	-56(%rsp), %xmm1
mulss	%xmm10, %xmm5
mulss	%xmm9, %xmm2
subss	%xmm0, %xmm1
mulss	%xmm10, %xmm1
addss	%xmm2, %xmm1
movss	-28(%rsp), %xmm2
subss	-20(%rsp), %xmm2
mulss	%xmm8, %xmm2
addss	%xmm2, %xmm1
movss	-56(%rsp), %xmm2
addss	%xmm7, %xmm2
subss	-40(%rsp), %xmm2
subss	%xmm0, %xmm2
addss	%xmm7, %xmm0
movaps	%xmm3, %xmm7
subss	-40(%rsp), %xmm0
subss	-56(%rsp), %xmm0
mulss	%xmm13, %xmm7
mulss	%xmm9, %xmm2
addss	%xmm5, %xmm2
movss	-24(%rsp), %xmm5
addss	%xmm15, %xmm5
subss	-24(%rsp), %xmm15
mulss	%xmm8, %xmm5
mulss	%xmm9, %xmm15
addss	%xmm5, %xmm2
movss	-28(%rsp), %xmm5
addss	-20(%rsp), %xmm5
mulss	%xmm10, %xmm5
unpcklps	%xmm2, %xmm1
addss	%xmm15, %xmm5
movaps	%xmm0, %xmm15
mulss	%xmm8, %xmm15
addss	%xmm15, %xmm5
movss	-12(%rsp), %xmm15
movaps	%xmm15, %xmm0
mulss	%xmm4, %xmm0
subss	%xmm7, %xmm0
movaps	%xmm14, %xmm7
mulss	%xmm12, %xmm7
addss	%xmm7, %xmm0
movaps	%xmm6, %xmm7
mulss	%xmm11, %xmm7
subss	%xmm7, %xmm0
movaps	%xmm14, %xmm7
mulss	%xmm13, %xmm7
mulss	%xmm15, %xmm14
mulss	%xmm0, %xmm10
movaps	%xmm15, %xmm0
mulss	%xmm6, %xmm0
mulss	%xmm13, %xmm6
subss	%xmm7, %xmm0
movaps	%xmm3, %xmm7
mulss	%xmm12, %xmm7
addss	%xmm6, %xmm14
movaps	%xmm1, %xmm6
mulss	%xmm11, %xmm3
subss	%xmm7, %xmm0
movaps	%xmm4, %xmm7
mulss	%xmm12, %xmm4
mulss	%xmm11, %xmm7
subss	%xmm4, %xmm14
addss	%xmm7, %xmm0
xorps	.LC0(%rip), %xmm0
subss	%xmm3, %xmm14
mulss	%xmm0, %xmm9
mulss	%xmm14, %xmm8
subss	%xmm10, %xmm9
subss	%xmm8, %xmm9
unpcklps	%xmm9, %xmm5
movlhps	%xmm5, %xmm6
movaps	%xmm6, -56(%rsp)
movq	-48(%rsp), %rax
movq	-56(%rsp), %xmm0
movq	%rax, %xmm1
movq	%rax, -40(%rsp)".

