(** Moving entities between registers and float arrays.

    Memory is a map from float cells to values: cell [i] is the float at byte
    address [4 i], which is all a [float*] promises about alignment.
    [_mm_loadu_ps] has no alignment requirement; [_mm_store_ps] requires the
    byte address to be a multiple of 16 and is undefined otherwise. *)
From Coq Require Import ZArith Bool.
From Verif Require Import Scalar SSE ApiTypes KernelMat.
Local Open Scope Z_scope.

Section MemIO.
Context {F : Type}.
Definition cells := Z -> F.
Definition _mm_loadu_ps (m : cells) (p : Z) : m128 F := mk4 (m p) (m (p + 1)) (m (p + 2)) (m (p + 3)).
Definition aligned16 (p : Z) : bool := (4 * p) mod 16 =? 0.
Definition write4 (m : cells) (p : Z) (v : m128 F) : cells := fun i =>
  if i =? p then l0 v else if i =? p + 1 then l1 v else
  if i =? p + 2 then l2 v else if i =? p + 3 then l3 v else m i.
Definition _mm_store_ps (m : cells) (p : Z) (v : m128 F) : outcome cells :=
  if aligned16 p then Ok (write4 m p v) else UB.

(** plane.hpp 41-43, 54-57 *)
Definition plane_load (m : cells) (data : Z) : plane F := mkplane (_mm_loadu_ps m data).
(** point.hpp 46-49, 52-55 *)
Definition point_load (m : cells) (data : Z) : point F := mkpoint (_mm_loadu_ps m data).
Definition point_store (m : cells) (data : Z) (p : point F) : outcome cells := _mm_store_ps m data (point_p3 p).
(** direction.hpp 36-44 (without KLEIN_VALIDATE) *)
Definition direction_load (m : cells) (data : Z) : direction F := mkdirection (_mm_loadu_ps m data).
(** rotor.hpp 119-122, 394-397 *)
Definition rotor_load_normalized (m : cells) (data : Z) : rotor F := mkrotor (_mm_loadu_ps m data).
Definition rotor_store (m : cells) (buf : Z) (r : rotor F) : outcome cells := _mm_store_ps m buf (rotor_p1 r).
(** translator.hpp 76-79 *)
Definition translator_load_normalized (m : cells) (data : Z) : translator F :=
  mktranslator (_mm_loadu_ps m data).
(** motor.hpp 137-143 *)
Definition motor_load (m : cells) (p : Z) : motor F := mkmotor (_mm_loadu_ps m p) (_mm_loadu_ps m (p + 4)).
(** line.hpp 343-346 *)
Definition branch_store (m : cells) (buf : Z) (b : branch F) : outcome cells := _mm_store_ps m buf (branch_p1 b).

(** Component accessors: [float out[4]; _mm_store_ps(out, reg); return out[n];]
    (plane.hpp 201-247, point.hpp 87-134, direction.hpp 46-65, line.hpp 94-128,
    348-397, 664-734, rotor.hpp 406-440, translator.hpp 173-207, motor.hpp
    445-522).  [out] is where the compiler put the local array. *)
Definition read_component (m : cells) (out : Z) (v : m128 F) (n : nat) : outcome F :=
  match _mm_store_ps m out v with
  | Ok m' => Ok (m' (out + Z.of_nat n))
  | UB => UB
  end.
End MemIO.
