(** Code published in the documentation (/repo/docs): the functions a reader
    is invited to paste.  They call only the library operations modelled in
    Api.v and ApiLin.v. *)
From Coq Require Import List ZArith.
From Verif Require Import Scalar SSE ApiTypes ApiLin Api KernelSW.
Import ListNotations.

Section Doc.
Context {F : Type} {FL : Flo F} {B : Build}.
(** docs/quickstart.md 91-112 [blend_motors]; docs/case_studies/
    ga_skeletal_animation.md 408-428 [slerp] is the same text.
    line motor_step = log(b * ~a); motor_step *= t; return exp(motor_step) * a *)
Definition blend_motors (a b : motor F) (t : F) : motor F :=
  let motor_step := motor_log (motor_mul_motor b (motor_rev a)) in
  let motor_step := line_imul_f motor_step t in
  motor_mul_motor (line_exp motor_step) a.
(** ga_skeletal_animation.md 267-271 [nlerp]: ((1 - t) * m1 + t * m2).normalize().
    [normalize] returns nothing in the library; the text is read as normalizing
    the sum in place and returning it. *)
Definition lerp (m1 m2 : motor F) (t : F) : motor F :=
  motor_add (f_mul_motor (fsub (fz 1) t) m1) (f_mul_motor t m2).
Definition nlerp (m1 m2 : motor F) (t : F) : motor F := motor_normalized (lerp m1 m2 t).
End Doc.

Section DocA.
Context {F : Type} {A : Arith F} {B : Build}.

(** ga_skeletal_animation.md 117-154 [animate_keyframe].  [out]: address of
    [instance.joint_positions]; [pose i] the motor of joint i; [group_size i]
    the size of its group.  The batch call reads and writes the same array. *)
Definition init_positions (out size : nat) (world : point F) (m : mem F) : mem F :=
  for_loop (fun i m => st m (out + i) (point_p3 world)) 0 size m.
Definition animate_keyframe (out size : nat) (pose : nat -> motor F) (group_size : nat -> nat)
    (world : point F) (m : mem F) : mem F :=
  let m := init_positions out size world m in
  for_loop (fun i m => motor_batch_points (pose i) (out + i) (out + i) (group_size i) m) 0 size m.
End DocA.
