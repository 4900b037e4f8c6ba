(** The C bindings: /repo/c_src/klein_c.cpp and the header comments of
    /repo/c_src/klein.h.

    A kln_* struct has the same members in the same order as the C++ class
    [convert] casts it to, so the C++ records stand for both.  The
    [reinterpret_cast]s themselves (and the aliasing rules they lean on) are
    not modelled.  Pointers are read once and never stored, so arguments are
    passed by value here. *)
From Coq Require Import ZArith.
From Verif Require Import Scalar SSE Api.

Section CApi.
Context {F : Type} {FL : Flo F} {B : Build}.

(** klein_c.cpp 63-78 *)
Definition kln_plane_init (a b c d : F) : plane F := plane_ctor a b c d.
Definition kln_line_init (a b c d e f : F) : line F := line_ctor a b c d e f.
Definition kln_point_init (x y z : F) : point F := point_ctor x y z.

(** klein_c.cpp 80-93 *)
Definition kln_reflect_point (p : plane F) (x : point F) : point F := plane_on_point p x.
Definition kln_reflect_line (p : plane F) (l : line F) : line F := plane_on_line p l.
Definition kln_reflect_plane (p1 p2 : plane F) : plane F := plane_on_plane p1 p2.
(** klein_c.cpp 95-108 *)
Definition kln_rotate_point (r : rotor F) (x : point F) : point F := rotor_on_point r x.
Definition kln_rotate_line (r : rotor F) (l : line F) : line F := rotor_on_line r l.
Definition kln_rotate_plane (r : rotor F) (p : plane F) : plane F := rotor_on_plane r p.
(** klein_c.cpp 110-125 *)
Definition kln_translate_point (t : translator F) (x : point F) : point F := translator_on_point t x.
Definition kln_translate_line (t : translator F) (l : line F) : line F := translator_on_line t l.
Definition kln_translate_plane (t : translator F) (p : plane F) : plane F := translator_on_plane t p.
(** klein_c.cpp 127-140 *)
Definition kln_motor_point (m : motor F) (x : point F) : point F := motor_on_point m x.
Definition kln_motor_line (m : motor F) (l : line F) : line F := motor_on_line m l.
Definition kln_motor_plane (m : motor F) (p : plane F) : plane F := motor_on_plane m p.
(** klein_c.cpp 142-169 *)
Definition kln_compose_rotors (r1 r2 : rotor F) : rotor F := rotor_mul_rotor r2 r1.
Definition kln_compose_translators (t1 t2 : translator F) : translator F := translator_mul_translator t2 t1.
Definition kln_compose_rotor_translator (r : rotor F) (t : translator F) : motor F := translator_mul_rotor t r.
Definition kln_compose_translator_rotor (t : translator F) (r : rotor F) : motor F := rotor_mul_translator r t.
Definition kln_compose_motors (m1 m2 : motor F) : motor F := motor_mul_motor m2 m1.
(** klein_c.cpp 171-179 *)
Definition motor_log_c (m : motor F) : line F := motor_log m.
Definition line_exp_c (l : line F) : motor F := line_exp l.
End CApi.
