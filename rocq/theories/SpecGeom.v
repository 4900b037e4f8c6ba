(** Specification: Euclidean geometry of R^3, in coordinates.  Independent of
    the model. *)
From Coq Require Import Reals Lra.
Local Open Scope R_scope.

Record vec := V { vx : R; vy : R; vz : R }.
Definition vadd a b := V (vx a + vx b) (vy a + vy b) (vz a + vz b).
Definition vsub a b := V (vx a - vx b) (vy a - vy b) (vz a - vz b).
Definition vopp a := V (- vx a) (- vy a) (- vz a).
Definition vscale k a := V (k * vx a) (k * vy a) (k * vz a).
Definition vdot a b := vx a * vx b + vy a * vy b + vz a * vz b.
Definition vcross a b :=
  V (vy a * vz b - vz a * vy b) (vz a * vx b - vx a * vz b) (vx a * vy b - vy a * vx b).
Definition vzero := V 0 0 0.
Definition vlen a := sqrt (vdot a a).
Definition vunit a := vscale (/ vlen a) a.
(** distance of two points *)
Definition dist a b := vlen (vsub a b).
(** signed volume spanned by three vectors *)
Definition vdet a b c := vdot a (vcross b c).

(** the point x lies on the plane n . x + d = 0 *)
Definition on_plane (n : vec) (d : R) (x : vec) : Prop := vdot n x + d = 0.
(** the point x lies on the line with direction u and moment m (m = x cross u) *)
Definition on_line (u m x : vec) : Prop := vcross x u = m.

(** Rodrigues: rotation by angle t about the unit vector u through the
    origin, counter-clockwise when looking against u *)
Definition rodrigues (u : vec) (t : R) (x : vec) : vec :=
  vadd (vadd (vscale (cos t) x) (vscale (sin t) (vcross u x)))
       (vscale ((1 - cos t) * vdot u x) u).
(** mirror image in the plane n . x + d = 0, n a unit vector *)
Definition mirror (n : vec) (d : R) (x : vec) : vec :=
  vsub x (vscale (2 * (vdot n x + d)) n).

Lemma vec_eq a b : vx a = vx b -> vy a = vy b -> vz a = vz b -> a = b.
Proof. destruct a, b; cbn; intros; subst; reflexivity. Qed.
Ltac vcbn := cbv [vx vy vz vadd vsub vopp vscale vdot vcross vzero vdet rodrigues mirror] in *.
Ltac vring := apply vec_eq; vcbn; ring.

(** sanity *)
Lemma rodrigues_axis u t k : vdot u u = 1 -> rodrigues u t (vscale k u) = vscale k u.
Proof.
  destruct u as [a b c]. unfold vdot. vcbn. intro H.
  assert (E : a * (k * a) + b * (k * b) + c * (k * c) = k).
  { transitivity (k * (a * a + b * b + c * c)); [ring | rewrite H; ring]. }
  apply vec_eq; vcbn; rewrite E; ring.
Qed.
Lemma rodrigues_z t : rodrigues (V 0 0 1) t (V 1 0 0) = V (cos t) (sin t) 0.
Proof. unfold rodrigues. vring. Qed.
Lemma mirror_involutive n d x : vdot n n = 1 -> mirror n d (mirror n d x) = x.
Proof.
  destruct n as [a b c], x as [x y z]. unfold mirror, vdot. vcbn. intro H.
  apply vec_eq; vcbn;
  [ transitivity (x - 2 * a * (1 - (a * a + b * b + c * c)) * 2 * (a * x + b * y + c * z + d))
  | transitivity (y - 2 * b * (1 - (a * a + b * b + c * c)) * 2 * (a * x + b * y + c * z + d))
  | transitivity (z - 2 * c * (1 - (a * a + b * b + c * c)) * 2 * (a * x + b * y + c * z + d)) ];
  try ring; rewrite H; ring.
Qed.
Lemma mirror_fixes n d x : on_plane n d x -> mirror n d x = x.
Proof. unfold on_plane, mirror. intro H. rewrite H. vring. Qed.
