(** The batch loops of [KernelSW.v] over arbitrary arithmetic. *)
From Coq Require Import ZArith Bool Lia.
From Verif Require Import Scalar SSE KernelSW.

Section Batch.
Context {F : Type} {A : Arith F} {B : Build}.

Lemma st_same (m : mem F) x v : st m x v x = v.
Proof. unfold st. now rewrite Nat.eqb_refl. Qed.
Lemma st_other (m : mem F) x v y : y <> x -> st m x v y = m y.
Proof. intro H. unfold st. apply Nat.eqb_neq in H. now rewrite H. Qed.

(** One pass over registers: element i is register [src+i]. *)
Definition pass1 (f : m128 F -> m128 F) (src out i n : nat) (m m' : mem F) : Prop :=
  (forall k, i <= k < i + n -> m' (out + k) = f (m (src + k))) /\
  (forall x, (forall k, i <= k < i + n -> x <> out + k) -> m' x = m x).
Lemma loop1 f src out (body : nat -> mem F -> mem F) :
  (forall i m, src <> out -> body i m (out + i) = f (m (src + i))) ->
  (forall i m x, x <> out + i -> body i m x = m x) ->
  forall n i m,
  (forall j k, i <= j < i + n -> i <= k < i + n -> src + j <> out + k) ->
  pass1 f src out i n m (for_loop body i n m).
Proof.
  intros H1 H2. induction n as [|n IH]; intros i m D.
  - split; [intros; lia|reflexivity].
  - cbn [for_loop].
    assert (N : src <> out). { intro E. specialize (D i i). lia. }
    destruct (IH (S i) (body i m)) as [P1 P2].
    { intros. apply D; lia. }
    split.
    + intros k Hk. destruct (Nat.eq_dec k i) as [->|].
      * rewrite P2 by (intros; lia). apply H1, N.
      * rewrite P1 by lia. f_equal. apply H2. apply D; lia.
    + intros x Hx. rewrite P2 by (intros; apply Hx; lia). apply H2. apply Hx. lia.
Qed.

(** One pass over pairs of registers: element i is registers [src+2i], [src+2i+1]. *)
Definition pass2 (f : m128 F -> m128 F -> m128 F * m128 F) (src out i n : nat) (m m' : mem F) : Prop :=
  (forall k, i <= k < i + n ->
     (m' (out + 2 * k), m' (out + 2 * k + 1)) = f (m (src + 2 * k)) (m (src + 2 * k + 1))) /\
  (forall x, (forall k, i <= k < i + n -> x <> out + 2 * k /\ x <> out + 2 * k + 1) -> m' x = m x).
Definition apart2 (src out j k : nat) : Prop :=
  src + 2 * j <> out + 2 * k /\ src + 2 * j <> out + 2 * k + 1 /\
  src + 2 * j + 1 <> out + 2 * k /\ src + 2 * j + 1 <> out + 2 * k + 1.
Lemma loop2 f src out (body : nat -> mem F -> mem F) :
  (forall i m, apart2 src out i i ->
     (body i m (out + 2 * i), body i m (out + 2 * i + 1)) = f (m (src + 2 * i)) (m (src + 2 * i + 1))) ->
  (forall i m x, x <> out + 2 * i -> x <> out + 2 * i + 1 -> body i m x = m x) ->
  forall n i m,
  (forall j k, i <= j < i + n -> i <= k < i + n -> apart2 src out j k) ->
  pass2 f src out i n m (for_loop body i n m).
Proof.
  intros H1 H2. induction n as [|n IH]; intros i m D.
  - split; [intros; lia|reflexivity].
  - cbn [for_loop].
    destruct (IH (S i) (body i m)) as [P1 P2].
    { intros. apply D; lia. }
    split.
    + intros k Hk. destruct (Nat.eq_dec k i) as [->|].
      * rewrite !P2 by (intros; lia). apply H1. apply D; lia.
      * rewrite P1 by lia. destruct (D k i) as (D1 & D2 & D3 & D4); try lia.
        f_equal; apply H2; lia.
    + intros x Hx. rewrite P2 by (intros; apply Hx; lia). apply H2; apply Hx; lia.
Qed.

Ltac body_tac := rewrite ?st_same, ?st_other by lia; repeat (rewrite ?st_same; rewrite ?st_other by lia); reflexivity.

Lemma sw012_motor_pass src out b c n m :
  (forall j k, j < n -> k < n -> src + j <> out + k) ->
  pass1 (fun a => sw012_motor a b c) src out 0 n m (sw012_motor_run src out b c n m).
Proof.
  intro D. apply loop1; [| |intros; apply D; lia]; intros; unfold sw012_motor_body, sw012_motor;
    destruct (sw012_rot b) as [[t1 t2] t3]; cbv zeta; body_tac.
Qed.
Lemma sw012_rotor_pass src out b n m :
  (forall j k, j < n -> k < n -> src + j <> out + k) ->
  pass1 (fun a => sw012_rotor a b) src out 0 n m (sw012_rotor_run src out b n m).
Proof.
  intro D. apply loop1; [| |intros; apply D; lia]; intros; unfold sw012_rotor_body, sw012_rotor;
    destruct (sw012_rot b) as [[t1 t2] t3]; cbv zeta; body_tac.
Qed.
Lemma sw312_motor_pass src out b c n m :
  (forall j k, j < n -> k < n -> src + j <> out + k) ->
  pass1 (fun a => sw312_motor a b c) src out 0 n m (sw312_motor_run src out b c n m).
Proof.
  intro D. apply loop1; [| |intros; apply D; lia]; intros; unfold sw312_motor_body, sw312_motor;
    destruct (sw312_rot b) as [[t1 t2] t3]; cbv zeta; body_tac.
Qed.
Lemma sw312_rotor_pass src out b n m :
  (forall j k, j < n -> k < n -> src + j <> out + k) ->
  pass1 (fun a => sw312_rotor a b) src out 0 n m (sw312_rotor_run src out b n m).
Proof.
  intro D. apply loop1; [| |intros; apply D; lia]; intros; unfold sw312_rotor_body, sw312_rotor;
    destruct (sw312_rot b) as [[t1 t2] t3]; cbv zeta; body_tac.
Qed.
Lemma swMM_line_pass src out b c n m :
  (forall j k, j < n -> k < n -> apart2 src out j k) ->
  pass2 (fun p q => swMM_line p q b c) src out 0 n m (swMM_line_run src out b c n m).
Proof.
  intro D. apply loop2; [| |intros; apply D; lia]; intros; unfold swMM_line_body, swMM_line;
    destruct (swMM_rot b) as [[t1 t2] t3]; destruct (swMM_trans b c) as [[t4 t5] t6]; cbv zeta;
    unfold apart2 in *; body_tac.
Qed.
Lemma swMM_rot_line_pass src out b n m :
  (forall j k, j < n -> k < n -> apart2 src out j k) ->
  pass2 (fun p q => swMM_rot_line p q b) src out 0 n m (swMM_rot_line_run src out b n m).
Proof.
  intro D. apply loop2; [| |intros; apply D; lia]; intros; unfold swMM_rot_line_body, swMM_rot_line;
    destruct (swMM_rot b) as [[t1 t2] t3]; cbv zeta;
    unfold apart2 in *; body_tac.
Qed.

(** Two loops with equal bodies. *)
Lemma for_loop_ext (f g : nat -> mem F -> mem F) : (forall i m, f i m = g i m) ->
  forall n i m, for_loop f i n m = for_loop g i n m.
Proof. intros H. induction n; intros i m; cbn; [reflexivity|]. now rewrite H, IHn. Qed.
End Batch.

(** The same with [src = out]: the element function [g] sees the old value. *)
Section InPlace.
Context {F : Type} {A : Arith F} {B : Build}.
Lemma loop1_inplace g out (body : nat -> mem F -> mem F) :
  (forall i m, body i m (out + i) = g (m (out + i))) ->
  (forall i m x, x <> out + i -> body i m x = m x) ->
  forall n i m, pass1 g out out i n m (for_loop body i n m).
Proof.
  intros H1 H2. induction n as [|n IH]; intros i m.
  - split; [intros; lia|reflexivity].
  - cbn [for_loop]. destruct (IH (S i) (body i m)) as [P1 P2]. split.
    + intros k Hk. destruct (Nat.eq_dec k i) as [->|].
      * rewrite P2 by (intros; lia). apply H1.
      * rewrite P1 by lia. f_equal. apply H2. lia.
    + intros x Hx. rewrite P2 by (intros; apply Hx; lia). apply H2. apply Hx. lia.
Qed.
(** what the loop bodies compute when [a[i]] and [out[i]] are the same register *)
Definition sw012_motor_inplace (b c a : m128 F) : m128 F :=
  let '(tmp1, tmp2, tmp3) := sw012_rot b in
  let tmp4 := sw012_trans b c in
  let p := (_mm_mul_ps tmp1 (KLN_SWIZZLE a 1 3 2 0)) in
  let p := (_mm_add_ps p (_mm_mul_ps tmp2 (KLN_SWIZZLE p 2 1 3 0))) in
  let p := (_mm_add_ps p (_mm_mul_ps tmp3 p)) in
  _mm_add_ps p (hi_dp tmp4 p).
Definition sw012_rotor_inplace (b a : m128 F) : m128 F :=
  let '(tmp1, tmp2, tmp3) := sw012_rot b in
  let p := (_mm_mul_ps tmp1 (KLN_SWIZZLE a 1 3 2 0)) in
  let p := (_mm_add_ps p (_mm_mul_ps tmp2 (KLN_SWIZZLE p 2 1 3 0))) in
  _mm_add_ps p (_mm_mul_ps tmp3 p).
Definition sw312_motor_inplace (b c a : m128 F) : m128 F :=
  let '(tmp1, tmp2, tmp3) := sw312_rot b in
  let tmp4 := sw312_trans b c in
  let p := (_mm_mul_ps tmp1 (KLN_SWIZZLE a 2 1 3 0)) in
  let p := (_mm_add_ps p (_mm_mul_ps tmp2 (KLN_SWIZZLE p 1 3 2 0))) in
  let p := (_mm_add_ps p (_mm_mul_ps tmp3 p)) in
  _mm_add_ps p (_mm_mul_ps tmp4 (KLN_SWIZZLE p 0 0 0 0)).
Definition sw312_rotor_inplace (b a : m128 F) : m128 F :=
  let '(tmp1, tmp2, tmp3) := sw312_rot b in
  let p := (_mm_mul_ps tmp1 (KLN_SWIZZLE a 2 1 3 0)) in
  let p := (_mm_add_ps p (_mm_mul_ps tmp2 (KLN_SWIZZLE p 1 3 2 0))) in
  _mm_add_ps p (_mm_mul_ps tmp3 p).
Ltac inplace rot := intros; unfold_body; destruct rot as [[t1 t2] t3]; cbv zeta;
  repeat (rewrite ?st_same; rewrite ?st_other by lia); reflexivity
with unfold_body := unfold sw012_motor_body, sw012_rotor_body, sw312_motor_body, sw312_rotor_body,
  sw012_motor_inplace, sw012_rotor_inplace, sw312_motor_inplace, sw312_rotor_inplace.
Lemma sw012_motor_inplace_run out b c n m :
  pass1 (sw012_motor_inplace b c) out out 0 n m (sw012_motor_run out out b c n m).
Proof. apply loop1_inplace; inplace (sw012_rot b). Qed.
Lemma sw012_rotor_inplace_run out b n m :
  pass1 (sw012_rotor_inplace b) out out 0 n m (sw012_rotor_run out out b n m).
Proof. apply loop1_inplace; inplace (sw012_rot b). Qed.
Lemma sw312_motor_inplace_run out b c n m :
  pass1 (sw312_motor_inplace b c) out out 0 n m (sw312_motor_run out out b c n m).
Proof. apply loop1_inplace; inplace (sw312_rot b). Qed.
Lemma sw312_rotor_inplace_run out b n m :
  pass1 (sw312_rotor_inplace b) out out 0 n m (sw312_rotor_run out out b n m).
Proof. apply loop1_inplace; inplace (sw312_rot b). Qed.
End InPlace.
