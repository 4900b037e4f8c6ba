(** C74: the assembly published in docs/perf.md against the model of the C++ sources. *)
From Coq Require Import ZArith Reals List String Bool Lra Lia.
From Flocq Require Import Core BinarySingleNaN.
From Verif Require Import AlgTac Float32 ExprSyntax Asm.
Import ListNotations.
Local Open Scope R_scope.

Lemma add_comm_f32 (v w : f32) : fadd v w = fadd w v.
Proof.
  cbn. destruct v as [s|s| |s m e H], w as [t|t| |t n f K]; cbn; try reflexivity;
    try (destruct s, t; reflexivity).
  rewrite (Z.min_comm e f). f_equal. unfold Fplus_naive. apply Z.add_comm.
Qed.

(** Memory image of a register. *)
Definition mem4 {F} (v : m128 F) : list F := [l0 v; l1 v; l2 v; l3 v].


(** Equal up to the order of the operands of + and *. *)
Ltac upto_comm A M :=
  first [ reflexivity
        | match goal with
          | |- fadd _ _ = fadd _ _ =>
              first [ solve [apply (f_equal2 fadd); upto_comm A M] | rewrite A; solve [apply (f_equal2 fadd); upto_comm A M] ]
          | |- fmul _ _ = fmul _ _ =>
              first [ solve [apply (f_equal2 fmul); upto_comm A M] | rewrite M; solve [apply (f_equal2 fmul); upto_comm A M] ]
          | |- fsub _ _ = fsub _ _ => apply (f_equal2 fsub); upto_comm A M
          | |- fopp _ = fopp _ => apply (f_equal fopp); upto_comm A M
          end ].

(** The machine state after a listing, symbolically. *)
Ltac simulate code :=
  unfold call;
  let p := eval vm_compute in (assemble code) in
  replace (assemble code) with p by (vm_compute; reflexivity).

Section Generic.
Context {F : Type} {FL : Flo F}.
Hypothesis addC : forall x y : F, fadd x y = fadd y x.
Hypothesis mulC : forall x y : F, fmul x y = fmul y x.

Lemma rotor_listing k (a b : rotor F) :
  ret_m128 (call k klein_rotor (mem4 (rotor_p1 a)) (mem4 (rotor_p1 b))) =
    Some (rotor_p1 (rotor_mul_rotor a b)).
Proof using addC mulC.
  destruct a as [[a0 a1 a2 a3]], b as [[b0 b1 b2 b3]]. simulate klein_rotor.
  cbv -[fadd fsub fmul fopp fz flo_arith].
  apply (f_equal Some). apply f_equal4; upto_comm addC mulC.
Qed.

Lemma motor_listing k (m : motor F) (p : point F) :
  ret_m128 (call ((".LCPI3_0"%string, mk4 (Flt (fz 0)) (Flt (fz 2)) (Flt (fz 2)) (Flt (fz 2))) :: k) klein_motor (mem4 (motor_p1 m) ++ mem4 (motor_p2 m)) (mem4 (point_p3 p))) =
    Some (point_p3 (motor_on_point m p)).
Proof using addC mulC.
  destruct m as [[b0 b1 b2 b3] [c0 c1 c2 c3]], p as [[a0 a1 a2 a3]]. simulate klein_motor.
  cbv -[fadd fsub fmul fopp fz flo_arith].
  apply (f_equal Some). apply f_equal4; upto_comm addC mulC.
Qed.
End Generic.

(** ** C74.  In binary32 the listings "Klein" of both sections return, bit for bit
    (the model has a single NaN), what the sources compute; also in any other arithmetic
    with commutative + and *. *)
Theorem C74_rotor_composition : forall (M : machine) k (a b : rotor f32),
  ret_m128 (FL := Flo_f32 M) (call (FL := Flo_f32 M) k klein_rotor (mem4 (rotor_p1 a)) (mem4 (rotor_p1 b))) =
    Some (rotor_p1 (rotor_mul_rotor a b)).
Proof. intros M k a b. exact (rotor_listing (FL := Flo_f32 M) add_comm_f32 mul_comm_f32 k a b). Qed.

(** The constant of the listing is not printed there; it is [two] of x86_sandwich.hpp 546. *)
Theorem C74_motor_application : forall (M : machine) k (m : motor f32) (p : point f32),
  ret_m128 (FL := Flo_f32 M)
    (call (FL := Flo_f32 M) ((".LCPI3_0"%string, mk4 (Flt (fz 0)) (Flt (fz 2)) (Flt (fz 2)) (Flt (fz 2))) :: k) klein_motor
       (mem4 (motor_p1 m) ++ mem4 (motor_p2 m)) (mem4 (point_p3 p))) =
    Some (point_p3 (motor_on_point m p)).
Proof. intros M k m p. exact (motor_listing (FL := Flo_f32 M) add_comm_f32 mul_comm_f32 k m p). Qed.

(** "Instructions: 2400" and "5900" for 100 iterations. *)
Example C74_lengths :
  option_map (@List.length instr) (assemble klein_rotor) = Some 24%nat /\
  option_map (@List.length instr) (assemble rtm_rotor) = Some 23%nat /\
  option_map (@List.length instr) (assemble glm_rotor) = Some 57%nat /\
  option_map (@List.length instr) (assemble klein_motor) = Some 59%nat /\
  option_map (@List.length instr) (assemble glm_motor) = Some 141%nat.
Proof. vm_compute. repeat split. Qed.

(** ** The competitors' listings, over the reals.  A quaternion is stored x, y, z, w. *)
Record quat := mkq { qx : R; qy : R; qz : R; qw : R }.
Definition hamilton (a b : quat) : quat := mkq
  (qw a * qx b + qx a * qw b + qy a * qz b - qz a * qy b)
  (qw a * qy b - qx a * qz b + qy a * qw b + qz a * qx b)
  (qw a * qz b + qx a * qy b - qy a * qx b + qz a * qw b)
  (qw a * qw b - qx a * qx b - qy a * qy b - qz a * qz b).
Definition qconj (a : quat) : quat := mkq (- qx a) (- qy a) (- qz a) (qw a).
Definition qsq (a : quat) : R := qx a * qx a + qy a * qy a + qz a * qz a + qw a * qw a.
Definition qmem (a : quat) : list R := [qx a; qy a; qz a; qw a].
(** The rotor with the same coefficients, and the quaternion in a result. *)
Definition same (a : quat) : rotor R := mkrotor (mk4 (qw a) (qx a) (qy a) (qz a)).
Definition of_rotor (r : rotor R) : m128 R :=
  let v := rotor_p1 r in mk4 (l1 v) (l2 v) (l3 v) (l0 v).
Definition qreg (a : quat) : m128 R := mk4 (qx a) (qy a) (qz a) (qw a).

Ltac on_R := cbv -[Rplus Rminus Rmult Rdiv Ropp IZR].
Ltac lanes4 := apply (f_equal Some); apply f_equal4.

Section Exact.
Variables (rcp rsqrt : R -> R) (sz : bool).
Let FR : Flo R := Flo_R rcp rsqrt sz.

Definition rtm_pool : list (string * m128 (word (F := R))) :=
  [(".LCPI0_0"%string, mk4 (Msk false) (Msk true) (Msk false) (Msk true));
   (".LCPI0_1"%string, mk4 (Msk false) (Msk false) (Msk true) (Msk true));
   (".LCPI0_2"%string, mk4 (Msk true) (Msk false) (Msk false) (Msk true))].

Lemma rtm_listing a b :
  ret_m128 (FL := FR) (call (FL := FR) rtm_pool rtm_rotor (qmem a) (qmem b)) = Some (of_rotor (rotor_mul_rotor (same a) (same b))).
Proof.
  destruct a as [ax ay az aw], b as [bx by' bz bw]. simulate rtm_rotor. on_R. lanes4; ring.
Qed.

Lemma glm_listing k a b : ret_floats (FL := FR) (call (FL := FR) k glm_rotor (qmem a) (qmem b)) = Some (qreg (hamilton a b)).
Proof.
  destruct a as [ax ay az aw], b as [bx by' bz bw]. simulate glm_rotor. on_R. lanes4; ring.
Qed.

Lemma hamilton_reversed a b : qreg (hamilton a b) = of_rotor (rotor_mul_rotor (same b) (same a)).
Proof. destruct a as [ax ay az aw], b as [bx by' bz bw]. on_R. apply f_equal4; ring. Qed.

Lemma hamilton_conj a b : same (qconj (hamilton a b)) = rotor_mul_rotor (same (qconj a)) (same (qconj b)).
Proof. destruct a as [ax ay az aw], b as [bx by' bz bw]. on_R. apply f_equal. apply f_equal4; ring. Qed.

(** [glm::mat3x4_cast(a) * b]: [q], [d] the halves of the dual quaternion. *)
Definition pure (v : quat) : quat := mkq (qx v) (qy v) (qz v) 0.
Definition turned (q v : quat) : quat := hamilton (hamilton q (pure v)) (qconj q).
Definition shift (q d : quat) : quat := hamilton d (qconj q).
Definition dot3 (a b : quat) : R := qx a * qx b + qy a * qy b + qz a * qz b.

Lemma glm_dual_listing q d b : qsq q <> 0 ->
  ret_floats (FL := FR) (call (FL := FR)
     [(".LC0"%string, mk4 (Msk true) (Msk false) (Msk false) (Msk false))] glm_motor
     (qmem q ++ qmem d) (qmem b)) =
  Some (mk4 (qx (turned (qconj q) b) / qsq q) (qy (turned (qconj q) b) / qsq q)
            (qz (turned (qconj q) b) / qsq q) (2 * dot3 (shift q d) b / qsq q)).
Proof.
  destruct q as [x y z w], d as [dx dy dz dw], b as [bx by' bz bw].
  intro N. simulate glm_motor. on_R.
  lanes4; field; exact N.
Qed.
End Exact.

(** "Semantically identical code": RTM's listing is the product of the rotors with the same
    coefficients, given its three sign masks (not printed). *)
Theorem C74_rtm : forall rcp rsqrt sz, exists k : list (string * m128 (word (F := R))),
  forall a b, ret_m128 (FL := Flo_R rcp rsqrt sz) (call (FL := Flo_R rcp rsqrt sz) k rtm_rotor (qmem a) (qmem b)) =
    Some (of_rotor (rotor_mul_rotor (same a) (same b))).
Proof. intros rcp rsqrt sz. exists rtm_pool. exact (rtm_listing rcp rsqrt sz). Qed.

(** GLM's is the quaternion product: the rotors with the same coefficients multiplied in the
    other order, equivalently the reverses in the same order. *)
Theorem C74_glm : forall rcp rsqrt sz k a b,
  ret_floats (FL := Flo_R rcp rsqrt sz) (call (FL := Flo_R rcp rsqrt sz) k glm_rotor (qmem a) (qmem b)) =
    Some (of_rotor (rotor_mul_rotor (same b) (same a))) /\
  same (qconj (hamilton a b)) = rotor_mul_rotor (same (qconj a)) (same (qconj b)).
Proof.
  intros rcp rsqrt sz k a b. split; [|exact (hamilton_conj a b)].
  rewrite <- (hamilton_reversed a b). apply glm_listing.
Qed.

Theorem C74_glm_same_order_refuted : forall rcp rsqrt sz k, exists a b, qsq a = 1 /\ qsq b = 1 /\
  ret_floats (FL := Flo_R rcp rsqrt sz) (call (FL := Flo_R rcp rsqrt sz) k glm_rotor (qmem a) (qmem b)) <>
    Some (of_rotor (rotor_mul_rotor (same a) (same b))).
Proof.
  intros rcp rsqrt sz k. exists (mkq 1 0 0 0), (mkq 0 1 0 0).
  split; [unfold qsq; cbn; lra|]. split; [unfold qsq; cbn; lra|]. rewrite glm_listing. on_R. intro H.
  injection H. intros. lra.
Qed.

(** The "dual quaternion application" of GLM returns the point turned by the inverse rotation
    and, as fourth component, the scalar product with the translation. *)
Theorem C74_glm_dual : forall rcp rsqrt sz q d b, qsq q <> 0 ->
  ret_floats (FL := Flo_R rcp rsqrt sz) (call (FL := Flo_R rcp rsqrt sz)
     [(".LC0"%string, mk4 (Msk true) (Msk false) (Msk false) (Msk false))] glm_motor
     (qmem q ++ qmem d) (qmem b)) =
  Some (mk4 (qx (turned (qconj q) b) / qsq q) (qy (turned (qconj q) b) / qsq q)
            (qz (turned (qconj q) b) / qsq q) (2 * dot3 (shift q d) b / qsq q)).
Proof. exact glm_dual_listing. Qed.

(** The rigid motion of a dual quaternion: turn, then shift. *)
Definition dq_apply (q d b : quat) : R * R * R :=
  let t := turned q b in let s := shift q d in
  ((qx t + 2 * qx s) / qsq q, (qy t + 2 * qy s) / qsq q, (qz t + 2 * qz s) / qsq q).
Definition xyz (r : option (m128 R)) : option (R * R * R) :=
  option_map (fun v => (l0 v, l1 v, l2 v)) r.

(** It ignores the translation and turns the wrong way round. *)
Theorem C74_glm_dual_refuted : forall rcp rsqrt sz,
  let listed q d b := xyz (ret_floats (FL := Flo_R rcp rsqrt sz) (call (FL := Flo_R rcp rsqrt sz)
     [(".LC0"%string, mk4 (Msk true) (Msk false) (Msk false) (Msk false))] glm_motor
     (qmem q ++ qmem d) (qmem b))) in
  (exists d b, listed (mkq 0 0 0 1) d b <> Some (dq_apply (mkq 0 0 0 1) d b) /\ qw d = 0 /\ qw b = 1) /\
  (exists q b, qsq q = 1 /\ listed q (mkq 0 0 0 0) b <> Some (dq_apply q (mkq 0 0 0 0) b) /\ qw b = 1) /\
  (forall q d d' b, qsq q <> 0 -> listed q d b = listed q d' b).
Proof.
  intros rcp rsqrt sz listed. unfold listed. split; [|split].
  - exists (mkq 1 0 0 0), (mkq 0 0 0 1). split; [|split; reflexivity].
    rewrite glm_dual_listing by (unfold qsq; cbn; lra). on_R. intro H. injection H. intros. lra.
  - exists (mkq 0 0 (3 / 5) (4 / 5)), (mkq 1 0 0 1). split; [unfold qsq; cbn; lra|]. split; [|reflexivity].
    rewrite glm_dual_listing by (unfold qsq; cbn; lra). on_R. intro H. injection H. intros. lra.
  - intros q d d' b N. rewrite !glm_dual_listing by exact N. reflexivity.
Qed.

(** Both listings on concrete operands. *)
Definition shown (r : option (m128 f32)) : option (m128 SpecFloat.spec_float) := option_map (map4 B2SF) r.
Example C74_ex : forall M : machine,
  shown (ret_m128 (FL := Flo_f32 M) (call (FL := Flo_f32 M) [] klein_rotor
     (map fz [1; 2; 3; 4]%Z) (map fz [5; 6; 7; 8]%Z))) =
  shown (Some (map4 fz (mk4 (-60) 20 14 32)%Z)) /\
  shown (ret_m128 (FL := Flo_f32 M)
    (call (FL := Flo_f32 M) [(".LCPI3_0"%string, mk4 (Flt (fz 0)) (Flt (fz 2)) (Flt (fz 2)) (Flt (fz 2)))] klein_motor
       (map fz [1; 0; 0; 1; 0; -1; 2; -3]%Z) (map fz [1; 3; 4; 5]%Z))) =
  shown (Some (map4 fz (mk4 2 6 (-12) 16)%Z)).
Proof. intro M. split; vm_compute; reflexivity. Qed.

Print Assumptions C74_rotor_composition.
Print Assumptions C74_motor_application.
Print Assumptions C74_rtm.
Print Assumptions C74_glm.
Print Assumptions C74_glm_same_order_refuted.
Print Assumptions C74_glm_dual.
Print Assumptions C74_glm_dual_refuted.
