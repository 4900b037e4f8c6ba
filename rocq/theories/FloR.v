(** Exact real arithmetic: what the helpers of x86_sse.hpp compute. *)
From Coq Require Import Reals ZArith Lra.
From Verif Require Import Scalar SSE.
Local Open Scope R_scope.

(** one lane of rcp_nr1 / rsqrt_nr1 *)
Definition nr_rcp (rcp : R -> R) (x : R) : R := rcp x * (2 - x * rcp x).
Definition nr_rsqrt (rsqrt : R -> R) (x : R) : R :=
  1 / 2 * rsqrt x * (3 - x * (rsqrt x * rsqrt x)).

Lemma nr_rcp_exact rcp x : exact_rcp rcp -> x <> 0 -> nr_rcp rcp x = / x.
Proof. intros H K. unfold nr_rcp. rewrite H by exact K. field. exact K. Qed.
Lemma nr_rsqrt_exact rsqrt x : exact_rsqrt rsqrt -> 0 < x -> nr_rsqrt rsqrt x = / sqrt x.
Proof.
  intros H K. unfold nr_rsqrt. rewrite H by exact K.
  assert (S := sqrt_lt_R0 x K).
  replace x with (sqrt x * sqrt x) at 2 by (apply sqrt_sqrt; lra).
  field. lra.
Qed.

Definition dot3 (a b : m128 R) : R := l1 a * l1 b + l2 a * l2 b + l3 a * l3 b.
Definition dot4 (a b : m128 R) : R := l0 a * l0 b + l1 a * l1 b + l2 a * l2 b + l3 a * l3 b.

Section X.
Context (B : Build).
Lemma hi_dp_bc_R (a b : m128 R) : hi_dp_bc a b = _mm_set1_ps (dot3 a b).
Proof.
  destruct a, b, B as [[|]]; cbv -[Rplus Rmult Rminus Ropp IZR]; f_equal; ring.
Qed.
Lemma dp_bc_R (a b : m128 R) : dp_bc a b = _mm_set1_ps (dot4 a b).
Proof.
  destruct a, b, B as [[|]]; cbv -[Rplus Rmult Rminus Ropp IZR]; f_equal; ring.
Qed.
Lemma hi_dp_l0_R (a b : m128 R) : l0 (hi_dp a b) = dot3 a b.
Proof. destruct a, b, B as [[|]]; cbv -[Rplus Rmult Rminus Ropp IZR]; ring. Qed.
Lemma hi_dp_ss_l0_R (a b : m128 R) : l0 (hi_dp_ss a b) = dot3 a b.
Proof. destruct a, b; cbv -[Rplus Rmult Rminus Ropp IZR]; ring. Qed.
Lemma dp_l0_R (a b : m128 R) : l0 (dp a b) = dot4 a b.
Proof. destruct a, b, B as [[|]]; cbv -[Rplus Rmult Rminus Ropp IZR]; ring. Qed.
End X.

Section Y.
Context (rcp rsqrt : R -> R) (sz : bool).
Lemma rcp_nr1_R v : @rcp_nr1 R (Flo_R rcp rsqrt sz) v = map4 (nr_rcp rcp) v.
Proof. destruct v; reflexivity. Qed.
Lemma rsqrt_nr1_R v : @rsqrt_nr1 R (Flo_R rcp rsqrt sz) v = map4 (nr_rsqrt rsqrt) v.
Proof. destruct v; reflexivity. Qed.
Lemma sqrt_nr1_R v :
  @sqrt_nr1 R (Flo_R rcp rsqrt sz) v = map4 (fun x => x * nr_rsqrt rsqrt x) v.
Proof. destruct v; reflexivity. Qed.
End Y.
