(** Specification: the sum of the absolute values of the monomials of a product,
    i.e. the product formula of SpecPGA.v with every sign made positive. *)
From Coq Require Import Reals ZArith.
From Verif Require Import SpecPGA.
Local Open Scope R_scope.

Definition absmv (a : mv) : mv := fun k => Rabs (a k).
Definition mass (sel : blade -> blade -> Z) (a b : mv) : mv :=
  fun k => sum16 (fun i => smul (Z.abs (sel i (bxor i k))) (a i * b (bxor i k))).
Definition gp_mass (a b : mv) : mv := mass sgn (absmv a) (absmv b).
Definition ext_mass (a b : mv) : mv := mass (fun i j => if disjoint i j then sgn i j else 0%Z) (absmv a) (absmv b).
Definition dot_mass (a b : mv) : mv := mass (fun i j => if inner_grade i j then sgn i j else 0%Z) (absmv a) (absmv b).
Definition reg_mass (a b : mv) : mv := fun k => ext_mass (J a) (J b) (bcompl k).
Definition sandwich_mass (m x : mv) : mv := mass sgn (mass sgn (absmv m) (absmv x)) (absmv m).

(** it bounds the product *)
Lemma smul_mass s x y : Rabs (smul s (x * y)) = smul (Z.abs s) (Rabs x * Rabs y).
Proof. destruct s; cbn; rewrite ?Rabs_Ropp, ?Rabs_R0, ?Rabs_mult; reflexivity. Qed.
Lemma sum16_abs f : Rabs (sum16 f) <= sum16 (fun i => Rabs (f i)).
Proof.
  unfold sum16. induction all_blades as [|i l IH]; cbn; [rewrite Rabs_R0; apply Rle_refl|].
  eapply Rle_trans; [apply Rabs_triang|]. apply Rplus_le_compat_l. exact IH.
Qed.
Lemma gp_mass_bounds a b k : Rabs (gp a b k) <= gp_mass a b k.
Proof.
  unfold gp, gp_mass, mass. eapply Rle_trans; [apply sum16_abs|].
  apply Req_le. apply sum16_ext. intro i. apply smul_mass.
Qed.
