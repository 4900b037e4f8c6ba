(** Property C60, continued: what the symbolic tool prints can be read back.

    Full statement: for every multivector m in normal form,
    [parse num pga (print_mv m) = Val m].  It fails for the scalars 1 and -1
    (C60_unit_coefficient_refuted), for coefficients that are sums
    ("(a + b) e0") and for products and powers of variables ("2a e0", "a b e0",
    "a^2 e0": C60_unreadable_refuted).  It holds for everything else. *)
From Coq Require Import List Bool ZArith NArith String Ascii Lia Reals Lra Setoid Morphisms.
From Verif Require Import Scalar SpecPGA SymMap SymPoly SymPolyFacts SymGA SymGAFacts SymMVFacts SymPGA SymParse
  SymLexFacts SymParseFacts SymDen Props08 Props09.
Import ListNotations.
Local Open Scope string_scope.
Local Open Scope nat_scope.

Section P.
Context {C : Type} `{LAWS : CoefLaws C} (num : string -> C).
Variable show_f : C -> string.
Variable show_z : Z -> string.
Notation print_mv := (print_mv show_f show_z).
Notation print_mvterm := (print_mvterm show_f show_z).
Notation lex := (lex num).

(** a decimal number as the tokenizer takes it: digits and at most one point,
    at most 31 characters *)
Definition numeral (w : string) : Prop :=
  head_is isdigit w = true /\ all_chars numchar w = true /\ float_prefix w = w /\ String.length w < 32.
(** [show_f] writes c as a decimal number, with a minus sign if need be, that
    [num] reads back (no exponent, no lost digits) *)
Definition faithful (c : C) : Prop :=
  (numeral (show_f c) /\ num (show_f c) = c) \/
  (exists w, show_f c = "-" ++ w /\ numeral w /\ cval (num w) = (- cval c)%R).
(** a name the tokenizer takes for one identifier *)
Definition identifier (v : string) : Prop :=
  head_is isletter v = true /\ all_chars isalnum v = true /\ e_digit v = false.
(** the terms that can be read back: c e_I, where 1 and -1 need a blade, and
    v e_I, -v e_I for a variable v (of two characters or more, without a blade) *)
Inductive readable : N * poly C -> Prop :=
| rd_num e c : faithful c -> c <> fz 1 -> c <> fz (-1) -> readable (e, [([], c)])
| rd_unit e c : e <> 0%N -> c = fz 1 \/ c = fz (-1) -> readable (e, [([], c)])
| rd_var e v c : identifier v -> (e = 0%N -> String.length v <> 1) -> c = fz 1 \/ c = fz (-1) ->
    readable (e, [([(v, 1%Z)], c)]).

(** ** names of blades *)
Lemma blade_spelled e : (e < 16)%N -> e <> 0%N -> exists w, print_blade e = " " ++ w /\
  spells num (TElem e false) w.
Proof.
  intros L NZ.
  exists (String "e" (digits (filter (fun i => N.testbit e (N.of_nat i)) (seq 0 4)))).
  revert NZ. pattern e. apply lt16_cases; [..|exact L]; intro NZ; [contradiction| ..];
    (split; [reflexivity|]);
    match goal with |- spells _ _ (String _ (digits ?d)) => let ds := eval vm_compute in d in change d with ds;
      apply (sp_elem num ds) end;
    try discriminate; try (repeat constructor; cbn; intuition discriminate); cbn; intuition lia.
Qed.

(** text after a term: nothing, or a space *)
Definition after (s : string) : Prop := s = "" \/ exists r, s = String " " r.
Lemma after_head p s : p " "%char = false -> after s -> head_is p s = false.
Proof. intros P [->|[r ->]]; [reflexivity|exact P]. Qed.
Lemma append_assoc (a b c : string) : (a ++ b) ++ c = a ++ (b ++ c).
Proof. induction a; cbn; congruence. Qed.
Lemma append_nil (a : string) : a ++ "" = a.
Proof. induction a; cbn; congruence. Qed.

(** the blade after a coefficient or an identifier *)
Lemma lex_blade e s l : (e < 16)%N -> e <> 0%N -> after s -> lex s l -> lex (print_blade e ++ s) (TElem e false :: l).
Proof.
  intros L NZ A X. destruct (blade_spelled e L NZ) as [w [-> W]]. rewrite append_assoc. cbn [append].
  apply lex_space; [reflexivity|]. apply lex_token; [exact W| |exact X]. cbn. apply after_head; [reflexivity|exact A].
Qed.
Lemma blade_after e s : (e < 16)%N -> after s -> after (print_blade e ++ s).
Proof.
  intros L A. destruct (N.eq_dec e 0) as [->|NZ]; [exact A|]. destruct (blade_spelled e L NZ) as [w [-> W]].
  right. exists (w ++ s). reflexivity.
Qed.

(** ** one term *)
Definition reads (ep : N * poly C) (l : list (token C)) (x : ex C) : Prop :=
  (forall s r, after s -> lex s r -> lex (print_mvterm ep ++ s) (l ++ r)) /\
  ren 5 x l /\ value pga x = [ep].

Lemma opp_unit : fmul (fz 1 : C) (fz (-1)) = fz (-1). Proof. apply cval_inj. rewrite cval_mul, !cval_fz. ring. Qed.
Lemma ceqb_refl (c : C) : ceqb c c = true. Proof. apply ceqb_eq. reflexivity. Qed.
Lemma ceqb_ne (c d : C) : c <> d -> ceqb c d = false.
Proof. intro N. destruct (ceqb c d) eqn:E; [apply ceqb_eq in E; contradiction|reflexivity]. Qed.
Lemma one_ne : (fz 1 : C) <> fz (-1).
Proof. intro E. apply (f_equal cval) in E. rewrite !cval_fz in E. apply eq_IZR in E. discriminate. Qed.

Lemma spells_numeral w : numeral w -> spells num (TNum (num w)) w.
Proof. intros [A [B [D E]]]. apply sp_num; assumption. Qed.
(** a numeral and the blade after it *)
Lemma lex_num w e s r : numeral w -> (e < 16)%N -> after s -> lex s r ->
  lex (w ++ print_blade e ++ s) (TNum (num w) :: (if (e =? 0)%N then [] else [TElem e false]) ++ r).
Proof.
  intros W L A X. apply lex_token; [apply spells_numeral, W| |].
  - cbn. apply after_head; [reflexivity|]. apply blade_after; assumption.
  - destruct (N.eqb_spec e 0) as [->|NZ]; [exact X|]. apply lex_blade; assumption.
Qed.

Lemma term_reads ep : (fst ep < 16)%N -> readable ep -> exists l x, reads ep l x.
Proof.
  intros L R. destruct R as [e c F N1 N2|e c NZ U|e v c [I1 [I2 I3]] V U]; cbn [fst] in L.
  - assert (PT : print_mvterm (e, [([], c)]) = show_f c ++ print_blade e).
    { unfold SymGA.print_mvterm. cbn. rewrite (ceqb_ne _ _ N1), (ceqb_ne _ _ N2). cbn. rewrite !append_nil. reflexivity. }
    destruct F as [[W E]|[w [S [W E]]]].
    + exists (TNum c :: if (e =? 0)%N then [] else [TElem e false]), (if (e =? 0)%N then XNum c else XNumEl c e false).
      split; [|split].
      * intros s r A X. rewrite PT, append_assoc. rewrite <- E at 2. apply lex_num; assumption.
      * destruct (e =? 0)%N; constructor.
      * destruct (N.eqb_spec e 0) as [->|NZ]; reflexivity.
    + exists (TOp "-" :: TNum (num w) :: if (e =? 0)%N then [] else [TElem e false]),
        (XNeg (if (e =? 0)%N then XNum (num w) else XNumEl (num w) e false)).
      split; [|split].
      * intros s r A X. rewrite PT, S, !append_assoc. cbn [append app].
        apply (lex_token num (TOp "-") "-"); [constructor; reflexivity|exact Logic.I|]. apply lex_num; assumption.
      * constructor. destruct (e =? 0)%N; constructor.
      * assert (Q : fmul (num w) (fz (-1)) = c) by (apply cval_inj; rewrite cval_mul, cval_fz, E; ring).
        destruct (N.eqb_spec e 0) as [->|NZ]; cbn; unfold signed; rewrite Q; reflexivity.
  - destruct U as [->| ->].
    + exists [TElem e false], (XEl e false). split; [|split].
      * intros s r A X. unfold SymGA.print_mvterm. cbn [SymPoly.print_poly snd fst SymPoly.print_term List.length Nat.ltb Nat.leb map String.concat].
        rewrite (ceqb_ne _ _ one_ne), ceqb_refl. cbn [negb append]. apply lex_blade; assumption.
      * constructor.
      * reflexivity.
    + exists [TOp "-"; TElem e false], (XNeg (XEl e false)). split; [|split].
      * intros s r A X. unfold SymGA.print_mvterm. cbn [SymPoly.print_poly snd fst SymPoly.print_term List.length Nat.ltb Nat.leb map String.concat].
        rewrite ceqb_refl. cbn [append app].
        apply (lex_token num (TOp "-") "-"); [constructor; reflexivity|exact Logic.I|]. apply lex_blade; assumption.
      * repeat constructor.
      * cbn. rewrite opp_unit. reflexivity.
  - assert (PT : forall s, print_mvterm (e, [([(v, 1%Z)], c)]) ++ s =
        (if ceqb c (fz (-1)) then "-" else "") ++ v ++ print_blade e ++ s).
    { intro s. unfold SymGA.print_mvterm. cbn [SymPoly.print_poly snd fst SymPoly.print_term List.length Nat.ltb Nat.leb map String.concat SymPoly.print_factor Z.eqb].
      destruct U as [->| ->]; rewrite ?(ceqb_ne _ _ one_ne), ?ceqb_refl; cbn [negb append Pos.eqb]; rewrite ?append_nil, ?append_assoc; reflexivity. }
    assert (LX : forall s r, after s -> lex s r ->
      lex (v ++ print_blade e ++ s) (TId v :: (if (e =? 0)%N then [] else [TElem e false]) ++ r)).
    { intros s r A X. apply lex_token; [apply sp_id; assumption| |].
      - cbn. split; [apply after_head; [reflexivity|apply blade_after; assumption]|].
        intros V1 E. destruct (N.eq_dec e 0) as [->|NZ]; [exact (V eq_refl V1)|].
        destruct (blade_spelled e L NZ) as [w [Q _]]. rewrite Q in E. discriminate.
      - destruct (N.eqb_spec e 0) as [->|NZ]; [exact X|]. apply lex_blade; assumption. }
    set (x := if (e =? 0)%N then XId v else XIdEl v e false : ex C).
    set (tl := TId v :: (if (e =? 0)%N then [] else [TElem e false]) : list (token C)).
    assert (RX : ren 5 x tl) by (unfold x, tl; destruct (e =? 0)%N; constructor).
    assert (VX : value pga x = [(e, [([(v, 1%Z)], fz 1)])]).
    { unfold x. destruct (N.eqb_spec e 0) as [->|NZ]; reflexivity. }
    destruct U as [->| ->].
    + exists tl, x. split; [|split; assumption].
      intros s r A X. rewrite PT, (ceqb_ne _ _ one_ne). cbn [append]. apply LX; assumption.
    + exists (TOp "-" :: tl), (XNeg x). split; [|split].
      * intros s r A X. rewrite PT, ceqb_refl. cbn [append app].
        apply (lex_token num (TOp "-") "-"); [constructor; reflexivity|exact Logic.I|]. apply LX; assumption.
      * constructor. exact RX.
      * cbn [value]. rewrite VX. cbn. rewrite opp_unit. reflexivity.
Qed.

(** ** sums of terms *)
Definition tail (r : smv C) : string := String.concat "" (map (fun y => " + " ++ print_mvterm y) r).
Lemma concat_cons (a : string) l : String.concat "" (a :: l) = a ++ String.concat "" l.
Proof. destruct l; cbn; [rewrite append_nil|]; reflexivity. Qed.
Lemma tail_after r : after (tail r).
Proof. destruct r as [|t r]; [left; reflexivity|]. right. unfold tail. cbn [map]. rewrite concat_cons. eexists. reflexivity. Qed.
Lemma tail_reads r : (forall ep, In ep r -> (fst ep < 16)%N /\ readable ep) -> exists l, lex (tail r) l /\
  forall x k, ren 0 x k -> exists y, ren 0 y (k ++ l) /\
    value pga y = fold_left (fun a ep => smv_add a [ep]) r (value pga x).
Proof.
  induction r as [|t r IH]; intro RD.
  - exists []. split; [constructor|]. intros x k R. exists x. rewrite app_nil_r. split; [exact R|reflexivity].
  - destruct IH as [l [L IH]]; [intros ep I; apply RD; right; exact I|].
    destruct (RD t (or_introl eq_refl)) as [T16 TR]. destruct (term_reads t T16 TR) as [lt [xt [LX [RX VX]]]].
    exists (TOp "+" :: lt ++ l). split.
    + unfold tail. cbn [map]. rewrite concat_cons. cbn [append].
      apply lex_space; [reflexivity|]. apply (lex_token num (TOp "+") "+"); [constructor; reflexivity|exact Logic.I|].
      apply lex_space; [reflexivity|]. apply LX; [apply tail_after|exact L].
    + intros x k R. destruct (IH (XBin OAdd x xt) (app k (TOp "+" :: lt))) as [y [RY VY]].
      * apply (rn_bin OAdd); [exact R|]. apply (ren_lower 1 5); [lia|lia|exact RX].
      * exists y. rewrite <- app_assoc in RY. split; [exact RY|]. rewrite VY. cbn [fold_left value bop_sem]. rewrite VX. reflexivity.
Qed.

Lemma sum_normal (r : smv C) a : smv_normal 4 a -> (forall ep, In ep r -> smv_normal 4 [ep]) ->
  smv_normal 4 (fold_left (fun a ep => smv_add a [ep]) r a).
Proof.
  revert a. induction r as [|t r IH]; intros a A RN; [exact A|]. cbn [fold_left]. apply IH.
  - apply C52_normal; [exact A|]. apply RN. left. reflexivity.
  - intros ep I. apply RN. right. exact I.
Qed.
Lemma lin_cons rho t (r : smv C) k :
  lin rho (t :: r) k = (mvscale (peval rho (snd t)) (basis (bl (fst t))) k + lin rho r k)%R.
Proof. reflexivity. Qed.
Lemma lin_nil rho k : lin rho ([] : smv C) k = 0%R. Proof. reflexivity. Qed.
Lemma sum_eval rho (r : smv C) a : smv_normal 4 a -> keys16 r -> (forall ep, In ep r -> smv_normal 4 [ep]) ->
  pga_eval rho (fold_left (fun a ep => smv_add a [ep]) r a) == mvadd (pga_eval rho a) (pga_eval rho r).
Proof.
  revert a. induction r as [|t r IH]; intros a A K RN k.
  - cbn [fold_left]. unfold mvadd. rewrite (pga_eval_lin rho [] K k). cbn. unfold mvzero. ring.
  - cbn [fold_left]. rewrite IH.
    + assert (K1 : keys16 [t]) by (intros e p [I|[]]; apply (K e p); left; exact I).
      assert (K2 : keys16 r) by (intros e p I; apply (K e p); right; exact I).
      unfold mvadd. rewrite (pga_eval_add rho _ _ k). unfold mvadd.
      rewrite (pga_eval_lin rho (t :: r) K k), (pga_eval_lin rho [t] K1 k), (pga_eval_lin rho r K2 k).
      rewrite !lin_cons, lin_nil. ring.
    + apply C52_normal; [exact A|]. apply RN. left. reflexivity.
    + intros e p I. apply (K e p). right. exact I.
    + intros ep I. apply RN. right. exact I.
Qed.
Lemma term_normal (m : smv C) ep : smv_normal 4 m -> In ep m -> smv_normal 4 [ep].
Proof.
  intros [S N] I. destruct ep as [e0 p0]. split; [constructor; [intros k v []|constructor]|]. intros e p [E|[]]. inversion E; subst. exact (N e p I).
Qed.

(** what is printed is read back as the same multivector *)
Theorem C60_round_trip_partial (m : smv C) : smv_normal 4 m -> m <> [] -> (forall ep, In ep m -> readable ep) ->
  parse num pga (print_mv m) = Val m.
Proof.
  intros NM NE RD. pose proof (normal_keys m NM) as K.
  destruct m as [|t r]; [contradiction|].
  assert (T16 : (fst t < 16)%N) by (destruct t as [e p]; apply (K e p); left; reflexivity).
  destruct (term_reads t T16 (RD t (or_introl eq_refl))) as [lt [xt [LX [RX VX]]]].
  destruct (tail_reads r) as [l [L TR]].
  { intros [e p] I. split; [apply (K e p); right; exact I|apply RD; right; exact I]. }
  destruct (TR xt lt) as [y [RY VY]]; [apply (ren_lower 0 5); [lia|lia|exact RX]|].
  assert (LP : lex (print_mv (t :: r)) (app lt l)) by (apply LX; [apply tail_after|exact L]).
  unfold parse, tokenize. rewrite (lex_tokenize num _ _ _ LP) by lia. cbn [bind].
  rewrite (C56_parse pga y _ RY), VY, VX. f_equal.
  assert (TN : forall ep, In ep (t :: r) -> smv_normal 4 [ep]) by (intros ep; apply term_normal; exact NM).
  assert (TR' : forall ep, In ep r -> smv_normal 4 [ep]) by (intros ep I; apply TN; right; exact I).
  assert (T1 : smv_normal 4 [t]) by (apply TN; left; reflexivity).
  apply C52_unique; [apply sum_normal; assumption|exact NM|].
  intros rho NZ k. rewrite (sum_eval rho r [t] T1) by (assumption || (intros e p I; apply (K e p); right; exact I)).
  unfold mvadd. rewrite (pga_eval_lin rho (t :: r) K k).
  rewrite (pga_eval_lin rho [t] (normal_keys _ T1) k), (pga_eval_lin rho r) by (intros e p I; apply (K e p); right; exact I).
  rewrite !lin_cons, lin_nil. ring.
Qed.
(** so such multivectors can be told apart by what is printed *)
Theorem C60_injective_partial (m n : smv C) : smv_normal 4 m -> smv_normal 4 n -> m <> [] -> n <> [] ->
  (forall ep, In ep m -> readable ep) -> (forall ep, In ep n -> readable ep) ->
  print_mv m = print_mv n -> m = n.
Proof.
  intros A B NA NB RA RB E. apply C60_round_trip_partial in RA; [|assumption|assumption].
  apply C60_round_trip_partial in RB; [|assumption|assumption]. rewrite E, RB in RA. congruence.
Qed.
End P.

(** ** integer coefficients *)
Section Shown.
Local Open Scope Z_scope.
Fixpoint dec_digits (fuel : nat) (n : Z) (acc : string) : string :=
  match fuel with
  | O => acc
  | S k => let acc := String (ascii_of_nat (48 + Z.to_nat (n mod 10))) acc in
           if n <? 10 then acc else dec_digits k (n / 10) acc
  end.
(** operator<< of an integral float below 10^6 and of an int *)
Definition show (n : Z) : string :=
  if n <? 0 then "-" ++ dec_digits 7 (- n) "" else dec_digits 7 n "".

Notation digit n := (ascii_of_nat (48 + Z.to_nat (n mod 10))).
Lemma digit_is n : isdigit (digit n) = true /\ Z.of_nat (digit_val (digit n)) = n mod 10.
Proof.
  pose proof (Z.mod_pos_bound n 10 ltac:(lia)) as B. revert B. generalize (n mod 10). intros d B.
  assert (d = 0 \/ d = 1 \/ d = 2 \/ d = 3 \/ d = 4 \/ d = 5 \/ d = 6 \/ d = 7 \/ d = 8 \/ d = 9) as D by lia.
  repeat destruct D as [->|D]; try (split; reflexivity). subst d. split; reflexivity.
Qed.
Lemma dec_dec_digits k : forall n s, 0 <= n < 10 ^ Z.of_nat (S k) ->
  Examples.dec 0 (dec_digits (S k) n s) = Examples.dec n s.
Proof.
  induction k as [|k IH]; intros n s B; cbn [dec_digits]; destruct (digit_is n) as [D1 D2].
  - change (10 ^ Z.of_nat 1) with 10 in B. rewrite (proj2 (Z.ltb_lt n 10)) by lia.
    cbn [Examples.dec]. rewrite D1, D2, Z.mod_small by lia. reflexivity.
  - destruct (Z.ltb_spec n 10) as [L|L].
    + cbn [Examples.dec]. rewrite D1, D2, Z.mod_small by lia. reflexivity.
    + change (Examples.dec 0 (dec_digits (S k) (n / 10) (String (digit n) s)) = Examples.dec n s). rewrite IH.
      * cbn [Examples.dec]. rewrite D1, D2. f_equal. pose proof (Z.div_mod n 10 ltac:(lia)). lia.
      * rewrite Nat2Z.inj_succ, Z.pow_succ_r in B by lia. split; [apply Z.div_pos; lia|].
        apply Z.div_lt_upper_bound; lia.
Qed.
Lemma dec_digits_all k : forall n s, all_chars isdigit s = true ->
  all_chars isdigit (dec_digits k n s) = true /\ (String.length (dec_digits k n s) <= k + String.length s)%nat.
Proof.
  induction k as [|k IH]; intros n s A; cbn [dec_digits]; [split; [exact A|lia]|].
  assert (A' : all_chars isdigit (String (digit n) s) = true).
  { cbn [all_chars]. rewrite (proj1 (digit_is n)). exact A. }
  destruct (n <? 10); [split; [exact A'|cbn; lia]|]. destruct (IH (n / 10) _ A') as [I1 I2]. split; [exact I1|].
  cbn [String.length] in I2. lia.
Qed.
Lemma dec_digits_head k : forall n s, head_is isdigit (dec_digits (S k) n s) = true.
Proof.
  induction k as [|k IH]; intros n s; cbn [dec_digits]; destruct (n <? 10); try (cbn; apply digit_is). apply IH.
Qed.
Lemma digits_numeral s : head_is isdigit s = true -> all_chars isdigit s = true -> (String.length s < 32)%nat -> numeral s.
Proof.
  intros Hd A L. split; [exact Hd|]. clear Hd. split; [|split; [|exact L]]; clear L.
  - induction s as [|c s IH]; [reflexivity|]. cbn [all_chars] in *. apply andb_true_iff in A. destruct A as [A1 A2].
    rewrite (IH A2). unfold numchar. rewrite A1. reflexivity.
  - induction s as [|c s IH]; [reflexivity|]. cbn [all_chars float_prefix] in *. apply andb_true_iff in A. destruct A as [A1 A2].
    rewrite A1, (IH A2). reflexivity.
Qed.
(** every integer of at most six digits is shown faithfully *)
Theorem C60_integers_shown n : Z.abs n < 10 ^ 6 -> faithful Examples.num show n.
Proof.
  intro B. assert (NM : forall k, numeral (dec_digits 7 k "")).
  { intro k. destruct (dec_digits_all 7 k "" eq_refl) as [A L]. apply digits_numeral; [apply dec_digits_head|exact A|cbn [String.length] in L; lia]. }
  assert (V : forall k, 0 <= k < 10 ^ 6 -> Examples.num (dec_digits 7 k "") = k).
  { intros k K. unfold Examples.num. rewrite dec_dec_digits; [reflexivity|]. cbn in *. lia. }
  unfold show. destruct (Z.ltb_spec n 0) as [L|L].
  - right. exists (dec_digits 7 (- n) ""). unfold show. rewrite (proj2 (Z.ltb_lt n 0)) by lia. split; [reflexivity|]. split; [apply NM|].
    rewrite V by lia. cbn. apply opp_IZR.
  - left. unfold show. rewrite (proj2 (Z.ltb_ge n 0)) by lia. split; [apply NM|apply V; lia].
Qed.
Definition shown_m : smv Z := [(0%N, [([], 25)]); (1%N, [([("ab", 1)], -1)]); (3%N, [([], 1)]); (5%N, [([], -307)]); (15%N, [([("x", 1)], 1)])].
Example shown_ex : print_mv show show shown_m = "25 + -ab e0 +  e01 + -307 e02 + x e0123". Proof. reflexivity. Qed.

Ltac sorts :=
  repeat (constructor; [cbn; intros; repeat match goal with H : _ \/ _ |- _ => destruct H end; try contradiction;
            match goal with H : _ = _ |- _ => inversion H; subst; reflexivity end|]); constructor.
Ltac normal_mv :=
  split; [sorts|];
  cbn; intros; repeat match goal with H : _ \/ _ |- _ => destruct H end; try contradiction;
  match goal with H : _ = _ |- _ => inversion H; subst; clear H end;
  (split; [|split; [discriminate|reflexivity]]);
  (split; [sorts|]);
  cbn; intros ? ? [E|[]]; inversion E; subst;
  (split; [split; [sorts|cbn; intros ? ? I;
     repeat destruct I as [I|I]; try contradiction; inversion I; subst; discriminate]|cbn; apply IZR_neq; discriminate]).
Example shown_m_normal : smv_normal 4 shown_m.
Proof. normal_mv. Qed.
(** integer multivectors, for all coefficients of at most six digits *)
Theorem C60_integers_round_trip_partial (m : smv Z) : smv_normal 4 m -> m <> [] ->
  (forall e p, In (e, p) m ->
     (exists c, p = [([], c)] /\ Z.abs c < 10 ^ 6 /\ (e = 0%N -> c <> 1 /\ c <> -1)) \/
     (exists v c, p = [([(v, 1)], c)] /\ (c = 1 \/ c = -1) /\ identifier v /\ (e = 0%N -> String.length v <> 1%nat))) ->
  parse Examples.num pga (print_mv show show m) = Val m.
Proof.
  intros NM NE T. apply C60_round_trip_partial; [exact NM|exact NE|]. intros [e p] I.
  destruct (T e p I) as [[c [-> [B U]]]|[v [c [-> [U [V1 V2]]]]]].
  - destruct (Z.eq_dec c 1) as [->|N1].
    + apply rd_unit; [intro E; apply U in E; lia|left; reflexivity].
    + destruct (Z.eq_dec c (-1)) as [->|N2].
      * apply rd_unit; [intro E; apply U in E; lia|right; reflexivity].
      * apply rd_num; [apply C60_integers_shown; exact B|exact N1|exact N2].
  - apply rd_var; assumption.
Qed.
Example shown_m_meets : forall e p, In (e, p) shown_m ->
  (exists c, p = [([], c)] /\ Z.abs c < 10 ^ 6 /\ (e = 0%N -> c <> 1 /\ c <> -1)) \/
  (exists v c, p = [([(v, 1)], c)] /\ (c = 1 \/ c = -1) /\ identifier v /\ (e = 0%N -> String.length v <> 1%nat)).
Proof.
  cbn. intros e p I.
  destruct I as [I|[I|[I|[I|[I|[]]]]]]; inversion I; subst; clear I.
  - left. exists 25. repeat split; lia.
  - right. exists "ab", (-1). repeat split; auto; discriminate.
  - left. exists 1. repeat split; lia || discriminate.
  - left. exists (-307). repeat split; lia || discriminate.
  - right. exists "x", 1. repeat split; auto; discriminate.
Qed.
(** what is printed for other multivectors is refused, or read as another one
    without complaint: 1 + 2 e0 as 2 e0, -1 + 2 e0 as -2 e0, x^2 e0 as 2 x e0 *)
Theorem C60_unreadable_refuted :
  (exists m n : smv Z, smv_normal 4 m /\ parse Examples.num pga (print_mv show show m) = Val n /\ m <> n /\
     print_mv show show m = " + 2 e0" /\ n = [(1%N, [([], 2)])]) /\
  (exists m n : smv Z, smv_normal 4 m /\ parse Examples.num pga (print_mv show show m) = Val n /\ m <> n /\
     print_mv show show m = "- + 2 e0" /\ n = [(1%N, [([], -2)])]) /\
  (exists m n : smv Z, smv_normal 4 m /\ parse Examples.num pga (print_mv show show m) = Val n /\ m <> n /\
     print_mv show show m = "x^2 e0" /\ n = [(1%N, [([("x", 1)], 2)])]) /\
  (exists m : smv Z, smv_normal 4 m /\ print_mv show show m = "2x e0" /\
     parse Examples.num pga (print_mv show show m) = Throw) /\
  (exists m : smv Z, smv_normal 4 m /\ print_mv show show m = "x y e0" /\
     parse Examples.num pga (print_mv show show m) = Throw).
Proof.
  repeat match goal with |- _ /\ _ => split end.
  - exists [(0%N, [([], 1)]); (1%N, [([], 2)])], [(1%N, [([], 2)])].
    split; [normal_mv|]. repeat split; discriminate.
  - exists [(0%N, [([], -1)]); (1%N, [([], 2)])], [(1%N, [([], -2)])].
    split; [normal_mv|]. repeat split; discriminate.
  - exists [(1%N, [([("x", 2)], 1)])], [(1%N, [([("x", 1)], 2)])].
    split; [normal_mv|]. repeat split; discriminate.
  - exists [(1%N, [([("x", 1)], 2)])]. split; [normal_mv|]. split; reflexivity.
  - exists [(1%N, [([("x", 1); ("y", 1)], 1)])]. split; [|split; reflexivity].
    normal_mv.
Qed.
End Shown.

Print Assumptions C60_round_trip_partial.
Print Assumptions C60_injective_partial.
Print Assumptions C60_integers_shown.
Print Assumptions C60_integers_round_trip_partial.
Print Assumptions C60_unreadable_refuted.
