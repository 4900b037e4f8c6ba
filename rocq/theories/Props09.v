(** Properties of the expression parser of the symbolic tool
    (/repo/sym/parser.cpp), of the line loop (/repo/sym/repl.cpp) and of the
    printing of multivectors: C53 - C58, C60, C63. *)
From Coq Require Import List Bool ZArith NArith String Ascii Lia Reals Setoid Morphisms.
From Verif Require Import Scalar SpecPGA SymMap SymPoly SymPolyFacts SymGA SymGAFacts SymMVFacts SymPGA SymParse
  SymLexFacts SymParseFacts SymDen Props08.
Import ListNotations.
Local Open Scope nat_scope.

Section Props.
Context {C : Type} `{LAWS : CoefLaws C} (num : string -> C).

(** ** C53: the tokenizer terminates *)
(** the loop returns after finitely many iterations: with a result, an
    exception or undefined behaviour *)
Definition returns (s : string) : Prop := exists n, tokenize_loop num n s <> Fuel.
(** one iteration per character and one more settle the matter, and a larger
    bound does not change the result *)
Theorem C53_bound s n : (returns s <-> tokenize num s <> Fuel) /\
  (tokenize num s <> Fuel -> String.length s < n -> tokenize_loop num n s = tokenize num s).
Proof.
  split; [split|].
  - intros [k K] F. apply K. apply tokenize_decides. assumption.
  - intro T. exists (S (String.length s)). exact T.
  - apply tokenize_more.
Qed.
(** it returns on every text of spaces, operators, parentheses, letters and
    digits that does not end in a letter *)
Theorem C53_terminates_partial s : all_chars lexable s = true -> last_is isletter s = false -> returns s.
Proof. intros A L. exists (S (String.length s)). exact (tokenize_terminates num s A L). Qed.
(** in particular if a space is added at the end *)
Theorem C53_trailing_space_partial s : all_chars lexable s = true -> returns (s ++ " ").
Proof.
  intro A. apply C53_terminates_partial; [rewrite all_chars_app, A; reflexivity|].
  rewrite last_is_app by discriminate. reflexivity.
Qed.
(** it does not return on "a" *)
Theorem C53_refuted : exists s, ~ returns s.
Proof. exists "a"%string. intros [n N]. apply N. apply stuck_fuel. reflexivity. Qed.
(** nor when a single letter is the last token, whatever operators, parentheses
    and spaces come before it, nor from a character outside the alphabet on *)
Definition separator (c : ascii) : bool := isspace c || isdelim c || isop c.
Lemma sep_step c s n : separator c = true ->
  tokenize_loop num (S n) (String c s) = Fuel <-> tokenize_loop num n s = Fuel.
Proof.
  intro S. unfold separator in S. cbn [tokenize_loop].
  destruct (isspace c) eqn:A.
  { pose proof (class_space c A). ands. rwb. cbn [negb]. reflexivity. }
  destruct (isdelim c) eqn:B.
  { pose proof (class_delim c B). ands. rwb. cbn [negb]. rewrite bind_Fuel. split; [intros [F|[v [_ F]]]; [assumption|discriminate]|auto]. }
  destruct (isop c) eqn:D; [|discriminate].
  pose proof (class_op c D). ands. rwb. cbn [negb]. rewrite bind_Fuel.
  split; [intros [F|[v [_ F]]]; [assumption|discriminate]|auto].
Qed.
Lemma sep_fuel w s : all_chars separator w = true -> (forall n, tokenize_loop num n s = Fuel) ->
  forall n, tokenize_loop num n (w ++ s) = Fuel.
Proof.
  intros A F. induction w as [|c w IH]; [exact F|]. intros [|n]; [reflexivity|].
  cbn [all_chars] in A. ands. cbn [append]. apply sep_step; auto.
Qed.
Theorem C53_single_letter_hangs w c : all_chars separator w = true -> isletter c = true ->
  ~ returns (w ++ String c "").
Proof.
  intros A L [n N]. apply N. apply sep_fuel; [assumption|]. intro m. apply stuck_fuel.
  unfold isletter in L. ands. pose proof (class_alnum c ltac:(assumption)). ands. cbn [stuck]. rwb. reflexivity.
Qed.
Theorem C53_foreign_character_hangs w c s : all_chars separator w = true ->
  ascii7 c = true -> lexable c = false -> c <> "000"%char -> ~ returns (w ++ String c s).
Proof.
  intros A C7 L Z [n N]. apply N. apply sep_fuel; [assumption|]. intro m. apply stuck_fuel.
  unfold lexable in L. apply orb_false_iff in L. destruct L as [L AN]. apply orb_false_iff in L. destruct L as [L OP].
  apply orb_false_iff in L. destruct L as [SP DE].
  assert (DI : isdigit c = false) by (destruct (isdigit c) eqn:D; [|reflexivity]; unfold isalnum in AN; rewrite D in AN; discriminate).
  apply Ascii.eqb_neq in Z. cbn [stuck]. rewrite C7, SP, DE, OP, Z, DI, AN. destruct s; reflexivity.
Qed.

(** ** C54: the number buffer *)
(** the run of digits and dots at the front of a text *)
Definition run (s : string) : string := fst (span numchar s).
(** an exact account of the copy into the 32-byte buffer: it stays inside iff the
    run has at most 31 characters (and, for <cctype>, the character after it is
    ASCII); then the buffer holds the run *)
Theorem C54_exact s :
  (String.length (run s) < 32 /\ head_is (fun c => negb (ascii7 c)) (snd (span numchar s)) = false ->
   num_scan s 0 = Val (run s)) /\
  (32 <= String.length (run s) \/ head_is (fun c => negb (ascii7 c)) (snd (span numchar s)) = true ->
   num_scan s 0 = Undef).
Proof.
  rewrite num_scan_exact. unfold run. destruct (Nat.ltb_spec (String.length (fst (span numchar s))) 32), (head_is _ _); cbn; split; intuition (lia || congruence).
Qed.
(** no undefined behaviour anywhere in the tokenizer on ASCII text whose runs of
    digits and dots are shorter than 32 *)
Theorem C54_defined_partial n s : all_chars ascii7 s = true ->
  (forall u t, s = (u ++ t)%string -> String.length (run t) < 32) -> tokenize_loop num n s <> Undef.
Proof. intros A R. apply tokenize_defined; [assumption|exact R]. Qed.
(** 32 digits in a row overflow the buffer *)
Theorem C54_overflow_refuted : exists s, all_chars isdigit s = true /\ String.length s = 32 /\
  forall n, tokenize_loop num (S n) s = Undef.
Proof. exists "12345678901234567890123456789012"%string. split; [reflexivity|]. split; [reflexivity|]. intro n. reflexivity. Qed.
(** the exception meant for long numbers is never thrown *)
Theorem C54_no_exception s : num_scan s 0 <> Throw.
Proof. rewrite num_scan_exact. destruct (_ && _); discriminate. Qed.

(** ** C55: basis elements *)
(** the word e<digits>, digits 0 to 7 without repetition: the token holds the set
    of the indices and the parity of the number of pairs out of order *)
Theorem C55_element_partial ds s n : ds <> [] -> NoDup ds -> (forall d, In d ds -> d < 8) ->
  head_is isdigit s = false -> head_is (fun c => negb (ascii7 c)) s = false ->
  tokenize_loop num (S n) (String "e" (digits ds ++ s)) =
  bind (tokenize_loop num n s) (fun l => Val (TElem (idx_set ds) (Nat.odd (inversions ds)) :: l)).
Proof.
  intros NE ND L D A. destruct ds as [|d ds]; [contradiction|].
  pose proof (elem_scan_digits (C := C) (d :: ds) [] s ND L D A) as E. cbn [app] in E.
  assert (DL : d < 10) by (specialize (L d (or_introl eq_refl)); lia).
  destruct (digit_class d DL) as [D1 [D2 _]].
  change (digits (d :: ds) ++ s)%string with (String (digit d) (digits ds ++ s)) in *.
  cbn [tokenize_loop].
  change (ascii7 "e") with true. change (isspace "e") with false. change (isdelim "e") with false.
  change (Ascii.eqb "e" "000") with false. change (isop "e") with false. change (isdigit "e") with false.
  change (Ascii.eqb "e" "e") with true. cbn [negb]. cbv iota. rewrite D1, D2. cbn [negb]. cbv iota.
  change (idx_set []) with 0%N in E. change (Nat.odd (inversions [])) with false in E. rewrite E. reflexivity.
Qed.
(** this is the product of the generators in the order written *)
Theorem C55_product_partial a ds : (alg_dim a <= 8) -> NoDup ds -> (forall d, In d ds -> d < alg_dim a) ->
  fold_right (fun d x => lift (alg_mul a) (Some (false, gen d)) x) (Some (false, 0%N)) ds =
  Some (Nat.odd (inversions ds), idx_set ds).
Proof.
  intros D N L. induction ds as [|d ds IH]; [reflexivity|]. cbn [fold_right].
  inversion N as [|x y NI ND]; subst.
  assert (LD : forall x, In x ds -> x < alg_dim a) by (intros x X; apply L; right; assumption).
  rewrite IH by assumption.
  assert (GI : blade_in a (gen d)) by (apply pow2_lt; apply L; left; reflexivity).
  assert (GS : blade_in a (idx_set ds)) by (apply idx_set_lt; assumption).
  cbn [lift]. rewrite read_mul by assumption. unfold mnull, msign, gen.
  rewrite nls_pow2_l, swp_pow2_l, ngs_pow2_l, tb_idx_set, existsb_nIn by assumption.
  rewrite par_idx_set by assumption. rewrite <- lor_lxor by (apply land_pow2; assumption).
  assert (IB : (d <? alg_dim a) = true) by (apply Nat.ltb_lt; apply L; left; reflexivity). rewrite IB. cbn [andb].
  change (idx_set (d :: ds)) with (N.lor (2 ^ N.of_nat d) (idx_set ds)). do 2 f_equal.
  cbn [inversions]. rewrite Nat.odd_add. destruct (Nat.odd (inversions ds)), (Nat.odd _); reflexivity.
Qed.
(** repeated indices are rejected *)
Theorem C55_duplicate_partial ds s n : (forall d, In d ds -> d < 8) -> ~ NoDup ds ->
  tokenize_loop num (S n) (String "e" (digits ds ++ s)) = Throw.
Proof.
  intros L ND. destruct ds as [|d ds]; [elim ND; constructor|].
  pose proof (elem_scan_duplicate (C := C) (d :: ds) [] false s (NoDup_nil _) L ND) as E.
  assert (DL : d < 10) by (specialize (L d (or_introl eq_refl)); lia).
  destruct (digit_class d DL) as [D1 [D2 _]].
  change (digits (d :: ds) ++ s)%string with (String (digit d) (digits ds ++ s)) in *.
  cbn [tokenize_loop].
  change (ascii7 "e") with true. change (isspace "e") with false. change (isdelim "e") with false.
  change (Ascii.eqb "e" "000") with false. change (isop "e") with false. change (isdigit "e") with false.
  change (Ascii.eqb "e" "e") with true. cbn [negb]. cbv iota. rewrite D1, D2. cbn [negb]. cbv iota.
  change (idx_set []) with 0%N in E. rewrite E. reflexivity.
Qed.
(** indices 8 and 9 are lost (e8 is read as the scalar 1, e88 is accepted) and
    indices outside the algebra are not rejected: e5 in P(R*_{3,0,1}) *)
Theorem C55_high_digits_refuted :
  tokenize num "e8" = Val [TElem 0 false; TEof] /\ tokenize num "e88" = Val [TElem 0 false; TEof] /\
  tokenize num "e19" = tokenize num "e1".
Proof. repeat split. Qed.
Theorem C55_out_of_range_refuted : exists v, parse num pga "e5" = Val v /\ ~ keys16 v.
Proof.
  exists [(32%N, [([], fz 1)])]. split; [reflexivity|]. intro K.
  specialize (K _ _ (or_introl eq_refl)). discriminate.
Qed.

(** ** C56: precedence and meaning *)
(** every rendering of a tree is parsed to the value of the tree, in every algebra *)
Theorem C56_parse a (e : ex C) l : ren 0 e l -> parse_tokens a (l ++ [TEof]) = Val (value a e).
Proof.
  intro R. unfold parse_tokens. rewrite app_length. cbn [List.length].
  rewrite (parse_ren a e l [TEof]); [reflexivity|assumption|exact I|lia|lia].
Qed.
(** what is accepted is a rendering, up to the point where parsing stops *)
Theorem C56_sound a l v : parse_tokens a l = Val v ->
  exists (e : ex C) pre rest, l = pre ++ rest /\ ren 0 e pre /\ value a e = v.
Proof.
  intro E. unfold parse_tokens in E. apply bind_Val in E. destruct E as [[w rest] [E1 E2]]. inversion E2; subst.
  destruct (parse_sound a _ _ _ _ _ E1) as [e [pre [-> [R V]]]]. exists e, pre, rest. repeat split; assumption.
Qed.
(** the grammar is unambiguous as far as values go *)
Theorem C56_unambiguous a (e f : ex C) l : ren 0 e l -> ren 0 f l -> value a e = value a f.
Proof.
  intros R1 R2. apply (C56_parse a) in R1. apply (C56_parse a) in R2. congruence.
Qed.
(** precedence and associativity of two neighbouring operators: the tighter one
    first, the left one first among equals *)
Lemma ren_lower (k j : nat) (e : ex C) l : k <= j -> j <= 5 -> ren j e l -> ren k e l.
Proof.
  intros L J R. induction j as [|j IH].
  - replace k with 0 by lia. assumption.
  - destruct (Nat.eq_dec k (S j)) as [->|NE]; [assumption|]. apply IH; [lia|lia|]. apply rn_up; [lia|assumption].
Qed.
Lemma bop_level_lt o : bop_level o < 5. Proof. destruct o; cbn; lia. Qed.
Theorem C56_precedence a o1 o2 (e f g : ex C) le lf lg : ren 5 e le -> ren 5 f lf -> ren 5 g lg ->
  parse_tokens a (le ++ TOp (bop_char o1) :: lf ++ TOp (bop_char o2) :: lg ++ [TEof]) =
  Val (if bop_level o1 <? bop_level o2
       then bop_sem a o1 (value a e) (bop_sem a o2 (value a f) (value a g))
       else bop_sem a o2 (bop_sem a o1 (value a e) (value a f)) (value a g)).
Proof.
  intros R1 R2 R3. pose proof (bop_level_lt o1). pose proof (bop_level_lt o2).
  replace (le ++ TOp (bop_char o1) :: lf ++ TOp (bop_char o2) :: lg ++ [TEof]) with
    ((le ++ TOp (bop_char o1) :: lf ++ TOp (bop_char o2) :: lg) ++ [TEof])
    by (rewrite <- app_assoc; cbn [app]; rewrite <- app_assoc; reflexivity).
  destruct (Nat.ltb_spec (bop_level o1) (bop_level o2)) as [L|L].
  - rewrite (C56_parse a (XBin o1 e (XBin o2 f g))); [reflexivity|].
    apply (ren_lower 0 (bop_level o1)); [lia|lia|]. apply rn_bin.
    + apply (ren_lower _ 5); [lia|lia|assumption].
    + apply (ren_lower _ (bop_level o2)); [lia|lia|]. apply rn_bin; apply (ren_lower _ 5); lia || assumption.
  - rewrite (C56_parse a (XBin o2 (XBin o1 e f) g)); [reflexivity|].
    apply (ren_lower 0 (bop_level o2)); [lia|lia|].
    replace (le ++ TOp (bop_char o1) :: lf ++ TOp (bop_char o2) :: lg) with
      ((le ++ TOp (bop_char o1) :: lf) ++ TOp (bop_char o2) :: lg) by (rewrite <- app_assoc; reflexivity).
    apply rn_bin; [|apply (ren_lower _ 5); lia || assumption].
    apply (ren_lower _ (bop_level o1)); [lia|lia|]. apply rn_bin; apply (ren_lower _ 5); lia || assumption.
Qed.
(** a unary operator applies to the factor after it only *)
Theorem C56_unary a o (e f : ex C) le lf : ren 5 e le -> ren 5 f lf ->
  parse_tokens a (TOp "-" :: le ++ TOp (bop_char o) :: lf ++ [TEof]) =
    Val (bop_sem a o (smv_opp (value a e)) (value a f)) /\
  parse_tokens a (TOp "~" :: le ++ TOp (bop_char o) :: lf ++ [TEof]) =
    Val (bop_sem a o (smv_rev (value a e)) (value a f)).
Proof.
  intros R1 R2. pose proof (bop_level_lt o).
  split.
  - pose proof (C56_parse a (XBin o (XNeg e) f) ((TOp "-" :: le) ++ TOp (bop_char o) :: lf)) as P.
    rewrite <- app_assoc in P. apply P. apply (ren_lower 0 (bop_level o)); [lia|lia|].
    apply (rn_bin o (XNeg e) f (TOp "-" :: le) lf); apply (ren_lower _ 5); try lia; [constructor|]; assumption.
  - pose proof (C56_parse a (XBin o (XRev e) f) ((TOp "~" :: le) ++ TOp (bop_char o) :: lf)) as P.
    rewrite <- app_assoc in P. apply P. apply (ren_lower 0 (bop_level o)); [lia|lia|].
    apply (rn_bin o (XRev e) f (TOp "~" :: le) lf); apply (ren_lower _ 5); try lia; [constructor|]; assumption.
Qed.
(** the value means what the tree says in P(R*_{3,0,1}), for all values of the
    identifiers (| without the scalar parts) *)
Theorem C56_meaning rho (e : ex C) : in_pga e -> pga_eval rho (value pga e) == mean rho e.
Proof. apply value_mean. Qed.
(** from the text to the meaning *)
(** the operators and parentheses the tokenizer knows *)
Theorem C56_operators c :
  (tokenize num (String c "") = Val [TOp c; TEof] <-> In c ["+"; "-"; "~"; "*"; "^"; "&"; "|"]%char) /\
  (tokenize num (String c "") = Val [TDelim c; TEof] <-> In c ["("; ")"]%char).
Proof.
  destruct c as [[|] [|] [|] [|] [|] [|] [|] [|]]; split; split; intro K; try (vm_compute in K; discriminate K); try (vm_compute; tauto);
  cbn in K; repeat destruct K as [K|K]; try discriminate; try contradiction; reflexivity.
Qed.
Theorem C56_text rho s l (e : ex C) : lex num s l -> ren 0 e l -> in_pga e ->
  exists v, parse num pga s = Val v /\ pga_eval rho v == mean rho e.
Proof.
  intros L R P. exists (value pga e). split; [|apply C56_meaning; assumption].
  unfold parse, tokenize. rewrite (lex_tokenize num s l) by (assumption || lia). cbn [bind]. apply C56_parse. assumption.
Qed.

(** ** C57: the parser is safe *)
Theorem C57_safe a l : (exists pre, l = pre ++ [TEof]) ->
  parse_tokens a l = Throw \/ exists v, parse_tokens (C := C) a l = Val v.
Proof.
  intro E. pose proof (parse_good a (S (List.length l)) (S (List.length l)) l E ltac:(lia) ltac:(lia)) as G.
  unfold parse_tokens, good in *. destruct (parse_expr a _ _ l) as [[v r]| | |]; try contradiction; [right; exists v; reflexivity|left; reflexivity].
Qed.
(** on whatever the tokenizer returns; a larger bound on the recursion depth and
    on the loops changes nothing *)
Theorem C57_after_tokenizer a s l : tokenize num s = Val l ->
  parse_tokens a l = Throw \/ exists v, parse_tokens a l = Val v.
Proof. intro T. apply C57_safe. destruct (tokenize_eof num _ _ _ T) as [pre [-> _]]. exists pre. reflexivity. Qed.
Theorem C57_bounds a l d n : (exists pre, l = pre ++ [TEof]) -> List.length l <= d -> List.length l <= n ->
  parse_expr (C := C) a d n l <> Undef /\ parse_expr a d n l <> Fuel /\
  forall v rest, parse_expr a d n l = Val (v, rest) -> exists pre, rest = pre ++ [TEof].
Proof.
  intros E D N. pose proof (parse_good a d n l E D N) as G. unfold good in G.
  destruct (parse_expr a d n l) as [[v r]| | |]; try contradiction; repeat split; try discriminate.
  intros v' r' Q. inversion Q; subst. apply G.
Qed.

(** ** C58: the whole input *)
(** exactly what is accepted: a rendering followed by the end or by a parenthesis *)
Theorem C58_exact a l v : (exists pre, l = pre ++ [TEof]) ->
  (parse_tokens a l = Val v <->
   exists (e : ex C) pre t rest, l = pre ++ t :: rest /\ ren 0 e pre /\ value a e = v /\
     (t = TEof \/ exists c, t = TDelim c)).
Proof.
  intro EO. split.
  - intro E. unfold parse_tokens in E. apply bind_Val in E. destruct E as [[w rest] [E1 E2]]. inversion E2; subst.
    destruct (parse_sound a _ _ _ _ _ E1) as [e [pre [EL [R V]]]].
    assert (ST : stops 0 rest).
    { pose proof (parse_good a (S (List.length l)) (S (List.length l)) l EO ltac:(lia) ltac:(lia)) as G.
      rewrite E1 in G. destruct G as [G _]. destruct G as [p GE].
      (* the stop condition of the sum loop, from its result *)
      clear EO EL. cbn [fst].
      change (parse_expr a (S (List.length l)) (S (List.length l)) l) with
        (bind (lv a 1 (S (List.length l)) (S (List.length l)) l)
           (fun y => sum_loop (S (List.length l)) (lv a 1 (S (List.length l)) (S (List.length l))) (fst y) (snd y))) in E1.
      apply bind_Val in E1. destruct E1 as [[u it] [_ E1]]. cbn [fst snd] in E1.
      revert E1. generalize (S (List.length l)) at 1. intros k E1.
      assert (NR : rest <> []) by (rewrite GE; destruct p; discriminate). clear GE p E2.
      revert u it E1. induction k as [|k IH]; intros u it E1; [discriminate|].
      destruct it as [|[b ng|x|s|c|c|] r]; cbn [sum_loop] in E1; try discriminate;
        try (inversion E1; subst; contradiction || exact I).
      destruct (Ascii.eqb c "+"); [|destruct (Ascii.eqb c "-"); [|discriminate]];
        apply bind_Val in E1; destruct E1 as [[w' r'] [_ E3]]; cbn [fst snd] in E3; apply (IH _ _ E3). }
    destruct rest as [|t rest]; [contradiction|]. exists e, pre, t, rest. cbn [fst]. repeat split; try assumption.
    destruct t; cbn in ST; try contradiction; [right; eexists; reflexivity|destruct ST as [o [_ L]]; lia|left; reflexivity].
  - intros [e [pre [t [rest [-> [R [V T]]]]]]]. unfold parse_tokens. rewrite app_length. cbn [List.length].
    rewrite (parse_ren a e pre (t :: rest)); [rewrite <- V; reflexivity|assumption| |lia|lia].
    destruct T as [->|[c ->]]; exact I.
Qed.
(** without parentheses the whole input is accounted for *)
Theorem C58_no_parentheses_partial a pre v : ~ In TEof pre -> (forall c, ~ In (TDelim c) pre) ->
  parse_tokens a (pre ++ [TEof]) = Val v -> exists e : ex C, ren 0 e pre /\ value a e = v.
Proof.
  intros NE ND E. apply C58_exact in E; [|exists pre; reflexivity].
  destruct E as [e [p [t [rest [EL [R [V T]]]]]]]. exists e. split; [|assumption].
  destruct (exists_last (l := t :: rest) ltac:(discriminate)) as [q [x X]]. rewrite X, app_assoc in EL.
  apply app_inj_tail in EL. destruct EL as [EL <-].
  destruct q as [|t' q]; [rewrite app_nil_r in EL; subst; assumption|].
  inversion X; subst t'. exfalso. assert (I : In t pre) by (rewrite EL; apply in_or_app; right; left; reflexivity).
  destruct T as [->|[c ->]]; [contradiction|apply (ND c I)].
Qed.
(** whatever follows an unmatched closing or a juxtaposed opening parenthesis is dropped *)
Theorem C58_dropped a (e : ex C) l c junk : ren 0 e l ->
  parse_tokens a (l ++ TDelim c :: junk ++ [TEof]) = Val (value a e).
Proof.
  intro R. apply C58_exact.
  - exists (l ++ TDelim c :: junk). rewrite <- app_assoc. reflexivity.
  - exists e, l, (TDelim c), (junk ++ [TEof]). repeat split; try assumption. right. eexists. reflexivity.
Qed.
(** so token lists that render nothing are accepted: 2 ) 3 *)
Fixpoint opened (c : ascii) (l : list (token C)) : nat :=
  match l with
  | [] => 0
  | TDelim d :: r => (if Ascii.eqb d c then 1 else 0) + opened c r
  | _ :: r => opened c r
  end.
Lemma opened_app c l m : opened c (l ++ m) = opened c l + opened c m.
Proof. induction l as [|[b n|x|s|d|d|] l IH]; cbn; lia. Qed.
Lemma ren_balanced k (e : ex C) l : ren k e l -> opened "(" l = opened ")" l.
Proof.
  induction 1; cbn; rewrite ?opened_app; cbn; try reflexivity; try assumption; lia.
Qed.
Theorem C58_refuted a : exists pre v, parse_tokens a (pre ++ [TEof]) = Val v /\ ~ exists e : ex C, ren 0 e pre.
Proof.
  exists [TNum (fz 2); TDelim ")"; TNum (fz 3)], (value a (XNum (fz 2))). split.
  - apply (C58_dropped a (XNum (fz 2)) [TNum (fz 2)] ")" [TNum (fz 3)]).
    apply (ren_lower 0 5); [lia|lia|constructor].
  - intros [e R]. apply ren_balanced in R. discriminate.
Qed.

(** ** C60: printing *)
Variable show_f : C -> string.
Variable show_z : Z -> string.
Notation print_mv := (print_mv show_f show_z).
(** the indices written in a blade name *)
Fixpoint read_digits (s : string) : list nat :=
  match s with String c r => digit_val c :: read_digits r | EmptyString => [] end.
Definition read_blade (s : string) : list nat := read_digits (drop 2 s).
(** a blade of at most nine generators is shown by the ascending list of its
    indices, and can be told from its name *)
Definition all512 : list N := map N.of_nat (seq 0 512).
Lemma in_512 e : (e < 512)%N -> In e all512.
Proof.
  intro L. unfold all512. rewrite <- (N2Nat.id e). apply in_map. apply in_seq. lia.
Qed.
Theorem C60_blade_name e : (e < 512)%N ->
  read_blade (print_blade e) = filter (fun i => N.testbit e (N.of_nat i)) (seq 0 9).
Proof.
  intro L. apply in_512 in L. revert e L.
  assert (T : forallb (fun e => if list_eq_dec Nat.eq_dec (read_blade (print_blade e)) (filter (fun i => N.testbit e (N.of_nat i)) (seq 0 9))
     then true else false) all512 = true) by (vm_compute; reflexivity).
  rewrite forallb_forall in T. intros e I. specialize (T e I). cbv beta in T. destruct (list_eq_dec _ _ _); [assumption|discriminate].
Qed.
Theorem C60_blade_name_injective e f : (e < 512)%N -> (f < 512)%N -> print_blade e = print_blade f -> e = f.
Proof.
  intros LE LF E. apply N.bits_inj. intro i.
  assert (HI : forall x, (x < 512)%N -> (9 <= i)%N -> N.testbit x i = false).
  { intros x X I9. destruct (N.eq_dec x 0) as [->|NZ]; [apply N.bits_0|]. apply N.bits_above_log2.
    assert (N.log2 x < 9)%N by (apply N.log2_lt_pow2; [lia|exact X]). lia. }
  destruct (N.ltb_spec i 9) as [L|L]; [|rewrite !HI by assumption; reflexivity].
  assert (IN : forall x, (x < 512)%N -> (N.testbit x i = true <-> In (N.to_nat i) (read_blade (print_blade x)))).
  { intros x X. rewrite C60_blade_name, filter_In, N2Nat.id, in_seq by assumption. intuition lia. }
  pose proof (IN e LE) as A. pose proof (IN f LF) as B. rewrite E in A.
  destruct (N.testbit e i), (N.testbit f i); intuition congruence.
Qed.
(** the terms of a multivector in normal form carry different blade names *)
Theorem C60_names_distinct n (m : smv C) : n <= 9 -> smv_normal n m -> NoDup (map (fun ep => print_blade (fst ep)) m).
Proof.
  intros L9 [S N]. rewrite <- (map_map fst print_blade).
  assert (B : forall e, In e (map fst m) -> (e < 512)%N).
  { intros e I. apply in_map_iff in I. destruct I as [[e' p] [<- I]]. destruct (N _ _ I) as [_ [_ L]].
    eapply N.lt_le_trans; [exact L|]. change 512%N with (2 ^ 9)%N. apply N.pow_le_mono_r; lia. }
  apply (sorted_NoDup _ elem_strict_total) in S. revert S B. generalize (map fst m). intro l.
  induction l as [|x l IH]; cbn; intros ND B; [constructor|]. inversion ND; subst. constructor.
  - intro I. apply in_map_iff in I. destruct I as [y [E I]].
    apply C60_blade_name_injective in E; [subst; contradiction|auto|auto].
  - apply IH; [assumption|auto].
Qed.
(** constant coefficients 1 and -1 are not shown: the multivector 1 prints
    as the empty text, and 1 + a as ( + a) *)
Theorem C60_unit_coefficient_refuted : exists m n : smv C, smv_normal 4 m /\ smv_normal 4 n /\
  print_mv m = ""%string /\ print_mv n = "-"%string.
Proof.
  exists (single 0 [] (fz 1)), (single 0 [] (fz (-1))).
  assert (NN : forall f : C, cval f <> 0%R -> smv_normal 4 (single 0 [] f)).
  { intros f F. split; [constructor; [intros k v []|constructor]|]. intros e p [E|[]]. inversion E; subst.
    split; [|split; [discriminate|reflexivity]]. split; [constructor; [intros k v []|constructor]|].
    intros m g [X|[]]. inversion X; subst. split; [split; [constructor|intros v d []]|assumption]. }
  split; [apply NN; rewrite cval_fz; apply IZR_neq; lia|]. split; [apply NN; rewrite cval_fz; apply IZR_neq; lia|].
  assert (E1 : ceqb (fz 1) (fz (-1)) = false).
  { destruct (ceqb (fz 1) (fz (-1))) eqn:Q; [|reflexivity]. apply ceqb_eq in Q. apply (f_equal cval) in Q. rewrite !cval_fz in Q.
    apply eq_IZR in Q. discriminate. }
  assert (E2 : forall z, ceqb (fz z) (fz z) = true) by (intro z; apply ceqb_eq; reflexivity).
  split.
  - cbn. rewrite E1, E2. reflexivity.
  - cbn. rewrite E2. reflexivity.
Qed.
End Props.

(** ** C63: the line loop *)
(** what one line does, from its first '#' or '.': the characters before it *)
Definition plain (c : ascii) : bool := negb (Ascii.eqb c "#" || Ascii.eqb c ".").
Definition expected_action (l : string) : line_action :=
  let before := fst (span plain l) in
  let blank := all_chars isspace before in
  match snd (span plain l) with
  | EmptyString => if blank then LBlank false else LParse false
  | String c _ =>
    if Ascii.eqb c "#" then if blank then LBlank true else LParse true
    else if String.eqb l ".break" then LToggle else LIgnored
  end.
Lemma scan_line_exact l b : all_chars ascii7 l = true ->
  scan_line l b = Val (
    match snd (span plain l) with
    | EmptyString => (false, b || negb (all_chars isspace (fst (span plain l))), false)
    | String c _ => if Ascii.eqb c "#" then (true, b || negb (all_chars isspace (fst (span plain l))), false)
                    else (false, b || negb (all_chars isspace (fst (span plain l))), true)
    end).
Proof.
  revert b. induction l as [|c l IH]; intros b A.
  - cbn. rewrite orb_false_r. reflexivity.
  - cbn [all_chars] in A. ands. cbn [scan_line]. rewrite H. cbn [negb]. cbn [span].
    destruct (isspace c) eqn:S.
    + assert (P : plain c = true).
      { unfold plain. destruct (Ascii.eqb_spec c "#") as [->|_]; [discriminate|].
        destruct (Ascii.eqb_spec c ".") as [->|_]; [discriminate|]. reflexivity. }
      rewrite P. cbn [fst snd all_chars]. rewrite S. cbn [andb]. apply IH. assumption.
    + destruct (Ascii.eqb_spec c "#") as [->|N1].
      * cbn. rewrite orb_false_r. reflexivity.
      * destruct (Ascii.eqb_spec c ".") as [->|N2].
        -- cbn. rewrite orb_false_r. reflexivity.
        -- assert (P : plain c = true).
           { unfold plain. apply Ascii.eqb_neq in N1, N2. rewrite N1, N2. reflexivity. }
           rewrite P. cbn [fst snd all_chars]. rewrite S. cbn [andb negb]. rewrite IH by assumption.
           rewrite orb_true_r. cbn [orb]. reflexivity.
Qed.
Theorem C63_exact l : l <> ""%string -> all_chars ascii7 l = true -> repl_line l = Val (expected_action l).
Proof.
  intros N A. unfold repl_line, expected_action. destruct l as [|c l]; [contradiction|].
  rewrite scan_line_exact by assumption. cbn [bind]. set (s := String c l). clearbody s.
  destruct (snd (span plain s)) as [|d r]; [|destruct (Ascii.eqb d "#")]; cbn [orb];
    destruct (all_chars isspace (fst (span plain s))); reflexivity.
Qed.
(** lines that begin with # are echoed and not parsed; lines without # and . are
    parsed unless blank *)
Theorem C63_comment w s : all_chars isspace w = true -> all_chars ascii7 s = true ->
  repl_line (w ++ String "#" s) = Val (LBlank true).
Proof.
  intros W S. rewrite C63_exact.
  - unfold expected_action. rewrite span_prefix.
    + cbn [fst snd]. rewrite W. reflexivity.
    + apply all_chars_impl with (2 := W). intros c H. unfold plain.
      destruct (Ascii.eqb_spec c "#") as [->|_]; [discriminate|].
      destruct (Ascii.eqb_spec c ".") as [->|_]; [discriminate|]. reflexivity.
    + reflexivity.
  - destruct w; discriminate.
  - rewrite all_chars_app. cbn [all_chars]. rewrite S. change (ascii7 "#") with true. rewrite !andb_true_r.
    apply all_chars_impl with (2 := W). intros c H. pose proof (class_space c H). ands. assumption.
Qed.
Theorem C63_expression_partial l : l <> ""%string -> all_chars ascii7 l = true -> all_chars plain l = true ->
  repl_line l = Val (if all_chars isspace l then LBlank false else LParse false).
Proof.
  intros N A P. rewrite C63_exact by assumption. unfold expected_action.
  pose proof (span_prefix plain l "" P eq_refl) as E. rewrite append_nil_r in E. rewrite E. reflexivity.
Qed.
(** "lines that start with a . are commands": every line with a . before any # is
    taken for one, so a line with a decimal number is dropped *)
Theorem C63_decimal_refuted : exists l, head_is (fun c => Ascii.eqb c ".") l = false /\
  (forall num : string -> Z, exists v, parse num pga l = Val v) /\ repl_line l = Val LIgnored.
Proof. exists "2.5 e0"%string. split; [reflexivity|]. split; [intro num; eexists; reflexivity|reflexivity]. Qed.
Theorem C63_decimal_dropped u s : all_chars plain u = true -> u <> ""%string -> all_chars ascii7 (u ++ String "." s) = true ->
  repl_line (u ++ String "." s) = Val LIgnored.
Proof.
  intros U N A. rewrite C63_exact; [|destruct u; discriminate|assumption].
  unfold expected_action. rewrite span_prefix by (assumption || reflexivity). cbn [fst snd].
  change (Ascii.eqb "." "#") with false. cbv iota. destruct (String.eqb_spec (u ++ String "." s) ".break") as [E|_]; [|reflexivity].
  destruct u as [|c u]; [contradiction|]. inversion E; subst. discriminate.
Qed.
(** an expression with a comment behind it, and a line of commas ("Skip lines that
    only contain whitespace or commas"), go to the parser and the tool hangs *)
Theorem C63_hang_refuted (num : string -> Z) :
  (exists echo, repl_line "1 # one" = Val (LParse echo)) /\ ~ returns num "1 # one" /\
  (exists echo, repl_line ", ," = Val (LParse echo)) /\ ~ returns num ", ,".
Proof.
  split; [eexists; reflexivity|]. split.
  - intro R. apply (proj1 (C53_bound num _ 0)) in R. apply R. reflexivity.
  - split; [eexists; reflexivity|]. apply (C53_foreign_character_hangs num "" "," " ,"); reflexivity || discriminate.
Qed.

(** ** Examples: the parser tests of sym/test.cpp *)
Module Examples.
Local Open Scope string_scope.
(** strtof on digit strings, for integer coefficients *)
Fixpoint dec (acc : Z) (s : string) : Z :=
  match s with
  | String c r => if isdigit c then dec (10 * acc + Z.of_nat (digit_val c)) r else acc
  | EmptyString => acc
  end.
Definition num (s : string) : Z := dec 0 s.
Definition p (s : string) := parse num pga s.
Local Open Scope Z_scope.
(** test.cpp 146-160 *)
Example add1 : p "1 + 3 * 2" = Val [(0%N, [([], 7)])]. Proof. reflexivity. Qed.
Example add2 : p "(3e0 + 3e012) + (3e0 - 3e012)" = Val [(1%N, [([], 6)])]. Proof. reflexivity. Qed.
Example sub1 : p "1 - 3 - 2" = Val [(0%N, [([], -4)])]. Proof. reflexivity. Qed.
(** test.cpp 162-171 *)
Example product1 : p "2e012 * 2" = Val [(7%N, [([], 4)])]. Proof. reflexivity. Qed.
Example product2 : p "(e23 + 2e012) * (2 - 3e01)" = Val [(12%N, [([], 2)]); (7%N, [([], 4)]); (15%N, [([], -3)])].
Proof. reflexivity. Qed.
(** test.cpp 173-187 *)
Example exterior1 : p "(e3 + e2 + e1 + e0) ^ (e3 + 2e2 + 2e1 + 2e0)" =
  Val [(9%N, [([], -1)]); (10%N, [([], -1)]); (12%N, [([], -1)])].
Proof. reflexivity. Qed.
Example exterior2 : p "(e3 + e2 + e1 + e0) ^ (e123 + 2e021 + 2e013 + 2e032)" = Val [(15%N, [([], 7)])].
Proof. reflexivity. Qed.
(** test.cpp 189-195 *)
Example regressive1 : p "e123 & (e123 + e032)" = Val [(12%N, [([], 1)])]. Proof. reflexivity. Qed.
(** test.cpp 197-211 *)
Example inner1 : p "(e0 + e1 + e2 + e3) | (e0 + e1 + e2 + e3)" = Val [(0%N, [([], 3)])]. Proof. reflexivity. Qed.
Example inner2 : p "(e0 + e1 + e2 + e3) | (2e0123 + 3e01 - 4e02 + 2e03)" =
  Val [(1%N, [([], -1)]); (7%N, [([], -2)]); (11%N, [([], 2)]); (13%N, [([], -2)])].
Proof. reflexivity. Qed.
(** test.cpp 213-227 *)
Example reverse1 : p "~e02" = Val [(5%N, [([], -1)])]. Proof. reflexivity. Qed.
Example rotor1 : p "(2 + 3e12 + 4e31) * (5e0 + 7e1 + 11e2) * (2 - 3e12 - 4e31)" =
  Val [(1%N, [([], 145)]); (2%N, [([], -15)]); (4%N, [([], 37)]); (8%N, [([], 376)])].
Proof. reflexivity. Qed.
(** hypotheses of the theorems above *)
Example terminates_meets : all_chars lexable "(a0 + 2e31) * b " = true /\ last_is isletter "(a0 + 2e31) * b " = false.
Proof. split; reflexivity. Qed.
Example hang_meets : all_chars separator "(~" = true /\ isletter "x" = true /\ lexable "_" = false. Proof. repeat split. Qed.
Example run_meets : String.length (run "123.5a") = 5%nat /\ run "123.5a" = "123.5". Proof. split; reflexivity. Qed.
Example element_meets : NoDup [0; 3; 2]%nat /\ idx_set [0; 3; 2]%nat = 13%N /\ Nat.odd (inversions [0; 3; 2]%nat) = true /\
  tokenize num "e032" = Val [TElem 13 true; TEof] /\ ~ NoDup [1; 1]%nat.
Proof.
  split; [repeat (constructor; [cbn; lia|]); constructor|]. repeat split.
  intro N. inversion N; subst. apply H1. left. reflexivity.
Qed.
(** -a e0 * 2 ^ (b | e1), as text, tokens and tree *)
Definition tree : ex Z :=
  XBin OMul (XNeg (XIdEl "a" 1 false)) (XBin OExt (XNum 2) (XBin ODot (XId "b") (XEl 2 false))).
Definition tokens : list (token Z) :=
  [TOp "-"; TId "a"; TElem 1 false; TOp "*"; TNum 2; TOp "^"; TDelim "("; TId "b"; TOp "|"; TElem 2 false; TDelim ")"].
Example tree_ren : ren 0 tree tokens.
Proof.
  apply (ren_lower 0 1); [lia|lia|].
  apply (rn_bin OMul (XNeg (XIdEl "a" 1 false)) _ [TOp "-"; TId "a"; TElem 1 false]
           [TNum 2; TOp "^"; TDelim "("; TId "b"; TOp "|"; TElem 2 false; TDelim ")"]).
  - apply (ren_lower _ 5); [cbn; lia|lia|]. apply (rn_neg _ [TId "a"; TElem 1 false]). constructor.
  - apply (rn_bin OExt (XNum 2) _ [TNum 2] [TDelim "("; TId "b"; TOp "|"; TElem 2 false; TDelim ")"]).
    + apply (ren_lower _ 5); [cbn; lia|lia|]. constructor.
    + apply (ren_lower _ 5); [cbn; lia|lia|]. apply (rn_paren _ [TId "b"; TOp "|"; TElem 2 false]).
      apply (ren_lower _ 4); [lia|lia|]. apply (rn_bin ODot (XId "b") (XEl 2 false) [TId "b"] [TElem 2 false]);
        [apply (ren_lower _ 5); [cbn; lia|lia|]|]; constructor.
Qed.
Example tree_lex : lex num "-a e0 * 2 ^ (b | e1)" tokens.
Proof.
  apply (lex_token num (TOp "-") "-"); [apply sp_op; reflexivity|exact I|].
  apply (lex_token num (TId "a") "a"); [apply sp_id; reflexivity|split; [reflexivity|discriminate]|].
  apply lex_space; [reflexivity|].
  apply (lex_token num (TElem 1 false) "e0");
    [apply (sp_elem num [0%nat]); [discriminate|repeat constructor; intros []|intros d [<-|[]]; lia]|reflexivity|].
  apply lex_space; [reflexivity|]. apply (lex_token num (TOp "*") "*"); [apply sp_op; reflexivity|exact I|].
  apply lex_space; [reflexivity|].
  apply (lex_token num (TNum 2) "2"); [apply (sp_num num "2"); reflexivity || (cbn; lia)|reflexivity|].
  apply lex_space; [reflexivity|]. apply (lex_token num (TOp "^") "^"); [apply sp_op; reflexivity|exact I|].
  apply lex_space; [reflexivity|]. apply (lex_token num (TDelim "(") "("); [apply sp_delim; reflexivity|exact I|].
  apply (lex_token num (TId "b") "b"); [apply sp_id; reflexivity|split; [reflexivity|discriminate]|].
  apply lex_space; [reflexivity|]. apply (lex_token num (TOp "|") "|"); [apply sp_op; reflexivity|exact I|].
  apply lex_space; [reflexivity|].
  apply (lex_token num (TElem 2 false) "e1");
    [apply (sp_elem num [1%nat]); [discriminate|repeat constructor; intros []|intros d [<-|[]]; lia]|reflexivity|].
  apply (lex_token num (TDelim ")") ")"); [apply sp_delim; reflexivity|exact I|]. apply lex_nil.
Qed.
Example tree_in_pga : in_pga tree. Proof. cbn. lia. Qed.
Example c58_meets : ~ In TEof [TNum 2; TOp "+"; TId "aa"] /\ (forall c, ~ In (TDelim c) [TNum 2; TOp "+"; TId "aa" : token Z]).
Proof. split; [|intro c]; cbn; intuition discriminate. Qed.
Example print_meets : print_blade 13 = " e023" /\ print_blade 512 = " e". Proof. split; reflexivity. Qed.
Example repl_meets : repl_line "  # p0 * p0" = Val (LBlank true) /\ repl_line "a0 e0 + 2" = Val (LParse false) /\
  repl_line ".break" = Val LToggle /\ repl_line "a * 2.5" = Val LIgnored /\ all_chars plain "a0 e0 + 2" = true.
Proof. repeat split. Qed.
End Examples.

Print Assumptions C53_bound.
Print Assumptions C53_terminates_partial.
Print Assumptions C53_trailing_space_partial.
Print Assumptions C53_refuted.
Print Assumptions C53_single_letter_hangs.
Print Assumptions C53_foreign_character_hangs.
Print Assumptions C54_exact.
Print Assumptions C54_defined_partial.
Print Assumptions C54_overflow_refuted.
Print Assumptions C54_no_exception.
Print Assumptions C55_element_partial.
Print Assumptions C55_product_partial.
Print Assumptions C55_duplicate_partial.
Print Assumptions C55_high_digits_refuted.
Print Assumptions C55_out_of_range_refuted.
Print Assumptions C56_parse.
Print Assumptions C56_sound.
Print Assumptions C56_unambiguous.
Print Assumptions C56_precedence.
Print Assumptions C56_unary.
Print Assumptions C56_meaning.
Print Assumptions C56_operators.
Print Assumptions C56_text.
Print Assumptions C57_safe.
Print Assumptions C57_after_tokenizer.
Print Assumptions C57_bounds.
Print Assumptions C58_exact.
Print Assumptions C58_no_parentheses_partial.
Print Assumptions C58_dropped.
Print Assumptions C58_refuted.
Print Assumptions C60_blade_name.
Print Assumptions C60_blade_name_injective.
Print Assumptions C60_names_distinct.
Print Assumptions C60_unit_coefficient_refuted.
Print Assumptions C63_exact.
Print Assumptions C63_comment.
Print Assumptions C63_expression_partial.
Print Assumptions C63_decimal_refuted.
Print Assumptions C63_decimal_dropped.
Print Assumptions C63_hang_refuted.
