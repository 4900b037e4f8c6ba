(** Facts about the tokenizer model. *)
From Coq Require Import List Bool ZArith NArith String Ascii Lia.
From Verif Require Import Scalar SymMap SymPoly SymGA SymGAFacts SymParse.
Import ListNotations.
Local Arguments ascii7 c : simpl never.
Local Arguments isdigit c : simpl never.
Local Arguments isalnum c : simpl never.
Local Arguments isspace c : simpl never.
Local Arguments isop c : simpl never.
Local Arguments isdelim c : simpl never.
Local Arguments Ascii.eqb a b : simpl never.

Lemma bind_Fuel {A B} (x : res A) (f : A -> res B) :
  bind x f = Fuel <-> x = Fuel \/ exists v, x = Val v /\ f v = Fuel.
Proof.
  destruct x as [v| | |]; cbn; split; intro H; try discriminate; try tauto; try (left; reflexivity).
  - right. exists v. tauto.
  - destruct H as [H|[v' [E H]]]; [discriminate|]. inversion E; subst. assumption.
  - destruct H as [H|[v' [E H]]]; discriminate.
  - destruct H as [H|[v' [E H]]]; discriminate.
Qed.
Lemma bind_Val {A B} (x : res A) (f : A -> res B) v : bind x f = Val v -> exists u, x = Val u /\ f u = Val v.
Proof. destruct x as [u| | |]; cbn; intro E; try discriminate. exists u. tauto. Qed.

(** first character *)
Definition head_is (p : ascii -> bool) (s : string) : bool :=
  match s with String c _ => p c | EmptyString => false end.
Fixpoint all_chars (p : ascii -> bool) (s : string) : bool :=
  match s with String c r => p c && all_chars p r | EmptyString => true end.
(** the longest prefix of characters satisfying p, and what follows *)
Fixpoint span (p : ascii -> bool) (s : string) : string * string :=
  match s with
  | String c r => if p c then (String c (fst (span p r)), snd (span p r)) else (EmptyString, s)
  | EmptyString => (EmptyString, EmptyString)
  end.
Definition numchar (c : ascii) : bool := isdigit c || Ascii.eqb c ".".
Local Arguments numchar c : simpl never.

Lemma append_nil_r s : (s ++ "")%string = s.
Proof. induction s as [|c s IH]; cbn; [reflexivity|rewrite IH; reflexivity]. Qed.
Lemma append_assoc' s t u : ((s ++ t) ++ u)%string = (s ++ t ++ u)%string.
Proof. induction s as [|c s IH]; cbn; [reflexivity|rewrite IH; reflexivity]. Qed.
Lemma length_app' s t : String.length (s ++ t) = String.length s + String.length t.
Proof. induction s as [|c s IH]; cbn; [reflexivity|rewrite IH; reflexivity]. Qed.
Lemma span_app p s : (fst (span p s) ++ snd (span p s))%string = s.
Proof. induction s as [|c s IH]; cbn; [reflexivity|]. destruct (p c); cbn; [rewrite IH|]; reflexivity. Qed.
Lemma span_all p s : all_chars p (fst (span p s)) = true.
Proof. induction s as [|c s IH]; cbn; [reflexivity|]. destruct (p c) eqn:E; cbn; [rewrite E, IH|]; reflexivity. Qed.
Lemma span_prefix p s t : all_chars p s = true -> head_is p t = false -> span p (s ++ t) = (s, t).
Proof.
  induction s as [|c s IH]; cbn; intros A B.
  - destruct t as [|c t]; cbn in *; [reflexivity|]. rewrite B. reflexivity.
  - apply andb_true_iff in A. destruct A as [-> A]. rewrite IH by assumption. reflexivity.
Qed.
Lemma all_chars_app p s t : all_chars p (s ++ t) = all_chars p s && all_chars p t.
Proof. induction s as [|c s IH]; cbn; [reflexivity|]. rewrite IH, andb_assoc. reflexivity. Qed.
Lemma all_chars_impl (p q : ascii -> bool) s : (forall c, p c = true -> q c = true) ->
  all_chars p s = true -> all_chars q s = true.
Proof.
  intro I. induction s as [|c s IH]; cbn; intro A; [reflexivity|]. apply andb_true_iff in A.
  destruct A as [A B]. rewrite (I c A), (IH B). reflexivity.
Qed.
Lemma drop_app s t : drop (String.length s) (s ++ t) = t.
Proof. induction s as [|c s IH]; cbn; [destruct t; reflexivity|assumption]. Qed.

(** character classes are disjoint *)
Ltac allc := let c := fresh "c" in intro c; destruct c as [[|] [|] [|] [|] [|] [|] [|] [|]]; reflexivity || discriminate.
Lemma class_digit : forall c, isdigit c = true ->
  ascii7 c && negb (isspace c) && negb (isdelim c) && negb (Ascii.eqb c "000") && negb (isop c) && isalnum c &&
  negb (Ascii.eqb c ".") = true.
Proof. allc. Qed.
Lemma class_op : forall c, isop c = true ->
  ascii7 c && negb (isspace c) && negb (isdelim c) && negb (Ascii.eqb c "000") && negb (isdigit c) &&
  negb (isalnum c) && negb (Ascii.eqb c ".") = true.
Proof. allc. Qed.
Lemma class_delim : forall c, isdelim c = true ->
  ascii7 c && negb (isspace c) && negb (isop c) && negb (Ascii.eqb c "000") && negb (isdigit c) &&
  negb (isalnum c) && negb (Ascii.eqb c ".") = true.
Proof. allc. Qed.
Lemma class_space : forall c, isspace c = true ->
  ascii7 c && negb (isop c) && negb (isdelim c) && negb (Ascii.eqb c "000") && negb (isdigit c) &&
  negb (isalnum c) && negb (Ascii.eqb c ".") = true.
Proof. allc. Qed.
Lemma class_alnum : forall c, isalnum c = true ->
  ascii7 c && negb (isop c) && negb (isdelim c) && negb (Ascii.eqb c "000") && negb (isspace c) && negb (Ascii.eqb c ".") = true.
Proof. allc. Qed.
Lemma class_num : forall c, numchar c = true -> ascii7 c = true.
Proof. allc. Qed.
Ltac ands := repeat match goal with
  | H : _ && _ = true |- _ => apply andb_true_iff in H; destruct H
  | H : negb _ = true |- _ => apply negb_true_iff in H
  end.

Ltac rwb := repeat match goal with
  | H : ?x = true |- context [?x] => rewrite H
  | H : ?x = false |- context [?x] => rewrite H
  end.

(** ** numbers *)
(** digits, at most one dot *)
Definition float_ok (s : string) : Prop := float_prefix s = s.
(** an exact account of the scan, whatever follows: undefined as soon as the run
    of digits and dots has 32 characters or is followed by a non-ASCII char *)
Lemma num_scan_exact s :
  num_scan s 0 =
  if (String.length (fst (span numchar s)) <? 32)%nat && negb (head_is (fun c => negb (ascii7 c)) (snd (span numchar s)))
  then Val (fst (span numchar s)) else Undef.
Proof.
  assert (G : forall s k, (k <= 32)%nat -> num_scan s k =
    if (k + String.length (fst (span numchar s)) <? 32)%nat && negb (head_is (fun c => negb (ascii7 c)) (snd (span numchar s)))
    then Val (fst (span numchar s)) else Undef); [|apply G; lia].
  clear s. induction s as [|c s IH]; intros k K.
  - cbn. rewrite Nat.add_0_r, andb_true_r. reflexivity.
  - cbn [span num_scan]. replace (32 <? k)%nat with false by (symmetry; apply Nat.ltb_ge; lia).
    fold (numchar c). destruct (numchar c) eqn:NC.
    + rewrite (class_num c NC). cbn [negb fst snd String.length].
      destruct (Nat.ltb_spec k 32) as [L|L].
      * rewrite IH by lia. rewrite <- Nat.add_succ_comm.
        destruct (_ && _); reflexivity.
      * destruct (Nat.ltb_spec (k + S (String.length (fst (span numchar s)))) 32); [lia|reflexivity].
    + cbn [fst snd String.length head_is]. rewrite Nat.add_0_r, negb_involutive.
      destruct (ascii7 c); cbn [negb andb]; rewrite ?andb_true_r, ?andb_false_r; reflexivity.
Qed.
Lemma float_prefix_le s : exists t, s = (float_prefix s ++ t)%string.
Proof.
  assert (D : forall s, exists t, s = (digits_prefix s ++ t)%string).
  { induction s0 as [|c s0 [t E]]; [exists ""%string; reflexivity|]. cbn. destruct (isdigit c).
    - exists t. cbn. rewrite <- E. reflexivity.
    - exists (String c s0). reflexivity. }
  induction s as [|c s [t E]]; [exists ""%string; reflexivity|]. cbn. destruct (isdigit c).
  - exists t. cbn. rewrite <- E. reflexivity.
  - destruct (Ascii.eqb c ".").
    + destruct (D s) as [t' E']. exists t'. cbn. rewrite <- E'. reflexivity.
    + exists (String c s). reflexivity.
Qed.
Section Tok.
Context {C : Type} `{Coef C} (num : string -> C).
(** the rest after a number is a proper suffix *)
Lemma tokenize_number_suffix c r x : isdigit c = true -> tokenize_number num (String c r) = Val x ->
  exists w, w <> ""%string /\ String c r = (w ++ snd x)%string.
Proof.
  intros D E. unfold tokenize_number in E. apply bind_Val in E. destruct E as [buf [E1 E2]].
  inversion E2; subst x; clear E2. cbn [snd].
  rewrite num_scan_exact in E1. destruct (_ && _) in E1; [|discriminate]. inversion E1; subst buf; clear E1.
  cbn [span]. assert (NC : numchar c = true) by (unfold numchar; rewrite D; reflexivity). rewrite NC. cbn [fst].
  set (b := String c (fst (span numchar r))).
  assert (BE : String c r = (b ++ snd (span numchar r))%string) by (unfold b; cbn; rewrite span_app; reflexivity).
  destruct (float_prefix_le b) as [t T]. exists (float_prefix b). split.
  - unfold b. cbn. rewrite D. discriminate.
  - change (fst _) with b. rewrite BE. generalize (snd (span numchar r)). intro u.
    assert (G : forall F, b = (F ++ t)%string -> (b ++ u)%string = (F ++ drop (String.length F) (b ++ u))%string).
    { intros F ->. rewrite append_assoc', drop_app. reflexivity. }
    apply G. exact T.
Qed.
Lemma id_scan_span s : id_scan s =
  if head_is (fun c => negb (ascii7 c)) (snd (span isalnum s)) then Undef else Val (span isalnum s).
Proof.
  induction s as [|c s IH]; [reflexivity|]. cbn [id_scan span]. destruct (isalnum c) eqn:A.
  - pose proof (class_alnum c A). ands. rewrite H0. cbn [negb]. rewrite IH. cbn [fst snd].
    destruct (head_is _ _); reflexivity.
  - cbn [snd head_is]. destruct (ascii7 c); reflexivity.
Qed.
Lemma elem_scan_suffix s v b x : elem_scan (C := C) s v b = Val x -> exists w, s = (w ++ snd x)%string.
Proof.
  revert v b. induction s as [|c s IH]; intros v b E; cbn [elem_scan] in E.
  - inversion E; subst. exists ""%string. reflexivity.
  - destruct (negb (ascii7 c)); [discriminate|]. destruct (isdigit c).
    + destruct (0 <? _)%N; [discriminate|]. destruct (IH _ _ E) as [w W]. exists (String c w). cbn. rewrite <- W. reflexivity.
    + inversion E; subst. exists ""%string. reflexivity.
Qed.
Lemma elem_scan_not_fuel s v b : elem_scan (C := C) s v b <> Fuel.
Proof.
  revert v b. induction s as [|c s IH]; intros v b; cbn [elem_scan]; [discriminate|].
  destruct (negb (ascii7 c)); [discriminate|]. destruct (isdigit c); [|discriminate].
  destruct (0 <? _)%N; [discriminate|]. apply IH.
Qed.
Lemma tokenize_number_not_fuel s : tokenize_number num s <> Fuel.
Proof. unfold tokenize_number. rewrite num_scan_exact. destruct (_ && _); discriminate. Qed.

(** ** when the loop makes no progress *)
Definition stuck (s : string) : bool :=
  match s with
  | EmptyString => false
  | String c r =>
    ascii7 c && negb (isspace c) && negb (isdelim c) && negb (Ascii.eqb c "000") && negb (isop c) && negb (isdigit c) &&
    match r with EmptyString => true | _ => negb (isalnum c) end
  end.
Lemma stuck_fuel s n : stuck s = true -> tokenize_loop num n s = Fuel.
Proof.
  intro S. destruct s as [|c r]; [discriminate|]. induction n as [|n IH]; [reflexivity|].
  cbn [stuck] in S. ands. cbn [tokenize_loop]. rewrite H0, H6, H5, H4, H3, H2. cbn [negb].
  destruct r as [|c' r].
  - rewrite IH. reflexivity.
  - ands. destruct (Ascii.eqb_spec c "e") as [->|_]; [discriminate|].
    rewrite id_scan_span. cbn [span]. rewrite H1. cbn [snd head_is]. rewrite H0. cbn [negb bind snd].
    rewrite IH. reflexivity.
Qed.
(** one iteration from a position that is not stuck: the loop ends or goes on
    from a shorter rest *)
Lemma loop_step s : stuck s = false ->
  (exists o, o <> Fuel /\ forall n, tokenize_loop num (S n) s = o) \/
  (exists (f : list (token C) -> list (token C)) w s', w <> ""%string /\ s = (w ++ s')%string /\
     forall n, tokenize_loop num (S n) s = bind (tokenize_loop num n s') (fun l => Val (f l))).
Proof.
  intro S. destruct s as [|c r]; [left; exists (Val [TEof]); split; [discriminate|reflexivity]|].
  cbn [stuck] in S.
  destruct (ascii7 c) eqn:A7.
  2:{ left. exists Undef. split; [discriminate|]. intro n. cbn [tokenize_loop]. rewrite A7. reflexivity. }
  destruct (isspace c) eqn:SP.
  { right. exists (fun l => l), (String c ""), r. split; [discriminate|]. split; [reflexivity|].
    intro n. cbn [tokenize_loop]. rewrite A7, SP. cbn [negb]. destruct (tokenize_loop num n r); reflexivity. }
  destruct (isdelim c) eqn:DE.
  { right. exists (fun l => TDelim c :: l), (String c ""), r. split; [discriminate|]. split; [reflexivity|].
    intro n. cbn [tokenize_loop]. rewrite A7, SP, DE. reflexivity. }
  destruct (Ascii.eqb c "000") eqn:NU.
  { left. exists (Val [TEof]). split; [discriminate|]. intro n. cbn [tokenize_loop]. rewrite A7, SP, DE, NU. reflexivity. }
  destruct (isop c) eqn:OP.
  { right. exists (fun l => TOp c :: l), (String c ""), r. split; [discriminate|]. split; [reflexivity|].
    intro n. cbn [tokenize_loop]. rewrite A7, SP, DE, NU, OP. reflexivity. }
  destruct (isdigit c) eqn:DI.
  { destruct (tokenize_number num (String c r)) as [x| | |] eqn:TN.
    - destruct (tokenize_number_suffix c r x DI TN) as [w [W E]].
      right. exists (fun l => TNum (fst x) :: l), w, (snd x). split; [assumption|]. split; [assumption|].
      intro n. cbn [tokenize_loop]. rewrite A7, SP, DE, NU, OP, DI, TN. reflexivity.
    - left. exists Throw. split; [discriminate|]. intro n. cbn [tokenize_loop]. rewrite A7, SP, DE, NU, OP, DI, TN. reflexivity.
    - left. exists Undef. split; [discriminate|]. intro n. cbn [tokenize_loop]. rewrite A7, SP, DE, NU, OP, DI, TN. reflexivity.
    - elim (tokenize_number_not_fuel _ TN). }
  cbn [negb andb] in S. destruct r as [|c' r]; [discriminate|]. apply negb_false_iff in S.
  assert (ID : (forall n, tokenize_loop num (Datatypes.S n) (String c (String c' r)) =
      bind (id_scan (String c (String c' r))) (fun x =>
      bind (tokenize_loop num n (snd x)) (fun l => Val (TId (fst x) :: l)))) ->
    (exists o, o <> Fuel /\ forall n, tokenize_loop num (Datatypes.S n) (String c (String c' r)) = o) \/
    (exists (f : list (token C) -> list (token C)) w s', w <> ""%string /\ String c (String c' r) = (w ++ s')%string /\
     forall n, tokenize_loop num (Datatypes.S n) (String c (String c' r)) = bind (tokenize_loop num n s') (fun l => Val (f l)))).
  { intro E. rewrite id_scan_span in E. destruct (head_is _ _) in E.
    - left. exists Undef. split; [discriminate|]. intro n. apply E.
    - right. exists (fun l => TId (fst (span isalnum (String c (String c' r)))) :: l),
        (fst (span isalnum (String c (String c' r)))), (snd (span isalnum (String c (String c' r)))).
      split; [cbn [span]; rewrite S; discriminate|]. split; [symmetry; apply span_app|]. intro n. rewrite E. reflexivity. }
  destruct (Ascii.eqb c "e") eqn:EE.
  - destruct (ascii7 c') eqn:A7'.
    2:{ left. exists Undef. split; [discriminate|]. intro n. cbn [tokenize_loop]. rewrite A7, SP, DE, NU, OP, DI, EE, A7'. reflexivity. }
    destruct (isdigit c') eqn:DI'.
    + destruct (elem_scan (C := C) (String c' r) 0 false) as [x| | |] eqn:ES.
      * destruct (elem_scan_suffix _ _ _ _ ES) as [w W].
        right. exists (fun l => fst x :: l), (String c w), (snd x). split; [discriminate|].
        split; [cbn; rewrite <- W; reflexivity|].
        intro n. cbn [tokenize_loop]. rewrite A7, SP, DE, NU, OP, DI, EE, A7', DI', ES. reflexivity.
      * left. exists Throw. split; [discriminate|]. intro n. cbn [tokenize_loop]. rewrite A7, SP, DE, NU, OP, DI, EE, A7', DI', ES. reflexivity.
      * left. exists Undef. split; [discriminate|]. intro n. cbn [tokenize_loop]. rewrite A7, SP, DE, NU, OP, DI, EE, A7', DI', ES. reflexivity.
      * elim (elem_scan_not_fuel _ _ _ ES).
    + apply ID. intro n. cbn [tokenize_loop]. rewrite A7, SP, DE, NU, OP, DI, EE, A7', DI'. reflexivity.
  - apply ID. intro n. cbn [tokenize_loop]. rewrite A7, SP, DE, NU, OP, DI, EE. reflexivity.
Qed.

(** [S (length s)] iterations decide *)
Lemma tokenize_decides s : tokenize num s = Fuel -> forall n, tokenize_loop num n s = Fuel.
Proof.
  unfold tokenize. assert (G : forall k s, String.length s <= k -> tokenize_loop num (S k) s = Fuel ->
    forall n, tokenize_loop num n s = Fuel); [|intros E; eapply G; [|exact E]; lia].
  clear s. induction k as [|k IH]; intros s L E n.
  - destruct s; [|cbn in L; lia]. discriminate.
  - destruct (stuck s) eqn:ST; [apply stuck_fuel; assumption|].
    destruct (loop_step s ST) as [[o [O1 O2]]|[f [w [s' [W [SE ST']]]]]].
    + rewrite O2 in E. contradiction.
    + destruct n as [|n]; [reflexivity|]. rewrite ST' in *. apply bind_Fuel in E.
      destruct E as [E|[v [_ E]]]; [|discriminate].
      rewrite (IH s'); [reflexivity| |assumption].
      subst s. rewrite length_app' in L. destruct w; [contradiction|]. cbn in L. lia.
Qed.
Lemma tokenize_more s n : tokenize num s <> Fuel -> String.length s < n -> tokenize_loop num n s = tokenize num s.
Proof.
  unfold tokenize. assert (G : forall k s n, String.length s <= k -> tokenize_loop num (S k) s <> Fuel ->
    k < n -> tokenize_loop num n s = tokenize_loop num (S k) s); [|intros E L; apply G; [lia|assumption|assumption]].
  clear s n. induction k as [|k IH]; intros s n L E K.
  - destruct s; [|cbn in L; lia]. destruct n; [lia|]. reflexivity.
  - destruct n as [|n]; [lia|]. destruct (stuck s) eqn:ST; [rewrite stuck_fuel in E by assumption; contradiction|].
    destruct (loop_step s ST) as [[o [O1 O2]]|[f [w [s' [W [SE ST']]]]]].
    + rewrite !O2. reflexivity.
    + rewrite !ST' in *. rewrite (IH s' n); [reflexivity| | |lia].
      * subst s. rewrite length_app' in L. destruct w; [contradiction|]. cbn in L. lia.
      * intro F. rewrite F in E. apply E. reflexivity.
Qed.
(** the loop hangs exactly when it reaches a stuck position *)
Inductive reaches : string -> string -> Prop :=
| reach_here s : reaches s s
| reach_step s s' t (f : list (token C) -> list (token C)) :
    stuck s = false ->
    (forall n, tokenize_loop num (S n) s = bind (tokenize_loop num n s') (fun l => Val (f l))) ->
    (String.length s' < String.length s)%nat -> reaches s' t -> reaches s t.
Lemma tokenize_hangs s : (forall n, tokenize_loop num n s = Fuel) <-> exists t, reaches s t /\ stuck t = true.
Proof.
  split.
  - assert (G : forall k s, String.length s <= k -> (forall n, tokenize_loop num n s = Fuel) ->
      exists t, reaches s t /\ stuck t = true); [|apply G with (k := String.length s); lia].
    clear s. induction k as [|k IH]; intros s L E.
    + destruct s; [|cbn in L; lia]. specialize (E 1%nat). discriminate.
    + destruct (stuck s) eqn:ST; [exists s; split; [constructor|assumption]|].
      destruct (loop_step s ST) as [[o [O1 O2]]|[f [w [s' [W [SE ST']]]]]].
      * specialize (E 1%nat). rewrite O2 in E. contradiction.
      * assert (LT : String.length s' < String.length s).
        { subst s. rewrite length_app'. destruct w; [contradiction|]. cbn. lia. }
        destruct (IH s') as [t [R T]]; [lia| |].
        -- intro n. specialize (E (S n)). rewrite ST' in E. apply bind_Fuel in E.
           destruct E as [E|[v [_ E]]]; [assumption|discriminate].
        -- exists t. split; [|assumption]. eapply reach_step; eassumption.
  - intros [t [R T]]. induction R as [s|s s' t f ST' E LT R IH]; [intro n; apply stuck_fuel; assumption|].
    intros [|n]; [reflexivity|]. rewrite E, IH by assumption. reflexivity.
Qed.
(** a string of allowed characters that does not end in a letter is tokenized *)
Definition lexable (c : ascii) : bool := isspace c || isdelim c || isop c || isalnum c.
Definition isletter (c : ascii) : bool := isalnum c && negb (isdigit c).
Local Arguments isletter c : simpl never.
Fixpoint last_is (p : ascii -> bool) (s : string) : bool :=
  match s with EmptyString => false | String c EmptyString => p c | String _ r => last_is p r end.
Lemma last_is_app p w s : s <> ""%string -> last_is p (w ++ s) = last_is p s.
Proof.
  intro N. induction w as [|c w IH]; [reflexivity|]. cbn [append last_is].
  destruct (w ++ s)%string eqn:E; [destruct w; [contradiction|discriminate]|assumption].
Qed.
Lemma stuck_lexable s : all_chars lexable s = true -> last_is isletter s = false -> stuck s = false.
Proof.
  destruct s as [|c r]; [reflexivity|]. cbn [all_chars stuck]. intros A L. ands. unfold lexable in *.
  destruct (isspace c) eqn:SP; [rewrite andb_false_r; reflexivity|].
  destruct (isdelim c) eqn:DE; [rewrite !andb_false_r; reflexivity|].
  destruct (isop c) eqn:OP; [rewrite !andb_false_r; reflexivity|]. cbn [orb] in *.
  destruct r as [|c' r].
  - cbn [last_is] in L. unfold isletter in L. rewrite H0 in L. cbn [andb] in L.
    apply negb_false_iff in L. rewrite L. cbn [negb]. rewrite andb_false_r. reflexivity.
  - rewrite H0. apply andb_false_r.
Qed.
Lemma tokenize_terminates s : all_chars lexable s = true -> last_is isletter s = false ->
  tokenize num s <> Fuel.
Proof.
  unfold tokenize. assert (G : forall k s, String.length s <= k -> all_chars lexable s = true ->
    last_is isletter s = false -> tokenize_loop num (S k) s <> Fuel); [|apply G; lia].
  clear s. induction k as [|k IH]; intros s L A LA E.
  - destruct s; [|cbn in L; lia]. discriminate.
  - destruct (loop_step s (stuck_lexable s A LA)) as [[o [O1 O2]]|[f [w [s' [W [SE ST']]]]]].
    + rewrite O2 in E. contradiction.
    + rewrite ST' in E. apply bind_Fuel in E. destruct E as [E|[v [_ E]]]; [|discriminate].
      subst s. rewrite all_chars_app in A. ands. revert E. apply IH.
      * rewrite length_app' in L. destruct w; [contradiction|]. cbn in L. lia.
      * assumption.
      * destruct s' as [|c' s']; [reflexivity|]. rewrite last_is_app in LA by discriminate. assumption.
Qed.

(** the result of a completed run ends with the only eof *)
Lemma tokenize_eof n s l : tokenize_loop num n s = Val l -> exists pre, l = pre ++ [TEof] /\ ~ In TEof pre.
Proof.
  revert s l. induction n as [|n IH]; intros s l E; [discriminate|].
  assert (K : forall s' (t : token C) l', bind (tokenize_loop num n s') (fun l => Val (t :: l)) = Val l' ->
    t <> TEof -> exists pre, l' = pre ++ [TEof] /\ ~ In TEof pre).
  { intros s' t l' E' NT. apply bind_Val in E'. destruct E' as [u [E1 E2]]. inversion E2; subst.
    destruct (IH _ _ E1) as [pre [-> N]]. exists (t :: pre). split; [reflexivity|]. intros [F|F]; [congruence|contradiction]. }
  cbn [tokenize_loop] in E. destruct s as [|c r].
  { inversion E; subst. exists []. split; [reflexivity|intros []]. }
  destruct (ascii7 c) eqn:A7; cbn [negb] in E; [|discriminate]. destruct (isspace c) eqn:SP; [eauto|].
  destruct (isdelim c) eqn:DE; [eapply K; [exact E|discriminate]|].
  destruct (Ascii.eqb c "000") eqn:NU; [inversion E; subst; exists []; split; [reflexivity|intros []]|].
  destruct (isop c) eqn:OP; [eapply K; [exact E|discriminate]|].
  destruct (isdigit c) eqn:DI.
  { apply bind_Val in E. destruct E as [x [_ E]]. eapply K; [exact E|discriminate]. }
  destruct r as [|c' r].
  { exfalso. apply bind_Val in E. destruct E as [l0 [E _]]. rewrite stuck_fuel in E; [discriminate|].
    cbn [stuck]. rewrite A7, SP, DE, NU, OP, DI. reflexivity. }
  assert (ID : bind (id_scan (String c (String c' r))) (fun x =>
      bind (tokenize_loop num n (snd x)) (fun l => Val (TId (fst x) :: l))) = Val l ->
    exists pre, l = pre ++ [TEof] /\ ~ In TEof pre).
  { intro E'. apply bind_Val in E'. destruct E' as [x [_ E']]. eapply K; [exact E'|discriminate]. }
  destruct (Ascii.eqb c "e"); [|auto]. destruct (negb (ascii7 c')); [discriminate|].
  destruct (isdigit c'); [|auto]. apply bind_Val in E. destruct E as [x [E1 E]].
  eapply K; [exact E|].
  assert (EL : forall s v b x, elem_scan (C := C) s v b = Val x -> fst x <> TEof).
  { clear. induction s as [|c s IH]; intros v b x E; cbn [elem_scan] in E; [inversion E; discriminate|].
    destruct (negb (ascii7 c)); [discriminate|]. destruct (isdigit c).
    - destruct (0 <? _)%N; [discriminate|]. eauto.
    - inversion E. discriminate. }
  eapply EL. exact E1.
Qed.

(** ** basis elements *)
(** the digits as characters *)
Definition digit (d : nat) : ascii := ascii_of_nat (48 + d).
Definition digits (ds : list nat) : string := fold_right (fun d s => String (digit d) s) ""%string ds.
(** the set of indices as a bit set *)
Definition idx_set (ds : list nat) : N := fold_right (fun d acc => N.lor (2 ^ N.of_nat d) acc) 0%N ds.
(** number of pairs out of order *)
Fixpoint inversions (l : list nat) : nat :=
  match l with [] => 0 | d :: r => List.length (filter (fun x => x <? d) r) + inversions r end.

Lemma digit_class d : d < 10 -> isdigit (digit d) = true /\ ascii7 (digit d) = true /\ digit_val (digit d) = d.
Proof. do 10 (destruct d as [|d]; [repeat split|]). lia. Qed.
Lemma tb_idx_set ds i : N.testbit (idx_set ds) (N.of_nat i) = existsb (Nat.eqb i) ds.
Proof.
  induction ds as [|d ds IH]; [apply N.bits_0|]. cbn [idx_set fold_right existsb]. rewrite N.lor_spec, tb_pow2.
  fold (idx_set ds). rewrite IH, Nat.eqb_sym. reflexivity.
Qed.
Lemma existsb_In i ds : existsb (Nat.eqb i) ds = true <-> In i ds.
Proof.
  rewrite existsb_exists. split.
  - intros [x [I E]]. apply Nat.eqb_eq in E. subst. assumption.
  - intro I. exists i. split; [assumption|apply Nat.eqb_refl].
Qed.
Lemma existsb_nIn i ds : ~ In i ds -> existsb (Nat.eqb i) ds = false.
Proof. intro I. destruct (existsb _ _) eqn:E; [apply existsb_In in E; contradiction|reflexivity]. Qed.
Lemma idx_set_app a b : idx_set (a ++ b) = N.lor (idx_set a) (idx_set b).
Proof.
  induction a as [|d a IH]; [symmetry; apply N.lor_0_l|]. cbn. fold (idx_set (a ++ b)) (idx_set a). rewrite IH. apply N.lor_assoc.
Qed.
Lemma idx_set_lt n ds : (forall d, In d ds -> d < n) -> (idx_set ds < 2 ^ N.of_nat n)%N.
Proof.
  intro L. destruct (N.eq_0_gt_0_cases (idx_set ds)) as [->|P].
  - pose proof (N.pow_nonzero 2 (N.of_nat n)). lia.
  - apply N.log2_lt_pow2; [assumption|].
    assert (T : N.testbit (idx_set ds) (N.log2 (idx_set ds)) = true) by (apply N.bit_log2; lia).
    rewrite <- (N2Nat.id (N.log2 (idx_set ds))) in T. rewrite tb_idx_set in T. apply existsb_In in T.
    specialize (L _ T). lia.
Qed.
Lemma land_pow2 ds d : ~ In d ds -> N.land (2 ^ N.of_nat d) (idx_set ds) = 0%N.
Proof.
  intro I. apply N.bits_inj. intro i. rewrite N.land_spec, N.bits_0.
  rewrite <- (N2Nat.id i), tb_pow2, tb_idx_set. destruct (Nat.eqb_spec d (N.to_nat i)) as [<-|]; [|reflexivity].
  apply existsb_nIn. assumption.
Qed.
Lemma par_idx_set ds k : NoDup ds -> par (idx_set ds) k = Nat.odd (List.length (filter (fun d => d <? k) ds)).
Proof.
  induction 1 as [|d ds I N IH]; [apply par_0|]. cbn [idx_set fold_right filter]. fold (idx_set ds).
  rewrite lor_lxor by (apply land_pow2; assumption). rewrite par_xor, par_pow2, IH.
  destruct (d <? k); [cbn [List.length]; rewrite Nat.odd_succ, <- Nat.negb_odd|]; destruct (Nat.odd _); reflexivity.
Qed.
Lemma filter_split k ds n : (forall d, In d ds -> d < n) ->
  List.length (filter (fun d => d <? n) ds) = List.length (filter (fun d => d <? k) ds) + List.length (filter (fun d => k <=? d) ds).
Proof.
  induction ds as [|d ds IH]; intro L; [reflexivity|]. cbn [filter].
  rewrite (proj2 (Nat.ltb_lt d n)) by (apply L; left; reflexivity). cbn [List.length].
  rewrite IH by (intros; apply L; right; assumption).
  destruct (Nat.ltb_spec d k), (Nat.leb_spec k d); cbn [List.length]; lia.
Qed.
(** parity of the indices above d *)
Lemma odd_above n ds d : NoDup ds -> (forall x, In x ds -> x < n) ->
  xorb (par (idx_set ds) n) (par (idx_set ds) d) = Nat.odd (List.length (filter (fun x => d <=? x) ds)).
Proof.
  intros N L. rewrite !par_idx_set by assumption. rewrite (filter_split d ds n L), Nat.odd_add.
  destruct (Nat.odd _), (Nat.odd _); reflexivity.
Qed.
Lemma odd_popcnt_above ds d : NoDup ds -> (forall x, In x ds -> x < 8) -> d < 8 ->
  Nat.odd (popcnt (N.ldiff (idx_set ds) (2 ^ N.of_nat d - 1))) = Nat.odd (List.length (filter (fun x => d <=? x) ds)).
Proof.
  intros N L D. destruct d as [|d].
  - change (2 ^ N.of_nat 0 - 1)%N with 0%N. rewrite N.ldiff_0_r.
    rewrite (odd_popcnt _ 8) by (apply idx_set_lt; assumption). rewrite <- (odd_above 8 ds 0) by assumption.
    change (par (idx_set ds) 0) with false. rewrite xorb_false_r. reflexivity.
  - replace (S d) with (d + 1) at 1 by lia. rewrite (odd_high _ 8) by (apply idx_set_lt; assumption) || lia.
    rewrite (odd_above 8) by assumption. reflexivity.
Qed.
Lemma filter_le_lt d ps : ~ In d ps -> filter (fun x => d <=? x) ps = filter (fun x => d <? x) ps.
Proof.
  intro I. apply filter_ext_in. intros x X. destruct (Nat.leb_spec d x), (Nat.ltb_spec d x); try lia; try reflexivity.
  replace x with d in X by lia. contradiction.
Qed.
Lemma inversions_snoc l d : inversions (l ++ [d]) = inversions l + List.length (filter (fun x => d <? x) l).
Proof.
  induction l as [|x l IH]; [reflexivity|]. cbn [app inversions filter]. rewrite IH, filter_app, app_length.
  cbn [filter]. destruct (d <? x); cbn [List.length]; lia.
Qed.
Lemma NoDup_app_cons {T} (ps : list T) d ds : NoDup (ps ++ d :: ds) -> ~ In d ps /\ NoDup ps /\ NoDup ((ps ++ [d]) ++ ds).
Proof.
  intro N. split; [|split].
  - apply NoDup_remove_2 in N. intro I. apply N. apply in_or_app. left. assumption.
  - clear - N. induction ps as [|p ps IH]; [constructor|]. cbn in N. inversion N; subst. constructor; [|auto].
    intro I. apply H1. apply in_or_app. left. assumption.
  - rewrite <- app_assoc. assumption.
Qed.
Lemma elem_step ps d b s : NoDup ps -> ~ In d ps -> (forall x, In x ps -> x < 8) -> d < 8 ->
  elem_scan (C := C) (String (digit d) s) (idx_set ps) b =
  elem_scan s (idx_set (ps ++ [d])) (xorb b (Nat.odd (List.length (filter (fun x => d <? x) ps)))).
Proof.
  intros N I L D. destruct (digit_class d) as [D1 [D2 D3]]; [lia|]. cbn [elem_scan].
  rewrite D2, D1, D3. cbn [negb]. rewrite land_bit, tb_idx_set, existsb_nIn by assumption.
  rewrite odd_popcnt_above by assumption. rewrite filter_le_lt by assumption.
  rewrite idx_set_app. cbn [idx_set fold_right]. rewrite N.lor_0_r.
  rewrite N.mod_small.
  - f_equal. destruct b, (Nat.odd _); reflexivity.
  - change 256%N with (2 ^ N.of_nat 8)%N. assert (E : N.lor (idx_set ps) (2 ^ N.of_nat d) = idx_set (ps ++ [d])).
    { rewrite idx_set_app. cbn. rewrite N.lor_0_r. reflexivity. }
    rewrite E. apply idx_set_lt. intros x X. apply in_app_or in X. destruct X as [X|[<-|[]]]; auto.
Qed.
Lemma elem_scan_digits ds ps s : NoDup (ps ++ ds) -> (forall d, In d (ps ++ ds) -> d < 8) ->
  head_is isdigit s = false -> head_is (fun c => negb (ascii7 c)) s = false ->
  elem_scan (C := C) (digits ds ++ s) (idx_set ps) (Nat.odd (inversions ps)) =
  Val (TElem (idx_set (ps ++ ds)) (Nat.odd (inversions (ps ++ ds))), s).
Proof.
  revert ps. induction ds as [|d ds IH]; intros ps N L D A.
  - rewrite app_nil_r. cbn [digits fold_right append]. destruct s as [|c s]; [reflexivity|].
    cbn [elem_scan head_is] in *. rewrite A, D. reflexivity.
  - destruct (NoDup_app_cons _ _ _ N) as [N1 [N2 N3]]. cbn [digits fold_right append]. fold (digits ds).
    rewrite elem_step; [|assumption|assumption| |].
    + rewrite <- Nat.odd_add, <- inversions_snoc, IH; try assumption.
      * rewrite <- app_assoc. reflexivity.
      * rewrite <- app_assoc. assumption.
    + intros x X. apply L. apply in_or_app. left. assumption.
    + apply L. apply in_or_app. right. left. reflexivity.
Qed.
Lemma elem_scan_duplicate ds ps b s : NoDup ps -> (forall d, In d (ps ++ ds) -> d < 8) -> ~ NoDup (ps ++ ds) ->
  elem_scan (C := C) (digits ds ++ s) (idx_set ps) b = Throw.
Proof.
  revert ps b. induction ds as [|d ds IH]; intros ps b N L ND.
  - rewrite app_nil_r in ND. contradiction.
  - cbn [digits fold_right append]. fold (digits ds). assert (D8 : d < 8) by (apply L, in_or_app; right; left; reflexivity).
    assert (LP : forall x, In x ps -> x < 8) by (intros x X; apply L, in_or_app; left; assumption).
    destruct (in_dec Nat.eq_dec d ps) as [I|I].
    + destruct (digit_class d) as [D1 [D2 D3]]; [lia|]. cbn [elem_scan]. rewrite D2, D1, D3. cbn [negb].
      rewrite land_bit, tb_idx_set. apply existsb_In in I. rewrite I. reflexivity.
    + rewrite elem_step by assumption. apply IH.
      * apply NoDup_app_remove_l with (l := []) || idtac. clear - N I. 
        induction ps as [|p ps IH]; [constructor; [intros []|constructor]|]. inversion N; subst. cbn. constructor.
        -- intro X. apply in_app_or in X. destruct X as [X|[->|[]]]; [contradiction|]. apply I. left. reflexivity.
        -- apply IH; [assumption|]. intro X. apply I. right. assumption.
      * rewrite <- app_assoc. assumption.
      * rewrite <- app_assoc. assumption.
Qed.

(** ** texts and their tokens *)
Definition e_digit (s : string) : bool :=
  match s with String c (String d _) => Ascii.eqb c "e" && isdigit d | _ => false end.
(** [spells t w]: the characters w are a way to write the token t *)
Inductive spells : token C -> string -> Prop :=
| sp_op c : isop c = true -> spells (TOp c) (String c "")
| sp_delim c : isdelim c = true -> spells (TDelim c) (String c "")
| sp_num w : head_is isdigit w = true -> all_chars numchar w = true -> float_prefix w = w ->
    String.length w < 32 -> spells (TNum (num w)) w
| sp_id w : head_is isletter w = true -> all_chars isalnum w = true -> e_digit w = false -> spells (TId w) w
| sp_elem ds : ds <> [] -> NoDup ds -> (forall d, In d ds -> d < 8) ->
    spells (TElem (idx_set ds) (Nat.odd (inversions ds))) (String "e" (digits ds)).
(** the token is complete before the text s; an identifier of one letter must
    not be the end of the input *)
Definition ends (t : token C) (s : string) : Prop :=
  match t with
  | TNum _ => head_is numchar s = false
  | TId w => head_is isalnum s = false /\ (String.length w = 1 -> s <> ""%string)
  | TElem _ _ => head_is isdigit s = false
  | _ => True
  end.
Inductive lex : string -> list (token C) -> Prop :=
| lex_nil : lex "" []
| lex_space c s l : isspace c = true -> lex s l -> lex (String c s) l
| lex_token t w s l : spells t w -> ends t s -> lex s l -> lex (w ++ s) (t :: l).

Lemma lex_ascii s l : lex s l -> head_is (fun c => negb (ascii7 c)) s = false.
Proof.
  intro L. destruct L as [|c s l S L|t w s l S E L]; [reflexivity| |].
  - cbn. pose proof (class_space c S). ands. rwb. reflexivity.
  - destruct S as [c O|c O|w W1 W2 W3 W4|w W1 W2 W3|ds D1 D2 D3]; cbn.
    + pose proof (class_op c O). ands. rwb. reflexivity.
    + pose proof (class_delim c O). ands. rwb. reflexivity.
    + destruct w as [|c w]; [discriminate|]. cbn in *. pose proof (class_digit c W1). ands. rwb. reflexivity.
    + destruct w as [|c w]; [discriminate|]. cbn in *. unfold isletter in W1. ands. pose proof (class_alnum c ltac:(assumption)). ands. rwb. reflexivity.
    + reflexivity.
Qed.
Lemma lex_tokenize s l n : lex s l -> String.length s < n -> tokenize_loop num n s = Val (l ++ [TEof]).
Proof.
  intro L. revert n. induction L as [|c s l S L IH|t w s l S E L IH]; intros n N.
  - destruct n; [lia|reflexivity].
  - destruct n as [|n]; [lia|]. cbn [tokenize_loop]. pose proof (class_space c S). ands. rwb. cbn [negb].
    apply IH. cbn in N. lia.
  - destruct n as [|n]; [lia|]. pose proof (lex_ascii s l L) as A7.
    rewrite length_app' in N.
    destruct S as [c O|c O|w W1 W2 W3 W4|w W1 W2 W3|ds D1 D2 D3]; cbn [append String.length] in *.
    + cbn [tokenize_loop]. pose proof (class_op c O). ands. rwb. cbn [negb].
      rewrite IH by lia. reflexivity.
    + cbn [tokenize_loop]. pose proof (class_delim c O). ands. rwb. cbn [negb].
      rewrite IH by lia. reflexivity.
    + destruct w as [|c w]; [discriminate|]. cbn [head_is append] in *. pose proof (class_digit c W1).
      cbn [tokenize_loop]. ands. rwb. cbn [negb].
      unfold tokenize_number. rewrite num_scan_exact. cbn [ends] in E.
      change (String c (w ++ s)) with (String c w ++ s)%string. rewrite span_prefix by assumption. cbn [fst snd].
      rewrite A7, (proj2 (Nat.ltb_lt _ _) W4). cbn [negb andb bind]. rewrite W3, drop_app. cbn [fst snd].
      rewrite IH by (cbn in N; lia). reflexivity.
    + destruct w as [|c w]; [discriminate|]. cbn [head_is append ends] in *.
      unfold isletter in W1. apply andb_true_iff in W1. destruct W1 as [AL ND]. apply negb_true_iff in ND.
      pose proof (class_alnum c AL). destruct E as [E1 E2].
      cbn [tokenize_loop]. ands. rwb. cbn [negb].
      assert (ID : bind (id_scan (String c w ++ s)) (fun x =>
          bind (tokenize_loop num n (snd x)) (fun l0 => Val (TId (fst x) :: l0))) = Val (TId (String c w) :: l ++ [TEof])).
      { rewrite id_scan_span, span_prefix by assumption. cbn [snd fst]. rewrite A7. cbn [bind snd fst].
        rewrite IH by (cbn in N; lia). reflexivity. }
      destruct (w ++ s)%string as [|c' r] eqn:WS.
      { exfalso. destruct w; [|discriminate]. apply E2; [reflexivity|assumption]. }
      assert (NA : String c (String c' r) = (String c w ++ s)%string) by (cbn; rewrite WS; reflexivity).
      rewrite NA. destruct (Ascii.eqb c "e") eqn:EE; [|exact ID].
      assert (A7' : ascii7 c' = true /\ isdigit c' = false).
      { destruct w as [|c1 w]; cbn in WS.
        - subst s. cbn [head_is] in *. apply negb_false_iff in A7. split; [assumption|].
          destruct (isdigit c') eqn:DD; [|reflexivity]. pose proof (class_digit c' DD). ands. congruence.
        - inversion WS; subst c'. cbn [e_digit] in W3. rewrite EE in W3. cbn in W3. split; [|assumption].
          cbn [all_chars] in W2. apply andb_true_iff in W2. destruct W2 as [_ W2]. apply andb_true_iff in W2. destruct W2 as [W2 _]. pose proof (class_alnum c1 W2). ands. assumption. }
      destruct A7' as [-> ->]. exact ID.
    + destruct ds as [|d ds]; [contradiction|]. cbn [ends] in E.
      assert (D8 : d < 8) by (apply D3; left; reflexivity).
      destruct (digit_class d) as [Q1 [Q2 Q3]]; [lia|].
      change (digits (d :: ds) ++ s)%string with (String (digit d) (digits ds ++ s)).
      cbn [tokenize_loop]. change (isspace "e") with false. change (isdelim "e") with false.
      change (Ascii.eqb "e" "000") with false. change (isop "e") with false. change (isdigit "e") with false.
      change (ascii7 "e") with true. change (Ascii.eqb "e" "e") with true. cbn [negb].
      rewrite Q2, Q1. cbn [negb].
      pose proof (elem_scan_digits (d :: ds) [] s D2 D3 E A7) as ES. cbn [app] in ES.
      change (idx_set []) with 0%N in ES. change (Nat.odd (inversions [])) with false in ES.
      change (digits (d :: ds) ++ s)%string with (String (digit d) (digits ds ++ s)) in ES.
      rewrite ES. cbn [bind fst snd]. rewrite IH by (cbn in N; lia). reflexivity.
Qed.

(** ** defined behaviour *)
Lemma all_suffix p w s : all_chars p (w ++ s) = true -> all_chars p s = true.
Proof. rewrite all_chars_app. intro. ands. assumption. Qed.
Definition short_runs (s : string) : Prop :=
  forall u t, s = (u ++ t)%string -> String.length (fst (span numchar t)) < 32.
Lemma tokenize_defined n s : all_chars ascii7 s = true -> short_runs s -> tokenize_loop num n s <> Undef.
Proof.
  revert s. induction n as [|n IH]; intros s A R; [discriminate|].
  assert (HA : forall t, all_chars ascii7 t = true -> head_is (fun c => negb (ascii7 c)) t = false).
  { intros [|c t] T; [reflexivity|]. cbn in *. ands. rwb. reflexivity. }
  assert (SUF : forall w t, s = (w ++ t)%string -> tokenize_loop num n t <> Undef).
  { intros w t E. apply IH; [apply all_suffix with w; rewrite <- E; assumption|].
    intros u t' E'. apply (R (w ++ u)%string t'). rewrite append_assoc', <- E'. assumption. }
  assert (K : forall w t (f : list (token C) -> list (token C)), s = (w ++ t)%string ->
    bind (tokenize_loop num n t) (fun l => Val (f l)) <> Undef).
  { intros w t f E. specialize (SUF w t E). destruct (tokenize_loop num n t); cbn; congruence. }
  cbn [tokenize_loop]. destruct s as [|c r]; [discriminate|].
  pose proof (HA _ A) as A7. cbn [head_is] in A7. rewrite A7.
  destruct (isspace c); [apply (SUF (String c "")); reflexivity|].
  destruct (isdelim c); [apply (K (String c "") r (cons (TDelim c))); reflexivity|].
  destruct (Ascii.eqb c "000"); [discriminate|].
  destruct (isop c); [apply (K (String c "") r (cons (TOp c))); reflexivity|].
  destruct (isdigit c) eqn:DI.
  { destruct (tokenize_number num (String c r)) as [x| | |] eqn:TN; cbn [bind]; try discriminate.
    - destruct (tokenize_number_suffix c r x DI TN) as [w [_ W]]. apply (K w (snd x) (cons (TNum (fst x)))). assumption.
    - unfold tokenize_number in TN. rewrite num_scan_exact in TN.
      rewrite (proj2 (Nat.ltb_lt _ _) (R ""%string _ eq_refl)) in TN.
      rewrite HA in TN; [discriminate|]. apply all_suffix with (fst (span numchar (String c r))).
      rewrite span_app. assumption. }
  destruct r as [|c' r]; [apply (K ""%string (String c "") (cons TEof)); reflexivity|].
  assert (ID : bind (id_scan (String c (String c' r))) (fun x =>
      bind (tokenize_loop num n (snd x)) (fun l => Val (TId (fst x) :: l))) <> Undef).
  { rewrite id_scan_span, HA.
    - cbn [bind]. apply (K (fst (span isalnum (String c (String c' r)))) _ (cons (TId _))). symmetry. apply span_app.
    - apply all_suffix with (fst (span isalnum (String c (String c' r)))). rewrite span_app. assumption. }
  destruct (Ascii.eqb c "e"); [|exact ID].
  assert (A' : all_chars ascii7 (String c' r) = true) by (apply all_suffix with (String c ""); assumption).
  pose proof (HA _ A') as A7'. cbn [head_is] in A7'. rewrite A7'. destruct (isdigit c'); [|exact ID].
  assert (ES : forall s v b, all_chars ascii7 s = true -> elem_scan (C := C) s v b <> Undef).
  { clear. induction s as [|c s IH]; intros v b A; cbn [elem_scan]; [discriminate|]. cbn [all_chars] in A. ands.
    rwb. cbn [negb]. destruct (isdigit c); [|discriminate]. destruct (0 <? _)%N; [discriminate|]. auto. }
  destruct (elem_scan (C := C) (String c' r) 0 false) as [x| | |] eqn:E; cbn [bind]; try discriminate.
  - destruct (elem_scan_suffix _ _ _ _ E) as [w W].
    apply (K (String c w) (snd x) (cons (fst x))). cbn. rewrite <- W. reflexivity.
  - elim (ES _ _ _ A' E).
Qed.
End Tok.
