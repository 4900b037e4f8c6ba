(** std::map as used by the symbolic tool (/repo/sym): a list of key/value
    pairs kept in increasing key order.  The key comparison [lt] is the one the
    C++ map is instantiated with; [find], [emplace], [erase] only ever look at
    keys through [lt], as std::map does (equivalence is "neither is less"). *)
From Coq Require Import List Bool Arith Permutation.
Import ListNotations.

Section Map.
Context {K V : Type} (lt : K -> K -> bool).

(** map::find *)
Fixpoint find (k : K) (l : list (K * V)) : option V :=
  match l with
  | [] => None
  | (k', v) :: r => if lt k' k then find k r else if lt k k' then None else Some v
  end.
(** map::emplace: inserts only when no equivalent key is present *)
Fixpoint emplace (k : K) (v : V) (l : list (K * V)) : list (K * V) :=
  match l with
  | [] => [(k, v)]
  | (k', v') :: r =>
    if lt k' k then (k', v') :: emplace k v r
    else if lt k k' then (k, v) :: l else l
  end.
(** map::erase(iterator at k) *)
Fixpoint erase (k : K) (l : list (K * V)) : list (K * V) :=
  match l with
  | [] => []
  | (k', v') :: r =>
    if lt k' k then (k', v') :: erase k r
    else if lt k k' then l else r
  end.
(** assignment through the iterator at k: it->second = v *)
Fixpoint assign (k : K) (v : V) (l : list (K * V)) : list (K * V) :=
  match l with
  | [] => []
  | (k', v') :: r =>
    if lt k' k then (k', v') :: assign k v r
    else if lt k k' then l else (k', v) :: r
  end.

(** the contents after each update, as a bag *)
Lemma emplace_perm k v l : find k l = None -> Permutation (emplace k v l) ((k, v) :: l).
Proof.
  induction l as [|[k0 v0] l IH]; cbn; [reflexivity|].
  destruct (lt k0 k).
  - intro H. rewrite (IH H). apply perm_swap.
  - destruct (lt k k0); [reflexivity|discriminate].
Qed.
Lemma erase_perm k v l : find k l = Some v ->
  exists k', lt k' k = false /\ lt k k' = false /\ Permutation l ((k', v) :: erase k l) /\
    forall w, Permutation (assign k w l) ((k', w) :: erase k l).
Proof.
  induction l as [|[k0 v0] l IH]; cbn; [discriminate|].
  destruct (lt k0 k) eqn:E0.
  - intro H. destruct (IH H) as [k' [A [B [P Q]]]]. exists k'. repeat (split; try assumption).
    + rewrite P at 1. apply perm_swap.
    + intro w. rewrite (Q w). apply perm_swap.
  - destruct (lt k k0) eqn:E1; [discriminate|]. intro H. inversion H; subst.
    exists k0. repeat (split; try assumption); reflexivity.
Qed.

(** ** Laws, for a strict total order *)
Definition strict_total : Prop :=
  (forall a, lt a a = false) /\
  (forall a b c, lt a b = true -> lt b c = true -> lt a c = true) /\
  (forall a b, lt a b = false -> lt b a = false -> a = b).

Inductive sorted : list (K * V) -> Prop :=
| sorted_nil : sorted []
| sorted_cons k v l : (forall k' v', In (k', v') l -> lt k k' = true) ->
    sorted l -> sorted ((k, v) :: l).

Context (ST : strict_total).
Let irr : forall a, lt a a = false := proj1 ST.
Let trans : forall a b c, lt a b = true -> lt b c = true -> lt a c = true := proj1 (proj2 ST).
Let total : forall a b, lt a b = false -> lt b a = false -> a = b := proj2 (proj2 ST).

Lemma lt_asym a b : lt a b = true -> lt b a = false.
Proof.
  intro H. destruct (lt b a) eqn:E; [|reflexivity].
  rewrite <- (irr a). symmetry. apply trans with b; assumption.
Qed.
Lemma key_eq_dec (a b : K) : {a = b} + {a <> b}.
Proof.
  destruct (lt a b) eqn:E.
  - right. intros ->. rewrite irr in E. discriminate.
  - destruct (lt b a) eqn:F.
    + right. intros ->. rewrite irr in F. discriminate.
    + left. apply total; assumption.
Qed.

(** find locates exactly the pairs of the map *)
Lemma find_In k v l : sorted l -> find k l = Some v <-> In (k, v) l.
Proof.
  intro S. induction S as [|k' v' l Hlt S IH]; cbn; [split; [discriminate|tauto]|].
  destruct (lt k' k) eqn:E.
  - rewrite IH. split; [auto|]. intros [H|H]; [|assumption].
    inversion H; subst. rewrite irr in E. discriminate.
  - destruct (lt k k') eqn:F.
    + split; [discriminate|]. intros [H|H].
      * inversion H; subst. rewrite irr in F. discriminate.
      * apply Hlt in H. congruence.
    + assert (k' = k) by (apply total; assumption). subst k'. split.
      * intro H; inversion H; subst; auto.
      * intros [H|H]; [inversion H; reflexivity|]. apply Hlt in H. congruence.
Qed.
Lemma find_None k l : sorted l -> find k l = None <-> (forall v, ~ In (k, v) l).
Proof.
  intro S. split.
  - intros H v I. apply find_In in I; [congruence|assumption].
  - intro H. destruct (find k l) as [v|] eqn:E; [|reflexivity].
    apply find_In in E; [|assumption]. elim (H v E).
Qed.

(** what a lookup returns after each update *)
Lemma find_emplace k v l k' : sorted l ->
  find k' (emplace k v l) =
  if key_eq_dec k k' then match find k l with Some v0 => Some v0 | None => Some v end
  else find k' l.
Proof.
  intro S. induction S as [|k0 v0 l Hlt S IH]; cbn.
  - destruct (key_eq_dec k k') as [->|N]; [rewrite !irr; reflexivity|].
    destruct (lt k k') eqn:E; [reflexivity|]. destruct (lt k' k) eqn:F; [reflexivity|].
    elim N. apply total; assumption.
  - destruct (lt k0 k) eqn:E; cbn.
    + rewrite IH. destruct (key_eq_dec k k') as [->|N]; [rewrite E; reflexivity|reflexivity].
    + destruct (lt k k0) eqn:F; cbn.
      * destruct (key_eq_dec k k') as [<-|N].
        -- rewrite !irr. reflexivity.
        -- destruct (lt k k') eqn:G; [reflexivity|]. destruct (lt k' k) eqn:H.
           ++ rewrite (lt_asym k' k0) by (apply trans with k; assumption).
              rewrite (trans k' k k0 H F). reflexivity.
           ++ elim N. apply total; assumption.
      * destruct (key_eq_dec k k') as [<-|N]; [|reflexivity].
        rewrite E, F. reflexivity.
Qed.
Lemma find_erase k l k' : sorted l ->
  find k' (erase k l) = if key_eq_dec k k' then None else find k' l.
Proof.
  intro S. induction S as [|k0 v0 l Hlt S IH]; cbn.
  - destruct (key_eq_dec k k'); reflexivity.
  - destruct (lt k0 k) eqn:E; cbn.
    + rewrite IH. destruct (key_eq_dec k k') as [<-|N]; [rewrite E; reflexivity|reflexivity].
    + destruct (lt k k0) eqn:F; cbn.
      * destruct (key_eq_dec k k') as [<-|N]; [rewrite E, F|]; reflexivity.
      * assert (k0 = k) by (apply total; assumption). subst k0.
        destruct (key_eq_dec k k') as [<-|N].
        -- apply find_None; [assumption|]. intros v I. apply Hlt in I. rewrite irr in I. discriminate.
        -- destruct (lt k k') eqn:G; [reflexivity|]. destruct (lt k' k) eqn:H.
           ++ apply find_None; [assumption|]. intros v I. apply Hlt in I. congruence.
           ++ elim N. apply total; assumption.
Qed.
Lemma find_assign k v l k' : sorted l ->
  find k' (assign k v l) =
  if key_eq_dec k k' then match find k l with Some _ => Some v | None => None end
  else find k' l.
Proof.
  intro S. induction S as [|k0 v0 l Hlt S IH]; cbn.
  - destruct (key_eq_dec k k'); reflexivity.
  - destruct (lt k0 k) eqn:E; cbn.
    + rewrite IH. destruct (key_eq_dec k k') as [<-|N]; [rewrite E; reflexivity|reflexivity].
    + destruct (lt k k0) eqn:F; cbn.
      * destruct (key_eq_dec k k') as [<-|N]; [rewrite E, F|]; reflexivity.
      * assert (k0 = k) by (apply total; assumption). subst k0.
        destruct (key_eq_dec k k') as [<-|N]; [rewrite irr; reflexivity|].
        destruct (lt k k') eqn:G; [reflexivity|]. destruct (lt k' k) eqn:H; [reflexivity|].
        elim N. apply total; assumption.
Qed.

(** updates keep the order *)
Lemma In_emplace k v l a : In a (emplace k v l) -> a = (k, v) \/ In a l.
Proof.
  induction l as [|[k0 v0] l IH]; cbn; [intuition|].
  destruct (lt k0 k); [cbn; intuition|]. destruct (lt k k0); cbn; intuition.
Qed.
Lemma In_erase k l a : In a (erase k l) -> In a l.
Proof.
  induction l as [|[k0 v0] l IH]; cbn; [auto|].
  destruct (lt k0 k); [cbn; intuition|]. destruct (lt k k0); cbn; intuition.
Qed.
Lemma In_assign k v l k' v' : In (k', v') (assign k v l) ->
  In (k', v') l \/ (v' = v /\ exists v0, In (k', v0) l).
Proof.
  induction l as [|[k0 v0] l IH]; cbn; [auto|].
  destruct (lt k0 k); [cbn; firstorder|]. destruct (lt k k0); cbn; [auto|].
  intros [H|H]; [inversion H; subst; eauto|auto].
Qed.
Lemma sorted_emplace k v l : sorted l -> sorted (emplace k v l).
Proof.
  intro S. induction S as [|k0 v0 l Hlt S IH]; cbn.
  - constructor; [cbn; tauto|constructor].
  - destruct (lt k0 k) eqn:E.
    + constructor; [|assumption]. intros k' v' I. apply In_emplace in I.
      destruct I as [I|I]; [inversion I; subst; assumption|eauto].
    + destruct (lt k k0) eqn:F; [|constructor; assumption].
      constructor; [|constructor; assumption].
      intros k' v' [I|I]; [inversion I; subst; assumption|].
      apply trans with k0; eauto.
Qed.
Lemma sorted_erase k l : sorted l -> sorted (erase k l).
Proof.
  intro S. induction S as [|k0 v0 l Hlt S IH]; cbn; [constructor|].
  destruct (lt k0 k) eqn:E.
  - constructor; [|assumption]. intros k' v' I. apply In_erase in I. eauto.
  - destruct (lt k k0); [constructor; assumption|assumption].
Qed.
Lemma sorted_assign k v l : sorted l -> sorted (assign k v l).
Proof.
  intro S. induction S as [|k0 v0 l Hlt S IH]; cbn; [constructor|].
  destruct (lt k0 k) eqn:E.
  - constructor; [|assumption]. intros k' v' I. apply In_assign in I.
    destruct I as [I|[_ [w I]]]; eauto.
  - destruct (lt k k0); constructor; assumption.
Qed.

(** a sorted map is determined by its lookups *)
Lemma sorted_ext l1 l2 : sorted l1 -> sorted l2 -> (forall k, find k l1 = find k l2) -> l1 = l2.
Proof.
  intro S1. revert l2. induction S1 as [|k v l1 H1 S1 IH]; intros l2 S2 E.
  - destruct l2 as [|[k v] l2]; [reflexivity|]. specialize (E k). cbn in E.
    rewrite irr in E. discriminate.
  - destruct S2 as [|k' v' l2 H2 S2].
    + specialize (E k). cbn in E. rewrite irr in E. discriminate.
    + assert (K0 : k = k').
      { apply total.
        - destruct (lt k k') eqn:F; [|reflexivity]. specialize (E k). cbn in E.
          rewrite irr, F, (lt_asym _ _ F) in E. discriminate.
        - destruct (lt k' k) eqn:F; [|reflexivity]. specialize (E k'). cbn in E.
          rewrite irr, F, (lt_asym _ _ F) in E. discriminate. }
      subst k'. assert (v = v') by (specialize (E k); cbn in E; rewrite irr in E; congruence).
      subst v'. f_equal. apply IH; [assumption|]. intro k'. specialize (E k'). cbn in E.
      destruct (lt k k') eqn:F; [assumption|].
      transitivity (@None V); [|symmetry]; apply find_None; try assumption;
        intros w I; [apply H1 in I|apply H2 in I]; congruence.
Qed.
Lemma sorted_NoDup l : sorted l -> NoDup (map fst l).
Proof.
  induction 1 as [|k v l H S IH]; cbn; constructor; [|assumption].
  intro I. apply in_map_iff in I. destruct I as [[k' v'] [E I]]. cbn in E. subst k'.
  apply H in I. rewrite irr in I. discriminate.
Qed.
Lemma sorted_tail a l : sorted (a :: l) -> sorted l.
Proof. inversion 1; assumption. Qed.

(** replacing values keeps the order *)
Lemma sorted_map_value (f : K -> V -> V) l :
  sorted l -> sorted (map (fun kv => (fst kv, f (fst kv) (snd kv))) l).
Proof.
  induction 1 as [|k v l H S IH]; cbn; constructor; [|assumption].
  intros k' v' I. apply in_map_iff in I. destruct I as [[k0 v0] [E I]]. inversion E; subst. cbn.
  eauto.
Qed.
Lemma find_map_value (f : K -> V -> V) k l : sorted l ->
  find k (map (fun kv => (fst kv, f (fst kv) (snd kv))) l) =
  match find k l with Some v => Some (f k v) | None => None end.
Proof.
  induction 1 as [|k0 v0 l H S IH]; cbn; [reflexivity|].
  destruct (lt k0 k) eqn:E; [assumption|]. destruct (lt k k0) eqn:F; [reflexivity|].
  rewrite (total k0 k E F). reflexivity.
Qed.
Lemma sorted_filter (f : K * V -> bool) l : sorted l -> sorted (filter f l).
Proof.
  induction 1 as [|k v l H S IH]; cbn; [constructor|]. destruct (f (k, v)); [|assumption].
  constructor; [|assumption]. intros k' v' I. apply filter_In in I. apply (H k' v'). tauto.
Qed.
End Map.
Arguments sorted {K V} lt l.
Arguments strict_total {K} lt.
