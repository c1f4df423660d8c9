(** Grammar.v -- model of src/tool/grammar/mod.rs *)
From Verif Require Export Base Vocab.

(** enum ProductionItem -- grammar/mod.rs:256-260 *)
Inductive item := NT (id : nat) | T (id : nat).
Global Instance item_eq_dec : EqDecision item.
Proof. solve_decision. Defined.
Global Instance item_countable : Countable item.
Proof.
  refine (inj_countable'
    (fun i => match i with NT n => inl n | T n => inr n end)
    (fun x => match x with inl n => NT n | inr n => T n end) _); by intros [].
Defined.

(** struct Production -- grammar/mod.rs:262-272 *)
Record production := Production { left : nat; right : list item }.
Global Instance production_eq_dec : EqDecision production.
Proof. solve_decision. Defined.
Global Instance production_countable : Countable production.
Proof.
  refine (inj_countable' (fun p => (left p, right p)) (fun x => Production x.1 x.2) _); by intros [].
Defined.

(** struct Grammar -- grammar/mod.rs:7-16.  [productions] is a HashSet: a set without an order. *)
Record grammar := Grammar {
  g_name : str;
  g_vocabulary : vocabulary;
  productions : gset production;
}.

(** Grammar::new -- grammar/mod.rs:25-31 *)
Definition grammar_new (name : str) : grammar := Grammar name vocabulary_new ∅.

(** [order] is an iteration order of the HashSet [productions g]: std says nothing more about
    [HashSet::iter] than that every element is produced exactly once. *)
Definition iteration_order (g : grammar) (order : list production) : Prop :=
  order ≡ₚ elements (productions g).

(** struct Collection -- grammar/mod.rs:19-22 *)
Record coll := Coll { allow_epsilon : bool; cset : gset nat }.

(** [modified = set.insert(x) || modified] -- e.g. grammar/mod.rs:88 *)
Definition insert1 (sm : gset nat * bool) (x : nat) : gset nat * bool :=
  let '(s, m) := sm in ({[x]} ∪ s, negb (bool_decide (x ∈ s)) || m).

(** [for item in c.set.iter() { modified = result.set.insert( *item) || modified }];
    [elements] is one iteration order, [insert_all_perm] (FirstProofs.v, C30_inner_insert) shows the order is irrelevant. *)
Definition insert_list (xs : list nat) (sm : gset nat * bool) : gset nat * bool :=
  fold_left insert1 xs sm.
Definition insert_all (c : gset nat) (sm : gset nat * bool) : gset nat * bool :=
  insert_list (elements c) sm.

(** get_first_for_string -- grammar/mod.rs:33-56 *)
Fixpoint get_first_for_string_go (slice : list item) (first_set : gmap nat coll) (result : coll)
    : res coll :=
  match slice with
  | [] => Ret result
  | NT rule_id :: slice' =>
      let! c := unwrap (first_set !! rule_id) in
      let s := fst (insert_all (cset c) (cset result, false)) in
      if negb (allow_epsilon c) then Ret (Coll false s)
      else get_first_for_string_go slice' first_set (Coll (allow_epsilon result) s)
  | T token_type :: _ =>
      Ret (Coll false ({[token_type]} ∪ cset result))
  end.
Definition get_first_for_string (slice : list item) (first_set : gmap nat coll) : res coll :=
  get_first_for_string_go slice first_set (Coll true ∅).

(** First loop of get_first_set_for_non_epsilon_rule -- grammar/mod.rs:62-77 *)
Fixpoint rhs_allows_epsilon (rhs : list item) (first_set : gmap nat coll) : res bool :=
  match rhs with
  | [] => Ret true
  | NT id :: rhs' =>
      let! c := unwrap (first_set !! id) in
      if negb (allow_epsilon c) then Ret false else rhs_allows_epsilon rhs' first_set
  | T _ :: _ => Ret false
  end.

(** Second loop -- grammar/mod.rs:84-101 *)
Fixpoint rhs_first (rhs : list item) (first_set : gmap nat coll) (sm : gset nat * bool)
    : res (gset nat * bool) :=
  match rhs with
  | [] => Ret sm
  | NT rule_id :: rhs' =>
      let! c := unwrap (first_set !! rule_id) in
      let sm' := insert_all (cset c) sm in
      if negb (allow_epsilon c) then Ret sm' else rhs_first rhs' first_set sm'
  | T token_type :: _ => Ret (insert1 sm token_type)
  end.

(** get_first_set_for_non_epsilon_rule -- grammar/mod.rs:58-105.
    Returns the new value of [*result] and [modified]. *)
Definition get_first_set_for_non_epsilon_rule (p : production) (result : coll)
    (first_set : gmap nat coll) : res (coll * bool) :=
  let! eps := rhs_allows_epsilon (right p) first_set in
  let m := negb (eqb (allow_epsilon result) eps) in
  let! (s, m') := rhs_first (right p) first_set (cset result, m) in
  Ret (Coll eps s, m').

(** State of first_set: ((result, cache), modified). *)
Definition first_st : Type := gmap nat coll * gmap production coll * bool.

(** Body of the inner loop of first_set -- grammar/mod.rs:130-144 *)
Definition first_step (st : first_st) (p : production) : res first_st :=
  let '(result, cache, modified) := st in
  let! t := unwrap (cache !! p) in
  let! (t', m1) := get_first_set_for_non_epsilon_rule p t result in
  let modified := m1 || modified in
  let cache' := <[p := t']> cache in
  let! r := unwrap (result !! left p) in
  let raise := allow_epsilon t' && negb (allow_epsilon r) in
  let eps := if raise then allow_epsilon t' else allow_epsilon r in
  let modified := if raise then true else modified in
  let '(s, modified) := insert_all (cset t') (cset r, modified) in
  Ret (<[left p := Coll eps s]> result, cache', modified).

(** [while modified { modified = false; for production in .. }] -- grammar/mod.rs:127-146 *)
Fixpoint first_loop (fuel : nat) (order : list production)
    (result : gmap nat coll) (cache : gmap production coll)
    : res (gmap nat coll * gmap production coll) :=
  match fuel with
  | 0 => OutOfFuel
  | S fuel' =>
      let! (rc, modified) := rfold first_step order (result, cache, false) in
      if modified : bool then first_loop fuel' order (fst rc) (snd rc) else Ret rc
  end.

(** first_set -- grammar/mod.rs:108-149; [order] is the iteration order of self.productions *)
Definition first_set (fuel : nat) (order : list production) (g : grammar)
    : res (gmap nat coll * gmap production coll) :=
  let result := gset_to_gmap (Coll false ∅) (nonterminals (g_vocabulary g)) in
  let cache := gset_to_gmap (Coll false ∅) (productions g) in
  first_loop fuel order result cache.

(** Loop over i of follow_set -- grammar/mod.rs:169-184; the recursion is over right[i..], so that
    the tail is right[(i+1)..]. *)
Fixpoint follow_rhs (first : gmap nat coll) (lft : nat) (rhs : list item)
    (st : gmap nat (gset nat) * bool) : res (gmap nat (gset nat) * bool) :=
  match rhs with
  | [] => Ret st
  | NT b :: rhs' =>
      let '(result, modified) := st in
      let! f := get_first_for_string rhs' first in
      let! s := unwrap (result !! lft) in
      let! t := unwrap (result !! b) in
      let tm := insert_all (cset f) (t, modified) in
      let tm' := if allow_epsilon f then insert_all s tm else tm in
      follow_rhs first lft rhs' (<[b := fst tm']> result, snd tm')
  | T _ :: rhs' => follow_rhs first lft rhs' st
  end.

Definition follow_step (first : gmap nat coll) (st : gmap nat (gset nat) * bool) (p : production)
    : res (gmap nat (gset nat) * bool) :=
  follow_rhs first (left p) (right p) st.

(** [while modified] -- grammar/mod.rs:164-187 *)
Fixpoint follow_loop (fuel : nat) (order : list production) (first : gmap nat coll)
    (result : gmap nat (gset nat)) : res (gmap nat (gset nat)) :=
  match fuel with
  | 0 => OutOfFuel
  | S fuel' =>
      let! (result', modified) := rfold (follow_step first) order (result, false) in
      if modified : bool then follow_loop fuel' order first result' else Ret result'
  end.

(** follow_set -- grammar/mod.rs:152-191 *)
Definition follow_set (fuel : nat) (order : list production) (g : grammar) (first : gmap nat coll)
    : res (gmap nat (gset nat)) :=
  let result := gset_to_gmap (∅ : gset nat) (nonterminals (g_vocabulary g)) in
  let! s0 := unwrap (result !! 0) in
  follow_loop fuel order first (<[0 := {[1]} ∪ s0]> result).

(** Table and the printed conflicts (the two productions of each println!) *)
Notation table := (gmap (nat * nat) production).
Definition table_st : Type := table * list (production * production).

(** [if let Some(p) = result.insert((rule_id, t), production) { println!(..) }]
    -- grammar/mod.rs:203-205, 211-213 *)
Definition table_insert (p : production) (st : table_st) (t : nat) : table_st :=
  let '(tab, warn) := st in
  (<[(left p, t) := p]> tab,
   match tab !! (left p, t) with Some q => warn ++ [(p, q)] | None => warn end).

(** Body of the loop of ll1_table -- grammar/mod.rs:197-216 *)
Definition table_step (first : gmap production coll) (follow : gmap nat (gset nat))
    (st : table_st) (p : production) : res table_st :=
  let! f := unwrap (first !! p) in
  let st1 := fold_left (table_insert p) (elements (cset f)) st in
  if allow_epsilon f then
    let! fo := unwrap (follow !! left p) in
    Ret (fold_left (table_insert p) (elements fo) st1)
  else Ret st1.

(** ll1_table -- grammar/mod.rs:194-218.  Rc<Production> is a production. *)
Definition ll1_table (order : list production) (first : gmap production coll)
    (follow : gmap nat (gset nat)) : res table_st :=
  rfold (table_step first follow) order (∅, []).

(** The analysis pipeline of main -- main.rs:34-38: first_set, follow_set, ll1_table. *)
Definition build_table (fuel : nat) (order : list production) (g : grammar) : res table_st :=
  let! (first, cache) := first_set fuel order g in
  let! follow := follow_set fuel order g first in
  ll1_table order cache follow.

(** Display for Grammar -- grammar/mod.rs:222-253 *)
Fixpoint display_rhs (v : vocabulary) (rhs : list item) : res str :=
  match rhs with
  | [] => Ret []
  | NT id :: rhs' =>
      let! s := display_rhs v rhs' in Ret (get_nonterminal_name_with_default v id ++ s)
  | T id :: rhs' =>
      let! n := get_terminal_name v id in
      let! s := display_rhs v rhs' in Ret (lit " " ++ n ++ s)
  end.
Definition display_production (v : vocabulary) (p : production) : res str :=
  let! s := display_rhs v (right p) in
  Ret (get_nonterminal_name_with_default v (left p) ++ lit " ->" ++ s ++ lit ";" ++ [10%N]).
Definition display_grammar (order : list production) (g : grammar) : res str :=
  rfold (fun acc p => let! s := display_production (g_vocabulary g) p in Ret (acc ++ s)) order [].
