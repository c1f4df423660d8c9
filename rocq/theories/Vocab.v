(** Vocab.v -- model of src/runtime/vocabulary.rs *)
From Verif Require Export Base.

(** struct Vocabulary -- src/runtime/vocabulary.rs:5-23.
    HashMap -> gmap, HashSet -> gset. *)
Record vocabulary := Vocabulary {
  nt_name_to_id : gmap str nat;   (* non_terminal_name_to_id, line 7 *)
  nt_id_to_name : gmap nat str;   (* non_terminal_id_to_name, line 10 *)
  t_name_to_id : gmap str nat;    (* terminal_name_to_id, line 13 *)
  t_id_to_name : gmap nat str;    (* terminal_id_to_name, line 16 *)
  nonterminals : gset nat;        (* nonterminals, line 19 *)
  terminals : gset nat;           (* terminals, line 22 *)
}.

(** vocabulary.rs:26-31 *)
Definition get_nonterminal_name_by_id (v : vocabulary) (id : nat) : option str :=
  nt_id_to_name v !! id.

(** vocabulary.rs:33-38 *)
Definition get_terminal_name_by_id (v : vocabulary) (id : nat) : option str :=
  t_id_to_name v !! id.

(** vocabulary.rs:40-45 *)
Definition get_nonterminal_id_by_name (v : vocabulary) (name : str) : option nat :=
  nt_name_to_id v !! name.

(** vocabulary.rs:47-52 *)
Definition get_terminal_id_by_name (v : vocabulary) (name : str) : option nat :=
  t_name_to_id v !! name.

(** vocabulary.rs:54-56 *)
Definition is_nonterminal_id (v : vocabulary) (id : nat) : bool :=
  bool_decide (id ∈ nonterminals v).

(** vocabulary.rs:58-60 *)
Definition is_terminal_id (v : vocabulary) (id : nat) : bool :=
  bool_decide (id ∈ terminals v).

(** vocabulary.rs:62-67 *)
Definition get_nonterminal_name_with_default (v : vocabulary) (id : nat) : str :=
  match nt_id_to_name v !! id with
  | Some name => name
  | None => usize_to_string id
  end.

(** vocabulary.rs:69-71 ([unwrap] panics on an unknown id) *)
Definition get_terminal_name (v : vocabulary) (id : nat) : res str :=
  unwrap (t_id_to_name v !! id).

(** vocabulary.rs:73-75 *)
Definition is_terminal_name_defined (v : vocabulary) (name : str) : bool :=
  bool_decide (is_Some (t_name_to_id v !! name)).

(** vocabulary.rs:77-79 *)
Definition is_nonterminal_name_defined (v : vocabulary) (name : str) : bool :=
  bool_decide (is_Some (nt_name_to_id v !! name)).

(** vocabulary.rs:81-86.  [||] is short-circuit: [terminals.insert(id)] runs only if the name is
    unused; it returns false (and changes nothing) when the id is already present. *)
Definition add_terminal (v : vocabulary) (id : nat) (name : str) : vocabulary * bool :=
  if bool_decide (is_Some (t_name_to_id v !! name)) then (v, false)
  else if bool_decide (id ∈ terminals v) then (v, false)
  else ({| nt_name_to_id := nt_name_to_id v;
           nt_id_to_name := nt_id_to_name v;
           t_name_to_id := <[name := id]> (t_name_to_id v);
           t_id_to_name := <[id := name]> (t_id_to_name v);
           nonterminals := nonterminals v;
           terminals := {[id]} ∪ terminals v |}, true).

(** vocabulary.rs:88-94 *)
Definition add_named_nonterminal (v : vocabulary) (id : nat) (name : str) : vocabulary * bool :=
  if bool_decide (is_Some (nt_name_to_id v !! name)) then (v, false)
  else if bool_decide (id ∈ nonterminals v) then (v, false)
  else ({| nt_name_to_id := <[name := id]> (nt_name_to_id v);
           nt_id_to_name := <[id := name]> (nt_id_to_name v);
           t_name_to_id := t_name_to_id v;
           t_id_to_name := t_id_to_name v;
           nonterminals := {[id]} ∪ nonterminals v;
           terminals := terminals v |}, true).

(** vocabulary.rs:95-99 *)
Definition add_unnamed_nonterminal (v : vocabulary) (id : nat) : vocabulary * bool :=
  if bool_decide (is_Some (nt_id_to_name v !! id)) then (v, false)
  else if bool_decide (id ∈ nonterminals v) then (v, false)
  else ({| nt_name_to_id := nt_name_to_id v;
           nt_id_to_name := nt_id_to_name v;
           t_name_to_id := t_name_to_id v;
           t_id_to_name := t_id_to_name v;
           nonterminals := {[id]} ∪ nonterminals v;
           terminals := terminals v |}, true).

(** vocabulary.rs:101-110 *)
Definition vocabulary_empty : vocabulary :=
  {| nt_name_to_id := ∅; nt_id_to_name := ∅; t_name_to_id := ∅; t_id_to_name := ∅;
     nonterminals := ∅; terminals := ∅ |}.
Definition vocabulary_new : vocabulary :=
  let v := fst (add_terminal vocabulary_empty 0 (lit "_START")) in
  fst (add_terminal v 1 (lit "_STOP")).

(** vocabulary.rs:113-118 *)
Definition get_all_terminals (v : vocabulary) : gset nat := terminals v.
Definition get_all_nonterminals (v : vocabulary) : gset nat := nonterminals v.

(** A client's calls, in order. *)
Inductive vop :=
| AddTerminal (id : nat) (name : str)
| AddNamed (id : nat) (name : str)
| AddUnnamed (id : nat).

Definition vstep (v : vocabulary) (o : vop) : vocabulary * bool :=
  match o with
  | AddTerminal id name => add_terminal v id name
  | AddNamed id name => add_named_nonterminal v id name
  | AddUnnamed id => add_unnamed_nonterminal v id
  end.

Fixpoint vrun (v : vocabulary) (ops : list vop) : vocabulary :=
  match ops with
  | [] => v
  | o :: ops' => vrun (fst (vstep v o)) ops'
  end.
