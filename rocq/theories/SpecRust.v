(** SpecRust.v -- reading Rust source text: its tokens, as far as the generated lexers need them (The Rust Reference,
    "Lexical structure": line comments, identifiers and numbers, string literals, raw string literals, lifetimes). *)
From Verif Require Export Visitors.

Inductive rust_token :=
| Word (s : str)          (* identifier, keyword or number *)
| Str (s : str)           (* "...": the characters between the quotes *)
| Raw (s : str)           (* r#"..."# with any number of hashes: the string it denotes *)
| Lifetime (s : str)      (* 'a *)
| Punct (c : N).

Inductive mode :=
| Between
| InWord (w : str)
| AfterSlash
| InComment
| InStr (s : str) | InStrEscape (s : str)
| RawOpen (hashes : nat) | InRaw (hashes : nat) (s : str) | RawClose (hashes : nat) (s : str) (seen : nat)
| InLifetime (w : str)
| Wrong.

Definition word_char (c : N) : bool :=
  ((97 <=? c) && (c <=? 122))%N || ((65 <=? c) && (c <=? 90))%N || ((48 <=? c) && (c <=? 57))%N || (c =? 95)%N.
Definition rust_blank (c : N) : bool := (c =? 32)%N || (c =? 10)%N || (c =? 9)%N || (c =? 13)%N.

(** One character, between tokens. *)
Definition read_between (out : list rust_token) (c : N) : mode * list rust_token :=
  if rust_blank c then (Between, out)
  else if word_char c then (InWord [c], out)
  else if (c =? 47)%N then (AfterSlash, out)
  else if (c =? 34)%N then (InStr [], out)
  else if (c =? 39)%N then (InLifetime [], out)
  else (Between, out ++ [Punct c]).
(** One character, anywhere.  A carriage return in a raw string is not allowed. *)
Definition read_char (st : mode * list rust_token) (c : N) : mode * list rust_token :=
  let '(m, out) := st in
  match m with
  | Between => read_between out c
  | InWord w =>
      if word_char c then (InWord (w ++ [c]), out)
      else if bool_decide (w = lit "r") && (c =? 35)%N then (RawOpen 1, out)
      else if bool_decide (w = lit "r") && (c =? 34)%N then (InRaw 0 [], out)
      else read_between (out ++ [Word w]) c
  | AfterSlash => if (c =? 47)%N then (InComment, out) else if (c =? 42)%N then (Wrong, out) else read_between (out ++ [Punct 47]) c
  | InComment => if (c =? 10)%N then (Between, out) else (InComment, out)
  | InStr s => if (c =? 34)%N then (Between, out ++ [Str s]) else if (c =? 92)%N then (InStrEscape s, out) else (InStr (s ++ [c]), out)
  | InStrEscape s => (InStr (s ++ [92%N; c]), out)
  | RawOpen h => if (c =? 35)%N then (RawOpen (S h), out) else if (c =? 34)%N then (InRaw h [], out) else (Wrong, out)
  | InRaw h s =>
      if (c =? 13)%N then (Wrong, out)
      else if (c =? 34)%N then (if h =? 0 then (Between, out ++ [Raw s]) else (RawClose h s 0, out))
      else (InRaw h (s ++ [c]), out)
  | RawClose h s k =>
      if (c =? 13)%N then (Wrong, out)
      else if (c =? 35)%N then (if S k =? h then (Between, out ++ [Raw s]) else (RawClose h s (S k), out))
      else if (c =? 34)%N then (RawClose h (s ++ 34%N :: replicate k 35%N) 0, out)
      else (InRaw h (s ++ 34%N :: replicate k 35%N ++ [c]), out)
  | InLifetime w => if word_char c then (InLifetime (w ++ [c]), out) else if (c =? 39)%N then (Wrong, out) else read_between (out ++ [Lifetime w]) c
  | Wrong => (Wrong, out)
  end.

(** The tokens of a source text; None: not within the above. *)
Definition rust_tokens (src : str) : option (list rust_token) :=
  match fold_left read_char src (Between, []) with
  | (Between, out) | (InComment, out) => Some out
  | (InWord w, out) => Some (out ++ [Word w])
  | _ => None
  end.

(** Identifiers. *)
Definition identifier (s : str) : Prop := Forall (fun c => word_char c = true) s /\ s <> [].

(** What the generated source should have for each token: its constant, its regex, its name. *)
Definition kw (s : String.string) : rust_token := Word (lit s).
Arguments kw s%string_scope.
Definition constant (t : lexer_rule_data) : list rust_token :=
  [kw "pub"; kw "const"; Word (ld_name t); Punct 58; kw "usize"; Punct 61; Word (usize_to_string (ld_type t)); Punct 59].
Definition regex_new (t : lexer_rule_data) : list rust_token :=
  [kw "Regex"; Punct 58; Punct 58; kw "new"; Punct 40; Raw (ld_regex t); Punct 41; Punct 46; kw "unwrap"; Punct 40; Punct 41; Punct 44].
Definition quoted_name (t : lexer_rule_data) : list rust_token := [Str (ld_name t); Punct 44].

(** A raw string with four hashes can carry s. *)
Definition raw4 (s : str) : Prop := (forall a b, s <> a ++ lit """####" ++ b) /\ 13%N ∉ s.
Definition writable (t : lexer_rule_data) : Prop := identifier (ld_name t) /\ raw4 (ld_regex t).

(** The paths [x::c] in a source text, and the constants it declares. *)
Definition path_at (ts : list rust_token) : list (str * str) :=
  match ts with
  | Word x :: Punct p :: Punct q :: Word c :: _ => if (p =? 58)%N && (q =? 58)%N then [(x, c)] else []
  | _ => []
  end.
Fixpoint paths (ts : list rust_token) : list (str * str) := match ts with [] => [] | _ :: ts' => path_at ts ++ paths ts' end.
Definition declared_at (ts : list rust_token) : list str :=
  match ts with
  | Word x :: Word y :: Word c :: Punct p :: _ => if bool_decide (x = lit "pub" /\ y = lit "const") && (p =? 58)%N then [c] else []
  | _ => []
  end.
Fixpoint declared (ts : list rust_token) : list str := match ts with [] => [] | _ :: ts' => declared_at ts ++ declared ts' end.
