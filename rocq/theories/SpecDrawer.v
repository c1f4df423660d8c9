(** SpecDrawer.v -- a reader for the JavaScript the drawer emits: template literals, object and array
    literals (ECMAScript 2015, 11.8.6, 12.2.5, 12.2.6), as far as they occur here. *)
From Verif Require Export Drawer.

Definition c_backquote : N := 96%N.
Definition c_backslash : N := 92%N.
Definition c_dollar : N := 36%N.
Definition c_lbrace : N := 123%N.
Definition c_cr : N := 13%N.
Definition c_lf : N := 10%N.

(** The characters of a template literal behind its opening backquote: the string it denotes and what is
    behind the closing backquote.  None: unterminated, a substitution, or an escape other than
    a backslash followed by a backslash or backquote.  A carriage return, with or without line feed, reads as a line feed. *)
Fixpoint read_template (s : str) : option (str * str) :=
  match s with
  | [] => None
  | c :: s' =>
      if (c =? c_backquote)%N then Some ([], s')
      else if (c =? c_backslash)%N then
        match s' with
        | e :: s'' =>
            if (e =? c_backquote)%N || (e =? c_backslash)%N then
              match read_template s'' with Some (v, r) => Some (e :: v, r) | None => None end
            else None
        | [] => None
        end
      else if (c =? c_dollar)%N && match s' with e :: _ => (e =? c_lbrace)%N | [] => false end then None
      else if (c =? c_cr)%N then
        match read_template s' with
        | Some (v, r) =>
            match s' with
            | e :: _ => if (e =? c_lf)%N then Some (v, r) else Some (c_lf :: v, r)
            | [] => None
            end
        | None => None
        end
      else match read_template s' with Some (v, r) => Some (c :: v, r) | None => None end
  end.

(** JavaScript values. *)
Inductive js :=
| JSString (s : str)
| JSArray (l : list js)
| JSObject (fields : list (str * js)).

Definition is_blank_char (c : N) : bool := (c =? 32)%N || (c =? 10)%N || (c =? 9)%N || (c =? 13)%N.
Fixpoint skip_blanks (s : str) : str :=
  match s with c :: s' => if is_blank_char c then skip_blanks s' else s | [] => [] end.
Definition is_word_char (c : N) : bool := ((97 <=? c) && (c <=? 122))%N || ((65 <=? c) && (c <=? 90))%N || (c =? 95)%N.
Fixpoint read_word (s : str) : str * str :=
  match s with
  | c :: s' => if is_word_char c then let '(w, r) := read_word s' in (c :: w, r) else ([], s)
  | [] => ([], [])
  end.

(** A value, its members, its elements; trailing commas allowed. *)
Fixpoint read_js (fuel : nat) (s : str) : option (js * str) :=
  match fuel with
  | 0 => None
  | S fuel' =>
      match skip_blanks s with
      | 96%N :: s' => match read_template s' with Some (v, r) => Some (JSString v, r) | None => None end
      | 91%N :: s' => match read_elements fuel' s' with Some (l, r) => Some (JSArray l, r) | None => None end
      | 123%N :: s' => match read_fields fuel' s' with Some (l, r) => Some (JSObject l, r) | None => None end
      | _ => None
      end
  end
with read_elements (fuel : nat) (s : str) : option (list js * str) :=
  match fuel with
  | 0 => None
  | S fuel' =>
      match skip_blanks s with
      | 93%N :: s' => Some ([], s')
      | _ =>
          match read_js fuel' s with
          | Some (v, r) =>
              match skip_blanks r with
              | 93%N :: r' => Some ([v], r')
              | 44%N :: r' => match read_elements fuel' r' with Some (l, r'') => Some (v :: l, r'') | None => None end
              | _ => None
              end
          | None => None
          end
      end
  end
with read_fields (fuel : nat) (s : str) : option (list (str * js) * str) :=
  match fuel with
  | 0 => None
  | S fuel' =>
      match skip_blanks s with
      | 125%N :: s' => Some ([], s')
      | s' =>
          let '(w, r) := read_word s' in
          match w, skip_blanks r with
          | [], _ => None
          | _ :: _, 58%N :: r1 =>
              match read_js fuel' r1 with
              | Some (v, r2) =>
                  match skip_blanks r2 with
                  | 125%N :: r3 => Some ([(w, v)], r3)
                  | 44%N :: r3 => match read_fields fuel' r3 with Some (l, r4) => Some ((w, v) :: l, r4) | None => None end
                  | _ => None
                  end
              | None => None
              end
          | _, _ => None
          end
      end
  end.

(** The object a tree should be drawn as. *)
Definition token_js (t : token) : js := JSObject [(lit "name", JSString (token_name t)); (lit "text", JSString (text t))].
Fixpoint tree_js (r : rule_ctx) : js :=
  match r with
  | RuleCtx n cs i =>
      JSObject [(lit "name", JSString n); (lit "id", JSString (usize_to_string i));
        (lit "children", JSArray ((fix go (cs : list ast) : list js :=
           match cs with
           | [] => []
           | Rule c :: cs' => tree_js c :: go cs'
           | Terminal t :: cs' => token_js t :: go cs'
           | Error t :: cs' => token_js t :: go cs'
           end) cs))]
  end.

(** Strings a template literal can carry unescaped: no dollar-brace, no carriage return. *)
Definition drawable (s : str) : Prop :=
  (forall a b, s <> a ++ [c_dollar; c_lbrace] ++ b) /\ c_cr ∉ s.
Inductive drawable_tree : rule_ctx -> Prop :=
| drawable_rule n cs i :
    drawable n ->
    (forall t, Terminal t ∈ cs \/ Error t ∈ cs -> drawable (token_name t) /\ drawable (text t)) ->
    (forall c, Rule c ∈ cs -> drawable_tree c) ->
    drawable_tree (RuleCtx n cs i).

Definition c_less : N := 60%N.
Definition lower (c : N) : N := if ((65 <=? c) && (c <=? 90))%N then (c + 32)%N else c.

(** [label s r]: s is the name of a rule, or the name or text of a leaf, of the tree r. *)
Inductive label (s : str) : rule_ctx -> Prop :=
| label_rule cs i : label s (RuleCtx s cs i)
| label_name t n cs i : Terminal t ∈ cs \/ Error t ∈ cs -> token_name t = s -> label s (RuleCtx n cs i)
| label_text t n cs i : Terminal t ∈ cs \/ Error t ∈ cs -> text t = s -> label s (RuleCtx n cs i)
| label_below c n cs i : Rule c ∈ cs -> label s c -> label s (RuleCtx n cs i).

(** Reading a template literal turns line ends into line feeds. *)
Fixpoint lf_ends (s : str) : str :=
  match s with
  | [] => []
  | c :: s' => if (c =? c_cr)%N
               then match s' with e :: _ => if (e =? c_lf)%N then lf_ends s' else c_lf :: lf_ends s' | [] => [c_lf] end
               else c :: lf_ends s'
  end.
Definition lf_token (t : token) : token :=
  Token (token_type t) (lf_ends (token_name t)) (start t) (stop t) (channel t) (lf_ends (text t)) (token_index t) (char_start_index t) (char_stop_index t).
Fixpoint lf_tree (r : rule_ctx) : rule_ctx :=
  match r with
  | RuleCtx n cs i => RuleCtx (lf_ends n) (map (fun c => match c with Terminal t => Terminal (lf_token t) | Rule c => Rule (lf_tree c) | Error t => Error (lf_token t) end) cs) i
  end.
Definition substitution (s : str) : Prop := exists a b, s = a ++ [c_dollar; c_lbrace] ++ b.
