(** SerdeAst.v -- model of src/tool/serde_ast/mod.rs, from serde_json's Value on (for texts see JsonText.v). *)
From Verif Require Export Base Ast.

(** serde_json::Value.  A number is a u64 or something else (negative, fractional, too large); an object
    is the list of its members, of which [find_key] sees the first with a given key (a real Map has
    each key once). *)
Inductive json :=
| JNull
| JBool (b : bool)
| JU64 (n : nat)
| JOtherNumber
| JString (s : str)
| JArray (l : list json)
| JObject (fields : list (str * json)).

Fixpoint find_key (k : str) (fields : list (str * json)) : option json :=
  match fields with
  | [] => None
  | (k', v) :: fields' => if decide (k = k') then Some v else find_key k fields'
  end.

(** [value["k"]] by shared reference: Null for a missing key and for anything but an object. *)
Definition index_str (value : json) (k : str) : json :=
  match value with
  | JObject fields => default JNull (find_key k fields)
  | _ => JNull
  end.
Definition is_array (v : json) : bool := match v with JArray _ => true | _ => false end.
Definition is_null (v : json) : bool := match v with JNull => true | _ => false end.
Definition as_array (v : json) : option (list json) := match v with JArray l => Some l | _ => None end.
Definition as_u64 (v : json) : option nat := match v with JU64 n => Some n | _ => None end.
Definition as_str (v : json) : option str := match v with JString s => Some s | _ => None end.

(** [Result<_, Error>] with [None] for Err(Error {}) -- serde_ast/mod.rs:13 *)

(** parse_terminal -- serde_ast/mod.rs:55-71 *)
Definition parse_terminal (value : json) : res (option token) :=
  let token_type := as_u64 (index_str value (lit "token_type")) in
  let token_name := as_str (index_str value (lit "token_name")) in
  let text := as_str (index_str value (lit "text")) in
  if (match token_type with None => true | _ => false end) || (match token_name with None => true | _ => false end)
  then Ret None
  else
    let! ty := unwrap token_type in
    let! name := unwrap token_name in
    let text := match text with Some text => text | None => lit "<no text>" end in
    Ret (Some (token_new ty name text)).

(** The loop over the children with the early return of [?] -- serde_ast/mod.rs:38-48 *)
Fixpoint parse_children (rec : json -> res (option rule_ctx)) (cs : list json) (result : list ast)
    : res (option (list ast)) :=
  match cs with
  | [] => Ret (Some result)
  | child :: cs' =>
      if is_null (index_str child (lit "children")) then
        let! r := parse_terminal child in
        match r with
        | None => Ret None
        | Some t => parse_children rec cs' (result ++ [Terminal t])
        end
      else
        let! r := rec child in
        match r with
        | None => Ret None
        | Some c => parse_children rec cs' (result ++ [Rule c])
        end
  end.

(** parse_rule -- serde_ast/mod.rs:25-53; fuel bounds the recursion depth *)
Fixpoint parse_rule (fuel : nat) (value : json) : res (option rule_ctx) :=
  match fuel with
  | 0 => OutOfFuel
  | S fuel' =>
      let children := index_str value (lit "children") in
      if negb (is_array children) then Ret None
      else
        let! children := unwrap (as_array children) in
        let rule_index := as_u64 (index_str value (lit "rule_index")) in
        match rule_index with
        | None => Ret None
        | Some _ =>
            let! rule_index := unwrap rule_index in
            let rule_name := as_str (index_str value (lit "rule_name")) in
            match rule_name with
            | None => Ret None
            | Some _ =>
                let! rule_name := unwrap rule_name in
                let! result := parse_children (parse_rule fuel') children [] in
                match result with
                | None => Ret None
                | Some cs => Ret (Some (RuleCtx rule_name cs rule_index))
                end
            end
        end
  end.

(** Nesting depth of a JSON value: enough fuel. *)
Fixpoint jdepth (j : json) : nat :=
  match j with
  | JArray l => S ((fix go (l : list json) : nat := match l with [] => 0 | x :: l' => jdepth x `max` go l' end) l)
  | JObject f => S ((fix go (l : list (str * json)) : nat :=
                       match l with [] => 0 | (_, x) :: l' => jdepth x `max` go l' end) f)
  | _ => 0
  end.

(** from_str / from_reader after serde_json has produced the value -- serde_ast/mod.rs:16-23, 73-80 *)
Definition from_value (data : json) : res (option rule_ctx) := parse_rule (S (jdepth data)) data.
