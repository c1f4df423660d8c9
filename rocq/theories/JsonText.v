(** JsonText.v -- model of reading a JSON text: serde_json::from_str::<Value>, which serde_ast::from_str and
    serde_ast::from_reader call (serde_ast/mod.rs:17-20, 74-77), and these two functions on texts.
    serde_json (1.0.94, Cargo.toml) is not in /repo; modelled is its documented behaviour: RFC 8259, no trailing
    characters, duplicate keys keep the last value, a recursion limit of 128, numbers out of the range of f64 and lone
    surrogates are errors.  [huge] says which number texts overflow f64; it is arbitrary.  All errors are one. *)
From Verif Require Export SerdeAst.

Inductive jres (A : Type) := JOk (a : A) | JErr | JFuel.
Arguments JOk {A}. Arguments JErr {A}. Arguments JFuel {A}.
Definition jbind {A B} (m : jres A) (k : A -> jres B) : jres B := match m with JOk a => k a | JErr => JErr | JFuel => JFuel end.
Notation "'let?' x := m 'in' k" := (jbind m (fun x => k)) (at level 200, x pattern, right associativity).

Definition json_blank (c : N) : bool := (c =? 32)%N || (c =? 10)%N || (c =? 9)%N || (c =? 13)%N.
Fixpoint skip_blank (s : str) : str := match s with c :: s' => if json_blank c then skip_blank s' else s | [] => [] end.

(** *** Numbers *)
Definition json_digit (c : N) : bool := ((48 <=? c) && (c <=? 57))%N.
Fixpoint span_digits (s : str) : str * str :=
  match s with
  | c :: s' => if json_digit c then let '(ds, r) := span_digits s' in (c :: ds, r) else ([], s)
  | [] => ([], [])
  end.
Definition decimal_value (ds : str) : N := fold_left (fun v c => 10 * v + (c - 48))%N ds 0%N.
Definition parse_sign (s : str) : str * str := match s with c :: s' => if (c =? 45)%N then ([c], s') else ([], s) | [] => ([], []) end.
Definition parse_fraction (s : str) : jres (str * str) :=
  match s with
  | c :: s' =>
      if (c =? 46)%N then match span_digits s' with ([], _) => JErr | (ds, r) => JOk (c :: ds, r) end else JOk ([], s)
  | [] => JOk ([], [])
  end.
Definition parse_exponent (s : str) : jres (str * str) :=
  match s with
  | c :: s' =>
      if (c =? 101)%N || (c =? 69)%N then
        let '(sign, s'') := match s' with x :: s'' => if (x =? 43)%N || (x =? 45)%N then ([x], s'') else ([], s') | [] => ([], []) end in
        match span_digits s'' with ([], _) => JErr | (ds, r) => JOk (c :: sign ++ ds, r) end
      else JOk ([], s)
  | [] => JOk ([], [])
  end.
Definition parse_number (huge : str -> bool) (s : str) : jres (json * str) :=
  let '(sign, s1) := parse_sign s in
  match span_digits s1 with
  | ([], _) => JErr
  | (d :: ds, s2) =>
      if (d =? 48)%N && negb (bool_decide (ds = [])) then JErr
      else
        let? (frac, s3) := parse_fraction s2 in
        let? (expo, s4) := parse_exponent s3 in
        let whole := bool_decide (frac = []) && bool_decide (expo = []) in
        let small := (decimal_value (d :: ds) <? 2 ^ 64)%N in
        if whole && small then
          (if bool_decide (sign = []) then JOk (JU64 (N.to_nat (decimal_value (d :: ds))), s4) else JOk (JOtherNumber, s4))
        else if huge (sign ++ (d :: ds) ++ frac ++ expo) then JErr
        else JOk (JOtherNumber, s4)
  end.

(** *** Strings, after the opening quote *)
Definition hex_digit_value (c : N) : option N :=
  if ((48 <=? c) && (c <=? 57))%N then Some (c - 48)%N
  else if ((65 <=? c) && (c <=? 70))%N then Some (c - 55)%N
  else if ((97 <=? c) && (c <=? 102))%N then Some (c - 87)%N
  else None.
Definition hex4 (a b c d : N) : option N :=
  match hex_digit_value a, hex_digit_value b, hex_digit_value c, hex_digit_value d with
  | Some a, Some b, Some c, Some d => Some (((a * 16 + b) * 16 + c) * 16 + d)%N
  | _, _, _, _ => None
  end.
Definition short_escape (e : N) : option N :=
  if (e =? 34)%N then Some 34%N else if (e =? 92)%N then Some 92%N else if (e =? 47)%N then Some 47%N
  else if (e =? 98)%N then Some 8%N else if (e =? 102)%N then Some 12%N else if (e =? 110)%N then Some 10%N
  else if (e =? 114)%N then Some 13%N else if (e =? 116)%N then Some 9%N else None.
Definition jcons (c : N) (r : jres (str * str)) : jres (str * str) := let? (s, rest) := r in JOk (c :: s, rest).
Fixpoint parse_string (s : str) : jres (str * str) :=
  match s with
  | [] => JErr
  | c :: s1 =>
      if (c =? 34)%N then JOk ([], s1)
      else if (c =? 92)%N then
        match s1 with
        | [] => JErr
        | e :: s2 =>
            if (e =? 117)%N then
              match s2 with
              | h1 :: h2 :: h3 :: h4 :: s3 =>
                  match hex4 h1 h2 h3 h4 with
                  | None => JErr
                  | Some n =>
                      if ((56320 <=? n) && (n <? 57344))%N then JErr
                      else if ((55296 <=? n) && (n <? 56320))%N then
                        match s3 with
                        | x :: y :: g1 :: g2 :: g3 :: g4 :: s4 =>
                            if (x =? 92)%N && (y =? 117)%N then
                              match hex4 g1 g2 g3 g4 with
                              | None => JErr
                              | Some m =>
                                  if ((56320 <=? m) && (m <? 57344))%N
                                  then jcons (65536 + (n - 55296) * 1024 + (m - 56320))%N (parse_string s4)
                                  else JErr
                              end
                            else JErr
                        | _ => JErr
                        end
                      else jcons n (parse_string s3)
                  end
              | _ => JErr
              end
            else match short_escape e with Some x => jcons x (parse_string s2) | None => JErr end
        end
      else if (c <? 32)%N then JErr
      else jcons c (parse_string s1)
  end.

(** *** Values *)
Fixpoint parse_word (w s : str) : option str :=
  match w, s with
  | [], _ => Some s
  | c :: w', x :: s' => if (c =? x)%N then parse_word w' s' else None
  | _, [] => None
  end.
Definition parse_ident (w s : str) (j : json) : jres (json * str) := match parse_word w s with Some r => JOk (j, r) | None => JErr end.
(** Map::insert *)
Definition set_member (ms : list (str * json)) (kv : str * json) : list (str * json) :=
  filter (fun x => fst x <> fst kv) ms ++ [kv].

(** [depth] is remaining_depth. *)
Fixpoint parse_value (huge : str -> bool) (fuel depth : nat) (s : str) : jres (json * str) :=
  match fuel with
  | 0 => JFuel
  | S fuel' =>
      match skip_blank s with
      | [] => JErr
      | c :: s' =>
          if (c =? 110)%N then parse_ident (lit "ull") s' JNull
          else if (c =? 116)%N then parse_ident (lit "rue") s' (JBool true)
          else if (c =? 102)%N then parse_ident (lit "alse") s' (JBool false)
          else if (c =? 45)%N || json_digit c then parse_number huge (c :: s')
          else if (c =? 34)%N then let? (x, r) := parse_string s' in JOk (JString x, r)
          else if (c =? 91)%N then
            if depth <=? 1 then JErr else let? (js, r) := parse_items huge fuel' (depth - 1) true s' in JOk (JArray js, r)
          else if (c =? 123)%N then
            if depth <=? 1 then JErr else let? (ms, r) := parse_members huge fuel' (depth - 1) true [] s' in JOk (JObject ms, r)
          else JErr
      end
  end
with parse_items (huge : str -> bool) (fuel depth : nat) (first : bool) (s : str) : jres (list json * str) :=
  match fuel with
  | 0 => JFuel
  | S fuel' =>
      let next x :=
        let? (j, r) := parse_value huge fuel' depth x in
        let? (js, r') := parse_items huge fuel' depth false r in JOk (j :: js, r') in
      match skip_blank s with
      | [] => JErr
      | c :: s' =>
          if (c =? 93)%N then JOk ([], s')
          else if first then next (c :: s')
          else if (c =? 44)%N then
            match skip_blank s' with [] => JErr | c' :: s'' => if (c' =? 93)%N then JErr else next (c' :: s'') end
          else JErr
      end
  end
with parse_members (huge : str -> bool) (fuel depth : nat) (first : bool) (ms : list (str * json)) (s : str) : jres (list (str * json) * str) :=
  match fuel with
  | 0 => JFuel
  | S fuel' =>
      let next c x :=
        if (c =? 34)%N then
          let? (k, r) := parse_string x in
          match skip_blank r with
          | [] => JErr
          | c' :: r' =>
              if (c' =? 58)%N then
                let? (j, r'') := parse_value huge fuel' depth r' in
                parse_members huge fuel' depth false (set_member ms (k, j)) r''
              else JErr
          end
        else JErr in
      match skip_blank s with
      | [] => JErr
      | c :: s' =>
          if (c =? 125)%N then JOk (ms, s')
          else if first then next c s'
          else if (c =? 44)%N then match skip_blank s' with [] => JErr | c' :: s'' => if (c' =? 125)%N then JErr else next c' s'' end
          else JErr
      end
  end.

(** serde_json::from_str: one value and nothing but blanks after it. *)
Definition json_from_str (huge : str -> bool) (s : str) : jres json :=
  let? (j, r) := parse_value huge (S (2 * length s)) 128 s in
  match skip_blank r with [] => JOk j | _ => JErr end.

(** serde_ast::from_str, from_reader -- serde_ast/mod.rs:16-23, 73-80 *)
Definition from_str (huge : str -> bool) (input : str) : res (option rule_ctx) :=
  match json_from_str huge input with
  | JOk data => from_value data
  | JErr => Ret None
  | JFuel => OutOfFuel
  end.
