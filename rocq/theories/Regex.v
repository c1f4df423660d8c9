(** Regex.v -- model of the part of the [regex] crate that the scanners of /repo use: the syntax of
    their regexes and leftmost-first matching at the start of the haystack.

    This file models no function of /repo; it models [Regex::new] and [Regex::find_at(_, 0)] on the
    regexes written in src/tool/v1/syntaxis_lexer.rs:46-59 and
    src/tool/syntaxis/syntaxis_lexer.rs:47-67.  Anything outside the constructs listed here is
    rejected ([None]); no theorem says anything about rejected texts. *)
From Verif Require Export Lexer.

(** Character classes.  [CDigit] is [\d], the Unicode category Nd, left arbitrary below. *)
Inductive citem := CRange (lo hi : N) | CDigit.

(** Regexes.  [RMany greedy r] is [r*] or [r*?]; [r+] is [r r*]; [r?] is a choice. *)
Inductive re :=
| REmpty
| RClass (negated : bool) (items : list citem)
| RCat (a b : re)
| RAlt (a b : re)
| RMany (greedy : bool) (a : re).

(** *** Syntax *)

(** The characters that may follow a backslash for themselves. *)
Definition meta (c : N) : bool := existsb (N.eqb c) (lit "\.+*?()|[]{}^$#&-~").

(** The character after a backslash. *)
Definition escape (c : N) : option citem :=
  if (c =? 97)%N then Some (CRange 7 7)          (* \a *)
  else if (c =? 100)%N then Some CDigit          (* \d *)
  else if (c =? 110)%N then Some (CRange 10 10)  (* \n *)
  else if (c =? 114)%N then Some (CRange 13 13)  (* \r *)
  else if (c =? 116)%N then Some (CRange 9 9)    (* \t *)
  else if (c =? 102)%N then Some (CRange 12 12)  (* \f *)
  else if (c =? 118)%N then Some (CRange 11 11)  (* \v *)
  else if meta c then Some (CRange c c)
  else None.

(** The inside of [[...]], up to and including the closing bracket. *)
Fixpoint class_items (fuel : nat) (s : str) : option (list citem * str) :=
  match fuel with
  | 0 => None
  | S fuel =>
      match s with
      | [] => None
      | 93%N :: s' => Some ([], s')
      | 92%N :: c :: s' =>
          match escape c, class_items fuel s' with
          | Some i, Some (l, r) => Some (i :: l, r)
          | _, _ => None
          end
      | a :: 45%N :: b :: s' =>
          match class_items fuel s' with Some (l, r) => Some (CRange a b :: l, r) | None => None end
      | c :: s' =>
          match class_items fuel s' with Some (l, r) => Some (CRange c c :: l, r) | None => None end
      end
  end.

(** [*], [+], [?] and their lazy forms behind an atom. *)
Definition postfix (r : re) (s : str) : re * str :=
  match s with
  | 42%N :: 63%N :: s' => (RMany false r, s')
  | 42%N :: s' => (RMany true r, s')
  | 43%N :: 63%N :: s' => (RCat r (RMany false r), s')
  | 43%N :: s' => (RCat r (RMany true r), s')
  | 63%N :: 63%N :: s' => (RAlt REmpty r, s')
  | 63%N :: s' => (RAlt r REmpty, s')
  | _ => (r, s)
  end.

(** Alternatives separated by [|] ([alts = true]) or one concatenation ([alts = false]), up to a
    closing parenthesis or the end.  [dot] is the flag s: does [.] match a newline. *)
Fixpoint parse_re (fuel : nat) (alts dot : bool) (s : str) : option (re * str) :=
  match fuel with
  | 0 => None
  | S fuel =>
      if alts then
        match parse_re fuel false dot s with
        | Some (a, 124%N :: s') =>
            match parse_re fuel true dot s' with Some (b, r) => Some (RAlt a b, r) | None => None end
        | x => x
        end
      else
        let continue a s' :=
          let '(a, s') := postfix a s' in
          match parse_re fuel false dot s' with
          | Some (REmpty, r) => Some (a, r)
          | Some (b, r) => Some (RCat a b, r)
          | None => None
          end in
        match s with
        | [] => Some (REmpty, [])
        | 124%N :: _ => Some (REmpty, s)
        | 41%N :: _ => Some (REmpty, s)
        | 40%N :: 63%N :: 115%N :: 41%N :: s' => parse_re fuel false true s'     (* (?s) *)
        | 40%N :: s' =>
            match parse_re fuel true dot s' with
            | Some (a, 41%N :: s'') => continue a s''
            | _ => None
            end
        | 91%N :: 94%N :: s' =>
            match class_items fuel s' with Some (l, s'') => continue (RClass true l) s'' | None => None end
        | 91%N :: s' =>
            match class_items fuel s' with Some (l, s'') => continue (RClass false l) s'' | None => None end
        | 92%N :: c :: s' =>
            match escape c with Some i => continue (RClass false [i]) s' | None => None end
        | 46%N :: s' => continue (RClass true (if dot then [] else [CRange 10 10])) s'
        | c :: s' => if meta c && negb (existsb (N.eqb c) (lit "#&-~")) then None
                     else continue (RClass false [CRange c c]) s'
        end
  end.

(** A regex anchored with [^]; without the flag m it can only match at the start. *)
Definition regex_of_text (s : str) : option re :=
  match s with
  | 94%N :: s' =>
      match parse_re (2 * length s' + 2) true false s' with
      | Some (r, []) => Some r
      | _ => None
      end
  | _ => None
  end.

(** *** Matching *)

(** [many f greedy n s]: the rests of [s] behind repetitions of [f], at most [n] of them, in order
    of preference.  Repetitions that consume nothing are not tried; no starred regex of /repo has one. *)
Fixpoint many (f : str -> list str) (greedy : bool) (n : nat) (s : str) : list str :=
  match n with
  | 0 => [s]
  | S n' =>
      let more := concat (map (many f greedy n') (List.filter (fun r => length r <? length s) (f s))) in
      if greedy then more ++ [s] else s :: more
  end.

Section matching.
  (** The digits: Unicode category Nd. *)
  Context (nd : N -> bool).

  Definition in_item (c : N) (i : citem) : bool :=
    match i with CRange lo hi => (lo <=? c)%N && (c <=? hi)%N | CDigit => nd c end.
  Definition in_class (negated : bool) (l : list citem) (c : N) : bool :=
    xorb negated (existsb (in_item c) l).

  (** All rests of [s] behind a match of [r] at its start, in order of preference: earlier
      alternatives first, more repetitions first when greedy. *)
  Fixpoint rests (r : re) (s : str) : list str :=
    match r with
    | REmpty => [s]
    | RClass n l => match s with c :: s' => if in_class n l c then [s'] else [] | [] => [] end
    | RCat a b => concat (map (rests b) (rests a s))
    | RAlt a b => rests a s ++ rests b s
    | RMany g a => many (rests a) g (length s) s
    end.

  (** [find_at(s, 0).map(|m| m.end())]: the end of the preferred match, in bytes. *)
  Definition find_at0 (r : re) : matcher := fun s =>
    match rests r s with
    | [] => None
    | s' :: _ => Some (blen s - blen s')
    end.

  (** [Regex::new] *)
  Definition compile (s : str) : option matcher := find_at0 <$> regex_of_text s.

  (** The constructor of a lexer from its regexes and names: [Regex::new(...).unwrap()] for each --
      v1/syntaxis_lexer.rs:42-70, lexer.tera:29-46, syntaxis_lexer.rs:44-80. *)
  Fixpoint compile_all (l : list str) : res (list matcher) :=
    match l with
    | [] => Ret []
    | s :: l' =>
        let! m := unwrap (compile s) in
        let! ms := compile_all l' in
        Ret (m :: ms)
    end.
  Definition lexer_new (regexes names : list str) (input : str) : res lexer_cfg :=
    let! ms := compile_all regexes in
    Ret (LexerCfg input ms names).
End matching.
