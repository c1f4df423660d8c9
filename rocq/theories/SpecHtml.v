(** SpecHtml.v -- how an HTML reader finds the text of a script element and of a title element (the HTML standard,
    sections 13.2.3.5 and 13.2.5: the script data states and the RCDATA states). *)
From Verif Require Export SpecDrawer Page.

(** A tag's name is over at a blank, a solidus or a greater-than sign. *)
Definition ends_name (c : N) : bool := existsb (N.eqb c) [9; 10; 12; 32; 47; 62]%N.
(** The text begins with [w] (lower case), in any case, and the name is over behind it. *)
Fixpoint tag_at (w s : str) : bool :=
  match w, s with
  | [], c :: _ => ends_name c
  | a :: w', c :: s' => (lower c =? a)%N && tag_at w' s'
  | _, [] => false
  end.
(** The text begins with [w]. *)
Fixpoint starts (w s : str) : bool :=
  match w, s with
  | [], _ => true
  | a :: w', c :: s' => (c =? a)%N && starts w' s'
  | _, [] => false
  end.

(** Inside a script element: plain; behind "<!--" (with the number of dashes just read); and behind "<!--" and "<script". *)
Inductive script_state := InScript | InEscaped (dashes : nat) | InDouble (dashes : nat).
Definition c_dash : N := 45%N.
Definition c_greater : N := 62%N.
Definition more_dashes (c : N) (n : nat) : nat := if (c =? c_dash)%N then S n else 0.
(** One character; [None]: here begins the end tag of the element.  [s]: the text from this character on. *)
Definition html_step (st : script_state) (c : N) (s : str) : option script_state :=
  if (c =? c_less)%N then
    match st with
    | InScript => if tag_at (lit "</script") s then None else Some (if starts (lit "<!--") s then InEscaped 0 else InScript)
    | InEscaped _ => if tag_at (lit "</script") s then None else Some (if tag_at (lit "<script") s then InDouble 0 else InEscaped 0)
    | InDouble _ => Some (if tag_at (lit "</script") s then InEscaped 0 else InDouble 0)
    end
  else if (c =? c_greater)%N then
    match st with
    | InScript => Some InScript
    | InEscaped n => Some (if 2 <=? n then InScript else InEscaped 0)
    | InDouble n => Some (if 2 <=? n then InScript else InDouble 0)
    end
  else
    match st with
    | InScript => Some InScript
    | InEscaped n => Some (InEscaped (more_dashes c n))
    | InDouble n => Some (InDouble (more_dashes c n))
    end.
(** The text of the element that begins here; [None]: no end tag ends it, and the script is not run. *)
Fixpoint script_text (st : script_state) (s : str) : option str :=
  match s with
  | [] => None
  | c :: s' => match html_step st c s with
               | None => Some []
               | Some st' => (fun t => c :: t) <$> script_text st' s'
               end
  end.
(** The state behind a text; [None]: the text ends the element. *)
Fixpoint state_after (st : script_state) (s : str) : option script_state :=
  match s with
  | [] => Some st
  | c :: s' => match html_step st c s with None => None | Some st' => state_after st' s' end
  end.

(** The text of a title element (character references, which begin with an ampersand, are left as they are). *)
Fixpoint title_text (s : str) : option str :=
  match s with
  | [] => None
  | c :: s' => if tag_at (lit "</title") s then Some [] else (fun t => c :: t) <$> title_text s'
  end.

(** The names and texts of a tree in the order in which they are drawn. *)
Definition token_labels (t : token) : list str := [token_name t; text t].
Fixpoint labels (r : rule_ctx) : list str :=
  match r with
  | RuleCtx n cs i =>
      n :: (fix go (cs : list ast) : list str :=
        match cs with
        | [] => []
        | Rule c :: cs' => labels c ++ go cs'
        | Terminal t :: cs' => token_labels t ++ go cs'
        | Error t :: cs' => token_labels t ++ go cs'
        end) cs
  end.
(** The state behind names and texts read one after the other, where what stands between them ends runs of dashes. *)
Definition undash (st : script_state) : script_state :=
  match st with InScript => InScript | InEscaped _ => InEscaped 0 | InDouble _ => InDouble 0 end.
Fixpoint labels_state (st : script_state) (l : list str) : option script_state :=
  match l with
  | [] => Some (undash st)
  | s :: l' => match state_after (undash st) s with None => None | Some st' => labels_state st' l' end
  end.

(** A text that can upset a script element: it ends it, or begins what looks like a comment. *)
Definition upsets (s : str) : Prop :=
  exists a b, s = a ++ b /\ (tag_at (lit "</script") b = true \/ starts (lit "<!--") b = true).
(** A text that ends a title element. *)
Definition ends_title (s : str) : Prop := exists a b, s = a ++ b /\ tag_at (lit "</title") b = true.
