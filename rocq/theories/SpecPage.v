(** SpecPage.v -- reading the drawn page back: the text of its script element and of its title element. *)
From Verif Require Export SpecHtml.

(** What follows the first occurrence of [pat]. *)
Fixpoint behind (pat s : str) : option str :=
  match strip_prefix pat s with
  | Some r => Some r
  | None => match s with [] => None | _ :: s' => behind pat s' end
  end.

(** In the input of an HTML reader line ends are line feeds (13.2.3.5; [lf_ends]), and in texts it has the replacement
    character U+FFFD for U+0000. *)
Definition c_nul : N := 0%N.
Definition replace_nul (c : N) : N := if (c =? c_nul)%N then 65533%N else c.
(** The title's text as it stands in the page, and the content of the title element before character references are
    replaced. *)
Definition title_source (input : str) : option str := behind (lit "<title>") input ≫= title_text.
Definition title_content (html : str) : option str := map replace_nul <$> title_source (lf_ends html).
(** The content of the page's module script, which is looked for behind the title. *)
Definition script_content (html : str) : option str :=
  let input := lf_ends html in
  t ← title_source input;
  rest ← behind (lit "<title>" ++ t) input;
  body ← behind (lit "<script type=""module"">") rest;
  map replace_nul <$> script_text InScript body.

(** The replacement of character references, of which only this is used: a text without ampersand stays as it is, and
    "&lt;" stands for the less-than sign. *)
Definition c_amp : N := 38%N.
Definition character_references (decode : str -> str) : Prop :=
  (forall s, c_amp ∉ s -> decode s = s) /\ decode (lit "&lt;") = [c_less].

(** Names that can stand in a title. *)
Definition title_safe (name : str) : Prop := c_cr ∉ name /\ c_nul ∉ name /\ ~ ends_title name.
(** Trees that the page's script element can carry: drawable, without U+0000, and the element is neither ended by the names
    and texts nor left in a state in which it is not ended at all. *)
Definition carried (r : rule_ctx) : Prop :=
  drawable_tree r /\ (forall s, label s r -> c_nul ∉ s) /\
  exists st, labels_state InScript (labels r) = Some st /\ forall n, st <> InDouble n.
(** Texts that do no harm wherever they occur in a tree. *)
Definition harmless (s : str) : Prop := drawable s /\ c_nul ∉ s /\ ~ upsets s.
