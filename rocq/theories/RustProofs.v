(** RustProofs.v -- C60, C61: the source text of generated lexers. *)
From Verif Require Export SpecRust LexerTera LexerRs BootstrapProofs DrawerProofs.
From Coq Require Import DecimalNat.

(** *** Reading in pieces *)
Definition lex (m : mode) (s : str) : mode * list rust_token := fold_left read_char s (m, []).
Lemma read_between_out out c : read_between out c = let '(m, o) := read_between [] c in (m, out ++ o).
Proof. unfold read_between. repeat destruct (_ : bool); cbn; by rewrite ?app_nil_r. Qed.
Lemma read_char_out m out c : read_char (m, out) c = let '(m', o) := read_char (m, []) c in (m', out ++ o).
Proof.
  assert (forall o', read_between (out ++ o') c = let '(m', o) := read_between o' c in (m', out ++ o)) as K.
  { intros o'. rewrite (read_between_out (out ++ o')), (read_between_out o'). destruct (read_between [] c) as [m' o]. by rewrite app_assoc. }
  destruct m; cbn [read_char];
    repeat match goal with |- context[if ?b then _ else _] => destruct b end;
    cbn [app]; rewrite ?app_nil_r; try reflexivity; try apply (K []); try (rewrite <- (app_nil_r out) at 1; apply (K [])); apply K.
Qed.
Lemma fold_out s m out : fold_left read_char s (m, out) = let '(m', o) := lex m s in (m', out ++ o).
Proof.
  unfold lex. revert m out. induction s as [|c s IH]; intros m out; cbn [fold_left]; [by rewrite app_nil_r|].
  rewrite (read_char_out m out c). destruct (read_char (m, []) c) as [m1 o1]. rewrite (IH m1 (out ++ o1)), (IH m1 o1).
  destruct (fold_left read_char s (m1, [])) as [m2 o2]. by rewrite app_assoc.
Qed.

Definition reads (m : mode) (s : str) (m' : mode) (o : list rust_token) : Prop := lex m s = (m', o).
Lemma reads_nil m : reads m [] m [].
Proof. reflexivity. Qed.
Lemma reads_app m a m1 o1 b m2 o2 : reads m a m1 o1 -> reads m1 b m2 o2 -> reads m (a ++ b) m2 (o1 ++ o2).
Proof.
  unfold reads, lex. intros H1 H2. rewrite fold_left_app, H1, (fold_out b m1 o1). unfold lex. by rewrite H2.
Qed.
Lemma reads_tokens s m o : reads Between s m o -> m = Between \/ m = InComment -> rust_tokens s = Some o.
Proof. unfold reads, lex, rust_tokens. by intros -> [-> | ->]. Qed.

(** *** Words *)
Lemma reads_more_word w x : Forall (fun c => word_char c = true) x -> reads (InWord w) x (InWord (w ++ x)) [].
Proof.
  intros H. revert w. induction H as [|c x Hc Hx IH]; intros w; [rewrite app_nil_r; apply reads_nil|].
  replace (w ++ c :: x) with ((w ++ [c]) ++ x) by (by rewrite <- app_assoc).
  apply (reads_app _ [c] (InWord (w ++ [c])) [] x _ []); [|apply IH]. unfold reads, lex. cbn. by rewrite Hc.
Qed.
Lemma word_not_blank c : word_char c = true -> rust_blank c = false.
Proof.
  unfold word_char, rust_blank. rewrite !orb_true_iff, !andb_true_iff, !N.leb_le, !N.eqb_eq. intros H.
  rewrite !orb_false_iff, !N.eqb_neq. lia.
Qed.
Lemma reads_word x : identifier x -> reads Between x (InWord x) [].
Proof.
  intros [H Hne]. destruct x as [|c x]; [done|]. apply Forall_cons in H as [Hc Hx].
  apply (reads_app _ [c] (InWord [c]) [] x _ []); [|by apply (reads_more_word [c])]. unfold reads, lex. cbn. unfold read_between.
  by rewrite (word_not_blank _ Hc), Hc.
Qed.
Lemma reads_end_word x c s m o : word_char c = false -> (x <> lit "r" \/ (c <> 35%N /\ c <> 34%N)) ->
  reads Between (c :: s) m o -> reads (InWord x) (c :: s) m (Word x :: o).
Proof.
  intros Hc Hx H. unfold reads, lex in *. cbn [fold_left read_char] in *. rewrite Hc.
  assert (bool_decide (x = lit "r") && (c =? 35)%N = false) as -> .
  { apply andb_false_iff. destruct Hx as [Hx|[Hx _]]; [left; by apply bool_decide_eq_false|right; by apply N.eqb_neq]. }
  assert (bool_decide (x = lit "r") && (c =? 34)%N = false) as -> .
  { apply andb_false_iff. destruct Hx as [Hx|[_ Hx]]; [left; by apply bool_decide_eq_false|right; by apply N.eqb_neq]. }
  rewrite (read_between_out ([] ++ [Word x])). destruct (read_between [] c) as [m1 o1].
  rewrite fold_out in H. rewrite fold_out. destruct (lex m1 s) as [m2 o2]. injection H as <- <-. reflexivity.
Qed.
(** A static piece. *)
Definition toks (s : str) : list rust_token := snd (lex Between s).
Definition static (s : str) : bool := match fst (lex Between s) with Between => true | _ => false end.
Lemma reads_static s : static s = true -> reads Between s Between (toks s).
Proof. unfold static, reads, toks. destruct (lex Between s) as [m o]. cbn [fst snd]. by destruct m. Qed.

(** *** Raw strings *)
Definition quotes4 : str := lit """####".
Definition raw_state (m : mode) (t : str) : Prop :=
  m = InRaw 4 t \/ exists a k, m = RawClose 4 a k /\ t = a ++ 34%N :: replicate k 35%N /\ k < 4.
Lemma raw_step m t c : raw_state m t -> c <> 13%N -> (forall a b, t ++ [c] <> a ++ quotes4 ++ b) ->
  exists m', read_char (m, []) c = (m', []) /\ raw_state m' (t ++ [c]).
Proof.
  intros Hm Hc Hn. destruct Hm as [->|(a & k & -> & -> & Hk)]; cbn [read_char].
  - rewrite (proj2 (N.eqb_neq _ _) Hc). destruct (N.eqb_spec c 34) as [->|H34].
    + exists (RawClose 4 t 0). split; [done|]. right. exists t, 0. split; [done|]. split; [done|lia].
    + exists (InRaw 4 (t ++ [c])). split; [done|]. by left.
  - rewrite (proj2 (N.eqb_neq _ _) Hc). destruct (N.eqb_spec c 35) as [->|H35]; [|destruct (N.eqb_spec c 34) as [->|H34]].
    + destruct (Nat.eqb_spec (S k) 4) as [E|E].
      * exfalso. injection E as ->. apply (Hn a []). by rewrite <- app_assoc.
      * exists (RawClose 4 a (S k)). split; [done|]. right. exists a, (S k). split; [done|]. split; [|lia].
        rewrite <- app_assoc. f_equal. cbn [app]. f_equal. change [35%N] with (replicate 1 35%N). rewrite <- replicate_add. f_equal. lia.
    + eexists. split; [done|]. right. exists (a ++ 34%N :: replicate k 35%N), 0. split; [done|]. split; [done|lia].
    + eexists. split; [done|]. left. by rewrite <- app_assoc.
Qed.
Lemma raw_run s : forall m t, raw_state m t -> 13%N ∉ s -> (forall a b, t ++ s <> a ++ quotes4 ++ b) ->
  exists m', reads m s m' [] /\ raw_state m' (t ++ s).
Proof.
  induction s as [|c s IH]; intros m t Hm Hc Hn.
  - exists m. rewrite app_nil_r. split; [apply reads_nil|done].
  - apply not_elem_of_cons in Hc as [Hc Hs]. destruct (raw_step m t c Hm) as (m1 & H1 & Hm1); [done| |].
    { intros a b E. apply (Hn a (b ++ s)). replace (t ++ c :: s) with ((t ++ [c]) ++ s) by (by rewrite <- app_assoc). rewrite E. by rewrite <- !app_assoc. }
    destruct (IH m1 (t ++ [c]) Hm1 Hs) as (m2 & H2 & Hm2); [by rewrite <- app_assoc|]. exists m2.
    rewrite <- app_assoc in Hm2. split; [|done]. by apply (reads_app m [c] m1 [] s m2 []).
Qed.
Lemma reads_raw s : raw4 s -> reads (InRaw 4 []) (s ++ quotes4) Between [Raw s].
Proof.
  intros [Hn Hc]. destruct (raw_run s (InRaw 4 []) []) as (m & H & Hm); [by left|done|done|].
  apply (reads_app _ s m [] quotes4 _ [Raw s]); [done|]. cbn [app] in Hm. destruct Hm as [->|(a & k & -> & -> & Hk)]; reflexivity.
Qed.

(** *** The parts of the template that depend on a token *)
Definition tera_text (k : nat) : str := match lexer_tera !! k with Some (Text s) => s | _ => [] end.
Definition nl (x : str) : str := 10%N :: x.
Definition const_text (t : lexer_rule_data) : str :=
  nl (lit "  pub const ") ++ ld_name t ++ lit ": usize = " ++ usize_to_string (ld_type t) ++ lit ";".
Definition regex_text (t : lexer_rule_data) : str :=
  nl (lit "      Regex::new(r####""") ++ ld_regex t ++ (quotes4 ++ lit ").unwrap(), // ") ++ ld_name t.
Definition name_text (t : lexer_rule_data) : str := lit """" ++ ld_name t ++ lit """, ".
Lemma tera_parts : lexer_tera = [Text (tera_text 0); Name; Text (tera_text 2); Name; Text (tera_text 4);
  ForTokens [TokenText (nl (lit "  pub const ")); TokenName; TokenText (lit ": usize = "); TokenType; TokenText (lit ";")]; Text (tera_text 6);
  ForTokens [TokenText (nl (lit "      Regex::new(r####""")); TokenRegex; TokenText (quotes4 ++ lit ").unwrap(), // "); TokenName]; Text (tera_text 8);
  ForTokens [TokenText (lit """"); TokenName; TokenText (lit """, ")]; Text (tera_text 10); Name; Text (tera_text 12); Name;
  Text (tera_text 14); Name; Text (tera_text 16)].
Proof. reflexivity. Qed.
Lemma render_tera name tokens : render lexer_tera name tokens =
  tera_text 0 ++ name ++ tera_text 2 ++ name ++ tera_text 4 ++ concat (map const_text tokens) ++ tera_text 6 ++
  concat (map regex_text tokens) ++ tera_text 8 ++ concat (map name_text tokens) ++ tera_text 10 ++
  name ++ tera_text 12 ++ name ++ tera_text 14 ++ name ++ tera_text 16.
Proof.
  rewrite tera_parts. unfold render. generalize tera_text. intros T. cbn [map concat render_part]. rewrite !app_nil_r.
  assert (forall l : list lexer_rule_data, map (fun t => concat (map (render_token_part t) [TokenText (nl (lit "  pub const ")); TokenName; TokenText (lit ": usize = "); TokenType; TokenText (lit ";")])) l = map const_text l) as ->
    by (intros l; apply map_ext; reflexivity).
  assert (forall l : list lexer_rule_data, map (fun t => concat (map (render_token_part t) [TokenText (nl (lit "      Regex::new(r####""")); TokenRegex; TokenText (quotes4 ++ lit ").unwrap(), // "); TokenName])) l = map regex_text l) as ->
    by (intros l; apply map_ext; intros t; cbn [map concat render_token_part]; by rewrite app_nil_r).
  assert (forall l : list lexer_rule_data, map (fun t => concat (map (render_token_part t) [TokenText (lit """"); TokenName; TokenText (lit """, ")])) l = map name_text l) as ->
    by (intros l; apply map_ext; reflexivity).
  reflexivity.
Qed.

(** *** Loops *)
Lemma usize_to_string_ne n : usize_to_string n <> [].
Proof.
  unfold usize_to_string. pose proof (Unsigned.of_to n) as H. destruct (Nat.to_uint n) eqn:E; try done. cbn in H. subst n. discriminate E.
Qed.
Lemma usize_identifier n : identifier (usize_to_string n).
Proof.
  split; [|apply usize_to_string_ne]. pose proof (uint_str_digits (Nat.to_uint n)) as H. eapply Forall_impl; [exact H|].
  intros c [Hc1 Hc2]. unfold word_char. rewrite !orb_true_iff, !andb_true_iff, !N.leb_le. tauto.
Qed.
Lemma reads_const t : identifier (ld_name t) -> reads Between (const_text t) Between (constant t).
Proof.
  intros H. unfold const_text, constant.
  apply (reads_app _ _ Between [kw "pub"; kw "const"] _ _ (Word (ld_name t) :: [Punct 58; kw "usize"; Punct 61; Word (usize_to_string (ld_type t)); Punct 59])); [reflexivity|].
  apply (reads_app _ _ (InWord (ld_name t)) []); [by apply reads_word|].
  apply reads_end_word; [reflexivity|right; done|].
  apply (reads_app _ (lit ": usize = ") Between [Punct 58; kw "usize"; Punct 61]); [reflexivity|].
  apply (reads_app _ _ (InWord (usize_to_string (ld_type t))) []); [apply reads_word, usize_identifier|].
  apply reads_end_word; [reflexivity|right; done|reflexivity].
Qed.
Lemma reads_comment x : Forall (fun c => word_char c = true) x -> reads InComment x InComment [].
Proof.
  induction 1 as [|c x Hc Hx IH]; [apply reads_nil|]. apply (reads_app _ [c] InComment [] x _ []); [|done]. unfold reads, lex. cbn.
  apply word_not_blank in Hc. unfold rust_blank in Hc. rewrite !orb_false_iff in Hc. by destruct Hc as [[[_ ->] _] _].
Qed.
Definition open_mode (m : mode) : Prop := m = Between \/ m = InComment.
Lemma reads_nl m s m' o : open_mode m -> reads Between s m' o -> reads m (nl s) m' o.
Proof. intros [->| ->] H; exact H. Qed.
Lemma reads_regex m t : open_mode m -> writable t -> reads m (regex_text t) InComment (regex_new t).
Proof.
  intros Hm [[Hi _] Hr]. unfold regex_text, regex_new.
  apply (reads_app _ _ (InRaw 4 []) [kw "Regex"; Punct 58; Punct 58; kw "new"; Punct 40] _ _ [Raw (ld_regex t); Punct 41; Punct 46; kw "unwrap"; Punct 40; Punct 41; Punct 44]);
    [apply reads_nl; [done|reflexivity]|].
  rewrite <- app_assoc, app_assoc.
  apply (reads_app _ (ld_regex t ++ quotes4) Between [Raw (ld_regex t)]); [by apply reads_raw|].
  apply (reads_app _ _ InComment [Punct 41; Punct 46; kw "unwrap"; Punct 40; Punct 41; Punct 44] _ _ []); [reflexivity|by apply reads_comment].
Qed.
Lemma reads_in_str acc x : Forall (fun c => word_char c = true) x -> reads (InStr acc) x (InStr (acc ++ x)) [].
Proof.
  intros H. revert acc. induction H as [|c x Hc Hx IH]; intros acc; [rewrite app_nil_r; apply reads_nil|].
  replace (acc ++ c :: x) with ((acc ++ [c]) ++ x) by (by rewrite <- app_assoc).
  apply (reads_app _ [c] (InStr (acc ++ [c])) [] x _ []); [|apply IH]. unfold reads, lex. cbn.
  assert (c <> 34%N /\ c <> 92%N) as [H1 H2].
  { unfold word_char in Hc. rewrite !orb_true_iff, !andb_true_iff, !N.leb_le, !N.eqb_eq in Hc. lia. }
  by rewrite (proj2 (N.eqb_neq _ _) H1), (proj2 (N.eqb_neq _ _) H2).
Qed.
Lemma reads_name t : identifier (ld_name t) -> reads Between (name_text t) Between (quoted_name t).
Proof.
  intros [H _]. unfold name_text, quoted_name. apply (reads_app _ _ (InStr []) []); [reflexivity|].
  apply (reads_app _ _ (InStr (ld_name t)) []); [by apply (reads_in_str [])|]. reflexivity.
Qed.
Lemma reads_loop (f : lexer_rule_data -> str) g tokens : (forall t, t ∈ tokens -> reads Between (f t) Between (g t)) -> reads Between (concat (map f tokens)) Between (concat (map g tokens)).
Proof.
  induction tokens as [|t tokens IH]; intros H; [apply reads_nil|]. cbn [map concat]. eapply reads_app; [apply H, elem_of_list_here|].
  apply IH. intros t' Ht'. apply H. by apply elem_of_list_further.
Qed.
Lemma reads_regexes tokens m : open_mode m -> Forall writable tokens ->
  exists m', open_mode m' /\ reads m (concat (map regex_text tokens)) m' (concat (map regex_new tokens)).
Proof.
  intros Hm H. revert m Hm. induction H as [|t tokens Ht Hts IH]; intros m Hm; [exists m; split; [done|apply reads_nil]|].
  destruct (IH InComment) as (m' & Hm' & H'); [by right|]. exists m'. split; [done|]. cbn [map concat].
  eapply reads_app; [by apply reads_regex|exact H'].
Qed.

(** *** The whole text *)
Definition lexer_name (name : str) : str := name ++ lit "Lexer".
Definition after_name (k : nat) : str := drop 5 (tera_text k).
Lemma reads_lexer_name name k m o : Forall (fun c => word_char c = true) name ->
  tera_text k = lit "Lexer" ++ after_name k -> match after_name k with [] => false | c :: _ => negb (word_char c) end = true ->
  reads Between (after_name k) m o -> reads Between (name ++ tera_text k) m (Word (lexer_name name) :: o).
Proof.
  intros Hn -> Hh H. rewrite app_assoc. apply (reads_app _ _ (InWord (lexer_name name)) []).
  - apply reads_word. split; [|by destruct name]. apply Forall_app. split; [done|]. by repeat constructor.
  - destruct (after_name k) as [|c s]; [discriminate Hh|]. apply reads_end_word; [by apply negb_true_iff|left|done].
    unfold lexer_name. intros E. apply (f_equal length) in E. rewrite app_length in E. cbn in E. lia.
Qed.

Definition part_a (name : str) : list rust_token :=
  toks (tera_text 0) ++ (Word (lexer_name name) :: toks (after_name 2)) ++ (Word (lexer_name name) :: toks (after_name 4)).
Definition part_d (name : str) : list rust_token :=
  toks (tera_text 10) ++ (Word (lexer_name name) :: toks (after_name 12)) ++ (Word (lexer_name name) :: toks (after_name 14)) ++
  (Word (lexer_name name) :: toks (after_name 16)).
Lemma reads_tera name tokens : Forall (fun c => word_char c = true) name -> Forall writable tokens ->
  reads Between (render lexer_tera name tokens) Between
    (part_a name ++ concat (map constant tokens) ++ toks (tera_text 6) ++ concat (map regex_new tokens) ++ toks (tera_text 8) ++
     concat (map quoted_name tokens) ++ part_d name).
Proof.
  intros Hn Ht. rewrite render_tera. unfold part_a, part_d.
  assert (forall t, t ∈ tokens -> identifier (ld_name t)) as Hid by (intros t H; rewrite Forall_forall in Ht; apply Ht, H).
  rewrite <- !app_assoc.
  destruct (reads_regexes tokens Between) as (m & Hm & Hr); [by left|done|].
  assert (reads m (tera_text 8) Between (toks (tera_text 8))) as H8.
  { assert (exists x, tera_text 8 = nl x /\ toks (tera_text 8) = toks x /\ static x = true) as (x & E1 & E2 & E3).
    { exists (drop 1 (tera_text 8)). split; [reflexivity|]. split; [vm_compute; reflexivity|vm_compute; reflexivity]. }
    rewrite E2, E1. apply reads_nl; [done|]. by apply reads_static. }
  assert (forall k, k ∈ [2; 4; 12; 14; 16] -> forall m o rest o', reads Between (after_name k) m o -> reads m rest Between o' ->
    reads Between (name ++ tera_text k ++ rest) Between ((Word (lexer_name name) :: o) ++ o')) as Hname.
  { intros k Hk m0 o rest o' H1 H2. rewrite app_assoc. eapply reads_app; [|exact H2].
    apply reads_lexer_name; [done|..|done]; rewrite !elem_of_cons in Hk; destruct Hk as [->|[->|[->|[->|[->|Hk]]]]]; try reflexivity; by apply elem_of_nil in Hk. }
  assert (forall k, k ∈ [2; 4; 12; 14; 16] -> reads Between (after_name k) Between (toks (after_name k))) as Hafter.
  { intros k Hk. apply reads_static. rewrite !elem_of_cons in Hk. destruct Hk as [->|[->|[->|[->|[->|Hk]]]]]; try (vm_compute; reflexivity); by apply elem_of_nil in Hk. }
  eapply reads_app; [apply reads_static; vm_compute; reflexivity|].
  eapply Hname; [apply elem_of_list_In; cbn; auto|apply Hafter; apply elem_of_list_In; cbn; auto|].
  eapply Hname; [apply elem_of_list_In; cbn; auto|apply Hafter; apply elem_of_list_In; cbn; auto|].
  eapply reads_app; [apply reads_loop; intros t H; by apply reads_const, Hid|].
  eapply reads_app; [apply reads_static; vm_compute; reflexivity|].
  eapply reads_app; [exact Hr|]. eapply reads_app; [exact H8|].
  eapply reads_app; [apply reads_loop; intros t H; by apply reads_name, Hid|].
  eapply reads_app; [apply reads_static; vm_compute; reflexivity|].
  eapply Hname; [apply elem_of_list_In; cbn; auto|apply Hafter; apply elem_of_list_In; cbn; auto|].
  eapply Hname; [apply elem_of_list_In; cbn; auto|apply Hafter; apply elem_of_list_In; cbn; auto|].
  replace (name ++ tera_text 16) with (name ++ tera_text 16 ++ []) by (by rewrite app_nil_r).
  replace (Word (lexer_name name) :: toks (after_name 16)) with ((Word (lexer_name name) :: toks (after_name 16)) ++ []) by (apply app_nil_r).
  eapply Hname; [apply elem_of_list_In; cbn; auto 10|apply Hafter; apply elem_of_list_In; cbn; auto 10|]. apply reads_nil.
Qed.

Lemma c60_shape : exists (a d : str -> list rust_token) (b c : list rust_token), forall name tokens,
  Forall (fun x => word_char x = true) name -> Forall writable tokens ->
  rust_tokens (render lexer_tera name tokens) =
    Some (a name ++ concat (map constant tokens) ++ b ++ concat (map regex_new tokens) ++ c ++ concat (map quoted_name tokens) ++ d name).
Proof.
  exists part_a, part_d, (toks (tera_text 6)), (toks (tera_text 8)). intros name tokens Hn Ht.
  eapply reads_tokens; [by apply reads_tera|by left].
Qed.

(** *** Paths and declarations, in pieces *)
Definition sep (c : N) : Prop := c = 59%N \/ c = 44%N \/ c = 91%N.
Definition ends (a : list rust_token) : Prop := exists x c, a = x ++ [Punct c] /\ sep c.
Lemma path_at_sep t x c b : sep c -> path_at (t :: x ++ Punct c :: b) = path_at (t :: x ++ [Punct c]).
Proof.
  intros Hc. assert ((c =? 58)%N = false) as Hn by (by destruct Hc as [->|[->| ->]]). clear Hc.
  destruct x as [|t1 [|t2 [|t3 x]]]; cbn [app path_at]; [| | |reflexivity]; destruct t; try reflexivity.
  - destruct b as [|[] [|[] ?]]; rewrite ?Hn; reflexivity.
  - destruct t1; try reflexivity. destruct b as [|[] ?]; rewrite ?Hn, ?andb_false_r; reflexivity.
Qed.
Lemma declared_at_sep t x c b : sep c -> declared_at (t :: x ++ Punct c :: b) = declared_at (t :: x ++ [Punct c]).
Proof.
  intros Hc. destruct x as [|t1 [|t2 [|t3 x]]]; cbn [app declared_at]; [| | |reflexivity]; destruct t; try reflexivity; by destruct t1.
Qed.
Lemma paths_ends a b : ends a -> paths (a ++ b) = paths a ++ paths b.
Proof.
  intros (x & c & -> & Hc). rewrite <- app_assoc. cbn [app]. induction x as [|t x IH]; [cbn; by destruct b|].
  cbn [app paths]. rewrite IH, path_at_sep by done. by rewrite app_assoc.
Qed.
Lemma declared_ends a b : ends a -> declared (a ++ b) = declared a ++ declared b.
Proof.
  intros (x & c & -> & Hc). rewrite <- app_assoc. cbn [app]. induction x as [|t x IH]; [cbn; by destruct b|].
  cbn [app declared]. rewrite IH, declared_at_sep by done. by rewrite app_assoc.
Qed.
Lemma paths_loop {A} (g : A -> list rust_token) l b : (forall t, ends (g t)) -> paths (concat (map g l) ++ b) = concat (map (fun t => paths (g t)) l) ++ paths b.
Proof. intros H. induction l as [|t l IH]; [done|]. cbn [map concat]. rewrite <- !app_assoc, paths_ends by done. by rewrite IH. Qed.
Lemma declared_loop {A} (g : A -> list rust_token) l b : (forall t, ends (g t)) -> declared (concat (map g l) ++ b) = concat (map (fun t => declared (g t)) l) ++ declared b.
Proof. intros H. induction l as [|t l IH]; [done|]. cbn [map concat]. rewrite <- !app_assoc, declared_ends by done. by rewrite IH. Qed.
Lemma ends_constant t : ends (constant t).
Proof. exists (removelast (constant t)), 59%N. split; [reflexivity|by left]. Qed.
Lemma ends_regex t : ends (regex_new t).
Proof. exists (removelast (regex_new t)), 44%N. split; [reflexivity|right; by left]. Qed.
Lemma ends_quoted t : ends (quoted_name t).
Proof. exists (removelast (quoted_name t)), 44%N. split; [reflexivity|right; by left]. Qed.
Lemma ends_part_a name : ends (part_a name).
Proof. exists (removelast (part_a name)), 59%N. split; [vm_compute; reflexivity|by left]. Qed.
Lemma ends_6 : ends (toks (tera_text 6)).
Proof. exists (removelast (toks (tera_text 6))), 91%N. split; [vm_compute; reflexivity|right; by right]. Qed.
Lemma ends_8 : ends (toks (tera_text 8)).
Proof. exists (removelast (toks (tera_text 8))), 44%N. split; [vm_compute; reflexivity|right; by left]. Qed.

Lemma concat_const_nil {A B} (f : A -> list B) l : (forall t, f t = []) -> concat (map f l) = [].
Proof. intros H. induction l as [|t l IH]; [done|]. cbn. by rewrite H, IH. Qed.
Lemma tera_declared name tokens : declared (part_a name ++ concat (map constant tokens) ++ toks (tera_text 6) ++ concat (map regex_new tokens) ++
    toks (tera_text 8) ++ concat (map quoted_name tokens) ++ part_d name) = [lit "_START"; lit "_STOP"] ++ map ld_name tokens.
Proof.
  rewrite declared_ends by apply ends_part_a. rewrite declared_loop by apply ends_constant. rewrite declared_ends by apply ends_6.
  rewrite declared_loop by apply ends_regex. rewrite declared_ends by apply ends_8. rewrite declared_loop by apply ends_quoted.
  rewrite (concat_const_nil (fun t => declared (regex_new t))) by (intros; reflexivity).
  rewrite (concat_const_nil (fun t => declared (quoted_name t))) by (intros; reflexivity).
  replace (declared (part_a name)) with [lit "_START"; lit "_STOP"] by (vm_compute; reflexivity).
  replace (declared (toks (tera_text 6))) with (@nil str) by (vm_compute; reflexivity).
  replace (declared (toks (tera_text 8))) with (@nil str) by (vm_compute; reflexivity).
  replace (declared (part_d name)) with (@nil str) by (vm_compute; reflexivity).
  rewrite !app_nil_r. f_equal. induction tokens as [|t l IH]; [done|]. cbn [map concat]. rewrite IH. reflexivity.
Qed.
Definition not_lexer (x : str) : bool := negb (bool_decide (drop (length x - 5) x = lit "Lexer")).
Lemma lexer_name_not name x : not_lexer x = true -> x <> lexer_name name.
Proof.
  unfold not_lexer. intros H ->. apply negb_true_iff, bool_decide_eq_false in H. apply H.
  unfold lexer_name. rewrite app_length. replace (length name + length (lit "Lexer") - 5) with (length name) by (cbn; lia).
  by rewrite drop_app.
Qed.
Lemma tera_paths name tokens : exists l, forallb (fun p => not_lexer p.1) l = true /\
  paths (part_a name ++ concat (map constant tokens) ++ toks (tera_text 6) ++ concat (map regex_new tokens) ++
    toks (tera_text 8) ++ concat (map quoted_name tokens) ++ part_d name) = l ++ [(lexer_name name, lit "WHITE_SPACE")].
Proof.
  rewrite paths_ends by apply ends_part_a. rewrite paths_loop by apply ends_constant. rewrite paths_ends by apply ends_6.
  rewrite paths_loop by apply ends_regex. rewrite paths_ends by apply ends_8. rewrite paths_loop by apply ends_quoted.
  rewrite (concat_const_nil (fun t => paths (constant t))) by (intros; reflexivity).
  rewrite (concat_const_nil (fun t => paths (quoted_name t))) by (intros; reflexivity).
  cbn [app].
  assert (exists d, forallb (fun p => not_lexer p.1) d = true /\ paths (part_d name) = d ++ [(lexer_name name, lit "WHITE_SPACE")]) as (d & Hd & ->).
  { exists [(lit "String", lit "from"); (lit "String", lit "from"); (lit "Vec", lit "new")]. split; vm_compute; reflexivity. }
  exists (paths (part_a name) ++ paths (toks (tera_text 6)) ++ concat (map (fun t => paths (regex_new t)) tokens) ++ paths (toks (tera_text 8)) ++ d).
  rewrite <- !app_assoc. split; [|reflexivity]. rewrite !forallb_app, Hd.
  replace (forallb (fun p => not_lexer p.1) (paths (part_a name))) with true by (vm_compute; reflexivity).
  replace (forallb (fun p => not_lexer p.1) (paths (toks (tera_text 6)))) with true by (vm_compute; reflexivity).
  replace (forallb (fun p => not_lexer p.1) (paths (toks (tera_text 8)))) with true by (vm_compute; reflexivity).
  rewrite !andb_true_r. cbn [andb]. induction tokens as [|t l IH]; [done|]. cbn [map concat]. rewrite forallb_app, IH. reflexivity.
Qed.

Lemma some_eq {A} (o : option A) x y : o = Some y -> o = Some x -> y = x.
Proof. congruence. Qed.
Lemma c61_exact name tokens ts : Forall (fun x => word_char x = true) name -> Forall writable tokens ->
  rust_tokens (render lexer_tera name tokens) = Some ts ->
  (forall c, (name ++ lit "Lexer", c) ∈ paths ts -> c ∈ declared ts) <-> lit "WHITE_SPACE" ∈ map ld_name tokens.
Proof.
  intros Hn Ht H. pose proof (reads_tokens _ _ _ (reads_tera name tokens Hn Ht) (or_introl eq_refl)) as E.
  rewrite <- (some_eq _ _ _ E H). rewrite tera_declared. destruct (tera_paths name tokens) as (l & Hl & ->).
  assert (forall c, (name ++ lit "Lexer", c) ∈ l ++ [(lexer_name name, lit "WHITE_SPACE")] <-> c = lit "WHITE_SPACE") as K.
  { intros c. rewrite elem_of_app, elem_of_list_singleton. split; [intros [Hc|Hc]|intros ->; by right].
    - rewrite forallb_forall in Hl. apply elem_of_list_In in Hc. apply Hl in Hc. cbn in Hc. by destruct (lexer_name_not name _ Hc).
    - by injection Hc. }
  split.
  - intros Ha. specialize (Ha (lit "WHITE_SPACE") (proj2 (K _) eq_refl)). apply elem_of_app in Ha as [Ha|Ha]; [|done].
    exfalso. rewrite !elem_of_cons, elem_of_nil in Ha. destruct Ha as [E1|[E1|[]]]; discriminate E1.
  - intros Hw c Hc. apply K in Hc as ->. apply elem_of_app. by right.
Qed.
Lemma c61_declared name tokens ts : Forall (fun x => word_char x = true) name -> Forall writable tokens ->
  rust_tokens (render lexer_tera name tokens) = Some ts -> declared ts = [lit "_START"; lit "_STOP"] ++ map ld_name tokens.
Proof.
  intros Hn Ht H. pose proof (reads_tokens _ _ _ (reads_tera name tokens Hn Ht) (or_introl eq_refl)) as E.
  rewrite <- (some_eq _ _ _ E H). apply tera_declared.
Qed.

(** *** The committed lexer, and two grammars *)
Lemma shipped_rules g d : load_ast syntaxis2_json = Ret (g, d) -> rules_of shipped_tree = d.
Proof. rewrite shipped_load. intros H. exact (f_equal (fun x : res (grammar * list lexer_rule_data) => match x with Ret (_, d) => d | _ => rules_of shipped_tree end) H). Qed.
Lemma c60_committed g d : load_ast syntaxis2_json = Ret (g, d) -> render lexer_tera (lit "Syntaxis") d = lexer_rs.
Proof. intros H. rewrite <- (shipped_rules g d H). apply (bool_decide_unpack _). vm_compute. exact I. Qed.

Definition ex_hashes : list rule := [LexerRule (lit "AB") (lit "/""####/")].
Definition has_raw (o : option (list rust_token)) (s : str) : bool :=
  match o with Some ts => existsb (fun t => match t with Raw x => bool_decide (x = s) | _ => false end) ts | None => false end.
Lemma has_raw_not o s ts : has_raw o s = false -> o = Some ts -> Raw s ∉ ts.
Proof.
  intros H -> Hin. apply not_true_iff_false in H. apply H. apply existsb_exists. exists (Raw s). split; [by apply elem_of_list_In|]. by apply bool_decide_eq_true.
Qed.
Lemma ex_hashes_tree : grammar_tree ex_hashes (build_grammar ex_hashes).
Proof. by apply build_grammar_tree. Qed.
Lemma c60_refuted : exists G r g data t, grammar_tree G r /\ load_tree r = Ret (g, data) /\ t ∈ data /\
  identifier (ld_name t) /\ forall ts, rust_tokens (render lexer_tera (lit "Syntaxis") data) = Some ts -> Raw (ld_regex t) ∉ ts.
Proof.
  exists ex_hashes, (build_grammar ex_hashes), (grammar_of (build_grammar ex_hashes)), (rules_of (build_grammar ex_hashes)), (LexerRuleData 2 (lit "AB") (lit "^(""####)")).
  split; [apply ex_hashes_tree|]. split; [apply loaded_ret; by vm_compute|].
  assert (rules_of (build_grammar ex_hashes) = [LexerRuleData 2 (lit "AB") (lit "^(""####)")]) as -> by (vm_compute; reflexivity).
  split; [by apply elem_of_list_singleton|]. split; [split; [by repeat constructor|done]|].
  intros ts. apply has_raw_not. vm_compute. reflexivity.
Qed.

Definition ex_blankless : list rule := [LexerRule (lit "AB") (lit "/ab/")].
Definition ex_blank : list rule := [LexerRule (lit "WHITE_SPACE") (lit "/ +/"); LexerRule (lit "AB") (lit "/a\/""###/")].
Lemma raw4_short s : length s < 5 -> 13%N ∉ s -> raw4 s.
Proof. intros H1 H2. split; [|done]. intros a b E. apply (f_equal length) in E. rewrite !app_length in E. cbn in E. lia. Qed.
Fixpoint hashes_free (s : str) : bool :=
  match s with [] => true | c :: s' => negb (bool_decide (take 5 s = quotes4)) && negb (c =? 13)%N && hashes_free s' end.
Lemma hashes_free_raw4 s : hashes_free s = true -> raw4 s.
Proof.
  induction s as [|c s IH]; intros H; [split; [intros [] b; discriminate|apply not_elem_of_nil]|].
  cbn [hashes_free] in H. apply andb_true_iff in H as [H Hs]. apply andb_true_iff in H as [H1 H2]. apply IH in Hs as [Ha Hb].
  apply negb_true_iff, bool_decide_eq_false in H1. apply negb_true_iff, N.eqb_neq in H2. split.
  - intros [|x a] b E; [apply H1; rewrite E; reflexivity|]. injection E as _ E. exact (Ha a b E).
  - apply not_elem_of_cons. split; [intros <-; by apply H2|done].
Qed.
Lemma ex_blankless_writable : Forall writable (rules_of (build_grammar ex_blankless)).
Proof.
  assert (rules_of (build_grammar ex_blankless) = [LexerRuleData 2 (lit "AB") (lit "^(ab)")]) as -> by (vm_compute; reflexivity).
  constructor; [|constructor]. split; [split; [by repeat constructor|done]|by apply hashes_free_raw4].
Qed.
Lemma ex_blank_writable : Forall writable (rules_of (build_grammar ex_blank)).
Proof.
  assert (rules_of (build_grammar ex_blank) = [LexerRuleData 2 (lit "WHITE_SPACE") (lit "^( +)"); LexerRuleData 3 (lit "AB") (lit "^(a/""###)")]) as -> by (vm_compute; reflexivity).
  repeat (apply Forall_cons; split; [split; [split; [by repeat constructor|done]|by apply hashes_free_raw4]|]). apply Forall_nil_2.
Qed.
Lemma c61_refuted : exists G r g data ts, grammar_tree G r /\ load_tree r = Ret (g, data) /\ Forall writable data /\
  rust_tokens (render lexer_tera (lit "Syntaxis") data) = Some ts /\
  exists c, (lit "SyntaxisLexer", c) ∈ paths ts /\ c ∉ declared ts.
Proof.
  assert (Forall (fun x => word_char x = true) (lit "Syntaxis")) as Hn by (by repeat constructor).
  exists ex_blankless, (build_grammar ex_blankless), (grammar_of (build_grammar ex_blankless)), (rules_of (build_grammar ex_blankless)).
  pose proof (reads_tokens _ _ _ (reads_tera (lit "Syntaxis") _ Hn ex_blankless_writable) (or_introl eq_refl)) as E.
  eexists. split; [by apply build_grammar_tree|]. split; [apply loaded_ret; by vm_compute|]. split; [apply ex_blankless_writable|].
  split; [exact E|]. exists (lit "WHITE_SPACE"). split.
  - destruct (tera_paths (lit "Syntaxis") (rules_of (build_grammar ex_blankless))) as (l & _ & ->). apply elem_of_app. right. by apply elem_of_list_singleton.
  - rewrite tera_declared. apply (bool_decide_unpack _). vm_compute. exact I.
Qed.
Lemma ex_rust : grammar_tree ex_blank (build_grammar ex_blank) /\ load_tree (build_grammar ex_blank) = Ret (grammar_of (build_grammar ex_blank), rules_of (build_grammar ex_blank)) /\
  rules_of (build_grammar ex_blank) <> [] /\ Forall writable (rules_of (build_grammar ex_blank)) /\ Forall (fun x => word_char x = true) (lit "My") /\
  lit "WHITE_SPACE" ∈ map ld_name (rules_of (build_grammar ex_blank)).
Proof.
  split; [by apply build_grammar_tree|]. split; [apply loaded_ret; by vm_compute|]. split; [by vm_compute|]. split; [apply ex_blank_writable|].
  split; [by repeat constructor|]. apply (bool_decide_unpack _). vm_compute. exact I.
Qed.
