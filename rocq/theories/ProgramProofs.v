(** ProgramProofs.v -- C88: the effects of main. *)
From Verif Require Export SpecProgram OutputMain SameProofs FilesProofs MainCrash.

(** ** The visitors of Output.v, with the lines printed before a panic *)
Definition joined {A S} (o : list str) (p : printed (A * S)) : res (A * (S * list str)) :=
  match p with (l, Ret (a, s)) => Ret (a, (s, o ++ l)) | (_, Panic) => Panic | (_, OutOfFuel) => OutOfFuel end.
Definition joins {S} (o : list str) (p : printed S) : res (S * list str) :=
  match p with (l, Ret s) => Ret (s, o ++ l) | (_, Panic) => Panic | (_, OutOfFuel) => OutOfFuel end.
Definition tells {A} (p : printed A) : Prop := Forall about_alternatives (fst p).
Lemma tells_ret {A} (a : A) : tells (pret a).
Proof. constructor. Qed.
Lemma tells_res {A} (x : res A) : tells (pres x).
Proof. constructor. Qed.
Lemma tells_bind {A B} (m : printed A) (f : A -> printed B) : tells m -> (forall a, tells (f a)) -> tells (pbind m f).
Proof.
  intros Hm Hf. unfold pbind, tells in *. destruct m as [l [a| |]]; cbn [fst] in *; [|done|done]. specialize (Hf a). destruct (f a) as [l' x]. cbn [fst] in *.
  by apply Forall_app.
Qed.

Lemma out_insert_tells id rs P : Forall about_alternatives (snd (out_insert id rs P)).
Proof.
  revert P. induction rs as [|r rs IH]; intros P; [constructor|]. cbn [out_insert]. specialize (IH ({[Production id r]} ∪ P)).
  destruct (out_insert id rs _) as [P' o]. cbn [snd] in *. case_bool_decide; [|done]. constructor; [by right|done].
Qed.
Lemma block_joined rs s o : Ret (out_make_block rs (s, o)) = joined o (print_make_block rs s).
Proof.
  unfold print_make_block, out_make_block. destruct (block_cache s !! rs); cbn; [by rewrite app_nil_r|]. destruct (out_insert _ _ _) as [P o']. done.
Qed.
Lemma block_tells rs s : tells (print_make_block rs s).
Proof.
  unfold print_make_block, out_make_block, tells. destruct (block_cache s !! rs); [constructor|].
  pose proof (out_insert_tells (ps_next_rule_id s) rs (ps_productions s)) as H. destruct (out_insert _ _ _) as [P o']. exact H.
Qed.
Section joining.
  Context (f : rule_ctx -> production_state * list str -> res (item * (production_state * list str))).
  Context (h : rule_ctx -> production_state -> printed (item * production_state)).
  Context (Hf : forall c s o, f c (s, o) = joined o (h c s)) (Ht : forall c s, tells (h c s)).
  Lemma elements_joined es s o : out_visit_elements f es (s, o) = joined o (print_elements h es s).
  Proof using Hf.
    revert s o. induction es as [|e es IH]; intros s o; [by cbn; rewrite app_nil_r|]. cbn [out_visit_elements print_elements]. rewrite Hf.
    destruct (h e s) as [l [[it s1]| |]]; cbn [joined pbind rbind]; [|done|done]. rewrite IH.
    destruct (print_elements h es s1) as [l' [[its s2]| |]]; cbn [joined pbind rbind pret]; [|done|done]. by rewrite app_nil_r, <- app_assoc.
  Qed.
  Lemma elements_tells es s : tells (print_elements h es s).
  Proof using Ht.
    revert s. induction es as [|e es IH]; intros s; [apply tells_ret|]. cbn [print_elements]. apply tells_bind; [done|]. intros [it s1].
    apply tells_bind; [done|]. intros [its s2]. apply tells_ret.
  Qed.
  Lemma alternative_joined c s o : out_visit_alternative f c (s, o) = joined o (print_alternative h c s).
  Proof using Hf.
    unfold out_visit_alternative, print_alternative. destruct (alternative_epsilon c); [by cbn; rewrite app_nil_r|]. apply elements_joined.
  Qed.
  Lemma alternative_tells c s : tells (print_alternative h c s).
  Proof using Ht. unfold print_alternative. destruct (alternative_epsilon c); [apply tells_ret|apply elements_tells]. Qed.
  Lemma alternatives_joined cs s o : out_visit_alternatives f cs (s, o) = joined o (print_alternatives h cs s).
  Proof using Hf.
    revert s o. induction cs as [|c cs IH]; intros s o; [by cbn; rewrite app_nil_r|]. cbn [out_visit_alternatives print_alternatives].
    rewrite alternative_joined. destruct (print_alternative h c s) as [l [[it s1]| |]]; cbn [joined pbind rbind]; [|done|done]. rewrite IH.
    destruct (print_alternatives h cs s1) as [l' [[its s2]| |]]; cbn [joined pbind rbind pret]; [|done|done]. by rewrite app_nil_r, <- app_assoc.
  Qed.
  Lemma alternatives_tells cs s : tells (print_alternatives h cs s).
  Proof using Ht.
    revert s. induction cs as [|c cs IH]; intros s; [apply tells_ret|]. cbn [print_alternatives]. apply tells_bind; [apply alternative_tells|]. intros [it s1].
    apply tells_bind; [done|]. intros [its s2]. apply tells_ret.
  Qed.
  Lemma visit_block_joined c s o : out_visit_block f c (s, o) = joined o (print_block h c s).
  Proof using Hf.
    unfold out_visit_block, print_block. rewrite alternatives_joined. destruct (print_alternatives h _ s) as [l [[rs s1]| |]]; cbn [joined pbind rbind]; [|done|done].
    rewrite block_joined. destruct (print_make_block rs s1) as [l' [[id s2]| |]]; cbn [joined]; [|done|done]. by rewrite <- app_assoc.
  Qed.
  Lemma visit_block_tells c s : tells (print_block h c s).
  Proof using Ht. unfold print_block. apply tells_bind; [apply alternatives_tells|]. intros [rs s1]. apply block_tells. Qed.
End joining.
Lemma suffix_joined c id it s o : Ret (out_apply_suffix c id it (s, o)) = joined o (pret (apply_suffix c id it s)).
Proof. unfold out_apply_suffix. destruct (apply_suffix c id it s). cbn. by rewrite app_nil_r. Qed.
Lemma element_joined fuel c s o : out_visit_element fuel c (s, o) = joined o (print_element fuel c s).
Proof.
  revert c s o. induction fuel as [|fuel IH]; intros c s o; [done|]. cbn [out_visit_element print_element fst].
  assert (K : forall (x : option nat) (it : nat -> item), (let! id := unwrap x in Ret (out_apply_suffix c id (it id) (s, o))) =
    joined o (pbind (pres (unwrap x)) (fun id => pret (apply_suffix c id (it id) s)))).
  { intros [id|] it; [|done]. cbn [unwrap rbind pres pbind]. rewrite suffix_joined. by destruct (apply_suffix c id (it id) s). }
  destruct (element_token_ref c) as [t|]; [apply K|].
  destruct (element_string_literal c) as [t|]; [apply K|].
  destruct (element_rule_ref c) as [t|]; [apply K|].
  destruct (element_block c) as [b|]; [|done]. rewrite (visit_block_joined _ _ IH).
  destruct (print_block _ b s) as [l [[id s1]| |]]; cbn [joined pbind rbind]; [|done|done]. rewrite suffix_joined.
  destruct (apply_suffix c id (NT id) s1). cbn. by rewrite !app_nil_r.
Qed.
Lemma element_tells fuel c s : tells (print_element fuel c s).
Proof.
  revert c s. induction fuel as [|fuel IH]; intros c s; [apply tells_res|]. cbn [print_element].
  destruct (element_token_ref c); [apply tells_bind; [apply tells_res|]; intros; apply tells_ret|].
  destruct (element_string_literal c); [apply tells_bind; [apply tells_res|]; intros; apply tells_ret|].
  destruct (element_rule_ref c); [apply tells_bind; [apply tells_res|]; intros; apply tells_ret|].
  destruct (element_block c); [|apply tells_res]. apply tells_bind; [by apply visit_block_tells|]. intros [id s1]. apply tells_ret.
Qed.
Lemma rule_alternative_joined fuel id s o c : out_rule_alternative fuel id (s, o) c = joins o (print_rule_alternative fuel id s c).
Proof.
  unfold out_rule_alternative, print_rule_alternative. rewrite (alternative_joined _ _ (element_joined fuel)).
  destruct (print_alternative _ c s) as [l [[r s1]| |]]; cbn [joined pbind rbind joins]; [|done|done]. by rewrite <- app_assoc.
Qed.
Lemma rule_alternative_tells fuel id s c : tells (print_rule_alternative fuel id s c).
Proof.
  unfold print_rule_alternative. apply tells_bind; [apply alternative_tells, element_tells|]. intros [r s1]. unfold tells. cbn [fst].
  case_bool_decide; repeat constructor.
Qed.
Lemma fold_joins {A S} (f : S * list str -> A -> res (S * list str)) (h : S -> A -> printed S) :
  (forall s o a, f (s, o) a = joins o (h s a)) -> forall l s o, rfold f l (s, o) = joins o (pfold h l s).
Proof.
  intros H l. induction l as [|a l IH]; intros s o; [by cbn; rewrite app_nil_r|]. cbn [rfold pfold]. rewrite H.
  destruct (h s a) as [o1 [s1| |]]; cbn [joins pbind rbind]; [|done|done]. rewrite IH. destruct (pfold h l s1) as [o2 [s2| |]]; cbn [joins]; [|done|done].
  by rewrite <- app_assoc.
Qed.
Lemma fold_tells {A S} (h : S -> A -> printed S) : (forall s a, tells (h s a)) -> forall l s, tells (pfold h l s).
Proof. intros H l. induction l as [|a l IH]; intros s; [apply tells_ret|]. cbn [pfold]. by apply tells_bind. Qed.
Lemma parser_rule_joined fuel s o c : out_parser_rule fuel (s, o) c = joins o (print_parser_rule fuel s c).
Proof.
  unfold out_parser_rule, print_parser_rule. cbn [fst]. destruct (parser_rule_rule_ref c) as [t|]; [|done]. cbn [unwrap rbind pres pbind].
  destruct (get_nonterminal_id_by_name _ _) as [id|]; [|done]. cbn [unwrap rbind pres pbind]. destruct (parser_rule_block c) as [b|]; [|done]. cbn [unwrap rbind pres pbind].
  rewrite (fold_joins _ (print_rule_alternative fuel id) (fun s o a => rule_alternative_joined fuel id s o a)).
  by destruct (pfold _ _ s) as [l [s1| |]].
Qed.
Lemma parser_rule_tells fuel s c : tells (print_parser_rule fuel s c).
Proof.
  unfold print_parser_rule. apply tells_bind; [apply tells_res|]. intros t. apply tells_bind; [apply tells_res|]. intros id.
  apply tells_bind; [apply tells_res|]. intros b. apply fold_tells. intros. apply rule_alternative_tells.
Qed.

(** ** The symbols *)
Definition print_step (s : symbol_state) (c : rule_ctx) : printed symbol_state :=
  match v_override out_symbol_visitor (rule_index c) with Some f => print_call f c s | None => pret s end.
Lemma print_steps cs : forall st, rfold (visit_step print_symbol_visitor) cs st = Ret (pbind st (pfold print_step cs)).
Proof.
  assert (P : forall (st : printed symbol_state), pbind st pret = st).
  { intros [l [s| |]]; cbn; [by rewrite app_nil_r|done|done]. }
  assert (Q : forall (st : printed symbol_state) (f g : symbol_state -> printed symbol_state), pbind (pbind st f) g = pbind st (fun s => pbind (f s) g)).
  { intros [l [s| |]] f g; cbn; [|done|done]. destruct (f s) as [l1 [s1| |]]; cbn; [|done|done]. destruct (g s1) as [l2 x]. by rewrite app_assoc. }
  induction cs as [|c cs IH]; intros st; cbn [rfold pfold]; [by rewrite P|].
  assert (visit_step print_symbol_visitor st c = Ret (pbind st (fun s => print_step s c))) as ->.
  { unfold visit_step, print_step. destruct c as [n ks i]. cbn [rule_index]. destruct i as [|[|[|[|[|[|[|[|[|i]]]]]]]]]; cbn [v_override print_symbol_visitor out_symbol_visitor
      v_rule_list v_parser_rule v_block v_alternative v_epsilon v_element v_ebnf_suffix v_lexer_rule v_regular rbind]; try (by rewrite P); done. }
  cbn [rbind]. rewrite IH, Q. done.
Qed.
Lemma step_joins s o c : visit_step out_symbol_visitor (s, o) c = joins o (print_step s c).
Proof.
  unfold visit_step, print_step. destruct c as [n cs i]. cbn [rule_index]. destruct i as [|[|[|[|[|[|[|[|[|i]]]]]]]]]; cbn [v_override out_symbol_visitor
    v_rule_list v_parser_rule v_block v_alternative v_epsilon v_element v_ebnf_suffix v_lexer_rule v_regular joins pret]; try (by rewrite app_nil_r).
  - unfold print_call, out_symbol_parser_rule. destruct (parser_rule_rule_ref _) as [t|]; [|done]. cbn [unwrap rbind].
    destruct (is_terminal_name_defined _ _); cbn; by rewrite ?app_nil_r.
  - unfold print_call, out_symbol_lexer_rule. destruct (lexer_rule_token_ref _) as [t|]; [|done]. cbn [unwrap rbind].
    destruct (is_terminal_name_defined _ _); [done|]. destruct (lexer_rule_regular _) as [t'|]; [|done]. cbn [unwrap rbind].
    destruct (regular_regular_literal _) as [t''|]; [|done]. cbn [unwrap rbind]. destruct (_ <? _); [done|].
    destruct (unwrap_regular _); cbn; by rewrite ?app_nil_r.
Qed.
Lemma print_symbols r s : visit_children print_symbol_visitor r (pret s) = Ret ((), pfold print_step (outermost_below is_rule_index r) s).
Proof.
  rewrite visit_children_fold by done. rewrite (outermost_below_ext _ is_rule_index).
  2:{ intros i. unfold overridden. by destruct i as [|[|[|[|[|[|[|[|[|i]]]]]]]]]. }
  rewrite print_steps. cbn [rbind pbind pret app]. by destruct (pfold _ _ s).
Qed.
Lemma symbols_joined r s o : visit_children out_symbol_visitor r (s, o) =
  let! so := joins o (pfold print_step (outermost_below is_rule_index r) s) in Ret ((), so).
Proof.
  rewrite visit_children_fold by done. rewrite (outermost_below_ext _ is_rule_index).
  2:{ intros i. unfold overridden. by destruct i as [|[|[|[|[|[|[|[|[|i]]]]]]]]]. }
  by rewrite (fold_joins _ print_step step_joins).
Qed.

(** ** Loading *)
Lemma load_joined r : out_load_tree r = match print_load_tree r with (l, Ret (g, d)) => Ret (g, d, l) | (_, Panic) => Panic | (_, OutOfFuel) => OutOfFuel end.
Proof.
  unfold out_load_tree, print_load_tree. destruct (visit_children literal_visitor r _) as [[x s1]| |]; cbn [rbind pbind pres]; [|done|done].
  rewrite print_symbols, symbols_joined. cbn [pbind pres]. destruct (pfold print_step _ _) as [l2 [s2| |]]; cbn [joins rbind pbind app]; [|done|done].
  unfold out_rule_list. rewrite (fold_joins _ (print_parser_rule (height r)) (fun s o a => parser_rule_joined (height r) s o a)).
  destruct (pfold (print_parser_rule _) _ _) as [l3 [s3| |]]; cbn [joins rbind pbind pret app]; [|done|done]. by rewrite app_nil_r.
Qed.
Lemma load_same r : snd (print_load_tree r) = load_tree r.
Proof.
  rewrite <- erase_load, load_joined. by destruct (print_load_tree r) as [l [[g d]| |]].
Qed.

Lemma literal_panics G r s : grammar_tree G r -> (plain_literal G /\ visit_children literal_visitor r s = Panic) \/ (~ plain_literal G /\ visit_children literal_visitor r s = Ret ((), s)).
Proof.
  intros H. rewrite literal_fold. apply tops_grammar in H.
  assert (plain_literal G <-> exists l sx, Element (StringLiteral l) sx ∈ concat (map tops_rule G)) as ->.
  { unfold plain_literal. split.
    - intros (name & alts & es & l & sx & H1 & H2 & H3). exists l, sx. rewrite elem_of_list_In, in_concat. exists (tops_rule (ParserRule name alts)).
      split; [apply in_map, elem_of_list_In, H1|]. cbn [tops_rule]. apply in_concat. exists (tops_alternative (Sequence es)).
      split; [apply in_map, elem_of_list_In, H2|by apply elem_of_list_In].
    - intros (l & sx & (x & Hx & Hin)%elem_of_list_In%in_concat). apply in_map_iff in Hx as ([name alts|] & <- & Hg); [|done]. cbn [tops_rule] in Hin.
      apply in_concat in Hin as (y & Hy & Hin). apply in_map_iff in Hy as ([|es] & <- & Ha); [done|]. exists name, alts, es, l, sx. by rewrite !elem_of_list_In. }
  revert s. induction H as [|e c es cs He _ IH]; intros s.
  - right. split; [|done]. intros (l & sx & K). by apply elem_of_nil in K.
  - cbn [rfold]. destruct e as [a sx]. apply element_tree_view in He as [Hv _].
    assert (element_string_literal c = None /\ (forall l, a <> StringLiteral l) \/ is_Some (element_string_literal c) /\ exists l, a = StringLiteral l) as [[E Ha]|[[t E] [l Ea]]].
    { destruct a as [name|l|name|alts].
      - left. split; [by destruct Hv as (? & _)|done].
      - right. destruct Hv as (_ & t & -> & _). eauto.
      - left. split; [by destruct Hv as (_ & ? & _)|done].
      - left. split; [by destruct Hv as (_ & ? & _)|done]. }
    + assert (literal_visit_element c s = Ret ((), s)) as -> by (unfold literal_visit_element; by rewrite E). cbn [rbind]. destruct (IH s) as [[(l & sx2 & K) K1]|[K K1]]; [left|right]; (split; [|exact K1]).
      * exists l, sx2. by apply elem_of_list_further.
      * intros (l & sx' & [[= <- <-]|K2]%elem_of_cons); [by destruct (Ha l)|]. apply K. eauto.
    + subst a. left. split; [exists l, sx; apply elem_of_list_here|]. unfold literal_visit_element at 1. by rewrite E.
Qed.
Lemma c88_load G r : grammar_tree G r -> proper G ->
  (plain_literal G -> print_load_tree r = ([], Panic)) /\
  (~ plain_literal G -> exists rest, fst (print_load_tree r) = map says_token (repeats [lit "_START"; lit "_STOP"] (lexer_rule_names G)) ++ rest /\ Forall about_alternatives rest) /\
  (snd (print_load_tree r) = Panic <-> ~ references_defined G) /\ snd (print_load_tree r) <> OutOfFuel.
Proof.
  intros Ht Hp. split; [|split; [|split]].
  - intros Hl. unfold print_load_tree. destruct (literal_panics G r (LiteralState (g_vocabulary (grammar_new [25105; 30340; 25991; 27861]%N)) 2 []) Ht) as [[_ E]|[? _]]; [|done].
    by rewrite E.
  - intros Hl. unfold print_load_tree. destruct (literal_panics G r (LiteralState (g_vocabulary (grammar_new [25105; 30340; 25991; 27861]%N)) 2 []) Ht) as [[? _]|[_ E]]; [done|].
    rewrite E. cbn [pbind pres lt_vocabulary lt_data lt_next_token_id]. rewrite print_symbols. cbn [pbind pres app].
    destruct (out_symbol_pass G r Ht Hp) as (s' & Es). rewrite symbols_joined in Es.
    change (g_vocabulary (grammar_new [25105; 30340; 25991; 27861]%N)) with vocabulary_new.
    destruct (pfold print_step _ _) as [l2 [s2| |]]; cbn [joins rbind app] in Es; [|done|done]. apply out_ret in Es. injection Es as -> ->. cbn [pbind].
    set (p := pbind _ _). assert (tells p) as Hp'.
    { apply tells_bind; [apply fold_tells; intros; apply parser_rule_tells|]. intros. apply tells_ret. }
    destruct p as [rest x]. exists rest. by split.
  - rewrite load_same. by apply c42_panics.
  - rewrite load_same. apply load_tree_total.
Qed.

(** ** main *)
Lemma parse_printed voc tab toks fuel : snd (print_parse (log_parse voc tab toks fuel)) = let! (r, _) := parse voc tab toks fuel in Ret r.
Proof. rewrite c87_same. by destruct (log_parse voc tab toks fuel) as [mm [r|[| |]]]. Qed.
Lemma c88_files nd huge order fuel o d s : let '(_, e, d') := main_effect nd huge order fuel o d s in main_files nd huge order fuel o d s = (e, d').
Proof.
  unfold main_effect, main_files, run_files.
  assert (snd (print_main nd huge order fuel o d s) = (let! ast := read_tree huge o d (lit "src/tool/syntaxis/syntaxis2.json") in
    let! (g, _) := load_tree ast in let! (tab, _) := build_table fuel order g in let! c := v1_lexer nd s in
    let! (toks, _) := scan_all c 15 0 fuel lexer_init in let! (r, _) := parse (g_vocabulary g) tab toks fuel in Ret r)) as <-.
  { unfold print_main. destruct (read_tree _ _ _ _) as [ast| |]; cbn [pbind pres rbind snd]; [|done|done].
    rewrite <- (load_same ast). destruct (print_load_tree ast) as [l1 [[g x]| |]]; cbn [pbind pres rbind snd app]; [|done|done].
    destruct (build_table fuel order g) as [[tab w]| |]; cbn [pbind pres rbind snd app]; [|done|done].
    destruct (v1_lexer nd s) as [c| |]; cbn [pbind pres rbind snd app]; [|done|done].
    destruct (scan_all c 15 0 fuel lexer_init) as [[toks rest]| |]; cbn [pbind pres rbind snd app]; [|done|done].
    rewrite <- parse_printed. by destruct (print_parse _) as [l2 y]. }
  destruct (print_main nd huge order fuel o d s) as [lines [r| |]]; cbn [snd]; [|done|done]. by destruct (draw o d r _ _).
Qed.
Lemma c88_stdout nd huge order fuel o d s out d' : main_effect nd huge order fuel o d s = (out, Ret (), d') ->
  exists bs t j, d !! lit "src/tool/syntaxis/syntaxis2.json" = Some bs /\ text_bytes t bs /\ document huge 127 j t /\ main_stdout nd order fuel j s = Ret out.
Proof.
  unfold main_effect, print_main. intros H. destruct (read_tree huge o d _) as [ast| |] eqn:Er; cbn [pbind pres] in H; [|done|done].
  unfold read_tree in Er. destruct (d !! _) as [bs|] eqn:Ed; [|done]. destruct (os_read o); [|done].
  destruct (from_reader huge bs) as [[t|]| |] eqn:Ef; cbn [rbind unwrap] in Er; [|done|done|done]. injection Er as ->.
  apply c80_accepts in Ef as (t & j & Ht & Hj & Hd). exists bs, t, j. split; [done|]. split; [done|]. split; [done|].
  apply c20_accepts in Hd. unfold main_stdout. rewrite Hd. cbn [rbind unwrap]. rewrite load_joined.
  destruct (print_load_tree ast) as [l1 [[g x]| |]]; cbn [pbind pres rbind app] in *; [|done|done].
  destruct (build_table fuel order g) as [[tab w]| |]; cbn [pbind pres rbind app] in *; [|done|done].
  destruct (v1_lexer nd s) as [c| |]; cbn [pbind pres rbind app] in *; [|done|done].
  destruct (scan_all c 15 0 fuel lexer_init) as [[toks rest]| |]; cbn [pbind pres rbind app] in *; [|done|done].
  rewrite c87_same. destruct (log_parse (g_vocabulary g) tab toks fuel) as [mm [r|[| |]]]; cbn in H |- *; [|done|done|done].
  destruct (draw o d r _ _) as [e d1]. injection H as <- _ _. done.
Qed.
