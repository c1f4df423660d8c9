(** ChainNames.v -- C77 for the lexer generated for any grammar. *)
From Verif Require Export ChainProofs NamesProofs ChainMain.

Lemma c77_constants compile r g data s n t : load_tree r = Ret (g, data) ->
  (n, t) ∈ generated_constants data <-> token_names (generated_lexer compile data s) !! t = Some n.
Proof.
  intros Hload. destruct (c39_numbering _ _ _ Hload) as (H & _). unfold generated_constants. cbn [generated_lexer token_names].
  rewrite !elem_of_cons. split.
  - intros [E|[E|E]]; [by injection E as -> ->|by injection E as -> ->|].
    apply elem_of_list_fmap in E as (d & E & Hd). injection E as -> ->. apply elem_of_list_lookup in Hd as [i Hd].
    destruct (H _ _ Hd) as (-> & _ & _). change ((ld_name <$> data) !! i = Some (ld_name d)). by rewrite list_lookup_fmap, Hd.
  - destruct t as [|[|t]]; [cbn; intros [= <-]; by left|cbn; intros [= <-]; right; by left|].
    change ((ld_name <$> data) !! t = Some n -> (n, S (S t)) = (lit "_START", 0) \/ (n, S (S t)) = (lit "_STOP", 1) \/ (n, S (S t)) ∈ map (fun t => (ld_name t, ld_type t)) data). rewrite list_lookup_fmap. intros E. right. right.
    apply fmap_Some in E as (d & Hd & ->). destruct (H _ _ Hd) as (Ht & _ & _). apply elem_of_list_fmap. exists d.
    split; [|by eapply elem_of_list_lookup_2]. by rewrite Ht.
Qed.
Lemma c77_every compile r g data s ts st t : engine_ok compile -> load_tree r = Ret (g, data) ->
  scanned (scan (generated_lexer compile data s)) lexer_init ts st -> t ∈ ts -> (token_name t, token_type t) ∈ generated_constants data.
Proof.
  intros He Hload Hs Hin.
  destruct (scanned_spec _ _ _ _ _ _ _ (generated_ok compile data s He) (lex_inv_init _) Hs) as (ts0 & rest & _ & _ & Hm & _ & Hcase).
  assert (forall t, t ∈ ts0 -> (token_name t, token_type t) ∈ generated_constants data) as H0.
  { intros t' Ht'. apply (c77_constants compile r g data s _ _ Hload). exact (munched_names _ _ _ _ Hm Ht'). }
  destruct Hcase as [[<- _]|(_ & _ & st1 & _ & ->)]; [by apply H0|].
  apply elem_of_app in Hin as [?|Hin%elem_of_list_singleton]; [by apply H0|]. subst t.
  apply elem_of_list_further, elem_of_list_here.
Qed.
Lemma ex_sum_scanned : exists t st, scanned (scan (generated_lexer (engine ascii_digit) (rules_of ex_sum_tree) (lit "12"))) lexer_init [t] st /\
  token_name t = lit "Num" /\ token_type t = 2.
Proof.
  destruct (scan (generated_lexer (engine ascii_digit) (rules_of ex_sum_tree) (lit "12")) lexer_init) as [[[t|] st]| |] eqn:E; [|vm_compute in E; discriminate E..].
  exists t, st. split; [eapply scanned_cons; [exact E|constructor]|]. vm_compute in E. by injection E as <- _.
Qed.
