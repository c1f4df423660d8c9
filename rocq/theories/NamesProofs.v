(** NamesProofs.v -- C77: the names of scanned tokens. *)
From Verif Require Export SpecNames LexerInstMain SpecShipped.

Lemma munched_names c ts rest t : munched c ts rest -> t ∈ ts -> token_names c !! token_type t = Some (token_name t).
Proof.
  induction ts as [|t' ts IH]; intros Hm Hin; [by apply elem_of_nil in Hin|]. simpl in Hm.
  destruct Hm as [(i & Hty & Hn & _) Hm]. apply elem_of_cons in Hin as [->|Hin]; [by rewrite Hty|by apply IH].
Qed.
Fixpoint named_from (k : nat) (names : list str) (constants : list (str * nat)) : bool :=
  match names with
  | [] => true
  | n :: names' => bool_decide ((n, k) ∈ constants) && named_from (S k) names' constants
  end.
Lemma named_from_spec names constants : forall k i n, named_from k names constants = true -> names !! i = Some n -> (n, k + i) ∈ constants.
Proof.
  induction names as [|m names IH]; intros k i n H Hi; [done|]. cbn in H. apply andb_true_iff in H as [H1 H2].
  destruct i as [|i]; [injection Hi as <-; rewrite Nat.add_0_r; by apply bool_decide_eq_true in H1|].
  replace (k + S i) with (S k + i) by lia. by apply IH.
Qed.
Lemma v1_named i n : v1_names !! i = Some n -> (n, i) ∈ v1_constants.
Proof. intros H. apply (named_from_spec v1_names v1_constants 0 i n); [vm_compute; reflexivity|exact H]. Qed.
Lemma hand_named i n : hand_names !! i = Some n -> (n, i) ∈ hand_constants <-> i <> 13.
Proof.
  intros H. split.
  - intros Hc ->. vm_compute in H. injection H as <-. assert (bool_decide ((lit "QUEStION", 13) ∈ hand_constants) = true) as E by (by apply bool_decide_eq_true_2). vm_compute in E. discriminate E.
  - intros Hi. destruct (decide (i < 13)) as [Hl|Hl].
    + apply (named_from_spec (take 13 hand_names) hand_constants 0 i n); [vm_compute; reflexivity|]. by rewrite lookup_take.
    + replace i with (14 + (i - 14)) by lia. apply (named_from_spec (drop 14 hand_names) hand_constants 14); [vm_compute; reflexivity|].
      rewrite lookup_drop. replace (14 + (i - 14)) with i by lia. exact H.
Qed.
Lemma c77_v1 nd s c ts st t : v1_lexer nd s = Ret c -> scanned (scan c) lexer_init ts st -> t ∈ ts -> (token_name t, token_type t) ∈ v1_constants.
Proof.
  intros Hc Hs Hin. rewrite (v1_new nd s) in Hc. injection Hc as <-.
  destruct (scanned_spec _ _ _ _ _ _ _ (v1_ok nd s) (lex_inv_init _) Hs) as (ts0 & rest & _ & _ & Hm & _ & Hcase).
  assert (forall t, t ∈ ts0 -> (token_name t, token_type t) ∈ v1_constants) as H0.
  { intros t' Ht'. apply v1_named. exact (munched_names _ _ _ _ Hm Ht'). }
  destruct Hcase as [[<- _]|(_ & _ & st1 & _ & ->)]; [by apply H0|].
  apply elem_of_app in Hin as [?|Hin%elem_of_list_singleton]; [by apply H0|]. subst t.
  apply elem_of_list_further, elem_of_list_here.
Qed.
Lemma c77_hand nd s c ts st t : hand_lexer nd s = Ret c -> scanned (scan0 c) lexer_init ts st -> t ∈ ts ->
  (token_name t, token_type t) ∈ hand_constants <-> token_type t <> 13.
Proof.
  intros Hc Hs Hin. rewrite (hand_new nd s) in Hc. injection Hc as <-.
  destruct (scanned0_spec _ _ _ _ _ _ _ (hand_ok nd s) (lex_inv_init _) Hs) as (rest & _ & _ & Hm & _).
  apply hand_named. exact (munched_names _ _ _ _ Hm Hin).
Qed.
Definition ex_question : token := Token 13 (lit "QUEStION") (Position 0 0) (Position 0 1) 0 (lit "?") 0 0 1.
Lemma ex_question_scanned nd : exists c st, hand_lexer nd (lit "?") = Ret c /\ scanned (scan0 c) lexer_init [ex_question] st.
Proof. eexists _, _. split; [apply hand_new|]. econstructor; [vm_compute; reflexivity|constructor]. Qed.
Lemma c77_refuted : exists s t, forall nd, exists c ts st, hand_lexer nd s = Ret c /\ scanned (scan0 c) lexer_init ts st /\ t ∈ ts /\
  text t = lit "?" /\ (token_name t, token_type t) ∉ hand_constants.
Proof.
  exists (lit "?"), ex_question. intros nd. destruct (ex_question_scanned nd) as (c & st & Hc & Hs). exists c, [ex_question], st.
  split; [exact Hc|]. split; [exact Hs|]. split; [apply elem_of_list_here|]. split; [reflexivity|].
  intros H. apply (c77_hand nd _ c _ st ex_question Hc Hs (elem_of_list_here _ _)) in H. exact (H eq_refl).
Qed.

Lemma c45_numbers : [(lit "TOKEN_REF", TOKEN_REF); (lit "RULE_REF", RULE_REF); (lit "COLON", COLON); (lit "OR", OR); (lit "SEMI", SEMI); (lit "STAR", STAR);
    (lit "PLUS", PLUS); (lit "QUESTION", QUESTION); (lit "LPAREN", LPAREN); (lit "RPAREN", RPAREN); (lit "STRING_LITERAL", STRING_LITERAL);
    (lit "REGULAR_LITERAL", REGULAR_LITERAL); (lit "EPSILON", EPSILON)] ⊆ hand_constants /\
  forall n ty, (n, ty) ∈ v1_constants -> 2 <= ty -> n <> lit "WHITE_SPACE" -> (n, hand_type ty) ∈ hand_constants.
Proof.
  split.
  - intros x Hx. apply elem_of_list_In. apply elem_of_list_In in Hx. revert x Hx. apply List.Forall_forall.
    repeat (constructor; [apply elem_of_list_In; apply (bool_decide_unpack _); by vm_compute|]). constructor.
  - intros n ty H Hty Hn.
    assert (Forall (fun p => 2 <= p.2 -> p.1 <> lit "WHITE_SPACE" -> (p.1, hand_type p.2) ∈ hand_constants) v1_constants) as K.
    { unfold v1_constants. repeat (constructor; [cbn [fst snd]; intros ? ?; first [exfalso; lia|exfalso; congruence|apply (bool_decide_unpack _); by vm_compute]|]). constructor. }
    exact (proj1 (Forall_forall _ _) K _ H Hty Hn).
Qed.
Lemma ex_numbers : (lit "QUESTION", 10) ∈ v1_constants /\ (lit "QUESTION", hand_type 10) ∈ hand_constants.
Proof. split; apply (bool_decide_unpack _); by vm_compute. Qed.
