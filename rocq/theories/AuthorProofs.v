(** AuthorProofs.v -- C74, C75: regexes and names as their author means them. *)
From Verif Require Export SpecAuthor ReadsProofs.

Lemma escape_slash us : Forall escape_unit us -> exists vs, concat vs = concat us /\ Forall slash_unit vs /\
  (forall y, concat us = y ++ [92%N] -> last vs = Some [92%N]) /\ (us <> [] -> vs <> []).
Proof.
  intros H. induction us as [|u us IH] using rev_ind.
  - exists []. split_and!; [done|constructor| |done]. intros y E. by destruct y.
  - apply Forall_app in H as [Hus Hu]. inversion_clear Hu as [|? ? Hu' _]. destruct (IH Hus) as (vs & E & Hvs & _ & _).
    destruct Hu' as [(c & ->)|(c & -> & Hc)].
    + destruct (decide (c = 47%N)) as [->|Hc].
      * exists (vs ++ [[92; 47]%N]). rewrite !concat_app, E. split_and!; [done|apply Forall_app; split; [done|repeat constructor]| |by destruct vs].
        intros y Ey. cbn [concat app] in Ey. apply (f_equal last) in Ey. by rewrite !last_app in Ey.
      * exists (vs ++ [[92%N]; [c]]). rewrite !concat_app, E. split_and!; [done| | |by destruct vs].
        { apply Forall_app; split; [done|]. constructor; [right; by exists 92%N|]. constructor; [right; by exists c|constructor]. }
        intros y Ey. rewrite last_app. cbn [last]. apply (f_equal last) in Ey. rewrite !last_app in Ey. cbn in Ey. by injection Ey as ->.
    + exists (vs ++ [[c]]). rewrite !concat_app, E. apply not_elem_of_cons in Hc as [Hc1 Hc2%not_elem_of_cons].
      split_and!; [done|apply Forall_app; split; [done|constructor; [right; by exists c|constructor]]| |by destruct vs].
      intros y Ey. apply (f_equal last) in Ey. rewrite !last_app in Ey. cbn in Ey. injection Ey as ->. by destruct Hc2.
Qed.
Lemma regex_admissible x : regex_literal x -> admissible 14 x.
Proof.
  intros (us & -> & Hne & Hus). destruct (escape_slash us Hus) as (vs & E & Hvs & _ & Hne'). exists vs. rewrite E. auto.
Qed.
Lemma slash_last vs : last vs = Some [92%N] -> exists y, concat vs = y ++ [92%N].
Proof.
  intros H. destruct vs as [|v vs _] using rev_ind; [done|]. rewrite last_app in H. injection H as ->. exists (concat vs). by rewrite concat_app.
Qed.
Lemma body_end us y : 47%N :: us ++ [47%N] = y ++ [92; 47]%N -> exists y', us = y' ++ [92%N].
Proof.
  intros E. replace (y ++ [92; 47]%N) with ((y ++ [92%N]) ++ [47%N]) in E by (by rewrite <- app_assoc).
  rewrite app_comm_cons in E. apply app_inj_tail in E as [E _]. destruct y as [|c y]; [done|]. injection E as _ E. eauto.
Qed.
Lemma slash_apart_iff x rest : regex_literal x -> apart 14 x rest <-> ((exists y, x = y ++ [92; 47]%N) -> 47%N ∉ rest).
Proof.
  intros (us & -> & Hne & Hus). split.
  - intros Ha (y & Ey). destruct (body_end _ _ Ey) as (y' & Ey'). destruct (escape_slash us Hus) as (vs & E & Hvs & Hl & _).
    apply (Ha vs); [by rewrite E|done|]. by eapply Hl.
  - intros H vs E Hvs Hl. apply H. destruct (slash_last vs Hl) as (y & Ey). exists (47%N :: y). rewrite E, Ey. cbn [app]. by rewrite <- app_assoc.
Qed.

Lemma blank_slash b : Forall blank b -> 47%N ∉ b.
Proof. intros H Hin. rewrite Forall_forall in H. destruct (H _ Hin) as [|[|[|[|]]]]; done. Qed.
Lemma authored_slash ts s : authored ts s -> 47%N ∈ s <-> exists ty x, (ty, x) ∈ ts /\ 47%N ∈ x.
Proof.
  intros H. induction H as [b Hb|b x ts rest Hb Hx Hr IH|b ty x ts rest Hb Hty Ha Hp Hr IH].
  - split; [by intros ?%blank_slash|]. by intros (? & ? & ?%elem_of_nil & _).
  - rewrite !elem_of_app. split.
    + intros [H|[H|H]]; [by apply blank_slash in H|by exists 14, x; split; [apply elem_of_list_here|]|].
      apply IH in H as (ty & x' & H1 & H2). exists ty, x'. split; [by apply elem_of_list_further|done].
    + intros (ty & x' & [[= -> ->]|H1]%elem_of_cons & H2); [by right; left|]. right; right. apply IH. eauto.
  - rewrite !elem_of_app. split.
    + intros [H|[H|H]]; [by apply blank_slash in H|by exists ty, x; split; [apply elem_of_list_here|]|].
      apply IH in H as (ty' & x' & H1 & H2). exists ty', x'. split; [by apply elem_of_list_further|done].
    + intros (ty' & x' & [[= -> ->]|H1]%elem_of_cons & H2); [by right; left|]. right; right. apply IH. eauto.
Qed.
Lemma no_slash_cons ty x ts : no_slash_behind_backslash ((ty, x) :: ts) <->
  (ty = 14 -> (exists y, x = y ++ [92; 47]%N) -> forall ty' x', (ty', x') ∈ ts -> 47%N ∉ x') /\ no_slash_behind_backslash ts.
Proof.
  split.
  - intros H. split; [intros -> Hx; by apply (H [] x ts)|]. intros a x' b -> . by apply (H ((ty, x) :: a)).
  - intros [H1 H2] a x' b E. destruct a as [|e a]; [injection E as -> -> ->; by apply H1|]. injection E as <- ->. by apply (H2 a x' b).
Qed.
Lemma token_start ty x : admissible ty x -> exists c w, x = c :: w /\ ~ blank c.
Proof.
  intros H. assert (fires (ty - 2) x [] \/ True) as _ by (by right).
  pose proof (adm_range ty x H) as Hty.
  assert (exists c w, x = c :: w /\ starts (ty - 2) c) as (c & w & -> & Hs).
  { destruct ty as [|[|[|[|[|[|[|[|[|[|[|[|[|[|[|ty]]]]]]]]]]]]]]]; try lia; simpl in H |- *; try (rewrite H; eauto; fail).
    - destruct H as (c & w & -> & Hc & _). eauto.
    - destruct H as (c & w & -> & Hc & _). eauto.
    - repeat (apply elem_of_cons in H as [->|H]; [eexists _, _; split; [reflexivity|]; tauto|]). by apply elem_of_nil in H.
    - destruct H as (us & -> & _). eauto.
    - destruct H as (us & -> & _). eauto. }
  exists c, w. split; [done|]. intros Hb. assert (ty - 2 = 13); [|lia]. by apply (starts_disjoint (ty - 2) 13 c).
Qed.
Lemma blanks_unique b b' c w c' w' : Forall blank b -> Forall blank b' -> ~ blank c -> ~ blank c' -> b ++ c :: w = b' ++ c' :: w' -> b = b' /\ c :: w = c' :: w'.
Proof.
  intros Hb. revert b'. induction Hb as [|d b Hd Hb IH]; intros b' Hb' Hc Hc' E; destruct Hb' as [|d' b' Hd' Hb']; cbn in E.
  - done.
  - injection E as -> E. done.
  - injection E as <- E. done.
  - injection E as <- E. destruct (IH b' Hb' Hc Hc' E) as [-> ?]. done.
Qed.
Lemma authored_written ts s : authored ts s -> written ts s <-> no_slash_behind_backslash ts.
Proof.
  assert (forall b ty x ts rest, Forall blank b -> admissible ty x ->
    written ((ty, x) :: ts) (b ++ x ++ rest) <-> apart ty x rest /\ written ts rest) as Hinv.
  { intros b ty x ts' rest Hb Ha. split.
    - intros H. inversion H as [|b' ty' x' ts'' rest' Hb' Ha' Hp' Hw' E1 E2]; subst.
      destruct (token_start ty x Ha) as (c & w & -> & Hc).
      destruct (blanks_unique b' b c (w ++ rest') c (w ++ rest) Hb' Hb Hc Hc E2) as [_ E]. injection E as E. apply app_inv_head in E as ->. done.
    - intros [Hp Hw]. by constructor. }
  intros H. induction H as [b Hb|b x ts rest Hb Hx Hr IH|b ty x ts rest Hb Hty Ha Hp Hr IH].
  - split; [|intros _; by constructor]. intros _ a x b' E. by destruct a.
  - rewrite Hinv by (try done; by apply regex_admissible). rewrite no_slash_cons, IH, slash_apart_iff by done.
    split; (intros [H1 H2]; split; [|done]).
    + intros _ Hy ty' x' Hin H47. apply (H1 Hy). apply (authored_slash _ _ Hr). eauto.
    + intros Hy (ty' & x' & Hin & H47)%(authored_slash _ _ Hr). by apply (H1 eq_refl Hy ty' x').
  - rewrite Hinv by done. rewrite no_slash_cons, IH. split; [intros [_ H]; done|intros [_ H]; done].
Qed.

Lemma c74_exact nd s ts fuel : digits_ok nd -> length s + 2 <= fuel -> authored ts s ->
  exists c, v1_lexer nd s = Ret c /\
  ((exists toks stop, scan_all c 15 0 fuel lexer_init = Ret (toks ++ [stop], None) /\ is_stop stop /\
     map (fun t => (token_type t, text t)) toks = ts) <-> no_slash_behind_backslash ts).
Proof.
  intros Hnd Hf Ha. destruct (c13_all nd s fuel Hnd Hf) as (c & Hc & Hw & _). exists c. split; [exact Hc|]. clear Hc.
  rewrite <- (Hw ts). by apply authored_written.
Qed.
(** The text [AB: /\\/; CD: /x/;] *)
Definition ex_author_text : str := lit "AB: /\\/; CD: /x/;".
Definition ex_author_tokens : list (nat * str) :=
  [(3, lit "AB"); (4, lit ":"); (14, lit "/\\/"); (5, lit ";"); (3, lit "CD"); (4, lit ":"); (14, lit "/x/"); (5, lit ";")].
Lemma upper_name a b : (65 <= a <= 90)%N -> (65 <= b <= 90)%N -> admissible 3 [a; b].
Proof. intros Ha Hb. exists a, [b]. split; [done|]. split; [done|]. split; [done|]. constructor; [right; by left|constructor]. Qed.
Lemma ex_authored : authored ex_author_tokens ex_author_text.
Proof.
  assert (Forall blank (lit " ")) as Hsp by (constructor; [by left|constructor]).
  apply (authored_cons [] 3 (lit "AB")); [constructor|done|by apply upper_name| |].
  { intros c s [= <- _]. unfold name_char, lower, upper. lia. }
  apply (authored_cons [] 4 (lit ":")); [constructor|done|apply elem_of_list_In; cbn; tauto| |].
  { split; [intros _ s'; split; discriminate|discriminate]. }
  apply (authored_regex (lit " ") (lit "/\\/")); [done| |].
  { exists [lit "\\"]. split; [done|]. split; [done|]. constructor; [left; by exists 92%N|constructor]. }
  apply (authored_cons [] 5 (lit ";")); [constructor|done|done|done|].
  apply (authored_cons (lit " ") 3 (lit "CD")); [done|done|by apply upper_name| |].
  { intros c s [= <- _]. unfold name_char, lower, upper. lia. }
  apply (authored_cons [] 4 (lit ":")); [constructor|done|apply elem_of_list_In; cbn; tauto| |].
  { split; [intros _ s'; split; discriminate|discriminate]. }
  apply (authored_regex (lit " ") (lit "/x/")); [done| |].
  { exists [lit "x"]. split; [done|]. split; [done|]. constructor; [|constructor]. right. exists 120%N. split; [done|]. rewrite elem_of_list_In. cbn. intuition discriminate. }
  apply (authored_cons [] 5 (lit ";") [] []); [constructor|done|done|done|]. constructor. constructor.
Qed.
Lemma c74_refuted : exists ts s, authored ts s /\ forall nd fuel c, digits_ok nd -> length s + 2 <= fuel -> v1_lexer nd s = Ret c ->
  ~ exists toks stop, scan_all c 15 0 fuel lexer_init = Ret (toks ++ [stop], None) /\ is_stop stop /\
     map (fun t => (token_type t, text t)) toks = ts.
Proof.
  exists ex_author_tokens, ex_author_text. split; [exact ex_authored|]. intros nd fuel c Hnd Hf Hc H.
  destruct (c74_exact nd _ _ fuel Hnd Hf ex_authored) as (c' & Hc' & Hiff). assert (c = c') as <- by congruence. clear Hc Hc'.
  apply Hiff in H. specialize (H [(3, lit "AB"); (4, lit ":")] (lit "/\\/") _ eq_refl (ex_intro _ (lit "/\") eq_refl) 14 (lit "/x/")).
  apply H; [|apply elem_of_list_here]. apply elem_of_list_In. cbn. tauto.
Qed.

(** *** Names *)
Lemma name_reads ty x s : a_name ty x -> (forall c w, s = c :: w -> ~ name_char c) ->
  (2 <= length x -> forall ts rest, reads s ts rest -> reads (x ++ s) ((ty, x) :: ts) rest) /\
  (~ 2 <= length x -> reads (x ++ s) [] (x ++ s)).
Proof.
  intros (a & w & -> & Hw & Hty) Hs. split.
  - intros Hl ts rest Hr. assert (w <> []) by (destruct w; cbn in Hl; [lia|done]).
    apply read_token; [|by destruct Hty as [[-> _]|[-> _]]|done]. destruct Hty as [[-> H']|[-> H']]; exists a, w; done.
  - intros Hl. destruct w as [|b w]; [|cbn in Hl; lia]. apply read_end. intros y r E.
    assert (lower a \/ upper a) as Hna by tauto. split.
    + intros c -> Hb. injection E as <- _. clear -Hna Hb. unfold lower, upper, blank in *. lia.
    + intros ty' Ha Hp. destruct (token_fires _ _ _ Ha Hp) as (H1 & H2 & Hf). destruct (fires_start _ _ _ Hf) as (c & w' & -> & Hc).
      injection E as <- E. assert (ty' = 2 \/ ty' = 3) as Ht.
      { destruct Hna as [Hna|Hna]; [left; assert (ty' - 2 = 0); [|lia]; by apply (starts_disjoint (ty' - 2) 0 a)|right; assert (ty' - 2 = 1); [|lia]; by apply (starts_disjoint (ty' - 2) 1 a)]. }
      assert (exists b v, w' = b :: v /\ name_char b) as (b & v & -> & Hb).
      { destruct Ht as [-> | ->]; destruct Ha as (c & w'' & [= <- <-] & _ & Hne & Hall); destruct Hall as [|b v Hb Hv]; try done; by exists b, v. }
      by eapply Hs.
Qed.
Lemma c75_exact nd ty x s fuel : digits_ok nd -> length (x ++ s) + 2 <= fuel -> a_name ty x -> (forall c w, s = c :: w -> ~ name_char c) ->
  exists c toks left, v1_lexer nd (x ++ s) = Ret c /\ scan_all c 15 0 fuel lexer_init = Ret (toks, left) /\
  ((exists t toks', toks = t :: toks' /\ token_type t = ty /\ text t = x) <-> 2 <= length x) /\
  (length x < 2 -> toks = [] /\ left = Some (x ++ s)).
Proof.
  intros Hnd Hf Hx Hs. destruct (c13_reads nd _ fuel Hnd Hf) as (c & Hc & H). exists c. destruct (name_reads ty x s Hx Hs) as [Hy Hn].
  destruct (first_token ty x s (2 <= length x) _ H) as (toks & left & H1 & H2 & H3).
  - clear -Hx. destruct Hx as (a & w & _ & _ & [[-> _]|[-> _]]); done.
  - destruct Hx as (a & w & -> & _ & Hty). eexists _, _. split; [reflexivity|]. unfold lower, upper, blank in *. lia.
  - exact Hy.
  - exact Hn.
  - intros Ha. clear -Ha Hx. destruct Hx as (a & w & -> & _ & Hty). destruct w; [|cbn; lia]. exfalso.
    destruct Hty as [[-> _]|[-> _]]; destruct Ha as (? & ? & [= <- <-] & _ & Hne & _); done.
  - exists toks, left. split; [exact Hc|]. split; [exact H1|]. split; [exact H2|]. intros Hl. apply H3. lia.
Qed.
Lemma c75_refuted : exists ty x, a_name ty x /\ forall nd s fuel c toks left, (forall c w, s = c :: w -> ~ name_char c) -> digits_ok nd -> length (x ++ s) + 2 <= fuel ->
  v1_lexer nd (x ++ s) = Ret c -> scan_all c 15 0 fuel lexer_init = Ret (toks, left) ->
  ~ exists t toks', toks = t :: toks' /\ token_type t = ty /\ text t = x.
Proof.
  exists 2, (lit "s"). assert (a_name 2 (lit "s")) as Hx by (exists 115%N, []; split; [done|]; split; [constructor|]; left; unfold lower; split; [done|lia]).
  split; [done|]. intros nd s fuel c toks left Hs Hnd Hf Hc Hr H.
  destruct (c75_exact nd 2 (lit "s") s fuel Hnd Hf Hx Hs) as (c' & toks' & left' & Hc' & Hr' & Hiff & _).
  assert (c = c') as <- by congruence. assert (toks = toks') as <- by congruence. clear Hc Hc' Hr Hr'. apply Hiff in H. cbn in H. lia.
Qed.
Lemma ex_authored_last : authored [(14, lit "/\\/"); (5, lit ";")] (lit "/\\/;") /\ no_slash_behind_backslash [(14, lit "/\\/"); (5, lit ";")].
Proof.
  split.
  - apply (authored_regex [] (lit "/\\/")); [constructor| |].
    { exists [lit "\\"]. split; [done|]. split; [done|]. constructor; [left; by exists 92%N|constructor]. }
    apply (authored_cons [] 5 (lit ";") [] []); [constructor|done|done|done|]. constructor. constructor.
  - apply no_slash_cons. split.
    + intros _ _ ty x [[= -> ->]|H%elem_of_nil]%elem_of_cons; [|done]. rewrite elem_of_list_In. cbn. intuition discriminate.
    + intros a x b E. by destruct a as [|? [|? ?]].
Qed.
