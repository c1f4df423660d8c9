(** RegexProofs.v -- the matcher of Regex.v: language, preference, boundaries. *)
From Verif Require Export SpecRegex LexerMain.

(** The language of a regex. *)
Inductive lang (nd : N -> bool) : re -> str -> Prop :=
| lang_empty : lang nd REmpty []
| lang_class n l c : in_class nd n l c = true -> lang nd (RClass n l) [c]
| lang_cat a b x y : lang nd a x -> lang nd b y -> lang nd (RCat a b) (x ++ y)
| lang_alt_l a b x : lang nd a x -> lang nd (RAlt a b) x
| lang_alt_r a b x : lang nd b x -> lang nd (RAlt a b) x
| lang_many g a xs : Forall (fun x => x <> [] /\ lang nd a x) xs -> lang nd (RMany g a) (concat xs).

Lemma elem_of_concat {A} (x : A) ls : x ∈ concat ls <-> exists l, l ∈ ls /\ x ∈ l.
Proof. rewrite !elem_of_list_In, in_concat. setoid_rewrite elem_of_list_In. done. Qed.
Lemma elem_of_filter_list {A} (f : A -> bool) x l : x ∈ List.filter f l <-> x ∈ l /\ f x = true.
Proof. rewrite !elem_of_list_In, filter_In. done. Qed.
Lemma elem_of_map_list {A B} (f : A -> B) y l : y ∈ map f l <-> exists x, y = f x /\ x ∈ l.
Proof. apply elem_of_list_fmap. Qed.

Section regex.
  Context (nd : N -> bool).
  Notation rests := (rests nd).

  Lemma many_spec f g n s s' : s' ∈ many f g n s <->
    s' = s \/ exists n' s1, n = S n' /\ s1 ∈ f s /\ length s1 < length s /\ s' ∈ many f g n' s1.
  Proof using.
    destruct n as [|n]; simpl.
    - rewrite elem_of_list_singleton. split; [by left|]. intros [?|(n' & s1 & ? & _)]; [done|lia].
    - assert (E : s' ∈ concat (map (many f g n) (List.filter (fun r => length r <? length s) (f s))) <->
        exists s1, s1 ∈ f s /\ length s1 < length s /\ s' ∈ many f g n s1).
      { rewrite elem_of_concat. split.
        - intros (l & (s1 & -> & Hs1)%elem_of_map_list & Hl). apply elem_of_filter_list in Hs1 as [? ?%Nat.ltb_lt]. eauto.
        - intros (s1 & ? & ? & ?). eexists. split; [|done]. apply elem_of_map_list. exists s1. split; [done|].
          apply elem_of_filter_list. split; [done|]. by apply Nat.ltb_lt. }
      destruct g; [rewrite elem_of_app, elem_of_list_singleton, E|rewrite elem_of_cons, E]; naive_solver.
  Qed.

  Lemma rests_sound r s s' : s' ∈ rests r s -> exists x, s = x ++ s' /\ lang nd r x.
  Proof using.
    revert s s'. induction r as [|n l|a IHa b IHb|a IHa b IHb|g a IHa]; simpl; intros s s' H.
    - apply elem_of_list_singleton in H as ->. exists []. split; [done|constructor].
    - destruct s as [|c s1]; [by apply elem_of_nil in H|]. destruct (in_class nd n l c) eqn:E; [|by apply elem_of_nil in H].
      apply elem_of_list_singleton in H as ->. exists [c]. split; [done|by constructor].
    - apply elem_of_concat in H as (ls & (s1 & -> & Hs1)%elem_of_map_list & H).
      apply IHa in Hs1 as (x & -> & Hx). apply IHb in H as (y & -> & Hy).
      exists (x ++ y). split; [by rewrite (assoc_L (++))|by constructor].
    - apply elem_of_app in H as [H|H]; [apply IHa in H as (x & -> & Hx)|apply IHb in H as (x & -> & Hx)];
        exists x; (split; [done|]); [by apply lang_alt_l|by apply lang_alt_r].
    - assert (Hg : forall n s, s' ∈ many (rests a) g n s -> exists xs, s = concat xs ++ s' /\ Forall (fun x => x <> [] /\ lang nd a x) xs).
      { clear s H. induction n as [|n IH]; intros s H; apply many_spec in H as [->|(n' & s1 & E & H1 & H2 & H3)].
        - by exists [].
        - done.
        - by exists [].
        - injection E as <-. apply IHa in H1 as (x & -> & Hx). apply IH in H3 as (xs & -> & Hxs).
          exists (x :: xs). simpl. split; [by rewrite (assoc_L (++))|]. constructor; [|done]. split; [|done].
          intros ->. simpl in H2. lia. }
      apply Hg in H as (xs & -> & Hxs). exists (concat xs). split; [done|by constructor].
  Qed.

  Lemma rests_complete r x s' : lang nd r x -> s' ∈ rests r (x ++ s').
  Proof using.
    revert x s'. induction r as [|n l|a IHa b IHb|a IHa b IHb|g a IHa]; simpl; intros x s' H.
    - inversion H. simpl. by apply elem_of_list_singleton.
    - inversion H as [|? ? c Hc| | | |]; subst. simpl. rewrite Hc. by apply elem_of_list_singleton.
    - inversion H as [| |? ? y z Hy Hz| | |]; subst. rewrite <- (assoc_L (++)). apply elem_of_concat. eexists. split.
      + apply elem_of_map_list. exists (z ++ s'). split; [done|]. by apply IHa.
      + by apply IHb.
    - apply elem_of_app. inversion H; subst; [left; by apply IHa|right; by apply IHb].
    - inversion H as [| | | | |? ? xs Hxs]; subst.
      assert (Hg : forall n, length (concat xs ++ s') <= n -> s' ∈ many (rests a) g n (concat xs ++ s')); [|by apply Hg].
      clear H. induction Hxs as [|y xs [Hne Hy] Hxs IH]; simpl; intros n Hn; apply many_spec; [by left|right].
      rewrite <- (assoc_L (++)) in Hn |- *. rewrite app_length in Hn.
      assert (0 < length y) by (destruct y; simpl; [done|lia]).
      destruct n as [|n]; [lia|]. exists n, (concat xs ++ s'). split_and!; [done|by apply IHa| |apply IH; lia].
      rewrite (app_length y). lia.
  Qed.

  Lemma many_fuel f g n m s : length s <= n -> length s <= m -> many f g n s = many f g m s.
  Proof using.
    revert m s. induction n as [|n IH]; intros m s Hn Hm.
    - destruct s; [|simpl in Hn; lia]. destruct m as [|m]; [done|]. simpl.
      assert (E : List.filter (fun r => length r <? 0) (f []) = []); [|rewrite E; by destruct g].
      generalize (f []). intros l. induction l; done.
    - destruct m as [|m].
      + destruct s; [|simpl in Hm; lia]. simpl.
        assert (E : List.filter (fun r => length r <? 0) (f []) = []); [|rewrite E; by destruct g].
        generalize (f []). intros l. induction l; done.
      + simpl. assert (E : map (many f g n) (List.filter (fun r => length r <? length s) (f s)) =
                         map (many f g m) (List.filter (fun r => length r <? length s) (f s))).
        { apply map_ext_in. intros r [_ Hr%Nat.ltb_lt]%filter_In. apply IH; lia. }
        by rewrite E.
  Qed.

  Lemma head_concat (f : str -> list str) (l : list str) (x y : str) :
    head l = Some x -> head (f x) = Some y -> head (concat (map f l)) = Some y.
  Proof using.
    destruct l as [|z l]; [done|]. simpl. intros [= ->] H. destruct (f x); [done|]. done.
  Qed.
  Lemma head_app_l (l1 l2 : list str) x : head l1 = Some x -> head (l1 ++ l2) = Some x.
  Proof using. by destruct l1. Qed.
  Lemma head_elem (l : list str) x : head l = Some x -> x ∈ l.
  Proof using. destruct l; [done|]. intros [= ->]. by left. Qed.
  Lemma head_none (l : list str) : head l = None -> l = [].
  Proof using. by destruct l. Qed.

  Lemma pref_cat a b s s1 s2 :
    head (rests a s) = Some s1 -> head (rests b s1) = Some s2 -> head (rests (RCat a b) s) = Some s2.
  Proof using. simpl. apply head_concat. Qed.
  Lemma pref_alt_l a b s s1 : head (rests a s) = Some s1 -> head (rests (RAlt a b) s) = Some s1.
  Proof using. simpl. apply head_app_l. Qed.
  Lemma pref_alt_r a b s s1 :
    rests a s = [] -> head (rests b s) = Some s1 -> head (rests (RAlt a b) s) = Some s1.
  Proof using. simpl. intros ->. done. Qed.

  Lemma many_step a s s1 s2 :
    head (rests a s) = Some s1 -> length s1 < length s ->
    head (rests (RMany true a) s1) = Some s2 -> head (rests (RMany true a) s) = Some s2.
  Proof using.
    simpl. intros H1 Hl H2. destruct (length s) as [|n] eqn:E; [lia|]. simpl. apply head_app_l.
    apply head_concat with s1; [|by rewrite (many_fuel _ _ n (length s1)) by lia].
    destruct (rests a s) as [|z l]; [done|]. injection H1 as ->. simpl.
    assert ((length s1 <? length s) = true) as -> by (apply Nat.ltb_lt; lia). done.
  Qed.
  Lemma many_stop a s : rests a s = [] -> rests (RMany true a) s = [s].
  Proof using. simpl. intros H. destruct (length s); simpl; [done|]. by rewrite H. Qed.

  (** What a match can begin with. *)
  Fixpoint nullable (r : re) : bool :=
    match r with
    | REmpty => true
    | RClass _ _ => false
    | RCat a b => nullable a && nullable b
    | RAlt a b => nullable a || nullable b
    | RMany _ _ => true
    end.
  Fixpoint first_char (r : re) (c : N) : bool :=
    match r with
    | REmpty => false
    | RClass n l => in_class nd n l c
    | RCat a b => first_char a c || (nullable a && first_char b c)
    | RAlt a b => first_char a c || first_char b c
    | RMany _ a => first_char a c
    end.
  Lemma lang_nullable r : lang nd r [] -> nullable r = true.
  Proof using.
    induction r as [|n l|a IHa b IHb|a IHa b IHb|g a IHa]; simpl; intros H; try done.
    - inversion H.
    - inversion H as [| |? ? y z Hy Hz E1 E| | |]; subst. apply app_eq_nil in E as [-> ->]. rewrite IHa, IHb; done.
    - inversion H; subst; [rewrite IHa by done|rewrite IHb by done]; [done|]. by destruct (nullable a).
  Qed.
  Lemma lang_first r c x : lang nd r (c :: x) -> first_char r c = true.
  Proof using.
    revert x. induction r as [|n l|a IHa b IHb|a IHa b IHb|g a IHa]; simpl; intros x H.
    - inversion H.
    - inversion H; subst. done.
    - inversion H as [| |? ? y z Hy Hz E1 E| | |]; subst. destruct y as [|d y]; simpl in E.
      + subst z. apply lang_nullable in Hy. rewrite Hy, (IHb _ Hz). by destruct (first_char a c).
      + injection E as -> _. by rewrite (IHa _ Hy).
    - inversion H; subst; [by rewrite (IHa x)|rewrite (IHb x) by done; by destruct (first_char a c)].
    - inversion H as [| | | | |? ? xs Hxs E1 E]; subst. destruct Hxs as [|y xs [Hne Hy] _]; [done|].
      simpl in E. destruct y as [|d y]; [done|]. injection E as -> _. by eapply IHa.
  Qed.
  Lemma rests_nil r s : (forall x s', s = x ++ s' -> ~ lang nd r x) -> rests r s = [].
  Proof using.
    intros H. destruct (rests r s) as [|s' l] eqn:E; [done|]. exfalso.
    destruct (rests_sound r s s') as (x & -> & Hx); [rewrite E; by left|]. by eapply H.
  Qed.
  Lemma first_fails r c s : nullable r = false -> first_char r c = false -> rests r (c :: s) = [].
  Proof using.
    intros Hn Hf. apply rests_nil. intros x s' E Hx. destruct x as [|d x].
    - apply lang_nullable in Hx. congruence.
    - injection E as <- _. apply lang_first in Hx. congruence.
  Qed.
  Lemma empty_fails r : nullable r = false -> rests r [] = [].
  Proof using.
    intros Hn. apply rests_nil. intros x s' E Hx. symmetry in E. apply app_eq_nil in E as [-> ->].
    apply lang_nullable in Hx. congruence.
  Qed.

  (** The matcher. *)
  Lemma find_pref r x s : head (rests r (x ++ s)) = Some s -> find_at0 nd r (x ++ s) = Some (blen x).
  Proof using. unfold find_at0. destruct (rests r (x ++ s)); [done|]. intros [= ->]. rewrite blen_app. f_equal. lia. Qed.
  Lemma find_none r s : rests r s = [] -> find_at0 nd r s = None.
  Proof using. unfold find_at0. by intros ->. Qed.
  Lemma find_inv r s e : find_at0 nd r s = Some e ->
    exists x s', s = x ++ s' /\ blen x = e /\ lang nd r x /\ head (rests r s) = Some s'.
  Proof using.
    unfold find_at0. destruct (rests r s) as [|s' l] eqn:E; [done|]. intros [= <-].
    destruct (rests_sound r s s') as (x & -> & Hx); [rewrite E; by left|].
    exists x, s'. split_and!; [done| |done|done]. rewrite blen_app. lia.
  Qed.

  (** A compiled lexer meets the assumptions of the scanner theorems. *)
  Lemma compile_all_ok l ms : compile_all nd l = Ret ms ->
    exists rs, map regex_of_text l = map Some rs /\ ms = map (find_at0 nd) rs.
  Proof using.
    revert ms. induction l as [|s l IH]; simpl; intros ms H; [injection H as <-; by exists []|].
    unfold compile in H. destruct (regex_of_text s) as [r|]; [|done]. simpl in H.
    destruct (compile_all nd l) as [ms'| |]; [|done..]. simpl in H. injection H as <-.
    destruct (IH ms' eq_refl) as (rs & -> & ->). by exists (r :: rs).
  Qed.
  Lemma compile_all_ret l rs : map regex_of_text l = map Some rs -> compile_all nd l = Ret (map (find_at0 nd) rs).
  Proof using.
    revert rs. induction l as [|s l IH]; intros [|r rs] H; simpl in *; [done..|].
    injection H as H1 H2. unfold compile. rewrite H1. simpl. by rewrite (IH rs).
  Qed.
  Lemma lexer_new_ok regexes names inp c : lexer_new nd regexes names inp = Ret c ->
    length names = length regexes + 2 -> lexer_ok c /\ input c = inp.
  Proof using.
    unfold lexer_new. intros H Hn. destruct (compile_all nd regexes) as [ms| |] eqn:E; [|done..]. injection H as <-.
    destruct (compile_all_ok _ _ E) as (rs & Hrs & ->). split; [|done]. split; simpl.
    - intros r s e (r0 & -> & _)%elem_of_map_list Hr. apply find_inv in Hr as (x & s' & -> & <- & _). eauto.
    - apply (f_equal length) in Hrs. rewrite !map_length in Hrs. rewrite map_length. lia.
  Qed.
End regex.
