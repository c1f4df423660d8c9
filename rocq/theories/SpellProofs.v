(** SpellProofs.v -- writing x+ out as (x x* ) keeps what is matched and makes every grammar that is LL(1) in the sense of
    the textbook one without conflicts (C31, C70). *)
From Verif Require Export SourceProofs ForestProofs.

Definition twice (a : atom) (b : bool) : alternative := Sequence [Element a None; Element a (Some (Star, b))].
Lemma spell_twice a b : spell_alternative (twice a b) = twice (spell_atom a) b.
Proof. done. Qed.
Lemma spell_element_cases e a' s' : spell_element e = Element a' s' ->
  exists a s, e = Element a s /\
    ((a' = spell_atom a /\ s' = s /\ (forall b, s <> Some (Plus, b))) \/
     (exists b, s = Some (Plus, b) /\ a' = spell_atom (Group [twice a b]) /\ s' = None)).
Proof.
  destruct e as [a [[[] b]|]]; cbn [spell_element]; intros [= <- <-]; eexists _, _; (split; [done|]).
  - left. split_and!; [done|done|done].
  - right. exists b. done.
  - left. split_and!; [done|done|done].
  - left. split_and!; [done|done|done].
Qed.
Lemma spell_element_plain a s : (forall b, s <> Some (Plus, b)) -> spell_element (Element a s) = Element (spell_atom a) s.
Proof. destruct s as [[[] b]|]; cbn; try done. intros H. by destruct (H b). Qed.
Lemma spell_plus_elem a b : spell_element (Element a (Some (Plus, b))) = Element (spell_atom (Group [twice a b])) None.
Proof. done. Qed.
Lemma spell_group a alts' : spell_atom a = Group alts' -> exists alts, a = Group alts /\ alts' = map spell_alternative alts.
Proof. destruct a; cbn; intros [= <-]; eauto. Qed.
Lemma spell_ref a n : spell_atom a = RuleRef n -> a = RuleRef n.
Proof. by destruct a. Qed.
Lemma spell_token a n : spell_atom a = TokenRef n -> a = TokenRef n.
Proof. by destruct a. Qed.
Lemma spell_literal a n : spell_atom a = StringLiteral n -> a = StringLiteral n.
Proof. by destruct a. Qed.
Lemma spell_sequence a es' : spell_alternative a = Sequence es' -> exists es, a = Sequence es /\ es' = map spell_element es.
Proof. destruct a; cbn; intros [= <-]; eauto. Qed.
Lemma spell_rules G name alts' : ParserRule name alts' ∈ spell_plus G -> exists alts, ParserRule name alts ∈ G /\ alts' = map spell_alternative alts.
Proof. unfold spell_plus. rewrite elem_of_list_fmap. intros ([n a|n x] & E & H); [|done]. cbn in E. injection E as -> ->. eauto. Qed.
Lemma spell_rules' G name alts : ParserRule name alts ∈ G -> ParserRule name (map spell_alternative alts) ∈ spell_plus G.
Proof. intros H. unfold spell_plus. apply elem_of_list_fmap. by exists (ParserRule name alts). Qed.
Lemma elem_of_spelt alts alt' : alt' ∈ map spell_alternative alts -> exists alt, alt ∈ alts /\ alt' = spell_alternative alt.
Proof. intros (alt & -> & H)%elem_of_list_fmap. eauto. Qed.
Lemma spell_names G : parser_rule_names (spell_plus G) = parser_rule_names G.
Proof. unfold spell_plus. induction G as [|[] G IH]; [done|..]; unfold parser_rule_names in *; cbn; [by f_equal|done]. Qed.

(** *** What is matched *)
Lemma star_plus G a b w1 w2 : matches_atom G a w1 -> matches_element G (Element a (Some (Star, b))) w2 -> matches_element G (Element a (Some (Plus, b))) (w1 ++ w2).
Proof.
  intros H1 H2. remember (Element a (Some (Star, b))) as e eqn:E. revert w1 H1.
  induction H2 as [| |a0 b0 w0 w3 H0 H3 IH| | | |]; try done; injection E as -> ->; intros w1 H1.
  - rewrite app_nil_r. by constructor.
  - constructor; [done|]. by apply IH.
Qed.
Lemma plus_star G a b w : matches_element G (Element a (Some (Plus, b))) w -> matches_element G (Element a (Some (Star, b))) w.
Proof.
  intros H. remember (Element a (Some (Plus, b))) as e eqn:E.
  induction H as [| | |a0 b0 w0 H0|a0 b0 w1 w2 H1 H2 IH| |]; try done; injection E as -> ->.
  - rewrite <- (app_nil_r w0). constructor; [done|constructor].
  - constructor; [done|]. by apply IH.
Qed.
Lemma twice_plus G a b w : matches_atom G (Group [twice a b]) w -> matches_element G (Element a (Some (Plus, b))) w.
Proof.
  intros H. inversion H as [| | |? alt ? Ha Hm]; subst. apply elem_of_list_singleton in Ha as ->. inversion Hm as [|? ? Hes]; subst.
  inversion Hes as [|? ? w1 w2 H1 Hes2]; subst. inversion Hes2 as [|? ? w3 w4 H3 Hes4]; subst. inversion Hes4; subst. rewrite app_nil_r.
  inversion H1; subst. by apply star_plus.
Qed.
Lemma plus_twice G a b w : matches_element G (Element a (Some (Plus, b))) w -> matches_atom G (Group [twice a b]) w.
Proof.
  intros H. assert (exists w1 w2, w = w1 ++ w2 /\ matches_atom G a w1 /\ matches_element G (Element a (Some (Star, b))) w2) as (w1 & w2 & -> & H1 & H2).
  { inversion H as [| | |? ? ? H0|? ? w1 w2 H1 H2| |]; subst.
    - exists w, []. rewrite app_nil_r. split_and!; [done|done|constructor].
    - exists w1, w2. split_and!; [done|done|]. by apply plus_star. }
  apply matches_group with (alt := twice a b); [apply elem_of_list_here|]. constructor. apply matches_cons; [by constructor|].
  rewrite <- (app_nil_r w2). apply matches_cons; [done|constructor].
Qed.

Section spell.
Context (G : list rule).
Let G' := spell_plus G.
Lemma spell_matches :
  (forall e w, matches_element G e w -> matches_element G' (spell_element e) w) /\
  (forall a w, matches_atom G a w -> matches_atom G' (spell_atom a) w) /\
  (forall a w, matches_alternative G a w -> matches_alternative G' (spell_alternative a) w) /\
  (forall es w, matches_elements G es w -> matches_elements G' (map spell_element es) w).
Proof.
  apply matches_mut.
  - intros a w _ IH. by constructor.
  - intros a b. constructor.
  - intros a b w1 w2 _ IH1 _ IH2. by constructor.
  - intros a b w _ IH. rewrite spell_plus_elem. constructor. apply plus_twice. by constructor.
  - intros a b w1 w2 _ IH1 _ IH2. rewrite spell_plus_elem in *. constructor. apply plus_twice. apply matches_plus_more; [done|].
    inversion IH2; subst. by apply twice_plus.
  - intros a b. constructor.
  - intros a b w _ IH. by constructor.
  - intros name. constructor.
  - intros l. constructor.
  - intros name alts alt w H1 H2 _ IH. eapply matches_rule; [by apply spell_rules'| |exact IH]. by apply elem_of_list_fmap_1.
  - intros alts alt w H _ IH. cbn. eapply matches_group; [|exact IH]. by apply elem_of_list_fmap_1.
  - constructor.
  - intros es w _ IH. by constructor.
  - constructor.
  - intros e es w1 w2 _ IH1 _ IH2. by constructor.
Qed.
Lemma matches_spell :
  (forall e' w, matches_element G' e' w -> forall e, spell_element e = e' -> matches_element G e w) /\
  (forall a' w, matches_atom G' a' w -> forall a, spell_atom a = a' -> matches_atom G a w) /\
  (forall a' w, matches_alternative G' a' w -> forall a, spell_alternative a = a' -> matches_alternative G a w) /\
  (forall es' w, matches_elements G' es' w -> forall es, map spell_element es = es' -> matches_elements G es w).
Proof.
  apply matches_mut.
  - intros a' w _ IH e (a & s & -> & [(-> & <- & _)|(b & -> & -> & _)])%spell_element_cases.
    + constructor. by apply IH.
    + apply twice_plus. by apply IH.
  - intros a' b e (a & s & -> & [(-> & <- & _)|(b' & -> & -> & [=])])%spell_element_cases. constructor.
  - intros a' b w1 w2 _ IH1 _ IH2 e (a & s & -> & [(-> & <- & _)|(b' & -> & -> & [=])])%spell_element_cases.
    constructor; [by apply IH1|by apply IH2].
  - intros a' b w _ IH e (a & s & -> & [(-> & <- & H)|(b' & -> & -> & [=])])%spell_element_cases. by destruct (H b).
  - intros a' b w1 w2 _ IH1 _ IH2 e (a & s & -> & [(-> & <- & H)|(b' & -> & -> & [=])])%spell_element_cases. by destruct (H b).
  - intros a' b e (a & s & -> & [(-> & <- & _)|(b' & -> & -> & [=])])%spell_element_cases. constructor.
  - intros a' b w _ IH e (a & s & -> & [(-> & <- & _)|(b' & -> & -> & [=])])%spell_element_cases.
    constructor. by apply IH.
  - intros name a ->%spell_token. constructor.
  - intros name a ->%spell_literal. constructor.
  - intros name alts' alt' w (alts & H1 & ->)%spell_rules (alt & H2 & ->)%elem_of_spelt _ IH a ->%spell_ref.
    eapply matches_rule; [exact H1|exact H2|]. by apply IH.
  - intros alts' alt' w H _ IH a (alts & -> & ->)%spell_group. apply elem_of_spelt in H as (alt & H & ->).
    eapply matches_group; [exact H|]. by apply IH.
  - intros [|es] E; [constructor|done].
  - intros es' w _ IH a (es & -> & ->)%spell_sequence. constructor. by apply IH.
  - intros [|e es] E; [constructor|done].
  - intros e' es' w1 w2 _ IH1 _ IH2 [|e es] E; [done|]. injection E as E1 E2. constructor; [by apply IH1|by apply IH2].
Qed.

(** *** What begins *)
Lemma begins_twice Q a b n : begins_atom Q (Group [twice a b]) n <-> begins_atom Q a n.
Proof.
  split.
  - intros H. inversion H as [| | |? alt ? Ha Hb]; subst. apply elem_of_list_singleton in Ha as ->. inversion Hb as [? ? Hes]; subst.
    inversion Hes as [? ? ? He|? ? ? _ Hes2]; subst; [by inversion He|]. inversion Hes2 as [? ? ? He|? ? ? _ Hes3]; subst; [by inversion He|].
    inversion Hes3.
  - intros H. eapply begins_group; [apply elem_of_list_here|]. constructor. apply begins_here. by constructor.
Qed.
Lemma spell_begins :
  (forall e n, begins_element G e n -> begins_element G' (spell_element e) n) /\
  (forall a n, begins_atom G a n -> begins_atom G' (spell_atom a) n) /\
  (forall a n, begins_alternative G a n -> begins_alternative G' (spell_alternative a) n) /\
  (forall es n, begins_elements G es n -> begins_elements G' (map spell_element es) n).
Proof.
  apply begins_mut.
  - intros a s n _ IH. destruct s as [[[] b]|]; [by constructor| |by constructor|by constructor].
    rewrite spell_plus_elem. constructor. by apply begins_twice.
  - constructor.
  - constructor.
  - intros name alts alt n H1 H2 _ IH. eapply begins_rule; [by apply spell_rules'| |exact IH]. by apply elem_of_list_fmap_1.
  - intros alts alt n H _ IH. cbn. eapply begins_group; [|exact IH]. by apply elem_of_list_fmap_1.
  - intros es n _ IH. by constructor.
  - intros e es n _ IH. by apply begins_here.
  - intros e es n H _ IH. apply begins_later; [|done]. by apply spell_matches.
Qed.
Lemma begins_spell :
  (forall e' n, begins_element G' e' n -> forall e, spell_element e = e' -> begins_element G e n) /\
  (forall a' n, begins_atom G' a' n -> forall a, spell_atom a = a' -> begins_atom G a n) /\
  (forall a' n, begins_alternative G' a' n -> forall a, spell_alternative a = a' -> begins_alternative G a n) /\
  (forall es' n, begins_elements G' es' n -> forall es, map spell_element es = es' -> begins_elements G es n).
Proof.
  apply begins_mut.
  - intros a' s' n _ IH e (a & s & -> & [(-> & <- & _)|(b & -> & -> & _)])%spell_element_cases.
    + constructor. by apply IH.
    + constructor. apply (begins_twice G a b). by apply IH.
  - intros n a ->%spell_token. constructor.
  - intros n a ->%spell_literal. constructor.
  - intros name alts' alt' n (alts & H1 & ->)%spell_rules (alt & H2 & ->)%elem_of_spelt _ IH a ->%spell_ref.
    eapply begins_rule; [exact H1|exact H2|]. by apply IH.
  - intros alts' alt' n H _ IH a (alts & -> & ->)%spell_group. apply elem_of_spelt in H as (alt & H & ->).
    eapply begins_group; [exact H|]. by apply IH.
  - intros es' n _ IH a (es & -> & ->)%spell_sequence. constructor. by apply IH.
  - intros e' es' n _ IH [|e es] E; [done|]. injection E as E1 E2. apply begins_here. by apply IH.
  - intros e' es' n H _ IH [|e es] E; [done|]. injection E as E1 E2. apply begins_later; [by eapply matches_spell|by apply IH].
Qed.

(** *** What occurs *)
Lemma within_twice z a b : within_alternative z (twice a b) ->
  z = Element a None \/ z = Element a (Some (Star, b)) \/ forall s, within_element z (Element a s).
Proof.
  assert (K : forall s, within_element z (Element a s) -> z = Element a s \/ forall s, within_element z (Element a s)).
  { intros s H. inversion H as [|alts alt e s' H1 H2 E]; subst; [by left|]. injection E as -> ->. right. intros s. by eapply within_group. }
  intros H. inversion H as [? e He Hw]; subst. apply elem_of_cons in He as [->|He]; [destruct (K _ Hw); auto|].
  apply elem_of_list_singleton in He as ->. destruct (K _ Hw); auto.
Qed.
Definition made (occ : element -> Prop) (z' : element) : Prop :=
  (exists z, occ z /\ z' = spell_element z) \/
  (exists x b, occ (Element x (Some (Plus, b))) /\ (z' = Element (spell_atom x) None \/ z' = Element (spell_atom x) (Some (Star, b)))).
Lemma made_mono (P Q : element -> Prop) z' : (forall z, P z -> Q z) -> made P z' -> made Q z'.
Proof. intros H [(z & ? & ?)|(x & b & ? & ?)]; [left; eauto|right; eauto 6]. Qed.
Lemma spelt_within z' :
  (forall e', within_element z' e' -> forall e, spell_element e = e' -> made (fun z => within_element z e) z') /\
  (forall a', within_alternative z' a' -> forall a, spell_alternative a = a' -> made (fun z => within_alternative z a) z').
Proof.
  apply within_mut.
  - intros e <-. left. exists e. split; [constructor|done].
  - intros alts' alt' e' s' Ha _ IH -> e (a & s & -> & [(E & <- & _)|(b & -> & E & _)])%spell_element_cases.
    + symmetry in E. apply spell_group in E as (alts & -> & ->). apply elem_of_spelt in Ha as (alt & Ha & ->).
      eapply made_mono; [|exact (IH alt eq_refl)]. cbn. intros z Hz. by eapply within_group.
    + symmetry in E. apply spell_group in E as (alts & [= <-] & ->). apply elem_of_spelt in Ha as (alt & Ha & ->). apply elem_of_list_singleton in Ha as ->.
      destruct (IH (twice a b) eq_refl) as [(z & Hz & ->)|(x & b' & Hz & Hx)].
      * apply within_twice in Hz as [->|[->|Hz]].
        -- right. exists a, b. split; [constructor|]. by left.
        -- right. exists a, b. split; [constructor|]. by right.
        -- left. exists z. split; [apply Hz|done].
      * apply within_twice in Hz as [[=]|[[=]|Hz]]. right. exists x, b'. split; [apply Hz|done].
  - intros es' e' He _ IH a (es & -> & ->)%spell_sequence. apply elem_of_list_fmap in He as (e & -> & He).
    eapply made_mono; [|exact (IH e eq_refl)]. cbn. intros z Hz. by eapply within_sequence.
Qed.
Lemma spelt_occurs z' : occurs z' G' -> made (fun z => occurs z G) z'.
Proof.
  intros (name & alts' & alt' & (alts & H1 & ->)%spell_rules & (alt & H2 & ->)%elem_of_spelt & H).
  eapply made_mono; [|exact (proj2 (spelt_within z') _ H alt eq_refl)]. cbn. intros z Hz. by exists name, alts, alt.
Qed.
Lemma spelt_alternative alt' : alternative_of G' alt' ->
  (exists alt, alternative_of G alt /\ alt' = spell_alternative alt) \/
  (exists a b, occurs (Element a (Some (Plus, b))) G /\ alt' = spell_alternative (twice a b)).
Proof.
  intros [(name & alts' & (alts & H1 & ->)%spell_rules & (alt & H2 & ->)%elem_of_spelt)|(alts' & s' & H & Ha)].
  - left. exists alt. split; [|done]. left. by exists name, alts.
  - apply spelt_occurs in H as [(z & Hz & E)|(x & b & Hx & E)].
    + symmetry in E. apply spell_element_cases in E as (a & s & -> & [(E & -> & _)|(b & -> & E & _)]);
        symmetry in E; apply spell_group in E as (alts & E & ->); apply elem_of_spelt in Ha as (alt & Ha & ->).
      * subst a. left. exists alt. split; [|done]. right. by exists alts, s.
      * injection E as <-. apply elem_of_list_singleton in Ha as ->. right. by exists a, b.
    + assert (E' : spell_atom x = Group alts') by (destruct E as [E|E]; by injection E).
      apply spell_group in E' as (alts & -> & ->). apply elem_of_spelt in Ha as (alt & Ha & ->).
      left. exists alt. split; [|done]. right. by exists alts, (Some (Plus, b)).
Qed.

(** *** What comes after *)
Definition spelt_after (e' : element) (n : str) : Prop := exists e, spell_element e = e' /\
  (after_element G e n \/ (exists a b, e = Element a (Some (Star, b)) /\ after_element G (Element a (Some (Plus, b))) n) \/
   exists a, e = Element a None /\ after_atom G a n).
Lemma map_split {A B} (f : A -> B) l l1 x l2 : map f l = l1 ++ x :: l2 -> exists k1 y k2, l = k1 ++ y :: k2 /\ l1 = map f k1 /\ x = f y /\ l2 = map f k2.
Proof.
  revert l. induction l1 as [|z l1 IH]; intros [|w l]; cbn; try done.
  - intros [= <- <-]. by exists [], w, l.
  - intros [= <- (k1 & y & k2 & -> & -> & -> & ->)%IH]. by exists (w :: k1), y, k2.
Qed.
Lemma after_spell :
  (forall e' n, after_element G' e' n -> spelt_after e' n) /\
  (forall alt' n, after_alternative G' alt' n ->
    (exists alt, alt' = spell_alternative alt /\ after_alternative G alt n) \/
    (exists a b, alt' = spell_alternative (twice a b) /\ after_element G (Element a (Some (Plus, b))) n)) /\
  (forall a' n, after_atom G' a' n ->
    (exists a, a' = spell_atom a /\ after_atom G a n) \/
    (exists a b, a' = spell_atom (Group [twice a b]) /\ after_element G (Element a (Some (Plus, b))) n)).
Proof.
  apply after_mut.
  - intros es1 e' es2 n Ha Hb. apply spelt_alternative in Ha as [(alt & Ha & E)|(a & b & Ho & E)].
    + symmetry in E. apply spell_sequence in E as (es & -> & E). symmetry in E. apply map_split in E as (k1 & e & k2 & -> & -> & -> & ->).
      exists e. split; [done|]. left. eapply after_next; [exact Ha|]. by eapply begins_spell.
    + injection E as E. symmetry in E. change (map spell_element [Element a None; Element a (Some (Star, b))] = es1 ++ e' :: es2) in E.
      apply map_split in E as ([|x1 [|x2 [|x3 x4]]] & e & k2 & E & -> & -> & ->); try discriminate E.
      * injection E as <- <-. exists (Element a None). split; [done|]. right; right. exists a. split; [done|].
        eapply after_repeat; [exact Ho|by right|]. apply begins_spell with (es := [Element a (Some (Star, b))]) in Hb; [|done].
        inversion Hb as [? ? ? He|? ? ? _ Hes]; subst; [by inversion He|inversion Hes].
      * injection E as <- <- <-. inversion Hb.
  - intros es1 e' es2 n Hm _ [(alt & E & Ha)|(a & b & E & Ha)].
    + symmetry in E. apply spell_sequence in E as (es & -> & E). symmetry in E. apply map_split in E as (k1 & e & k2 & -> & -> & -> & ->).
      exists e. split; [done|]. left. eapply after_last; [|exact Ha]. by eapply matches_spell.
    + injection E as E. symmetry in E. change (map spell_element [Element a None; Element a (Some (Star, b))] = es1 ++ e' :: es2) in E.
      apply map_split in E as ([|x1 [|x2 [|x3 x4]]] & e & k2 & E & -> & -> & ->); try discriminate E.
      * injection E as <- <-. exists (Element a None). split; [done|]. right; right. exists a. split; [done|]. by eapply after_operand.
      * injection E as <- <- <-. exists (Element a (Some (Star, b))). split; [done|]. right; left. by exists a, b.
  - intros name alts' alt' n (alts & H1 & ->)%spell_rules (alt & H2 & ->)%elem_of_spelt _ IH. left. exists alt. split; [done|].
    eapply after_rule; [exact H1|exact H2|]. destruct IH as [(a & E & Ha)|(a & b & [=] & _)]. symmetry in E. by apply spell_ref in E as ->.
  - intros alts' alt' n Ha _ [(a & E & H)|(a & b & E & H)].
    + symmetry in E. apply spell_group in E as (alts & -> & ->). apply elem_of_spelt in Ha as (alt & Ha & ->).
      left. exists alt. split; [done|]. by eapply after_group.
    + injection E as ->. apply elem_of_list_singleton in Ha as ->. right. by exists a, b.
  - intros name H. unfold G' in H. rewrite spell_names in H. left. exists (RuleRef name). split; [done|]. by apply after_end.
  - intros a' s' n _ (e & E & H). apply spell_element_cases in E as (a & s & -> & [(-> & -> & Hs)|(b & -> & -> & _)]).
    + left. exists a. split; [done|]. destruct H as [H|[(a0 & b & E & H)|(a0 & E & H)]].
      * by eapply after_operand.
      * injection E as -> ->. by eapply after_operand.
      * by injection E as -> ->.
    + destruct H as [H|[(a0 & b0 & [=] & H)|(a0 & [=] & H)]]. right. by exists a, b.
  - intros a' k b n Ho Hk Hb. apply spelt_occurs in Ho as [(z & Hz & E)|(x & b' & Hx & E)].
    + symmetry in E. apply spell_element_cases in E as (a & s & -> & [(-> & <- & _)|(b0 & _ & _ & [=])]).
      left. exists a. split; [done|]. eapply after_repeat; [exact Hz|done|]. by eapply begins_spell.
    + destruct E as [[=]|[= -> -> ->]]. left. exists x. split; [done|]. eapply after_repeat; [exact Hx|by right|]. by eapply begins_spell.
Qed.
Lemma after_atom_group alts n : after_atom G (Group alts) n -> exists s, occurs (Element (Group alts) s) G.
Proof. intros H. inversion H as [|? s ? He|? k b ? Ho]; subst; [apply (proj1 (after_occurs G)) in He; by exists s|by eexists]. Qed.
End spell.

(** *** Marks and spelling *)
Fixpoint plain_spell_element e : plain_element (spell_element e) = spell_element (plain_element e)
with plain_spell_atom a : plain_atom (spell_atom a) = spell_atom (plain_atom a)
with plain_spell_alternative a : plain_alternative (spell_alternative a) = spell_alternative (plain_alternative a).
Proof.
  - destruct e as [a [[[] b]|]]; cbn; rewrite ?plain_spell_atom; reflexivity.
  - destruct a as [| | |alts]; [reflexivity..|]. cbn. f_equal. induction alts as [|alt alts IH]; [reflexivity|]. cbn. rewrite plain_spell_alternative, IH. reflexivity.
  - destruct a as [|es]; [reflexivity|]. cbn. f_equal. induction es as [|e es IH]; [reflexivity|]. cbn. rewrite plain_spell_element, IH. reflexivity.
Qed.

Lemma spell_ll1 G : source_ll1 G -> plus_ll1 G -> source_ll1 (spell_plus G).
Proof.
  intros [Sr Sg So] Sp.
  pose proof (proj1 (proj2 (proj2 (begins_spell G)))) as Bs. pose proof (proj1 (proj2 (proj2 (matches_spell G)))) as Ms.
  split.
  - intros name alts1' alts2' alt1' alt2' n (alts1 & H1 & ->)%spell_rules (alt1 & Ha1 & ->)%elem_of_spelt
      (alts2 & H2 & ->)%spell_rules (alt2 & Ha2 & ->)%elem_of_spelt C1 C2.
    assert (K : forall alt, chooses (spell_plus G) (RuleRef name) (spell_alternative alt) n -> chooses G (RuleRef name) alt n).
    { intros alt [Hb|[Hm Ha]]; [left; by eapply Bs|right]. split; [by eapply Ms|].
      apply after_spell in Ha as [(a & E & Ha)|(a & b & [=] & _)]. symmetry in E. by apply spell_ref in E as ->. }
    rewrite !plain_spell_alternative. f_equal. by apply (Sr name alts1 alts2 alt1 alt2 n); auto.
  - intros alts' s' alt1' alt2' n Ho Ha1 Ha2 C1 C2.
    assert (K : alt1' = alt2' \/ exists alts s, alts' = map spell_alternative alts /\ occurs (Element (Group alts) s) G /\
      ((begins_alternative (spell_plus G) alt1' n /\ begins_alternative (spell_plus G) alt2' n) \/ after_atom G (Group alts) n)).
    { assert (K : after_atom (spell_plus G) (Group alts') n -> alt1' = alt2' \/ exists alts s, alts' = map spell_alternative alts /\ occurs (Element (Group alts) s) G /\ after_atom G (Group alts) n).
      { intros Ha. apply after_spell in Ha as [(a & E & Ha)|(a & b & E & _)]; symmetry in E; apply spell_group in E as (alts & E & ->).
        - subst a. right. destruct (after_atom_group _ _ _ Ha) as [s Hs]. by exists alts, s.
        - injection E as <-. left. apply elem_of_list_singleton in Ha1 as ->. by apply elem_of_list_singleton in Ha2 as ->. }
      destruct C1 as [B1|[_ A1]]; [destruct C2 as [B2|[_ A2]]|].
      - apply spelt_occurs in Ho as [(z & Hz & E)|(x & b & Hx & E)].
        + symmetry in E. apply spell_element_cases in E as (a & s & -> & [(E & -> & _)|(b & -> & E & _)]); symmetry in E; apply spell_group in E as (alts & E & ->).
          * subst a. right. exists alts, s. auto.
          * injection E as <-. left. apply elem_of_list_singleton in Ha1 as ->. by apply elem_of_list_singleton in Ha2 as ->.
        + assert (E' : spell_atom x = Group alts') by (destruct E as [E|E]; by injection E).
          apply spell_group in E' as (alts & -> & ->). right. eexists alts, _. split; [done|]. split; [exact Hx|]. auto.
      - destruct (K A2) as [|(alts & s & ? & ? & ?)]; [by left|]. right. exists alts, s. auto.
      - destruct (K A1) as [|(alts & s & ? & ? & ?)]; [by left|]. right. exists alts, s. auto. }
    destruct K as [->|(alts & s & -> & Hs & K)]; [done|].
    apply elem_of_spelt in Ha1 as (alt1 & Ha1 & ->). apply elem_of_spelt in Ha2 as (alt2 & Ha2 & ->).
    rewrite !plain_spell_alternative. f_equal. apply (Sg alts s alt1 alt2 n); [exact Hs|exact Ha1|exact Ha2|..].
    + destruct K as [[B1 B2]|K]; [left; exact (Bs _ _ B1 _ eq_refl)|]. destruct C1 as [B1|[M1 _]]; [left; exact (Bs _ _ B1 _ eq_refl)|right]. split; [exact (Ms _ _ M1 _ eq_refl)|exact K].
    + destruct K as [[B1 B2]|K]; [left; exact (Bs _ _ B2 _ eq_refl)|]. destruct C2 as [B1|[M1 _]]; [left; exact (Bs _ _ B1 _ eq_refl)|right]. split; [exact (Ms _ _ M1 _ eq_refl)|exact K].
  - intros a' k b n Ho Hk Ha. apply after_spell in Ha as (e & E & Ha).
    apply spell_element_cases in E as (a & s & -> & [(-> & <- & _)|(b0 & _ & _ & [=])]).
    assert (K : ~ begins_atom G a n /\ ~ matches_atom G a []).
    { destruct Ha as [Ha|[(a0 & b0 & [= <- -> <-] & Ha)|(a0 & [=] & _)]].
      - apply (So a k b n); [exact (proj1 (after_occurs G) _ _ Ha)|done|done].
      - apply (Sp a b n); [exact (proj1 (after_occurs G) _ _ Ha)|done]. }
    split; intros H; [apply (proj1 K); exact (proj1 (proj2 (begins_spell G)) _ _ H a eq_refl)|apply (proj2 K); exact (proj1 (proj2 (matches_spell G)) _ _ H a eq_refl)].
Qed.
Lemma spell_no_plus G a b : ~ occurs (Element a (Some (Plus, b))) (spell_plus G).
Proof.
  intros [(z & _ & E)|(x & b0 & _ & [E|E])]%spelt_occurs; try done.
  symmetry in E. apply spell_element_cases in E as (a0 & s & -> & [(_ & <- & H)|(b0 & _ & _ & [=])]). by apply (H b).
Qed.

(** *** What begins, in terms of what is matched *)
Lemma matches_begins G :
  (forall e w, matches_element G e w -> forall n ts, w = n :: ts -> begins_element G e n) /\
  (forall a w, matches_atom G a w -> forall n ts, w = n :: ts -> begins_atom G a n) /\
  (forall a w, matches_alternative G a w -> forall n ts, w = n :: ts -> begins_alternative G a n) /\
  (forall es w, matches_elements G es w -> forall n ts, w = n :: ts -> begins_elements G es n).
Proof.
  apply matches_mut.
  - intros a w _ IH n ts E. constructor. by eapply IH.
  - done.
  - intros a b [|x w1] w2 _ IH1 _ IH2 n ts E; [by eapply IH2|]. injection E as -> _. constructor. by eapply IH1.
  - intros a b w _ IH n ts E. constructor. by eapply IH.
  - intros a b [|x w1] w2 _ IH1 _ IH2 n ts E; [by eapply IH2|]. injection E as -> _. constructor. by eapply IH1.
  - done.
  - intros a b w _ IH n ts E. constructor. by eapply IH.
  - intros name n ts [= -> _]. constructor.
  - intros name n ts [= -> _]. constructor.
  - intros name alts alt w H1 H2 _ IH n ts E. eapply begins_rule; [exact H1|exact H2|]. by eapply IH.
  - intros alts alt w H _ IH n ts E. eapply begins_group; [exact H|]. by eapply IH.
  - done.
  - intros es w _ IH n ts E. constructor. by eapply IH.
  - done.
  - intros e es [|x w1] w2 H1 IH1 _ IH2 n ts E.
    + apply begins_later; [done|]. by eapply IH2.
    + injection E as -> _. apply begins_here. by eapply IH1.
Qed.
Lemma elements_productive G es : productive G -> (forall e, e ∈ es -> occurs e G) -> exists w, matches_elements G es w.
Proof.
  intros Hp. induction es as [|e es IH]; intros H; [exists []; constructor|].
  destruct (Hp e) as [w1 H1]; [apply H, elem_of_list_here|]. destruct IH as [w2 H2]; [intros x Hx; by apply H, elem_of_list_further|].
  exists (w1 ++ w2). by constructor.
Qed.
Lemma occurs_alternative G alt : alternative_of G alt -> forall es e, alt = Sequence es -> e ∈ es -> occurs e G.
Proof. intros H es e -> (es1 & es2 & ->)%elem_of_list_split. by eapply occurs_in_alt. Qed.
Lemma begins_matches G : productive G ->
  (forall e n, begins_element G e n -> occurs e G -> exists ts, matches_element G e (n :: ts)) /\
  (forall a n, begins_atom G a n -> (exists s, occurs (Element a s) G) \/ (exists name, a = RuleRef name) -> exists ts, matches_atom G a (n :: ts)) /\
  (forall a n, begins_alternative G a n -> alternative_of G a -> exists ts, matches_alternative G a (n :: ts)) /\
  (forall es n, begins_elements G es n -> (forall e, e ∈ es -> occurs e G) -> exists ts, matches_elements G es (n :: ts)).
Proof.
  intros Hp. apply begins_mut.
  - intros a s n _ IH Ho. destruct IH as [ts H]; [left; by exists s|].
    destruct s as [[[] b]|].
    + exists (ts ++ []). apply (matches_star_cons G a b (n :: ts) []); [done|constructor].
    + exists ts. by constructor.
    + exists ts. by constructor.
    + exists ts. by constructor.
  - intros n _. exists []. constructor.
  - intros n _. exists []. constructor.
  - intros name alts alt n H1 H2 _ IH _. destruct IH as [ts H]; [left; by exists name, alts|]. exists ts. by eapply matches_rule.
  - intros alts alt n H1 _ IH [[s Ho]|[name E]]; [|done]. destruct IH as [ts H]; [right; by exists alts, s|]. exists ts. by eapply matches_group.
  - intros es n _ IH Ha. destruct IH as [ts H]; [|exists ts; by constructor]. intros e He. by eapply occurs_alternative.
  - intros e es n _ IH Ho. destruct IH as [ts H]; [apply Ho, elem_of_list_here|].
    destruct (elements_productive G es Hp) as [w2 H2]; [intros x Hx; by apply Ho, elem_of_list_further|].
    exists (ts ++ w2). apply (matches_cons G e es (n :: ts) w2); done.
  - intros e es n Hm _ IH Ho. destruct IH as [ts H]; [intros x Hx; by apply Ho, elem_of_list_further|].
    exists ts. apply (matches_cons G e es [] (n :: ts)); done.
Qed.
Lemma c70_begins G name n : productive G -> begins_atom G (RuleRef name) n <-> exists ts, matches_atom G (RuleRef name) (n :: ts).
Proof.
  intros Hp. split.
  - intros H. apply (proj1 (proj2 (begins_matches G Hp)) _ _ H). right. by exists name.
  - intros [ts H]. by apply (proj1 (proj2 (matches_begins G)) _ _ H n ts).
Qed.

(** *** The tool's reports *)
Lemma c70_reports G r g data fuel order tab w :
  grammar_tree G r -> proper G -> load_tree r = Ret (g, data) -> no_collision (g_vocabulary g) G ->
  iteration_order g order -> build_table fuel order g = Ret (tab, w) ->
  w = [] <-> source_ll1 G /\ plus_void G.
Proof.
  intros Ht Hp Hl Hc Ho Hb. rewrite <- (c70 G r g data Ht Hp Hl Hc).
  exact (proj1 (c29_warnings g order fuel tab w Ho (proj1 (c43_closed _ _ _ Hl)) Hb)).
Qed.
Lemma void_ll1 G : plus_void G -> plus_ll1 G.
Proof. intros H a b n Ho Ha. destruct (H a b n Ho) as [H1 H2]. split; [done|]. intros Hm. by apply (H2 Hm). Qed.
Lemma c70_sound G r g data fuel order tab :
  grammar_tree G r -> proper G -> load_tree r = Ret (g, data) -> no_collision (g_vocabulary g) G ->
  iteration_order g order -> build_table fuel order g = Ret (tab, []) ->
  source_ll1 G /\ plus_ll1 G.
Proof.
  intros Ht Hp Hl Hc Ho Hb. destruct (proj1 (c70_reports _ _ _ _ _ _ _ _ Ht Hp Hl Hc Ho Hb) eq_refl) as [H1 H2].
  split; [done|by apply void_ll1].
Qed.
Lemma c70_spelt G r g data fuel order tab w :
  grammar_tree (spell_plus G) r -> proper (spell_plus G) -> load_tree r = Ret (g, data) -> no_collision (g_vocabulary g) (spell_plus G) ->
  iteration_order g order -> build_table fuel order g = Ret (tab, w) ->
  source_ll1 G -> plus_ll1 G ->
  w = [] /\ forall name ts, matches_atom G (RuleRef name) ts <-> matches_atom (spell_plus G) (RuleRef name) ts.
Proof.
  intros Ht Hp Hl Hc Ho Hb H1 H2. split.
  - apply (c70_reports _ _ _ _ _ _ _ _ Ht Hp Hl Hc Ho Hb). split; [by apply spell_ll1|]. intros a b n Hocc. by apply spell_no_plus in Hocc.
  - intros name ts. split; intros H.
    + exact (proj1 (proj2 (spell_matches G)) _ _ H).
    + exact (proj1 (proj2 (matches_spell G)) _ _ H (RuleRef name) eq_refl).
Qed.

(** *** Examples *)
Lemma ex_list_source : source_ll1 ex_list /\ plus_void ex_list.
Proof.
  apply (c70 ex_list _ _ _ ex_list_grammar_tree ex_list_proper ex_list_loaded ex_list_no_collision).
  refine (proj1 (proj1 (c29_warnings ex_list_g ex_list_order _ _ _ _ (proj1 (c43_closed _ _ _ ex_list_loaded)) ex_list_table)) eq_refl).
  unfold iteration_order. reflexivity.
Qed.
Lemma g31_after n : after_element g31_plus (Element (TokenRef (lit "A")) (Some (Plus, false))) n -> n = lit "_STOP".
Proof.
  assert (Ho : forall x, occurs x g31_plus -> x = Element (TokenRef (lit "A")) (Some (Plus, false))).
  { intros x H. apply occurs_computed in H. change (occurring g31_plus) with [Element (TokenRef (lit "A")) (Some (Plus, false))] in H. by apply elem_of_list_singleton in H. }
  assert (Ha : forall alt, alternative_of g31_plus alt -> alt = Sequence [Element (TokenRef (lit "A")) (Some (Plus, false))]).
  { intros alt [(name & alts & HG & Ha)|(alts & s & H & _)]; [|by apply Ho in H]. unfold g31_plus in HG. rewrite !elem_of_cons in HG.
    destruct HG as [[= -> ->]|[?|?%elem_of_nil]]; try done. by apply elem_of_list_singleton in Ha. }
  assert (Hs : forall es1 e es2, alternative_of g31_plus (Sequence (es1 ++ e :: es2)) -> es2 = []).
  { intros es1 e es2 H. apply Ha in H. injection H as H. destruct es1 as [|? [|? ?]]; [|discriminate H..]. by injection H. }
  intros H. inversion H as [es1 e es2 ? H1 H2|es1 e es2 ? H1 H2]; subst.
  - apply Hs in H1 as ->. inversion H2.
  - inversion H2 as [name alts alt ? _ _ H3|alts alt ? _ H3]; subst.
    + inversion H3 as [|? s ? H4|? k b ? H4]; subst; [done|apply (proj1 (after_occurs g31_plus)), Ho in H4; done|by apply Ho in H4].
    + apply (after_atom_group g31_plus) in H3 as [s H3]. by apply Ho in H3.
Qed.
Lemma g31_textbook : source_ll1 g31_plus /\ plus_ll1 g31_plus /\ ~ plus_void g31_plus.
Proof.
  assert (Ho : forall x, occurs x g31_plus -> x = Element (TokenRef (lit "A")) (Some (Plus, false))).
  { intros x H. apply occurs_computed in H. change (occurring g31_plus) with [Element (TokenRef (lit "A")) (Some (Plus, false))] in H. by apply elem_of_list_singleton in H. }
  split_and!.
  - split.
    + intros name alts1 alts2 alt1 alt2 n H1 A1 H2 A2 _ _. unfold g31_plus in H1, H2. rewrite !elem_of_cons in H1, H2.
      destruct H1 as [[= -> ->]|[?|?%elem_of_nil]]; try done. destruct H2 as [[= ->]|[?|?%elem_of_nil]]; try done.
      apply elem_of_list_singleton in A1 as ->. by apply elem_of_list_singleton in A2 as ->.
    + intros alts s alt1 alt2 n H. by apply Ho in H.
    + intros a k b n H. apply Ho in H as [= -> -> ->]. by intros [|].
  - intros a b n H. apply Ho in H as [= -> ->]. intros ->%g31_after. split; intros H; inversion H.
  - intros H. destruct (H (TokenRef (lit "A")) false (lit "A")) as [H1 _].
    + eexists _, _, _. split; [apply elem_of_list_here|]. split; [apply elem_of_list_here|]. econstructor; [apply elem_of_list_here|constructor].
    + apply H1. constructor.
Qed.
Definition g31_spelt : rule_ctx := build_grammar (spell_plus g31_plus).
Lemma g31_spelt_ok : grammar_tree (spell_plus g31_plus) g31_spelt /\ proper (spell_plus g31_plus) /\
  load_tree g31_spelt = Ret (grammar_of g31_spelt, rules_of g31_spelt) /\
  no_collision (g_vocabulary (grammar_of g31_spelt)) (spell_plus g31_plus) /\
  exists tab, build_table 1000 (elements (productions (grammar_of g31_spelt))) (grammar_of g31_spelt) = Ret (tab, []).
Proof.
  split_and!.
  - by apply build_grammar_tree.
  - apply proper_computed; by vm_compute.
  - apply loaded_ret. by vm_compute.
  - apply no_collision_computed. by vm_compute.
  - assert (H : match build_table 1000 (elements (productions (grammar_of g31_spelt))) (grammar_of g31_spelt) with Ret (_, []) => true | _ => false end = true) by (by vm_compute).
    destruct (build_table _ _ _) as [[tab [|]]| |]; try done. by exists tab.
Qed.
Lemma ex_list_productive : productive ex_list.
Proof.
  assert (Ht : forall x, matches_element ex_list (ref x) [lit x]) by (intros x; by do 2 constructor).
  assert (Hi : matches_element ex_list (call "item") [lit "ID"]).
  { constructor. eapply matches_rule; [apply elem_of_list_further, elem_of_list_here|apply elem_of_list_here|]. constructor.
    apply (matches_cons _ _ _ [lit "ID"] []); [apply Ht|]. apply (matches_cons _ _ _ [] []); constructor. }
  intros e H. apply occurs_computed in H.
  change (occurring ex_list) with [call "item"; Element (Group [Sequence [ref "COMMA"; call "item"]]) (Some (Star, false)); ref "COMMA"; call "item";
    ref "ID"; Element (TokenRef (lit "BANG")) (Some (Star, false)); ref "LP"; Element (RuleRef (lit "list")) (Some (Question, false)); ref "RP"] in H.
  rewrite !elem_of_cons in H. destruct H as [->|[->|[->|[->|[->|[->|[->|[->|[->|[]%elem_of_nil]]]]]]]]]; eexists;
    first [exact Hi|apply Ht|constructor].
Qed.
