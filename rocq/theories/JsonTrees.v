(** JsonTrees.v -- C62, C63: the theorems about trees, from JsonProofs.v. *)
From Verif Require Export JsonProofs ShippedText BootstrapProofs.

Section Trees.
  Context (huge : str -> bool).

  (** *** Depth *)
  Lemma text_mono :
    (forall d j t, value_text huge d j t -> forall d', d <= d' -> value_text huge d' j t) /\
    (forall d js t, items_text huge d js t -> forall d', d <= d' -> items_text huge d' js t) /\
    (forall d ms t, members_text huge d ms t -> forall d', d <= d' -> members_text huge d' ms t) /\
    (forall d m t, member_text huge d m t -> forall d', d <= d' -> member_text huge d' m t).
  Proof.
    apply (json_text_ind huge (fun d j t _ => forall d', d <= d' -> value_text huge d' j t) (fun d js t _ => forall d', d <= d' -> items_text huge d' js t)
      (fun d ms t _ => forall d', d <= d' -> members_text huge d' ms t) (fun d m t _ => forall d', d <= d' -> member_text huge d' m t));
      intros; try (by constructor; auto).
    all: destruct d' as [|d']; [lia|]; constructor; match goal with H : forall d', _ -> _ |- _ => apply H; lia end.
  Qed.
  Lemma document_unique d d' j j' s : document huge d j s -> document huge d' j' s -> j = j'.
  Proof.
    intros (w1 & t & w2 & Hw1 & Ht & Hw2 & ->) (w1' & t' & w2' & Hw1' & Ht' & Hw2' & E).
    apply (proj1 text_mono) with (d' := d `max` d') in Ht; [|lia]. apply (proj1 text_mono) with (d' := d `max` d') in Ht'; [|lia].
    set (s := w1 ++ t ++ w2) in *. set (f := S (2 * length s)).
    assert (forall w2, blanks w2 -> closed_off w2) as Hc.
    { intros w [|c w3 Hc _]; [done|]. apply blank_closed. rewrite !elem_of_cons, elem_of_nil in *. tauto. }
    assert (parse_value huge f (S (d `max` d')) s = JOk (j, w2)) as E1.
    { unfold s. rewrite parse_value_blank by done. apply (proj1 (all_complete huge) _ _ _ Ht); [|by apply Hc]. unfold f, s. rewrite !app_length. lia. }
    assert (parse_value huge f (S (d `max` d')) s = JOk (j', w2')) as E2.
    { rewrite E. rewrite parse_value_blank by done. apply (proj1 (all_complete huge) _ _ _ Ht'); [|by apply Hc]. unfold f. rewrite E. rewrite !app_length. lia. }
    rewrite E1 in E2. by injection E2.
  Qed.

  Lemma keep_last_sub kv ms : kv ∈ keep_last ms -> kv ∈ ms.
  Proof.
    induction ms as [|[k v] ms IH]; [done|]. cbn [keep_last]. destruct (bool_decide _); rewrite ?elem_of_cons; [tauto|]. intros [->|H]; auto.
  Qed.
  (** A bound that does not mention texts. *)
  Inductive nested : nat -> json -> Prop :=
  | nested_null d : nested d JNull
  | nested_bool d b : nested d (JBool b)
  | nested_u64 d n : nested d (JU64 n)
  | nested_other d : nested d JOtherNumber
  | nested_string d s : nested d (JString s)
  | nested_array d js : (forall j, j ∈ js -> nested d j) -> nested (S d) (JArray js)
  | nested_object d ms : (forall k j, (k, j) ∈ ms -> nested d j) -> nested (S d) (JObject ms).
  Lemma text_nested :
    (forall d j t, value_text huge d j t -> nested d j) /\
    (forall d js t, items_text huge d js t -> forall j, j ∈ js -> nested d j) /\
    (forall d ms t, members_text huge d ms t -> forall k j, (k, j) ∈ ms -> nested d j) /\
    (forall d m t, member_text huge d m t -> nested d (snd m)).
  Proof.
    apply (json_text_ind huge (fun d j t _ => nested d j) (fun d js t _ => forall j, j ∈ js -> nested d j)
      (fun d ms t _ => forall k j, (k, j) ∈ ms -> nested d j) (fun d m t _ => nested d (snd m))).
    1-3, 5: constructor.
    - intros d j t []; constructor.
    - intros d js t _ IH. by constructor.
    - intros d ms t _ IH. constructor. intros k j H. apply keep_last_sub in H. by eapply IH.
    - intros d w _ j H. by apply elem_of_nil in H.
    - intros d w1 j t w2 _ _ IH _ j' H. by apply elem_of_list_singleton in H as ->.
    - intros d w1 j t w2 js u _ _ IH _ _ IHu _ j' H. apply elem_of_cons in H as [->|H]; [done|by apply IHu].
    - intros d w _ k j H. by apply elem_of_nil in H.
    - intros d w1 m t w2 _ _ IH _ k j' H. apply elem_of_list_singleton in H as <-. exact IH.
    - intros d w1 m t w2 ms u _ _ IH _ _ IHu _ k j' H. apply elem_of_cons in H as [<-|H]; [exact IH|by eapply IHu].
    - intros d k j kt w1 w2 t _ _ _ _ IH. exact IH.
  Qed.
  Fixpoint kids_json (cs : list ast) : list json :=
    match cs with
    | [] => []
    | Rule c :: cs' => tree_json c :: kids_json cs'
    | Terminal t :: cs' => token_json t :: kids_json cs'
    | Error t :: cs' => token_json t :: kids_json cs'
    end.
  Fixpoint kids_levels (cs : list ast) : nat := match cs with [] => 0 | Rule c :: cs' => levels c `max` kids_levels cs' | _ :: cs' => kids_levels cs' end.
  Lemma tree_json_eq n cs i : tree_json (RuleCtx n cs i) = JObject [(lit "rule_index", JU64 i); (lit "rule_name", JString n); (lit "children", JArray (kids_json cs))].
  Proof. reflexivity. Qed.
  Lemma levels_eq n cs i : levels (RuleCtx n cs i) = S (kids_levels cs).
  Proof. reflexivity. Qed.
  Lemma kids_deepest cs : kids_levels cs = 0 \/ exists c, Rule c ∈ cs /\ kids_levels cs = levels c.
  Proof.
    induction cs as [|[t|c|t] cs IH]; [by left|..]; cbn [kids_levels].
    - destruct IH as [IH|(c & Hc & IH)]; [by left|]. right. exists c. split; [by apply elem_of_list_further|done].
    - right. destruct (Nat.max_spec (levels c) (kids_levels cs)) as [[Hl E]|[Hl E]]; rewrite E.
      + destruct IH as [IH|(c' & Hc & IH)]; [lia|]. exists c'. split; [by apply elem_of_list_further|done].
      + exists c. split; [apply elem_of_list_here|done].
    - destruct IH as [IH|(c & Hc & IH)]; [by left|]. right. exists c. split; [by apply elem_of_list_further|done].
  Qed.
  Lemma kids_json_in c cs : Rule c ∈ cs -> tree_json c ∈ kids_json cs.
  Proof.
    induction cs as [|a cs IH]; intros H; [by apply elem_of_nil in H|]. apply elem_of_cons in H as [<-|H]; [apply elem_of_list_here|].
    destruct a; cbn [kids_json]; apply elem_of_list_further; auto.
  Qed.
  Lemma nested_levels r : forall d, nested d (tree_json r) -> 2 * levels r <= d.
  Proof.
    revert r. refine (rule_ctx_rect' (fun a => match a with Rule r => forall d, nested d (tree_json r) -> 2 * levels r <= d | _ => True end) _ _ _ _ _); [done..|].
    intros n cs i HF d H. rewrite tree_json_eq in H. rewrite levels_eq. inversion H as [| | | | | |d1 ms Hm]; subst.
    specialize (Hm (lit "children") (JArray (kids_json cs))). assert (nested d1 (JArray (kids_json cs))) as H1 by (apply Hm; apply elem_of_list_In; cbn; auto).
    inversion H1 as [| | | | |d2 js Hj|]; subst. destruct (kids_deepest cs) as [->|(c & Hc & ->)]; [lia|].
    specialize (Hj _ (kids_json_in _ _ Hc)). apply Forall_forall with (x := Rule c) in HF; [|done]. cbn in HF. apply HF in Hj. lia.
  Qed.

  (** *** Every tree has a text *)
  Lemma decimal_snoc ds d : Forall is_digit ds -> is_digit d -> decimal (ds ++ [d]) = (10 * decimal ds + (d - 48))%N.
  Proof.
    intros H Hd. assert (Forall is_digit (ds ++ [d])) as Hf by (by apply Forall_app_2, Forall_singleton).
    rewrite <- !decimal_value_eq by done. unfold decimal_value. by rewrite fold_left_app.
  Qed.
  Lemma number_written n : exists i, int_text i /\ decimal i = n.
  Proof.
    induction n as [n IH] using (well_founded_induction N.lt_wf_0). destruct (N.lt_ge_cases n 10) as [Hn|Hn].
    - exists [(48 + n)%N]. split; [split; [split; [constructor; [red; lia|constructor]|done]|by intros r [= _ <-]]|]. cbn [decimal length N.of_nat]. rewrite N.pow_0_r. lia.
    - destruct (IH (n / 10)%N) as (i & [[Hd Hne] Hz] & E); [apply N.div_lt; lia|].
      pose proof (N.mod_lt n 10 ltac:(lia)) as Hm. assert (is_digit (48 + n mod 10)%N) as Hk by (unfold is_digit; revert Hm; generalize (n mod 10)%N; clear; intros; lia).
      exists (i ++ [(48 + n mod 10)%N]). split; [split; [split; [by apply Forall_app_2, Forall_singleton|by destruct i]|]|].
      + intros r Er. destruct i as [|x i]; [done|]. injection Er as -> <-. specialize (Hz i eq_refl) as ->. cbn in E.
        exfalso. assert (1 <= n / 10)%N by (apply N.div_le_lower_bound; lia). lia.
      + rewrite decimal_snoc by done. rewrite E. pose proof (N.div_mod n 10 ltac:(done)) as Hdm. revert Hdm. generalize (n mod 10)%N, (n / 10)%N. clear. intros. lia.
  Qed.
  Definition hex_char (v : N) : N := if (v <? 10)%N then (48 + v)%N else (87 + v)%N.
  Definition control_text (c : N) : str := [48; 48; hex_char (c / 16); hex_char (c mod 16)]%N.
  Lemma control_hex : forallb (fun i => bool_decide (match control_text (N.of_nat i) with [x; y; z; w] => hex4 x y z w | _ => None end = Some (N.of_nat i))) (seq 0 128) = true.
  Proof. vm_compute. reflexivity. Qed.
  Lemma string_written s : exists t, string_text s t.
  Proof.
    induction s as [|c s [t IH]]; [exists []; constructor|].
    destruct (decide (32 <= c /\ c <> 34 /\ c <> 92)%N) as [(H1 & H2 & H3)|H]; [exists (c :: t); by constructor|].
    assert (c < 128)%N as Hc.
    { destruct (N.lt_ge_cases c 128); [done|]. exfalso. apply H. lia. }
    exists (92%N :: 117%N :: control_text c ++ t). apply string_hex; [|unfold high_surrogate; lia|unfold low_surrogate; lia|done].
    pose proof control_hex as K. rewrite forallb_forall in K. specialize (K (N.to_nat c)). rewrite N2Nat.id in K.
    specialize (K ltac:(apply in_seq; lia)). apply bool_decide_eq_true in K. unfold control_text in *. by apply hex4_sound.
  Qed.
  Lemma usize_written d n : is_usize n -> exists t, value_text huge d (JU64 n) t.
  Proof.
    intros H. destruct (number_written (N.of_nat n)) as (i & Hi & E). exists i. apply text_number.
    replace (JU64 n) with (JU64 (N.to_nat (decimal i))) by (by rewrite E, Nat2N.id). apply number_u64; [done|]. by rewrite E.
  Qed.
  Lemma member_written d k j t : value_text huge d j t -> exists u, member_text huge d (k, j) u.
  Proof. intros H. destruct (string_written k) as [kt Hk]. eexists. apply (member_text_intro huge d k j kt [] [] t); [done|constructor|constructor|done]. Qed.
  Lemma three_members d m1 m2 m3 t1 t2 t3 : member_text huge d m1 t1 -> member_text huge d m2 t2 -> member_text huge d m3 t3 ->
    exists t, members_text huge d [m1; m2; m3] t.
  Proof.
    intros H1 H2 H3. eexists. apply (members_more huge d [] m1 t1 []); [constructor|done|constructor| |done].
    apply (members_more huge d [] m2 t2 []); [constructor|done|constructor| |done]. apply (members_one huge d [] m3 t3 []); [constructor|done|constructor].
  Qed.
  Lemma string_value d s : exists t, value_text huge d (JString s) t.
  Proof. destruct (string_written s) as [t Ht]. eexists. by apply text_string. Qed.
  Lemma token_written d t : is_usize (token_type t) -> exists u, value_text huge (S d) (token_json t) u.
  Proof.
    intros H. destruct (usize_written d _ H) as [t1 H1]. destruct (string_value d (token_name t)) as [t2 H2]. destruct (string_value d (text t)) as [t3 H3].
    apply (member_written _ (lit "token_type")) in H1 as [u1 H1]. apply (member_written _ (lit "token_name")) in H2 as [u2 H2].
    apply (member_written _ (lit "text")) in H3 as [u3 H3]. destruct (three_members _ _ _ _ _ _ _ H1 H2 H3) as [u Hu].
    eexists. change (token_json t) with (JObject (keep_last [(lit "token_type", JU64 (token_type t)); (lit "token_name", JString (token_name t)); (lit "text", JString (text t))])).
    apply text_object. exact Hu.
  Qed.
  Lemma tree_written r : usize_tree (Rule r) -> exists t, value_text huge (S (2 * levels r)) (tree_json r) t.
  Proof.
    revert r. refine (rule_ctx_rect' (fun a => match a with Rule r => usize_tree (Rule r) -> exists t, value_text huge (S (2 * levels r)) (tree_json r) t | _ => True end) _ _ _ _ _); [done..|].
    intros n cs i HF Hu. inversion Hu as [| |? ? ? Hi Hcs]; subst. rewrite tree_json_eq, levels_eq. set (d := S (2 * kids_levels cs)).
    assert (forall d', (forall c, Rule c ∈ cs -> S (2 * levels c) <= d') -> 1 <= d' -> exists t, items_text huge d' (kids_json cs) t) as K.
    { intros d' Hd' H1. clear d Hu. induction HF as [|c cs Hc HF IH]; [exists []; constructor; constructor|].
      inversion Hcs as [|? ? Hc1 Hcs1]; subst. destruct IH as [u IH]; [done|intros; apply Hd'; by apply elem_of_list_further|].
      assert (exists j t, kids_json (c :: cs) = j :: kids_json cs /\ value_text huge d' j t) as (j & t & -> & Ht).
      { destruct c as [tk|r|tk]; cbn [kids_json].
        - inversion Hc1; subst. destruct d' as [|d']; [lia|]. destruct (token_written d' tk) as [t Ht]; [done|]. by exists (token_json tk), t.
        - destruct (Hc Hc1) as [t Ht]. exists (tree_json r), t. split; [done|]. eapply text_mono; [exact Ht|]. apply Hd', elem_of_list_here.
        - inversion Hc1; subst. destruct d' as [|d']; [lia|]. destruct (token_written d' tk) as [t Ht]; [done|]. by exists (token_json tk), t. }
      destruct (kids_json cs) as [|j' js]; eexists.
      - apply (items_one huge d' [] j t []); [constructor|done|constructor].
      - apply (items_more huge d' [] j t []); [constructor|done|constructor|exact IH|done]. }
    destruct (K d) as [t3 H3]; [|unfold d; lia|].
    { intros c Hc. unfold d. assert (levels c <= kids_levels cs); [|lia]. clear -Hc. induction cs as [|a cs IH]; [by apply elem_of_nil in Hc|].
      apply elem_of_cons in Hc as [<-|Hc]; cbn [kids_levels]; [lia|]. specialize (IH Hc). destruct a; lia. }
    apply text_array in H3. destruct (usize_written (S d) i Hi) as [t1 H1]. destruct (string_value (S d) n) as [t2 H2].
    apply (member_written _ (lit "rule_index")) in H1 as [u1 H1]. apply (member_written _ (lit "rule_name")) in H2 as [u2 H2].
    apply (member_written _ (lit "children")) in H3 as [u3 H3]. destruct (three_members _ _ _ _ _ _ _ H1 H2 H3) as [u Hu'].
    eexists. replace (S (2 * S (kids_levels cs))) with (S (S d)) by (unfold d; lia).
    change (JObject [(lit "rule_index", JU64 i); (lit "rule_name", JString n); (lit "children", JArray (kids_json cs))])
      with (JObject (keep_last [(lit "rule_index", JU64 i); (lit "rule_name", JString n); (lit "children", JArray (kids_json cs))])).
    apply text_object. exact Hu'.
  Qed.

  (** *** The properties *)
  Lemma c62_accepts s r : from_str huge s = Ret (Some r) <-> exists j, document huge 127 j s /\ describes j r.
  Proof.
    unfold from_str. split.
    - destruct (json_from_str huge s) as [j| |] eqn:E; [|discriminate..]. intros H. exists j. split; [by apply json_iff|by apply c20_accepts].
    - intros (j & Hj & H). apply json_iff in Hj. rewrite Hj. by apply c20_accepts.
  Qed.
  Lemma c62_rejects s : from_str huge s = Ret None <-> forall j r, document huge 127 j s -> ~ describes j r.
  Proof.
    unfold from_str. pose proof (json_no_fuel huge s) as Hf. split.
    - intros H j r Hj. apply json_iff in Hj. rewrite Hj in H. by apply c20_rejects.
    - intros H. destruct (json_from_str huge s) as [j| |] eqn:E; [|done..]. apply c20_rejects. intros r. apply H. by apply json_iff.
  Qed.
  Lemma c62_total s : from_str huge s = Ret None \/ exists r, from_str huge s = Ret (Some r).
  Proof.
    unfold from_str. pose proof (json_no_fuel huge s) as Hf. destruct (json_from_str huge s) as [j| |]; [apply c20_total|by left|done].
  Qed.
  Lemma c63_reads r s : document huge 127 (tree_json r) s -> from_str huge s = Ret (Some (forget r)).
  Proof. intros H. apply c62_accepts. exists (tree_json r). split; [done|apply describes_tree_json]. Qed.
  Lemma c63_written r : levels r <= 63 -> usize_tree (Rule r) -> exists s, document huge 127 (tree_json r) s.
  Proof.
    intros Hl Hu. destruct (tree_written r Hu) as [t Ht]. exists t, [], t, []. split_and!; [constructor| |constructor|by rewrite app_nil_r].
    eapply text_mono; [exact Ht|]. lia.
  Qed.
  Lemma c63_deep r d s : 64 <= levels r -> document huge d (tree_json r) s -> from_str huge s = Ret None.
  Proof.
    intros Hl Hd. apply c62_rejects. intros j r' Hj _. pose proof (document_unique _ _ _ _ _ Hd Hj) as <-.
    destruct Hj as (w1 & t & w2 & _ & Ht & _). apply (proj1 text_nested) in Ht. apply nested_levels in Ht. lia.
  Qed.
  Lemma c62_shipped : json_from_str huge syntaxis2_text = JOk syntaxis2_json.
  Proof. vm_compute. reflexivity. Qed.
End Trees.

(** A tree with n levels. *)
Fixpoint tower (n : nat) : rule_ctx := match n with 0 => RuleCtx (lit "a") [] 0 | S n' => RuleCtx (lit "a") [Rule (tower n')] 0 end.
Lemma tower_levels n : levels (tower n) = S n.
Proof. induction n as [|n IH]; [done|]. cbn [tower]. rewrite levels_eq. cbn [kids_levels]. by rewrite IH, Nat.max_0_r. Qed.
Lemma tower_usize n : usize_tree (Rule (tower n)).
Proof. induction n as [|n IH]; cbn; constructor; try done; constructor; done. Qed.
Lemma c63_refuted : exists r, usize_tree (Rule r) /\ forall huge, exists d s, document huge d (tree_json r) s /\ from_str huge s = Ret None.
Proof.
  exists (tower 63). split; [apply tower_usize|]. intros huge. destruct (tree_written huge _ (tower_usize 63)) as [t Ht].
  assert (document huge (S (2 * levels (tower 63))) (tree_json (tower 63)) t) as H.
  { exists [], t, []. split_and!; [constructor|done|constructor|by rewrite app_nil_r]. }
  eexists _, t. split; [exact H|]. eapply c63_deep; [|exact H]. rewrite tower_levels. lia.
Qed.
Lemma c62_load huge : exists r, from_str huge syntaxis2_text = Ret (Some r) /\ exists g d, load_tree r = Ret (g, d) /\ load_ast syntaxis2_json = Ret (g, d).
Proof.
  exists shipped_tree. split; [unfold from_str; rewrite c62_shipped; apply shipped_from_value|].
  exists shipped, (rules_of shipped_tree). split; [|apply shipped_load]. pose proof shipped_load as H. unfold load_ast in H. rewrite shipped_from_value in H. exact H.
Qed.
Lemma ex_document : exists j, document (fun _ => false) 127 j (lit " { ""rule_index"" : 9, ""rule_index"":7, ""rule_name"":""a\n"", ""x"":[-1.5e3,null] ,""children"":[ ]}") /\
  describes j (RuleCtx [97; 10]%N [] 7).
Proof. apply c62_accepts. vm_compute. reflexivity. Qed.
Lemma ex_rejected huge : from_str huge (lit "{""rule_index"":07,""rule_name"":""a"",""children"":[]}") = Ret None /\
  from_str huge (lit "{""rule_index"":7,""rule_name"":""a"",""children"":[],}") = Ret None.
Proof. split; vm_compute; reflexivity. Qed.
Lemma ex_tower : levels (tower 62) = 63 /\ usize_tree (Rule (tower 62)) /\ levels (tower 63) = 64.
Proof. split; [apply tower_levels|]. split; [apply tower_usize|apply tower_levels]. Qed.
