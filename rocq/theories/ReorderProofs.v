(** ReorderProofs.v -- the order of the lexer rules (C93). *)
From Verif Require Export SpecReorder LexerMain.

Lemma named_rules_regex c : length (token_names c) = length (regex_list c) + 2 -> map fst (named_rules c) = regex_list c.
Proof. intros H. unfold named_rules. apply fst_zip. rewrite drop_length. lia. Qed.
Lemma named_rules_lookup c i r n : length (token_names c) = length (regex_list c) + 2 ->
  regex_list c !! i = Some r -> token_names c !! (i + 2) = Some n -> (r, n) ∈ named_rules c.
Proof.
  intros H Hr Hn. apply elem_of_list_lookup. exists i. unfold named_rules. apply lookup_zip_with_Some.
  exists r, n. split_and!; [done..|]. rewrite lookup_drop, Nat.add_comm. done.
Qed.
Lemma reordered_regex c c' : reordered c c' -> regex_list c ≡ₚ regex_list c'.
Proof. intros (_ & H & H' & Hp). rewrite <- (named_rules_regex c H), <- (named_rules_regex c' H'). by apply Permutation_map. Qed.

Lemma wins_longest c rest i len : wins (regex_list c) rest i len -> exists r, regex_list c !! i = Some r /\ longest c rest r len.
Proof.
  intros (Hl & (r & Hr & He) & Hall). exists r. split; [done|]. split; [done|]. split; [done|].
  intros r' e' Hin He'. apply elem_of_list_lookup in Hin as [j Hj]. by destruct (Hall j r' e' Hj He').
Qed.
Lemma longest_perm c c' rest r e : regex_list c ≡ₚ regex_list c' -> longest c rest r e -> longest c' rest r e.
Proof. intros Hp (H1 & H2 & H3). split; [done|]. split; [done|]. intros r' e' Hin. apply H3. by rewrite Hp. Qed.
Lemma select_perm c c' rest : regex_list c ≡ₚ regex_list c' ->
  let '(len, ty) := select (regex_list c) rest in let '(len', ty') := select (regex_list c') rest in
  (ty = 0 /\ ty' = 0) \/
  (len = len' /\ exists i i' r r', ty = i + 2 /\ ty' = i' + 2 /\ regex_list c !! i = Some r /\ regex_list c' !! i' = Some r' /\
    longest c rest r len /\ longest c rest r' len).
Proof.
  intros Hp. pose proof (select_spec (regex_list c) rest) as H. pose proof (select_spec (regex_list c') rest) as H'.
  destruct (select (regex_list c) rest) as [len ty], (select (regex_list c') rest) as [len' ty']. cbn [fst snd] in *.
  destruct H as [[-> Hs]|(i & -> & Hw)], H' as [[-> Hs']|(i' & -> & Hw')].
  - by left.
  - exfalso. destruct Hw' as (Hl & (r & Hr & He) & _). apply elem_of_list_lookup_2 in Hr. rewrite <- Hp in Hr. specialize (Hs _ _ Hr He). lia.
  - exfalso. destruct Hw as (Hl & (r & Hr & He) & _). apply elem_of_list_lookup_2 in Hr. rewrite Hp in Hr. specialize (Hs' _ _ Hr He). lia.
  - right. apply wins_longest in Hw as (r & Hr & HL), Hw' as (r' & Hr' & HL').
    apply (longest_perm c' c) in HL'; [|by symmetry].
    assert (len = len') as <-.
    { destruct HL as (E & Hp1 & Hm), HL' as (E' & Hp2 & Hm'). apply elem_of_list_lookup_2 in Hr. apply elem_of_list_lookup_2 in Hr'. rewrite <- Hp in Hr'.
      pose proof (Hm _ _ Hr' E'). pose proof (Hm' _ _ Hr E). lia. }
    split; [done|]. by exists i, i', r, r'.
Qed.

Lemma body_reordered c c' st : reordered c c' ->
  same_step (fun t t' => same_cut t t' /\ (no_ties c -> token_name t = token_name t') /\
    exists i i', token_type t = i + 2 /\ token_type t' = i' + 2 /\ token_names c !! (i + 2) = Some (token_name t) /\ token_names c' !! (i' + 2) = Some (token_name t'))
    (scan_body c st) (scan_body c' st).
Proof.
  intros Hr. pose proof (reordered_regex _ _ Hr) as Hp. destruct Hr as (Hi & Hn & Hn' & HP). unfold scan_body. rewrite <- Hi.
  destruct (drop_bytes (cursor st) (input c)) as [rest|]; cbn [unwrap rbind]; [|done].
  pose proof (select_perm c c' rest Hp) as H. destruct (select (regex_list c) rest) as [len ty], (select (regex_list c') rest) as [len' ty'].
  destruct H as [[-> ->]|(<- & i & i' & r & r' & -> & -> & Hr & Hr' & HL & HL')]; [done|].
  assert ((i + 2 <=? 0) = false) as -> by (apply Nat.leb_gt; lia). assert ((i' + 2 <=? 0) = false) as -> by (apply Nat.leb_gt; lia).
  destruct (slice_bytes (cursor st) (cursor st + len) (input c)) as [txt|]; cbn [unwrap rbind]; [|done].
  destruct (lookup_lt_is_Some_2 (token_names c) (i + 2)) as [n En]; [apply lookup_lt_Some in Hr; lia|].
  destruct (lookup_lt_is_Some_2 (token_names c') (i' + 2)) as [n' En']; [apply lookup_lt_Some in Hr'; lia|].
  rewrite En, En'. cbn [unwrap rbind same_step]. split; [|done]. split; [done|]. cbn [token_name token_type]. split; [|by exists i, i'].
  intros Hno. apply (Hno rest r n r' n' len); [by eapply named_rules_lookup| |done|done]. rewrite HP. by eapply named_rules_lookup.
Qed.
Lemma scan_reordered c c' st : reordered c c' ->
  same_step (fun t t' => same_cut t t' /\ (no_ties c -> token_name t = token_name t') /\
    ((token_type t = 1 /\ token_type t' = 1 /\ token_name t = lit "_STOP" /\ token_name t' = lit "_STOP") \/
     exists i i', token_type t = i + 2 /\ token_type t' = i' + 2 /\ token_names c !! (i + 2) = Some (token_name t) /\ token_names c' !! (i' + 2) = Some (token_name t')))
    (scan c st) (scan c' st).
Proof.
  intros Hr. pose proof (body_reordered c c' st Hr) as Hb. destruct Hr as (Hi & _). unfold scan. rewrite <- Hi.
  destruct (blen (input c) <? cursor st); [done|]. destruct (blen (input c) <=? cursor st).
  - cbn [same_step]. split; [|done]. split; [done|]. split; [done|]. by left.
  - destruct (scan_body c st) as [[[t|] s]| |], (scan_body c' st) as [[[t'|] s']| |]; cbn [same_step] in *; try done.
    destruct Hb as [(H1 & H2 & H3) ->]. split; [|done]. split; [done|]. split; [done|]. by right.
Qed.

Lemma c93_cuts c c' ts : reordered c c' -> forall st st', scanned (scan c) st ts st' ->
  exists ts', scanned (scan c') st ts' st' /\ Forall2 same_cut ts ts' /\ (no_ties c -> map token_name ts = map token_name ts') /\
    (scan c st' = Ret (SErr, st') <-> scan c' st' = Ret (SErr, st')).
Proof.
  intros Hr. induction ts as [|t ts IH]; intros st st' Hs; inversion Hs; subst.
  - exists []. split; [constructor|]. split; [constructor|]. split; [done|]. pose proof (scan_reordered c c' st' Hr) as H.
    destruct (scan c st') as [[[t|] s]| |], (scan c' st') as [[[t'|] s']| |]; cbn [same_step] in H; try done; split; intros; congruence.
  - match goal with H : scan c st = _ |- _ => rename H into Hsc end. pose proof (scan_reordered c c' st Hr) as H. rewrite Hsc in H.
    destruct (scan c' st) as [[[t'|] s']| |] eqn:E; cbn [same_step] in H; try done. destruct H as [(H1 & H2 & _) <-].
    match goal with H : scanned (scan c) _ ts st' |- _ => destruct (IH _ _ H) as (ts' & Hs' & Hc & Hn & He) end.
    exists (t' :: ts'). split; [by econstructor|]. split; [by constructor|]. split; [|done]. intros K. cbn [map]. by rewrite (H2 K), (Hn K).
Qed.

Lemma c93_scan_all c c' ws ws' n chan fuel st : reordered c c' -> no_ties c ->
  NoDup (token_names c) -> NoDup (token_names c') -> ws <> 1 -> ws' <> 1 -> token_names c !! ws = Some n -> token_names c' !! ws' = Some n ->
  match scan_all c ws chan fuel st, scan_all c' ws' chan fuel st with
  | Ret (toks, printed), Ret (toks', printed') => Forall2 same_token toks toks' /\ printed = printed'
  | Panic, Panic => True
  | OutOfFuel, OutOfFuel => True
  | _, _ => False
  end.
Proof.
  intros Hr Hno Hd Hd' Hw Hw' En En'.
  assert (Hloop : forall fuel st acc acc', Forall2 same_token acc acc' ->
    match scan_loop (scan c) (fun ty => ty =? ws) chan fuel st acc, scan_loop (scan c') (fun ty => ty =? ws') chan fuel st acc' with
    | Ret (toks, s), Ret (toks', s') => Forall2 same_token toks toks' /\ s = s'
    | Panic, Panic => True | OutOfFuel, OutOfFuel => True | _, _ => False end).
  { clear fuel st. induction fuel as [|fuel IH]; intros st acc acc' Hacc; [done|]. cbn [scan_loop].
    pose proof (scan_reordered c c' st Hr) as H.
    destruct (scan c st) as [[[t|] s]| |], (scan c' st) as [[[t'|] s']| |]; cbn [same_step rbind] in *; try done.
    destruct H as [(Hc & Hn & Hty) <-]. specialize (Hn Hno).
    assert ((token_type t =? ws) = (token_type t' =? ws')) as ->.
    { destruct Hty as [(-> & -> & _)|(i & i' & -> & -> & E & E')].
      - destruct (Nat.eqb_spec 1 ws), (Nat.eqb_spec 1 ws'); congruence.
      - destruct (Nat.eqb_spec (i + 2) ws) as [<-|Hne], (Nat.eqb_spec (i' + 2) ws') as [<-|Hne']; [done|exfalso..|done].
        + apply Hne'. eapply (NoDup_lookup _ _ _ n Hd'); [|done]. congruence.
        + apply Hne. eapply (NoDup_lookup _ _ _ n Hd); [|done]. congruence. }
    destruct (token_type t' =? ws'); [by apply IH|]. destruct Hc as (Hc1 & Hc2 & Hc3 & Hc4 & Hc5). rewrite Hc4.
    destruct (channel t' =? chan); [|by apply IH]. apply IH. apply Forall2_app; [done|]. constructor; [|constructor]. by split. }
  unfold scan_all. specialize (Hloop fuel st [] [] ltac:(constructor)).
  destruct (scan_loop (scan c) _ chan fuel st []) as [[toks s]| |], (scan_loop (scan c') _ chan fuel st []) as [[toks' s']| |]; try done.
  destruct Hloop as [Ht <-]. cbn [rbind]. destruct Hr as (Hi & _). rewrite <- Hi. destruct (cursor s <? blen (input c)); [|done].
  by destruct (drop_bytes (cursor s) (input c)).
Qed.

(** With a tie the order decides the type. *)
Definition ex_order_a (s : str) : lexer_cfg :=
  LexerCfg s [run (fun x => negb (is_blank x)); run (fun x => (x =? 97)%N); run is_blank] [lit "_START"; lit "_STOP"; lit "WORD"; lit "A"; lit "BLANK"].
Definition ex_order_b (s : str) : lexer_cfg :=
  LexerCfg s [run (fun x => (x =? 97)%N); run is_blank; run (fun x => negb (is_blank x))] [lit "_START"; lit "_STOP"; lit "A"; lit "BLANK"; lit "WORD"].
Lemma ex_reordered s : reordered (ex_order_a s) (ex_order_b s).
Proof.
  split_and!; [done..|]. unfold named_rules. cbn. apply Permutation_cons_append.
Qed.
Lemma c93_refuted : exists c c' t t' st, reordered c c' /\ scan c lexer_init = Ret (STok t, st) /\ scan c' lexer_init = Ret (STok t', st) /\ token_name t <> token_name t'.
Proof.
  exists (ex_order_a (lit "aa b")), (ex_order_b (lit "aa b")). eexists _, _, _. split; [apply ex_reordered|].
  split; [vm_compute; reflexivity|]. split; [vm_compute; reflexivity|]. by vm_compute.
Qed.

(** Words and blanks never tie. *)
Definition ex_order_c (s : str) : lexer_cfg :=
  LexerCfg s [run is_blank; run (fun _ => false); run (fun x => negb (is_blank x))] [lit "_START"; lit "_STOP"; lit "BLANK"; lit "NOTHING"; lit "WORD"].
Lemma ex_reordered_c s : reordered (ex_lexer s) (ex_order_c s).
Proof. split_and!; [done..|]. unfold named_rules. cbn. symmetry. apply (Permutation_cons_append [_; _] _). Qed.
Lemma ex_no_ties s : no_ties (ex_lexer s).
Proof.
  intros rest r n r' n' e Hr Hr' (L1 & L2 & _) (L1' & _ & _). unfold named_rules in *. cbn in Hr, Hr'.
  repeat (apply elem_of_cons in Hr as [Hr|Hr]); [injection Hr as -> ->..|by apply elem_of_nil in Hr];
    (repeat (apply elem_of_cons in Hr' as [Hr'|Hr']); [injection Hr' as -> ->..|by apply elem_of_nil in Hr']); try done; exfalso;
    unfold run in *; destruct rest as [|x rest]; cbn in L1, L1'; try destruct (is_blank x); cbn in L1, L1'; simplify_eq; lia.
Qed.
Lemma ex_c93 : reordered (ex_lexer ex_text) (ex_order_c ex_text) /\ no_ties (ex_lexer ex_text) /\
  exists toks toks', scan_all (ex_lexer ex_text) 4 0 20 lexer_init = Ret (toks, None) /\ scan_all (ex_order_c ex_text) 2 0 20 lexer_init = Ret (toks', None) /\
    map token_name toks = map token_name toks' /\ map token_type toks = [3; 3; 1] /\ map token_type toks' = [4; 4; 1].
Proof.
  split; [apply ex_reordered_c|]. split; [apply ex_no_ties|]. eexists _, _. split; [vm_compute; reflexivity|]. split; [vm_compute; reflexivity|]. done.
Qed.

Lemma c93_scan c c' st : reordered c c' ->
  same_step (fun t t' => same_cut t t' /\ (no_ties c -> token_name t = token_name t')) (scan c st) (scan c' st) /\
  same_step (fun t t' => same_cut t t' /\ (no_ties c -> token_name t = token_name t')) (scan0 c st) (scan0 c' st).
Proof.
  intros Hr. split.
  - pose proof (scan_reordered c c' st Hr) as H. destruct (scan c st) as [[[t|] s]| |], (scan c' st) as [[[t'|] s']| |]; cbn [same_step] in *; tauto.
  - pose proof (body_reordered c c' st Hr) as H. unfold scan0. destruct (scan_body c st) as [[[t|] s]| |], (scan_body c' st) as [[[t'|] s']| |]; cbn [same_step] in *; tauto.
Qed.
