(** LexerMain.v -- the scanner properties in final form, and the witnesses. *)
From Verif Require Export LexerProofs.

Lemma is_stop_token st : is_stop (stop_token st).
Proof. done. Qed.

(** Reading off a consecutive token sequence. *)
Lemma tokens_from_split pre n ts a t b :
  tokens_from pre n ts -> ts = a ++ t :: b -> token_at (pre ++ texts a) (n + length a) t.
Proof.
  intros H ->. revert pre n H. induction a as [|x a IH]; intros pre n H; simpl in *.
  - destruct H as [H _]. unfold texts; simpl. by rewrite app_nil_r, Nat.add_0_r.
  - destruct H as [_ H]. apply IH in H. rewrite texts_cons, (assoc_L (++)). by rewrite <- Nat.add_succ_comm.
Qed.
Lemma munched_split c ts rest a t b :
  munched c ts rest -> ts = a ++ t :: b ->
  exists i, token_type t = i + 2 /\ token_names c !! (i + 2) = Some (token_name t) /\
    wins (regex_list c) (text t ++ texts b ++ rest) i (blen (text t)).
Proof.
  intros H ->. induction a as [|x a IH]; simpl in H.
  - destruct H as [(i & H1 & H2 & H3) _]. exists i. split_and!; [done|done|].
    rewrite texts_cons, <- (assoc_L (++)) in H3. done.
  - apply IH. apply H.
Qed.

(** A run that consumed exactly its texts contains no _STOP. *)
Lemma scanned_exact c ts st rest :
  lexer_ok c -> scanned (scan c) lexer_init ts st -> input c = texts ts ++ rest ->
  lex_inv c (texts ts) rest (length ts) st /\ tokens_from [] 0 ts /\ munched c ts rest /\
  Forall (fun t => text t <> [] /\ token_type t <> 1) ts.
Proof.
  intros Hok Hs Hin.
  destruct (scanned_spec _ _ _ _ _ _ _ Hok (lex_inv_init c) Hs) as (ts0 & rest' & E & Hf & Hm & Hall & Hcase).
  destruct Hcase as [[-> Hi]|(-> & Hc & st1 & Hi & ->)].
  - simpl in *. assert (rest = rest') as -> by (rewrite E in Hin; by apply app_inv_head in Hin). done.
  - exfalso. rewrite texts_app, E in Hin. apply (f_equal blen) in Hin. rewrite !blen_app in Hin.
    change (texts [stop_token st1]) with (lit "_STOP") in Hin. change (blen (lit "_STOP")) with 5 in Hin.
    simpl in Hin. lia.
Qed.

(** ** C05 *)
Lemma c05_scan c ts st :
  lexer_ok c -> scanned (scan c) lexer_init ts st ->
  exists ts0 rest,
    input c = texts ts0 ++ rest /\
    (ts = ts0 \/ (rest = [] /\ exists s, is_stop s /\ ts = ts0 ++ [s])) /\
    forall a t b, ts0 = a ++ t :: b ->
      char_start_index t = blen (texts a) /\ char_stop_index t = blen (texts (a ++ [t])) /\
      slice_bytes (char_start_index t) (char_stop_index t) (input c) = Some (text t).
Proof.
  intros Hok Hs.
  destruct (scanned_spec _ _ _ _ _ _ _ Hok (lex_inv_init c) Hs) as (ts0 & rest & E & Hf & _ & _ & Hcase).
  exists ts0, rest. split_and!; [done| |].
  - destruct Hcase as [[-> _]|(-> & _ & st1 & _ & ->)]; [by left|right]. split; [done|]. by exists (stop_token st1).
  - intros a t b Hsp. destruct (tokens_from_split _ _ _ _ _ _ Hf Hsp) as (H1 & H2 & _). simpl in *.
    rewrite texts_app, texts_single. split_and!; [done|done|].
    rewrite H1, H2, E, Hsp, texts_app, texts_cons, <- !(assoc_L (++)). apply slice_bytes_app.
Qed.
Lemma c05_scan0 c ts st :
  lexer_ok c -> scanned (scan0 c) lexer_init ts st ->
  exists rest, input c = texts ts ++ rest /\
    forall a t b, ts = a ++ t :: b ->
      char_start_index t = blen (texts a) /\ char_stop_index t = blen (texts (a ++ [t])) /\
      slice_bytes (char_start_index t) (char_stop_index t) (input c) = Some (text t).
Proof.
  intros Hok Hs.
  destruct (scanned0_spec _ _ _ _ _ _ _ Hok (lex_inv_init c) Hs) as (rest & E & Hf & _).
  exists rest. split_and!; [done|].
  intros a t b Hsp. destruct (tokens_from_split _ _ _ _ _ _ Hf Hsp) as (H1 & H2 & _). simpl in *.
  rewrite texts_app, texts_single. split_and!; [done|done|].
  rewrite H1, H2, E, Hsp, texts_app, texts_cons, <- !(assoc_L (++)). apply slice_bytes_app.
Qed.

(** ** C06 *)
Lemma c06_munch c ts st rest :
  lexer_ok c -> scanned (scan c) lexer_init ts st -> input c = texts ts ++ rest -> rest <> [] ->
  (exists t st', scan c st = Ret (STok t, st') /\
     exists i, token_type t = i + 2 /\ token_names c !! (i + 2) = Some (token_name t) /\
       wins (regex_list c) rest i (blen (text t)) /\ exists rest', rest = text t ++ rest') \/
  (scan c st = Ret (SErr, st) /\ stuck (regex_list c) rest).
Proof.
  intros Hok Hs Hin Hne. destruct (scanned_exact _ _ _ _ Hok Hs Hin) as (Hinv & _).
  destruct (scan_spec _ _ _ _ _ Hok Hinv) as [(_ & H & Hst)|[(t & st' & rest' & H & -> & _ & _ & _ & Hm & _)|(-> & _)]].
  - by right.
  - left. exists t, st'. split; [done|]. destruct Hm as [(i & H1 & H2 & H3) _]. exists i. split_and!; [done|done| |by exists rest'].
    unfold texts in H3. simpl in H3. by rewrite app_nil_r in H3.
  - done.
Qed.
Lemma c06_munch0 c ts st rest :
  lexer_ok c -> scanned (scan0 c) lexer_init ts st -> input c = texts ts ++ rest ->
  (exists t st', scan0 c st = Ret (STok t, st') /\
     exists i, token_type t = i + 2 /\ token_names c !! (i + 2) = Some (token_name t) /\
       wins (regex_list c) rest i (blen (text t)) /\ exists rest', rest = text t ++ rest') \/
  (scan0 c st = Ret (SErr, st) /\ stuck (regex_list c) rest).
Proof.
  intros Hok Hs Hin.
  destruct (scanned0_spec _ _ _ _ _ _ _ Hok (lex_inv_init c) Hs) as (rest0 & E & _ & _ & Hinv & _). simpl in *.
  assert (rest0 = rest) as -> by (rewrite E in Hin; by apply app_inv_head in Hin).
  destruct (scan_body_spec _ _ _ _ _ Hok Hinv) as [(H & Hst)|(t & st' & rest' & H & -> & _ & _ & Hm & _)].
  - by right.
  - left. exists t, st'. split; [done|]. destruct Hm as [(i & H1 & H2 & H3) _]. exists i. split_and!; [done|done| |by exists rest'].
    unfold texts in H3. simpl in H3. by rewrite app_nil_r in H3.
Qed.

(** ** C07, C08, C10: scan_all *)
Lemma c07_progress c ts st t st' :
  lexer_ok c -> scanned (scan c) lexer_init ts st -> scan c st = Ret (STok t, st') ->
  token_type t = 1 \/ text t <> [].
Proof.
  intros Hok Hs Ht.
  assert (Hs' : scanned (scan c) lexer_init (ts ++ [t]) st').
  { eapply scanned_app; [done|]. econstructor; [done|constructor]. }
  destruct (scanned_spec _ _ _ _ _ _ _ Hok (lex_inv_init c) Hs') as (ts0 & rest & E & Hf & _ & Hall & Hcase).
  destruct Hcase as [[<- _]|(_ & _ & st1 & _ & Hc)].
  - right. apply Forall_app in Hall as [_ Hall]. by apply Forall_singleton in Hall as [? _].
  - left. apply app_inj_tail in Hc as [_ ->]. done.
Qed.

Lemma scan_all_full c ws chan fuel :
  lexer_ok c -> ws <> 1 -> length (input c) + 2 <= fuel ->
  exists ts rest st, scanned (scan c) lexer_init ts st /\ input c = texts ts ++ rest /\
    ((rest <> [] /\ stuck (regex_list c) rest /\
      scan_all c ws chan fuel lexer_init =
        Ret (if chan =? 0 then filter (fun t => token_type t <> ws) ts else [], Some rest)) \/
     (rest = [] /\ exists s, is_stop s /\ token_index s = length ts /\ channel s = 0 /\
      position_after (input c) (start s) /\ position_after (input c) (stop s) /\
      scan_all c ws chan fuel lexer_init =
        Ret (if chan =? 0 then filter (fun t => token_type t <> ws) ts ++ [s] else [], None))).
Proof.
  intros Hok Hws Hf.
  destruct (scan_loop_spec c ws chan [] (input c) 0 lexer_init [] fuel Hok Hws (lex_inv_init c) Hf)
    as (ts & rest & st1 & Hs & Hin & Hinv & _ & Hcase). simpl in *.
  exists ts, rest, st1. split_and!; [done|done|]. unfold scan_all.
  destruct Hcase as [(Hne & Hst & ->)|(-> & st2 & Hc & _ & ->)]; simpl.
  - left. split_and!; [done|done|]. destruct Hinv as (Hi & Hcu & _). rewrite Hcu, Hi, blen_app.
    assert (0 < blen rest). { destruct rest; [done|]. simpl. pose proof (utf8_len_pos n). lia. }
    destruct (blen (texts ts) <? blen (texts ts) + blen rest) eqn:E; [|apply Nat.ltb_ge in E; lia].
    rewrite drop_bytes_app. done.
  - right. split; [done|]. exists (stop_token st1). destruct Hinv as (Hi & Hcu & Hn & Hp).
    rewrite app_nil_r in Hi. rewrite <- Hi in Hp. split_and!; try done.
    rewrite Hc. destruct (blen (input c) + 10 <? blen (input c)) eqn:E; [apply Nat.ltb_lt in E; lia|]. done.
Qed.
Lemma c07_terminates c ws chan fuel :
  lexer_ok c -> ws <> 1 -> length (input c) + 2 <= fuel ->
  exists out, scan_all c ws chan fuel lexer_init = Ret out.
Proof.
  intros Hok Hws Hf. destruct (scan_all_full c ws chan fuel Hok Hws Hf) as (ts & rest & st & _ & _ & [H|H]).
  - destruct H as (_ & _ & H). eauto.
  - destruct H as (_ & s & _ & _ & _ & _ & _ & H). eauto.
Qed.

Lemma c08_stop c ws fuel toks printed :
  lexer_ok c -> ws <> 1 -> length (input c) + 2 <= fuel ->
  scan_all c ws 0 fuel lexer_init = Ret (toks, printed) ->
  exists ts rest st, scanned (scan c) lexer_init ts st /\ input c = texts ts ++ rest /\
    Forall (fun t => token_type t <> 1) ts /\
    ((rest = [] /\ printed = None /\ exists s, is_stop s /\ toks = filter (fun t => token_type t <> ws) ts ++ [s]) \/
     (rest <> [] /\ stuck (regex_list c) rest /\ printed = Some rest /\
      toks = filter (fun t => token_type t <> ws) ts)).
Proof.
  intros Hok Hws Hf H. destruct (scan_all_full c ws 0 fuel Hok Hws Hf) as (ts & rest & st & Hs & Hin & Hcase).
  exists ts, rest, st. destruct (scanned_exact _ _ _ _ Hok Hs Hin) as (_ & _ & _ & Hall).
  split_and!; [done|done|by eapply Forall_impl; [exact Hall|]; intros ? [_ ?]|].
  destruct Hcase as [(Hne & Hst & E)|(-> & s & Hs1 & _ & _ & _ & _ & E)]; rewrite E in H; simpl in H; injection H as <- <-.
  - by right.
  - left. split_and!; [done|done|]. by exists s.
Qed.
Lemma c08_after_stop c ts s st :
  lexer_ok c -> scanned (scan c) lexer_init (ts ++ [s]) st -> token_type s = 1 -> scan c st = Ret (SErr, st).
Proof.
  intros Hok Hs Ht.
  destruct (scanned_spec _ _ _ _ _ _ _ Hok (lex_inv_init c) Hs) as (ts0 & rest & E & _ & _ & Hall & Hcase).
  destruct Hcase as [[<- _]|(_ & Hc & _)].
  - apply Forall_app in Hall as [_ Hall]. apply Forall_singleton in Hall as [_ ?]. done.
  - apply scan_past_end. lia.
Qed.

(** Hand-written lexer. *)
Lemma scan_loop0_spec c skip chan pre rest n st acc fuel :
  lexer_ok c -> lex_inv c pre rest n st -> length rest + 1 <= fuel ->
  exists ts rest' st1, scanned (scan0 c) st ts st1 /\ rest = texts ts ++ rest' /\
    stuck (regex_list c) rest' /\ lex_inv c (pre ++ texts ts) rest' (n + length ts) st1 /\
    scan_loop (scan0 c) skip chan fuel st acc =
        Ret (acc ++ (if chan =? 0 then filter (fun t => skip (token_type t) = false) ts else []), st1).
Proof.
  intros Hok. revert pre rest n st acc. induction fuel as [|fuel IH]; intros pre rest n st acc Hinv Hf; [lia|].
  simpl. destruct (scan_body_spec _ _ _ _ _ Hok Hinv) as [(H & Hs)|(t & st' & rest' & H & -> & Hne & Hat & Hm & Hinv')];
    unfold scan0 at 2; rewrite H; simpl.
  - exists [], rest, st. unfold texts; simpl. rewrite app_nil_r, Nat.add_0_r. split_and!; try done; [constructor|].
    destruct (chan =? 0); by rewrite app_nil_r.
  - assert (Hch : channel t = 0) by apply Hat.
    assert (length rest' + 1 <= fuel).
    { rewrite app_length in Hf. destruct (text t); simpl in *; [done|lia]. }
    set (acc' := if skip (token_type t) then acc else if channel t =? chan then acc ++ [t] else acc).
    destruct (IH (pre ++ text t) rest' (S n) st' acc' Hinv') as (ts & r2 & st1 & Hsc & -> & Hst & Hi & Hl); [done|].
    exists (t :: ts), r2, st1. rewrite texts_cons, !(assoc_L (++)). split_and!.
    + by econstructor.
    + done.
    + done.
    + simpl. by rewrite <- Nat.add_succ_comm.
    + transitivity (scan_loop (scan0 c) skip chan fuel st' acc').
      { unfold acc'. by destruct (skip (token_type t)), (channel t =? chan). }
      rewrite Hl. f_equal. f_equal. unfold acc'. rewrite filter_cons, Hch, (Nat.eqb_sym 0 chan).
      destruct (skip (token_type t)) eqn:E.
      * rewrite decide_False by done. done.
      * rewrite decide_True by done. destruct (chan =? 0); simpl; [by rewrite <- (assoc_L (++))|done].
Qed.
Lemma c10_scan_all0 c chan fuel :
  lexer_ok c -> length (input c) + 1 <= fuel ->
  exists ts rest st, scanned (scan0 c) lexer_init ts st /\ input c = texts ts ++ rest /\
    stuck (regex_list c) rest /\
    scan_all0 c chan fuel lexer_init =
      Ret (if chan =? 0 then filter (fun t => token_type t ∉ [2; 3; 4]) ts else [], Some rest).
Proof.
  intros Hok Hf. unfold scan_all0.
  destruct (scan_loop0_spec c (fun ty => (ty =? 2) || (ty =? 3) || (ty =? 4)) chan [] (input c) 0 lexer_init [] fuel Hok (lex_inv_init c) Hf)
    as (ts & rest & st & Hs & Hin & Hst & Hinv & ->). simpl.
  exists ts, rest, st. split_and!; try done. destruct Hinv as (Hi & Hcu & _). simpl in *.
  rewrite Hcu, Hi, drop_bytes_app. simpl. f_equal. f_equal. destruct (chan =? 0); [|done].
  apply list_filter_iff. intros t. destruct (token_type t) as [|[|[|[|[|k]]]]]; simpl; set_solver by lia.
Qed.
Lemma c10_scan_all c ws chan fuel :
  lexer_ok c -> ws <> 1 -> length (input c) + 2 <= fuel ->
  exists ts st toks printed, scanned (scan c) lexer_init ts st /\
    scan c st = Ret (SErr, st) /\
    scan_all c ws chan fuel lexer_init = Ret (toks, printed) /\
    toks = (if chan =? 0 then filter (fun t => token_type t <> ws) ts else []) /\
    forall k t, ts !! k = Some t -> token_index t = k.
Proof.
  intros Hok Hws Hf.
  destruct (scan_loop_spec c ws chan [] (input c) 0 lexer_init [] fuel Hok Hws (lex_inv_init c) Hf)
    as (ts & rest & st1 & Hs & Hin & Hinv & _ & Hcase). simpl in *.
  destruct (scanned_exact _ _ _ _ Hok Hs Hin) as (_ & Htf & _ & _).
  assert (Hidx : forall k t, ts !! k = Some t -> token_index t = k).
  { intros k t Hk. apply elem_of_list_split_length in Hk as (a & b & -> & ->).
    destruct (tokens_from_split _ _ _ _ _ _ Htf eq_refl) as (_ & _ & H & _). done. }
  destruct (scan_all_full c ws chan fuel Hok Hws Hf) as (ts' & rest' & st' & _ & _ & _).
  unfold scan_all. destruct Hcase as [(Hne & Hst & ->)|(-> & st2 & Hc & Hsc & ->)]; simpl.
  - exists ts, st1. destruct Hinv as (Hi & Hcu & Hn & Hp).
    destruct (scan_spec c (texts ts) rest (length ts) st1 Hok) as [(_ & H & _)|[(t & st'' & r & H & -> & Hnn & _ & _ & Hm & _)|(-> & _)]];
      [done| | |done].
    + eexists _, (Some rest). split_and!; [done|done| |done|done].
      rewrite Hcu, Hi, blen_app.
      assert (0 < blen rest). { destruct rest; [done|]. simpl. pose proof (utf8_len_pos n). lia. }
      destruct (blen (texts ts) <? blen (texts ts) + blen rest) eqn:E; [|apply Nat.ltb_ge in E; lia].
      rewrite drop_bytes_app. done.
    + exfalso. destruct Hm as [(i & _ & _ & Hw) _]. unfold texts in Hw; simpl in Hw. rewrite app_nil_r in Hw. by eapply wins_stuck.
  - exists (ts ++ [stop_token st1]), st2. eexists _, None. split_and!.
    + eapply scanned_app; [done|]. econstructor; [done|constructor].
    + apply scan_past_end. lia.
    + rewrite Hc. destruct (blen (input c) + 10 <? blen (input c)) eqn:E; [apply Nat.ltb_lt in E; lia|]. done.
    + destruct (chan =? 0); [|done]. rewrite filter_app. f_equal. rewrite filter_cons_True by (simpl; lia). done.
    + intros k t [Hk|[Hk1 Hk2]]%lookup_app_Some; [by apply Hidx|].
      destruct (k - length ts) as [|m] eqn:Em; [|by destruct m]. injection Hk2 as <-. simpl.
      destruct Hinv as (_ & _ & Hn & _). lia.
Qed.

(** ** C09 *)
Lemma c09_positions c ts st a t b :
  lexer_ok c -> scanned (scan c) lexer_init ts st -> ts = a ++ t :: b ->
  position_after (texts a) (start t) /\
  (token_type t <> 1 -> position_after (texts (a ++ [t])) (stop t)) /\
  (token_type t = 1 -> texts a = input c /\ stop t = start t).
Proof.
  intros Hok Hs Hsp.
  destruct (scanned_spec _ _ _ _ _ _ _ Hok (lex_inv_init c) Hs) as (ts0 & rest & E & Hf & _ & Hall & Hcase).
  assert (Hord : forall b', ts0 = a ++ t :: b' -> position_after (texts a) (start t) /\
    (token_type t <> 1 -> position_after (texts (a ++ [t])) (stop t)) /\
    (token_type t = 1 -> texts a = input c /\ stop t = start t)).
  { intros b' Hb'. destruct (tokens_from_split _ _ _ _ _ _ Hf Hb') as (_ & _ & _ & _ & H5 & H6). simpl in *.
    rewrite texts_app, texts_single. split_and!; [done|done|].
    intros H1. rewrite Hb' in Hall. apply Forall_app in Hall as [_ Hall]. apply Forall_cons in Hall as [[_ ?] _]. done. }
  destruct Hcase as [[-> _]|(-> & _ & st1 & Hi & ->)]; [by eapply Hord|].
  destruct b as [|x b _] using rev_ind.
  - apply app_inj_tail in Hsp as [<- <-]. destruct Hi as (Hi & _ & _ & Hp). simpl in *. rewrite app_nil_r in Hi.
    split_and!; [done|done|]. done.
  - rewrite app_comm_cons, (assoc_L (++)) in Hsp. apply app_inj_tail in Hsp as [Hsp _]. by eapply Hord.
Qed.
Lemma c09_positions0 c ts st a t b :
  lexer_ok c -> scanned (scan0 c) lexer_init ts st -> ts = a ++ t :: b ->
  position_after (texts a) (start t) /\ position_after (texts (a ++ [t])) (stop t) /\ token_index t = length a.
Proof.
  intros Hok Hs Hsp.
  destruct (scanned0_spec _ _ _ _ _ _ _ Hok (lex_inv_init c) Hs) as (rest & E & Hf & _).
  destruct (tokens_from_split _ _ _ _ _ _ Hf Hsp) as (_ & _ & H3 & _ & H5 & H6). simpl in *.
  by rewrite texts_app, texts_single.
Qed.

(** ** C11 *)
Lemma c11_ordinary c ts st t :
  lexer_ok c -> scanned (scan c) lexer_init ts st -> t ∈ ts -> token_type t <> 1 ->
  char_start_index t < char_stop_index t <= blen (input c).
Proof.
  intros Hok Hs Ht Hty. destruct (elem_of_list_split _ _ Ht) as (a & b & Hsp).
  destruct (scanned_spec _ _ _ _ _ _ _ Hok (lex_inv_init c) Hs) as (ts0 & rest & E & Hf & _ & Hall & Hcase).
  assert (Hord : t ∈ ts0).
  { destruct Hcase as [[-> _]|(_ & _ & st1 & _ & ->)]; [done|].
    apply elem_of_app in Ht as [?|Ht]; [done|]. apply elem_of_list_singleton in Ht as ->. by exfalso. }
  destruct (elem_of_list_split _ _ Hord) as (a' & b' & Hsp').
  destruct (tokens_from_split _ _ _ _ _ _ Hf Hsp') as (H1 & H2 & _). simpl in *. rewrite H1, H2, E, Hsp'.
  rewrite texts_app, texts_cons, !blen_app.
  rewrite Forall_forall in Hall. destruct (Hall _ Hord) as [Hne _].
  assert (0 < blen (text t)). { destruct (text t); [done|]. simpl. pose proof (utf8_len_pos n). lia. }
  lia.
Qed.
Lemma c11_stop c ts st t :
  lexer_ok c -> scanned (scan c) lexer_init ts st -> t ∈ ts -> token_type t = 1 ->
  char_start_index t = blen (input c) + 10 /\ char_stop_index t = blen (input c) + 10 /\
  slice_bytes (char_start_index t) (char_stop_index t) (input c) = None.
Proof.
  intros Hok Hs Ht Hty.
  destruct (scanned_spec _ _ _ _ _ _ _ Hok (lex_inv_init c) Hs) as (ts0 & rest & E & Hf & _ & Hall & Hcase).
  rewrite Forall_forall in Hall.
  assert (exists st1, t = stop_token st1 /\ cursor st1 = blen (input c)) as (st1 & -> & Hc).
  { destruct Hcase as [[-> _]|(_ & _ & st1 & Hi & ->)]; [by destruct (Hall _ Ht)|].
    apply elem_of_app in Ht as [Ht|Ht]; [by destruct (Hall _ Ht)|]. apply elem_of_list_singleton in Ht as ->.
    exists st1. split; [done|]. destruct Hi as (-> & -> & _). by rewrite app_nil_r. }
  simpl. rewrite Hc. split_and!; [done|done|]. unfold slice_bytes.
  destruct (_ <? _) eqn:El; [done|]. destruct (drop_bytes _ _) as [r|] eqn:Ed; [|done].
  apply drop_bytes_inv in Ed as (p & Hp & Hl). rewrite Hp, blen_app in Hl. lia.
Qed.

(** ** C12 *)
Lemma ascii_blen s : ascii s -> blen s = length s.
Proof.
  induction 1 as [|x s Hx _ IH]; simpl; [done|]. unfold utf8_len. apply N.ltb_lt in Hx. rewrite Hx, IH. done.
Qed.
Lemma c12_ascii c ts st a t b :
  lexer_ok c -> scanned (scan c) lexer_init ts st -> ts = a ++ t :: b -> token_type t <> 1 -> ascii (input c) ->
  char_start_index t = length (texts a) /\ char_stop_index t = length (texts (a ++ [t])) /\
  exists l, char_position (start t) = length l /\ newlines l = 0 /\
    exists l0, texts a = l0 ++ l /\ (l0 = [] \/ exists l1, l0 = l1 ++ [10%N]).
Proof.
  intros Hok Hs Hsp Hty Has.
  destruct (c09_positions _ _ _ _ _ _ Hok Hs Hsp) as (Hp & _ & _).
  destruct (c05_scan _ _ _ Hok Hs) as (ts0 & rest & E & Hcase & Hoff).
  assert (exists b', ts0 = a ++ t :: b') as [b' Hb'].
  { destruct Hcase as [<-|(_ & s & Hst & Hts)]; [by exists b|].
    destruct b as [|x b _] using rev_ind.
    - rewrite Hts in Hsp. apply app_inj_tail in Hsp as [_ ->]. by destruct Hst.
    - rewrite Hts, app_comm_cons, (assoc_L (++)) in Hsp. apply app_inj_tail in Hsp as [-> _]. by exists b. }
  destruct (Hoff _ _ _ Hb') as (H1 & H2 & _).
  unfold ascii in Has. rewrite E, Hb', texts_app, texts_cons in Has.
  rewrite !Forall_app in Has. destruct Has as [[Ha [Ht _]] _].
  rewrite H1, H2, texts_app, texts_single.
  rewrite !ascii_blen; [|by apply Forall_app|done]. split_and!; [done|done|].
  destruct Hp as (_ & l0 & l & Hl & Hn & Hl0 & Hc). exists l. rewrite Hc. split_and!; [|done|].
  - apply ascii_blen. rewrite Hl in Ha. by apply Forall_app in Ha as [_ ?].
  - by exists l0.
Qed.

(** ** A concrete lexer: words (any characters except blank and newline), blanks, and a rule that
    only ever matches the empty string. *)
Fixpoint run_len (p : N -> bool) (s : str) : nat :=
  match s with
  | x :: s' => if p x then utf8_len x + run_len p s' else 0
  | [] => 0
  end.
Definition run (p : N -> bool) : matcher := fun s => Some (run_len p s).
Definition is_blank (x : N) : bool := (x =? 32)%N || (x =? 10)%N.
Definition ex_lexer (s : str) : lexer_cfg :=
  LexerCfg s [run (fun _ => false); run (fun x => negb (is_blank x)); run is_blank]
    [lit "_START"; lit "_STOP"; lit "NOTHING"; lit "WORD"; lit "BLANK"].
Lemma run_boundary p s : exists m rest, s = m ++ rest /\ blen m = run_len p s.
Proof.
  induction s as [|x s (m & rest & -> & Hm)]; simpl; [by exists [], []|].
  destruct (p x); [|by exists [], (x :: m ++ rest)]. exists (x :: m), rest. simpl. by rewrite Hm.
Qed.
Lemma ex_lexer_ok s : lexer_ok (ex_lexer s).
Proof.
  split; [|done]. intros r s0 e Hr He. simpl in Hr.
  assert (exists p, r = run p) as [p ->].
  { apply elem_of_cons in Hr as [->|Hr]; [eauto|]. apply elem_of_cons in Hr as [->|Hr]; [eauto|].
    apply elem_of_list_singleton in Hr as ->. eauto. }
  injection He as <-. apply run_boundary.
Qed.
(** "ab ε" and a newline *)
Definition ex_text : str := lit "ab " ++ [949%N; 10%N].
Lemma ex_scan_all : exists toks, scan_all (ex_lexer ex_text) 4 0 10 lexer_init = Ret (toks, None) /\
  map token_type toks = [3; 3; 1] /\ map text toks = [lit "ab"; [949%N]; lit "_STOP"] /\ map token_index toks = [0; 2; 4].
Proof. eexists. split; [vm_compute; reflexivity|]. by vm_compute. Qed.
Lemma ex_scanned : exists t st, scanned (scan (ex_lexer [])) lexer_init [t] st /\ token_type t = 1.
Proof.
  eexists _, _. split; [|shelve]. econstructor; [vm_compute; reflexivity|constructor].
  Unshelve. done.
Qed.
Lemma c11_refuted :
  exists c ts st t, lexer_ok c /\ scanned (scan c) lexer_init ts st /\ t ∈ ts /\ blen (input c) < char_stop_index t.
Proof.
  destruct ex_scanned as (t & st & Hs & Ht). exists (ex_lexer []), [t], st, t.
  split_and!; [apply ex_lexer_ok|done|by apply elem_of_list_singleton|].
  destruct (c11_stop _ _ _ t (ex_lexer_ok []) Hs) as (_ & -> & _); [by apply elem_of_list_singleton|done|]. lia.
Qed.
Lemma c12_refuted :
  exists c ts st a t b, lexer_ok c /\ scanned (scan c) lexer_init ts st /\ ts = a ++ t :: b /\
    token_type t <> 1 /\ newlines (texts a) = 0 /\
    char_start_index t <> length (texts a) /\ char_position (start t) <> length (texts a).
Proof.
  assert (exists t1 t2 st, scanned (scan (ex_lexer [949%N; 32%N])) lexer_init [t1; t2] st /\
    text t1 = [949%N] /\ token_type t2 = 4 /\ char_start_index t2 = 2 /\ char_position (start t2) = 2) as (t1 & t2 & st & Hs & H1 & H2 & H3 & H4).
  { do 3 eexists. split; [econstructor; [vm_compute; reflexivity|]; econstructor; [vm_compute; reflexivity|constructor]|]. by vm_compute. }
  exists (ex_lexer [949%N; 32%N]), [t1; t2], st, [t1], t2, [].
  assert (texts [t1] = [949%N]) as Ht. { unfold texts. simpl. by rewrite H1. }
  split_and!; [apply ex_lexer_ok|done|done|lia|by rewrite Ht|..]; rewrite Ht; simpl; lia.
Qed.
