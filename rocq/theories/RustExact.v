(** RustExact.v -- C60: exactly when the generated source carries the regexes. *)
From Verif Require Export RustProofs.

Definition free (t : str) : Prop := forall a b, t <> a ++ quotes4 ++ b.
(** The reader of a raw string, with the text read so far. *)
Definition raw_at (m : mode) (t : str) : Prop :=
  (m = InRaw 4 t /\ forall a k, t <> a ++ 34%N :: replicate k 35%N) \/
  exists a k, m = RawClose 4 a k /\ t = a ++ 34%N :: replicate k 35%N /\ k < 4.
Lemma replicate_last (k : nat) (x : N) : replicate (S k) x = replicate k x ++ [x].
Proof. change [x] with (replicate 1 x). rewrite <- replicate_add. f_equal. lia. Qed.
Lemma ends_hash t c a k : t ++ [c] = a ++ 34%N :: replicate k 35%N ->
  (k = 0 /\ c = 34%N /\ t = a) \/ (exists k', k = S k' /\ c = 35%N /\ t = a ++ 34%N :: replicate k' 35%N).
Proof.
  intros E. destruct k as [|k].
  - left. apply app_inj_tail in E as [-> ->]. done.
  - right. exists k. rewrite replicate_last in E. replace (a ++ 34%N :: replicate k 35%N ++ [35%N]) with ((a ++ 34%N :: replicate k 35%N) ++ [35%N]) in E by (by rewrite <- app_assoc).
    apply app_inj_tail in E as [-> ->]. done.
Qed.
Lemma free_step t c : free t -> (forall a, c = 35%N -> t <> a ++ 34%N :: replicate 3 35%N) -> free (t ++ [c]).
Proof.
  intros Hf Hc a b E. destruct (decide (b = [])) as [->|Hb].
  - rewrite app_nil_r in E. change quotes4 with (34%N :: replicate 4 35%N) in E. apply ends_hash in E as [[? _]|(k & [= <-] & -> & Et)]; [done|].
    by apply (Hc a).
  - destruct (exists_last Hb) as (b' & x & ->). rewrite !app_assoc in E. apply app_inj_tail in E as [E _]. apply (Hf a b'). by rewrite E, <- app_assoc.
Qed.
Lemma raw_read m t c : raw_at m t -> free t ->
  (c = 13%N /\ read_char (m, []) c = (Wrong, [])) \/
  (exists z, t ++ [c] = z ++ quotes4 /\ read_char (m, []) c = (Between, [Raw z])) \/
  (exists m', c <> 13%N /\ read_char (m, []) c = (m', []) /\ raw_at m' (t ++ [c]) /\ free (t ++ [c])).
Proof.
  intros Hm Hf. destruct (N.eqb_spec c 13) as [->|H13].
  { left. split; [done|]. by destruct Hm as [[-> _]|(a & k & -> & _)]. }
  right. destruct Hm as [[-> Hm]|(a & k & -> & -> & Hk)]; cbn [read_char]; rewrite (proj2 (N.eqb_neq _ _) H13).
  - right. destruct (N.eqb_spec c 34) as [->|H34].
    + exists (RawClose 4 t 0). split; [done|]. split; [done|]. split; [right; exists t, 0; split_and!; [done|done|lia]|]. by apply free_step.
    + exists (InRaw 4 (t ++ [c])). split; [done|]. split; [done|]. split.
      * left. split; [done|]. intros a k E. apply ends_hash in E as [(_ & ? & _)|(k' & -> & -> & Et)]; [done|]. by apply (Hm a k').
      * apply free_step; [done|]. intros a _. apply Hm.
  - destruct (N.eqb_spec c 35) as [->|H35]; [|destruct (N.eqb_spec c 34) as [->|H34]].
    + destruct (Nat.eqb_spec (S k) 4) as [E|E].
      * left. injection E as ->. exists a. split; [by rewrite <- app_assoc|done].
      * right. exists (RawClose 4 a (S k)). split; [done|]. split; [done|].
        assert ((a ++ 34%N :: replicate k 35%N) ++ [35%N] = a ++ 34%N :: replicate (S k) 35%N) as E'.
        { rewrite <- app_assoc, replicate_last. done. }
        split; [right; exists a, (S k); split_and!; [done|done|lia]|]. apply free_step; [done|].
        intros a' _ Et. apply (f_equal (fun l => l ++ [35%N])) in Et. rewrite E' in Et. rewrite <- app_assoc in Et. cbn [app] in Et.
        change (replicate 3 35%N ++ [35%N]) with (replicate 4 35%N) in Et.
        assert (forall n n' x x', x ++ 34%N :: replicate n 35%N = x' ++ 34%N :: replicate n' 35%N -> n = n') as K.
        { clear. induction n as [|n IH]; intros [|n'] x x' E; [done|..].
          - exfalso. rewrite replicate_last in E. replace (x' ++ 34%N :: replicate n' 35%N ++ [35%N]) with ((x' ++ 34%N :: replicate n' 35%N) ++ [35%N]) in E by (by rewrite <- app_assoc).
            by apply app_inj_tail in E as [_ ?].
          - exfalso. rewrite replicate_last in E. replace (x ++ 34%N :: replicate n 35%N ++ [35%N]) with ((x ++ 34%N :: replicate n 35%N) ++ [35%N]) in E by (by rewrite <- app_assoc).
            by apply app_inj_tail in E as [_ ?].
          - rewrite !replicate_last in E. replace (x ++ 34%N :: replicate n 35%N ++ [35%N]) with ((x ++ 34%N :: replicate n 35%N) ++ [35%N]) in E by (by rewrite <- app_assoc).
            replace (x' ++ 34%N :: replicate n' 35%N ++ [35%N]) with ((x' ++ 34%N :: replicate n' 35%N) ++ [35%N]) in E by (by rewrite <- app_assoc).
            apply app_inj_tail in E as [E _]. f_equal. by eapply IH. }
        apply K in Et. lia.
    + right. eexists. split; [done|]. split; [done|]. split; [right; exists (a ++ 34%N :: replicate k 35%N), 0; split_and!; [done|done|lia]|]. by apply free_step.
    + right. eexists. split; [done|]. split; [done|]. split.
      * left. split; [by rewrite <- app_assoc|]. intros a' k' E. by apply ends_hash in E as [(_ & ? & _)|(? & _ & ? & _)].
      * by apply free_step.
Qed.
Lemma raw_reads s : forall m t, raw_at m t -> free t ->
  (13%N ∉ s /\ free (t ++ s)) \/
  (exists x y, s = x ++ y /\ reads m x Wrong []) \/
  (exists x y z, s = x ++ y /\ t ++ x = z ++ quotes4 /\ reads m x Between [Raw z]).
Proof.
  induction s as [|c s IH]; intros m t Hm Hf.
  - left. split; [by intros ?%elem_of_nil|by rewrite app_nil_r].
  - destruct (raw_read m t c Hm Hf) as [[-> H]|[(z & E & H)|(m' & H13 & H & Hm' & Hf')]].
    + right; left. exists [13%N], s. split; [done|exact H].
    + right; right. exists [c], s, z. split_and!; [done|done|exact H].
    + destruct (IH m' _ Hm' Hf') as [[Hn Hf'']|[(x & y & -> & Hr)|(x & y & z & -> & E & Hr)]].
      * left. split; [by apply not_elem_of_cons|]. by rewrite <- app_assoc in Hf''.
      * right; left. exists (c :: x), y. split; [done|]. by apply (reads_app m [c] m' [] x).
      * right; right. exists (c :: x), y, z. split_and!; [done| |by apply (reads_app m [c] m' [] x _ [Raw z])]. rewrite <- E. by rewrite <- app_assoc.
Qed.

Lemma reads_wrong s : reads Wrong s Wrong [].
Proof. unfold reads, lex. by induction s. Qed.
Lemma reads_total m s : exists m' o, reads m s m' o.
Proof. unfold reads. destruct (lex m s) as [m' o]. eauto. Qed.
Lemma reads_fun m s m1 o1 m2 o2 : reads m s m1 o1 -> reads m s m2 o2 -> m1 = m2 /\ o1 = o2.
Proof. unfold reads. intros -> [= -> ->]. done. Qed.

Definition regex_new_head : list rust_token := [kw "Regex"; Punct 58; Punct 58; kw "new"; Punct 40].
Lemma reads_regexes_exact tokens m : open_mode m -> Forall (fun t => identifier (ld_name t)) tokens ->
  Forall (fun t => raw4 (ld_regex t)) tokens \/
  (exists x y o, concat (map regex_text tokens) = x ++ y /\ reads m x Wrong o) \/
  (exists ok t rest x y z, tokens = ok ++ t :: rest /\ concat (map regex_text tokens) = x ++ y /\ z <> ld_regex t /\
     reads m x Between (concat (map regex_new ok) ++ regex_new_head ++ [Raw z])).
Proof.
  intros Hm Hid. revert m Hm. induction Hid as [|t tokens Ht Hts IH]; intros m Hm; [left; constructor|].
  assert (reads m (nl (lit "      Regex::new(r####""")) (InRaw 4 []) regex_new_head) as Hhead by (apply reads_nl; [done|reflexivity]).
  destruct (raw_reads (ld_regex t) (InRaw 4 []) []) as [[Hn Hf]|[(x & y & E & Hr)|(x & y & z & E & Ez & Hr)]].
  { left. split; [done|]. intros a k H. apply (f_equal length) in H. rewrite app_length in H. cbn in H. lia. }
  { intros a b H. apply (f_equal length) in H. rewrite app_length in H. cbn in H. lia. }
  - assert (writable t) as Hw by (split; [done|split; [exact Hf|done]]).
    pose proof (reads_regex m t Hm Hw) as Hreads.
    destruct (IH InComment) as [H|[(x & y & o & E & H)|(ok & t' & rest & x & y & z & -> & E & Hz & H)]]; [by right|..].
    + left. constructor; [|done]. split; [exact Hf|done].
    + right; left. exists (regex_text t ++ x), y, (regex_new t ++ o). split; [cbn [map concat]; by rewrite E, app_assoc|by eapply reads_app].
    + right; right. exists (t :: ok), t', rest, (regex_text t ++ x), y, z. split; [done|]. split; [rewrite map_cons; cbn [concat]; by rewrite E, app_assoc|].
      split; [done|]. cbn [map concat]. rewrite <- app_assoc. by eapply reads_app.
  - right; left. exists (nl (lit "      Regex::new(r####""") ++ x), (y ++ (quotes4 ++ lit ").unwrap(), // ") ++ ld_name t ++ concat (map regex_text tokens)), (regex_new_head ++ []).
    split; [|by eapply reads_app]. cbn [map concat]. unfold regex_text at 1. rewrite E, <- !app_assoc. done.
  - right; right. exists [], t, tokens, (nl (lit "      Regex::new(r####""") ++ x), (y ++ (quotes4 ++ lit ").unwrap(), // ") ++ ld_name t ++ concat (map regex_text tokens)), z.
    split; [done|]. split; [cbn [map concat]; unfold regex_text at 1; rewrite E, <- !app_assoc; done|]. split.
    + cbn [app] in Ez. rewrite E, Ez. intros H. apply (f_equal length) in H. rewrite !app_length in H. change (length quotes4) with 5 in H. lia.
    + cbn [map concat app]. by eapply reads_app.
Qed.

Definition tera_head (name : str) (tokens : list lexer_rule_data) : str :=
  tera_text 0 ++ name ++ tera_text 2 ++ name ++ tera_text 4 ++ concat (map const_text tokens) ++ tera_text 6.
Lemma reads_tera_head name tokens : Forall (fun c => word_char c = true) name -> Forall (fun t => identifier (ld_name t)) tokens ->
  reads Between (tera_head name tokens) Between (part_a name ++ concat (map constant tokens) ++ toks (tera_text 6)).
Proof.
  intros Hn Ht. unfold part_a, tera_head.
  assert (forall t, t ∈ tokens -> identifier (ld_name t)) as Hid by (intros t H; rewrite Forall_forall in Ht; apply Ht, H).
  rewrite <- !app_assoc.
  assert (forall k, k ∈ [2; 4] -> forall m o rest m' o', reads Between (after_name k) m o -> reads m rest m' o' ->
    reads Between (name ++ tera_text k ++ rest) m' ((Word (lexer_name name) :: o) ++ o')) as Hname.
  { intros k Hk m0 o rest m' o' H1 H2. rewrite app_assoc. eapply reads_app; [|exact H2].
    apply reads_lexer_name; [done|..|done]; rewrite !elem_of_cons in Hk; destruct Hk as [->|[->|Hk]]; try reflexivity; by apply elem_of_nil in Hk. }
  assert (forall k, k ∈ [2; 4] -> reads Between (after_name k) Between (toks (after_name k))) as Hafter.
  { intros k Hk. apply reads_static. rewrite !elem_of_cons in Hk. destruct Hk as [->|[->|Hk]]; try (vm_compute; reflexivity); by apply elem_of_nil in Hk. }
  eapply reads_app; [apply reads_static; vm_compute; reflexivity|].
  eapply Hname; [apply elem_of_list_In; cbn; auto|apply Hafter; apply elem_of_list_In; cbn; auto|].
  eapply Hname; [apply elem_of_list_In; cbn; auto|apply Hafter; apply elem_of_list_In; cbn; auto|].
  eapply reads_app; [apply reads_loop; intros t H; by apply reads_const, Hid|].
  apply reads_static; vm_compute; reflexivity.
Qed.
Lemma rust_tokens_starts s o : forall x y o1, s = x ++ y -> reads Between x Wrong o1 -> rust_tokens s = Some o -> False.
Proof.
  intros x y o1 -> H1 H. assert (reads Between (x ++ y) Wrong (o1 ++ [])) as H2 by (eapply reads_app; [exact H1|apply reads_wrong]).
  unfold rust_tokens in H. unfold reads, lex in H2. by rewrite H2 in H.
Qed.
Lemma rust_tokens_prefix s o : forall x y o1, s = x ++ y -> reads Between x Between o1 -> rust_tokens s = Some o -> exists o2, o = o1 ++ o2.
Proof.
  intros x y o1 -> H1 H. destruct (reads_total Between y) as (m & o2 & H2).
  assert (reads Between (x ++ y) m (o1 ++ o2)) as H3 by (eapply reads_app; [exact H1|exact H2]).
  unfold rust_tokens in H. unfold reads, lex in H3. rewrite H3 in H.
  destruct m; try done; injection H as <-; [by exists o2|exists (o2 ++ [Word w]); by rewrite app_assoc|by exists o2].
Qed.

Lemma c60_iff : exists (a d : str -> list rust_token) (b c : list rust_token), forall name tokens,
  Forall (fun x => word_char x = true) name -> Forall (fun t => identifier (ld_name t)) tokens ->
  rust_tokens (render lexer_tera name tokens) =
    Some (a name ++ concat (map constant tokens) ++ b ++ concat (map regex_new tokens) ++ c ++ concat (map quoted_name tokens) ++ d name) <->
  Forall (fun t => raw4 (ld_regex t)) tokens.
Proof.
  exists part_a, part_d, (toks (tera_text 6)), (toks (tera_text 8)). intros name tokens Hn Hid. split.
  - intros H.
    assert (exists tail, render lexer_tera name tokens = tera_head name tokens ++ concat (map regex_text tokens) ++ tail) as [tail E].
    { eexists. rewrite render_tera. unfold tera_head. rewrite <- !app_assoc. reflexivity. }
    pose proof (reads_tera_head name tokens Hn Hid) as Hh. revert Hh H. rewrite E. clear E.
    generalize (tera_head name tokens). intros head Hh H.
    destruct (reads_regexes_exact tokens Between) as [K|[(x & y & o & E & K)|(ok & t & rest & x & y & z & Et & E & Hz & K)]]; [by left|done|done|..].
    + exfalso. rewrite E in H. eapply (rust_tokens_starts _ _ (head ++ x) (y ++ tail)); [|by eapply reads_app|exact H]. by rewrite <- !app_assoc.
    + exfalso. rewrite E in H. destruct (rust_tokens_prefix _ _ (head ++ x) (y ++ tail) _ (eq_trans (f_equal (app head) (eq_sym (app_assoc x y tail))) (app_assoc head x (y ++ tail))) (reads_app _ _ _ _ _ _ _ Hh K) H) as [o2 Eo].
      clear H E Hh K. revert Eo. rewrite <- !app_assoc. intros Eo. apply app_inv_head in Eo. apply app_inv_head in Eo. apply app_inv_head in Eo.
      rewrite Et in Eo. rewrite map_app, concat_app, <- !app_assoc in Eo. apply app_inv_head in Eo. cbn [map concat regex_new regex_new_head app] in Eo.
      injection Eo as Eo. congruence.
  - intros Hr. eapply reads_tokens; [apply reads_tera; [done|]|by left].
    rewrite Forall_forall in Hid, Hr. apply Forall_forall. intros t Ht. split; [by apply Hid|by apply Hr].
Qed.
