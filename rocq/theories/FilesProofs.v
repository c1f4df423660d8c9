(** FilesProofs.v -- C79, C80: the files read and written. *)
From Verif Require Export SpecFiles Utf8Proofs JsonTrees PageProofs RustProofs.

(** *** UTF-8 *)
Lemma encode_char_ok c : (c <= 1114111)%N -> utf8_char c (encode_char c).
Proof.
  intros H. unfold encode_char.
  pose proof (N.div_mod' c 64) as E1. pose proof (N.mod_lt c 64 ltac:(done)) as M1.
  pose proof (N.div_mod' (c / 64) 64) as E2. pose proof (N.mod_lt (c / 64) 64 ltac:(done)) as M2.
  pose proof (N.div_mod' (c / 4096) 64) as E3. pose proof (N.mod_lt (c / 4096) 64 ltac:(done)) as M3.
  assert (c / 64 / 64 = c / 4096)%N as D1 by (by rewrite N.div_div).
  assert (c / 4096 / 64 = c / 262144)%N as D2 by (by rewrite N.div_div).
  rewrite D1 in E2. rewrite D2 in E3. revert E1 M1 E2 M2 E3 M3. clear D1 D2.
  generalize ((c / 4096) mod 64)%N; intros a. generalize ((c / 64) mod 64)%N; intros b. generalize (c mod 64)%N; intros d.
  generalize (c / 64)%N (c / 4096)%N (c / 262144)%N. intros q p o E1 M1 E2 M2 E3 M3.
  destruct (N.ltb_spec c 128) as [L1|L1]; [by apply utf8_one|].
  destruct (N.ltb_spec c 2048) as [L2|L2]; [assert (c = q * 64 + d)%N as -> by lia; apply utf8_two; lia|].
  destruct (N.ltb_spec c 65536) as [L3|L3].
  - assert (c = (p * 64 + b) * 64 + d)%N as -> by lia. apply utf8_three; lia.
  - assert (c = ((o * 64 + a) * 64 + b) * 64 + d)%N as -> by lia. apply utf8_four; lia.
Qed.
Lemma scalar_code c : scalar c -> (c <= 1114111)%N.
Proof. unfold scalar. lia. Qed.
Lemma as_bytes_ok s : Forall scalar s -> text_bytes s (as_bytes s).
Proof.
  intros H. split; [|done]. induction H as [|c s Hc _ IH]; [constructor|]. unfold as_bytes. cbn [map concat].
  constructor; [by apply encode_char_ok, scalar_code|exact IH].
Qed.
Lemma text_bytes_eq s bs : text_bytes s bs -> as_bytes s = bs.
Proof. intros [Hu Hs]. destruct (as_bytes_ok s Hs) as [Hu' _]. by apply (c11_utf8_unique _ _ _ _ Hu' Hu). Qed.

Lemma text_bytes_cons c s b bs : utf8_char c b -> scalar c -> text_bytes s bs -> text_bytes (c :: s) (b ++ bs).
Proof. intros Hc Hs [Hu Hf]. split; [by constructor|by constructor]. Qed.
Lemma dcons_some c r s : dcons c r = Some s -> exists s', r = Some s' /\ s = c :: s'.
Proof. destruct r as [s'|]; [|done]. intros [= <-]. by exists s'. Qed.
Lemma from_utf8_sound n : forall bs s, length bs <= n -> from_utf8 bs = Some s -> text_bytes s bs.
Proof.
  induction n as [|n IH]; intros bs s Hn H.
  { destruct bs; [|cbn in Hn; lia]. cbn in H. injection H as <-. split; constructor. }
  destruct bs as [|b0 r0]; [cbn in H; injection H as <-; split; constructor|]. cbn [length] in Hn. cbn [from_utf8] in H.
  destruct (N.ltb_spec b0 128) as [L|L].
  { apply dcons_some in H as (s' & H & ->). apply IH in H; [|lia]. apply (text_bytes_cons b0 s' [b0]); [by apply utf8_one|unfold scalar; lia|done]. }
  destruct (N.ltb_spec b0 192) as [L1|L1]; [done|].
  destruct (N.ltb_spec b0 224) as [L2|L2].
  { destruct r0 as [|b1 r1]; [done|]. destruct (continuation b1) eqn:C1; [|done]. cbn [andb] in H.
    match type of H with (if (128 <=? ?x)%N then _ else _) = _ => destruct (N.leb_spec 128 x) as [M|M]; [|done] end.
    apply dcons_some in H as (s' & H & ->). cbn [length] in Hn. apply IH in H; [|lia].
    unfold continuation in C1. apply andb_true_iff in C1 as [A1 B1]. apply N.leb_le in A1. apply N.ltb_lt in B1.
    assert ([b0; b1] = [192 + (b0 - 192); 128 + (b1 - 128)]%N) as E by (repeat f_equal; lia).
    apply (text_bytes_cons _ s' [b0; b1]); [rewrite E; apply utf8_two; lia|unfold scalar; lia|done]. }
  destruct (N.ltb_spec b0 240) as [L3|L3].
  { destruct r0 as [|b1 [|b2 r1]]; [done..|]. destruct (continuation b1) eqn:C1; [|done]. destruct (continuation b2) eqn:C2; [|done]. cbn [andb] in H.
    match type of H with (if (2048 <=? ?x)%N && _ then _ else _) = _ => destruct (N.leb_spec 2048 x) as [M|M]; [|done]; destruct (N.leb_spec 0xD800 x); destruct (N.ltb_spec x 0xE000) end;
      cbn [andb negb] in H; try discriminate H;
      (apply dcons_some in H as (s' & H & ->); cbn [length] in Hn; apply IH in H; [|lia];
       unfold continuation in C1, C2; apply andb_true_iff in C1 as [A1 B1], C2 as [A2 B2]; apply N.leb_le in A1, A2; apply N.ltb_lt in B1, B2;
       assert ([b0; b1; b2] = [224 + (b0 - 224); 128 + (b1 - 128); 128 + (b2 - 128)]%N) as E by (repeat f_equal; lia);
       apply (text_bytes_cons _ s' [b0; b1; b2]); [rewrite E; apply utf8_three; lia|unfold scalar; lia|done]). }
  destruct (N.ltb_spec b0 248) as [L4|L4]; [|done].
  destruct r0 as [|b1 [|b2 [|b3 r1]]]; [done..|]. destruct (continuation b1) eqn:C1; [|done]. destruct (continuation b2) eqn:C2; [|done]. destruct (continuation b3) eqn:C3; [|done]. cbn [andb] in H.
  match type of H with (if (65536 <=? ?x)%N && _ then _ else _) = _ => destruct (N.leb_spec 65536 x) as [M|M]; [|done]; destruct (N.leb_spec x 0x10FFFF) as [M'|M']; [|done] end.
  cbn [andb] in H. apply dcons_some in H as (s' & H & ->). cbn [length] in Hn. apply IH in H; [|lia].
  unfold continuation in C1, C2, C3. apply andb_true_iff in C1 as [A1 B1], C2 as [A2 B2], C3 as [A3 B3]. apply N.leb_le in A1, A2, A3. apply N.ltb_lt in B1, B2, B3.
  assert ([b0; b1; b2; b3] = [240 + (b0 - 240); 128 + (b1 - 128); 128 + (b2 - 128); 128 + (b3 - 128)]%N) as E by (repeat f_equal; lia).
  apply (text_bytes_cons _ s' [b0; b1; b2; b3]); [rewrite E; apply utf8_four; lia|unfold scalar; lia|done].
Qed.
Lemma from_utf8_char c b bs s : utf8_char c b -> scalar c -> from_utf8 bs = Some s -> from_utf8 (b ++ bs) = Some (c :: s).
Proof.
  intros H Hs E. destruct H as [c H|x y Hx Hy H|x y z Hx Hy Hz H|x y z w Hx Hy Hz Hw H]; cbn [app from_utf8]; unfold continuation;
    repeat match goal with
      | |- context [(?u <? ?v)%N] => destruct (N.ltb_spec u v); [try lia|try lia]
      | |- context [(?u <=? ?v)%N] => destruct (N.leb_spec u v); [try lia|try lia]
      end; cbn [andb negb]; try (unfold scalar in Hs; lia); rewrite E; cbn [dcons]; repeat f_equal; lia.
Qed.
Lemma from_utf8_iff bs s : from_utf8 bs = Some s <-> text_bytes s bs.
Proof.
  split; [by apply (from_utf8_sound (length bs))|]. intros [Hu Hs]. induction Hu as [|c s b bs Hc _ IH]; [done|].
  apply Forall_cons in Hs as [Hs Hf]. by apply from_utf8_char; [| |apply IH].
Qed.

(** *** Reading *)
Lemma c80_accepts huge bs r : from_reader huge bs = Ret (Some r) <-> exists s j, text_bytes s bs /\ document huge 127 j s /\ describes j r.
Proof.
  unfold from_reader. split.
  - destruct (from_utf8 bs) as [s|] eqn:E; [|discriminate]. apply from_utf8_iff in E. intros H. apply c62_accepts in H as (j & H1 & H2). by exists s, j.
  - intros (s & j & Hb & Hd & Hj). apply from_utf8_iff in Hb as ->. apply c62_accepts. by exists j.
Qed.
Lemma c80_total huge bs : from_reader huge bs = Ret None \/ exists r, from_reader huge bs = Ret (Some r).
Proof. unfold from_reader. destruct (from_utf8 bs) as [s|]; [apply c62_total|by left]. Qed.
Lemma c80_rejects huge bs : from_reader huge bs = Ret None <-> forall s j r, text_bytes s bs -> document huge 127 j s -> ~ describes j r.
Proof.
  split.
  - intros H s j r H1 H2 H3. assert (from_reader huge bs = Ret (Some r)) as E by (apply c80_accepts; by exists s, j). rewrite H in E. discriminate E.
  - intros H. destruct (c80_total huge bs) as [E|[r E]]; [done|]. apply c80_accepts in E as (s & j & H1 & H2 & H3). by destruct (H s j r).
Qed.
Lemma c80_agrees huge s bs : text_bytes s bs -> from_reader huge bs = from_str huge s.
Proof. intros H. unfold from_reader. by apply from_utf8_iff in H as ->. Qed.

(** What stands behind the closing brace of an object does not matter to reading it. *)
Lemma object_read huge d ms t f r : value_text huge d (JObject ms) t -> 2 * length t < f -> parse_value huge f (S d) (t ++ r) = JOk (JObject ms, r).
Proof.
  intros H Hf. inversion H as [| | |d0 j t0 Hn| | |d0 ms0 t0 Hm]; subst; [inversion Hn|].
  destruct f as [|f]; [lia|].
  change (parse_value huge (S f) (S (S d0)) ((123%N :: t0 ++ [125%N]) ++ r)) with (let? (ms, r0) := parse_members huge f (S d0) true [] ((t0 ++ [125%N]) ++ r) in JOk (JObject ms, r0)).
  rewrite <- app_assoc. cbn [app]. rewrite (proj1 (proj2 (proj2 (all_complete huge))) _ _ _ Hm); [by rewrite set_members|].
  cbn [length] in Hf. rewrite app_length in Hf. cbn in Hf. lia.
Qed.
Lemma describes_object j r : describes j r -> exists ms, j = JObject ms.
Proof. intros H. destruct H as [j cs i n kids H _ _ _]. destruct j; try discriminate H. by eexists. Qed.
Lemma blanks_suffix a b : blanks (a ++ b) -> blanks b.
Proof. intros H. by apply Forall_app in H as [_ H]. Qed.
Lemma c80_cut huge s t r r' : from_str huge s = Ret (Some r) -> from_str huge (s ++ t) = Ret (Some r') -> blanks t /\ r' = r.
Proof.
  intros H H'. pose proof H as K. pose proof H' as K'. apply c62_accepts in H as (j & (w1 & u & w2 & Hw1 & Hu & Hw2 & Es) & Hj), H' as (j' & (v1 & u' & v2 & Hv1 & Hu' & Hv2 & Es') & Hj').
  destruct (describes_object _ _ Hj) as [ms ->], (describes_object _ _ Hj') as [ms' ->].
  assert (blanks t) as Hb.
  { pose proof (object_read huge 127 ms u (S (2 * (length u + length u'))) (w2 ++ t) Hu ltac:(lia)) as P.
    pose proof (object_read huge 127 ms' u' (S (2 * (length u + length u'))) v2 Hu' ltac:(lia)) as P'.
    rewrite <- (parse_value_blank huge _ _ w1) in P by done. rewrite <- (parse_value_blank huge _ _ v1) in P' by done.
    assert (w1 ++ u ++ w2 ++ t = v1 ++ u' ++ v2) as E by (by rewrite <- Es', Es, <- !app_assoc).
    rewrite E, P' in P. injection P as _ P. rewrite P in Hv2. by apply blanks_suffix in Hv2. }
  split; [done|].
  assert (from_str huge (s ++ t) = Ret (Some r)) as E.
  { apply c62_accepts. exists (JObject ms). split; [|done]. exists w1, u, (w2 ++ t). split_and!; [done..|by apply Forall_app|]. by rewrite Es, <- !app_assoc. }
  rewrite K' in E. by injection E.
Qed.
Lemma text_bytes_blank s bs : text_bytes s bs -> blanks s -> blanks bs.
Proof.
  intros [H _] Hb. induction H as [|c s b bs Hc _ IH]; [constructor|]. apply Forall_cons in Hb as [Hb Hs]. apply Forall_app. split; [|by apply IH].
  assert (c < 128)%N as L by (rewrite !elem_of_cons, elem_of_nil in Hb; lia).
  destruct Hc; try lia. by constructor.
Qed.
Lemma utf8_prefix s1 b1 : utf8_text s1 b1 -> forall s b, utf8_text s (b1 ++ b) -> exists s2, s = s1 ++ s2 /\ utf8_text s2 b.
Proof.
  induction 1 as [|c s1 x b1 Hc _ IH]; intros s b H; [by exists s|]. rewrite <- app_assoc in H. inversion H as [|c' s' x' b' Hc' Hs' E1 E2].
  - subst. exfalso. destruct Hc; done.
  - subst s. destruct (utf8_char_prefix _ _ _ _ _ _ Hc' Hc E2) as (-> & -> & ->). destruct (IH _ _ Hs') as (s2 & -> & H2). by exists s2.
Qed.
Lemma c80_cut_bytes huge b1 b2 r r' : from_reader huge b1 = Ret (Some r) -> from_reader huge (b1 ++ b2) = Ret (Some r') -> blanks b2 /\ r' = r.
Proof.
  intros H H'. unfold from_reader in H, H'. destruct (from_utf8 b1) as [s1|] eqn:E1; [|discriminate H]. destruct (from_utf8 (b1 ++ b2)) as [s|] eqn:E2; [|discriminate H'].
  apply from_utf8_iff in E1, E2. destruct E1 as [U1 F1], E2 as [U2 F2]. destruct (utf8_prefix _ _ U1 _ _ U2) as (s2 & -> & U3).
  destruct (c80_cut huge s1 s2 r r' H H') as [Hb ->]. split; [|done]. apply Forall_app in F2 as [_ F3]. by apply (text_bytes_blank s2).
Qed.
Lemma c80_mark huge bs : from_reader huge (239 :: 187 :: 191 :: bs)%N = Ret None.
Proof.
  apply c80_rejects. intros s j r [Hu _] (w1 & t & w2 & Hw1 & Ht & Hw2 & ->) Hj.
  destruct (describes_object _ _ Hj) as [ms ->]. assert (exists t', t = 123%N :: t') as [t' ->].
  { inversion Ht as [| | |d0 j t0 Hn| | |d0 ms0 t0 Hm]; subst; [inversion Hn|by eexists]. }
  assert (exists c x, w1 ++ (123%N :: t') ++ w2 = c :: x /\ (c < 128)%N) as (c & x & E & L).
  { destruct Hw1 as [|c w1 Hc _]; [by eexists _, _|]. eexists c, _. split; [done|]. rewrite !elem_of_cons, elem_of_nil in Hc. lia. }
  rewrite E in Hu. inversion Hu as [|c' s' b b' Hc Hs E1 E2]. subst. destruct Hc; cbn in E2; injection E2; intros; subst; lia.
Qed.

(** *** Writing *)
Lemma c79_exact o d r name path bs : text_bytes (page name r) bs ->
  draw o d r name path =
  if os_template o && os_create o then
    match os_write o (length bs) with Some k => (Ret (), <[path := take k bs]> d) | None => (Panic, <[path := []]> d) end
  else (Panic, d).
Proof.
  intros H. apply text_bytes_eq in H. unfold draw, create_and_write. rewrite H. destruct (os_template o); [|done]. destruct (os_create o); [|done]. cbn [andb].
  destruct (os_write o (length bs)) as [k|]; [|done]. cbv zeta. by rewrite insert_insert.
Qed.
Lemma c79_whole o d d' r name path bs : text_bytes (page name r) bs -> write_contract o -> draw o d r name path = (Ret (), d') ->
  only_changed path d d' /\ (exists k, os_write o (length bs) = Some k /\ d' !! path = Some (take k bs)) /\
  (d' !! path = Some bs <-> os_write o (length bs) = Some (length bs)).
Proof.
  intros H Hc. rewrite (c79_exact _ _ _ _ _ _ H). destruct (os_template o && os_create o); [|discriminate].
  destruct (os_write o (length bs)) as [k|] eqn:Ew; [|discriminate]. intros [= <-]. split_and!.
  - intros p Hp. by rewrite lookup_insert_ne.
  - exists k. split; [done|]. by rewrite lookup_insert.
  - rewrite lookup_insert. split; [|by intros [= ->]; rewrite take_ge].
    intros [= E]. apply Hc in Ew. f_equal. apply (f_equal length) in E. rewrite take_length in E. lia.
Qed.

(** The page is a text of Rust if the names and texts are. *)
Lemma forall_scalar_iff s : Forall scalar s <-> forall c, c ∈ s -> scalar c.
Proof. by rewrite Forall_forall. Qed.
Lemma escape_scalar s : Forall scalar (escape s) <-> Forall scalar s.
Proof.
  rewrite !Forall_forall. split; intros H c Hc.
  - destruct (decide (c = c_backslash)) as [->|Hn]; [unfold scalar, c_backslash; lia|]. apply H. by apply escape_elem.
  - destruct (decide (c = c_backslash)) as [->|Hn]; [unfold scalar, c_backslash; lia|]. apply H. by apply (escape_elem c s Hn).
Qed.
Definition scalarb (c : N) : bool := ((c <? 0xD800) || ((0xE000 <=? c) && (c <=? 0x10FFFF)))%N.
Lemma scalarb_all s : forallb scalarb s = true -> Forall scalar s.
Proof.
  intros H. apply Forall_forall. intros c Hc. rewrite forallb_forall in H. apply elem_of_list_In in Hc. apply H in Hc. unfold scalarb in Hc. unfold scalar.
  apply orb_true_iff in Hc as [Hc|Hc]; [apply N.ltb_lt in Hc; lia|]. apply andb_true_iff in Hc as [H1 H2]. apply N.leb_le in H1, H2. lia.
Qed.
Lemma usize_scalar n : Forall scalar (usize_to_string n).
Proof. apply Forall_forall. intros c Hc. pose proof (uint_str_digits (Nat.to_uint n)) as H. rewrite Forall_forall in H. apply H in Hc. unfold scalar. lia. Qed.
Lemma lit_scalar_app s t : forallb scalarb s = true -> Forall scalar (s ++ t) <-> Forall scalar t.
Proof. intros H. apply scalarb_all in H. rewrite Forall_app. tauto. Qed.
Lemma leaf_scalar t : Forall scalar (dump_leaf t) <-> Forall scalar (token_name t) /\ Forall scalar (text t).
Proof.
  unfold dump_leaf. rewrite lit_scalar_app by (by vm_compute). rewrite Forall_app, escape_scalar. rewrite lit_scalar_app by (by vm_compute). rewrite Forall_app, escape_scalar.
  assert (Forall scalar (lit "`}")) by (apply scalarb_all; by vm_compute). tauto.
Qed.
Lemma child_scalar : forall c, Forall scalar (dump_child c) <-> forall s, s ∈ child_labels_list c -> Forall scalar s.
Proof.
  assert (LF : forall t, Forall scalar (dump_leaf t) <-> forall s, s ∈ token_labels t -> Forall scalar s).
  { intros t. rewrite leaf_scalar. unfold token_labels. split; [intros [H1 H2] s|intros H; split; apply H].
    - rewrite !elem_of_cons, elem_of_nil. intros [->|[->|[]]]; done.
    - apply elem_of_list_here.
    - apply elem_of_list_further, elem_of_list_here. }
  refine (ast_rect' _ (fun r => Forall scalar (dump r) <-> forall s, s ∈ labels r -> Forall scalar s) _ _ _ _); [exact LF|exact LF|done|].
  intros n cs i HF. rewrite dump_unfold, labels_unfold. rewrite lit_scalar_app by (by vm_compute). rewrite Forall_app, escape_scalar.
  rewrite lit_scalar_app by (by vm_compute). rewrite Forall_app. rewrite lit_scalar_app by (by vm_compute). rewrite <- !app_assoc.
  rewrite lit_scalar_app by (by vm_compute). rewrite Forall_app.
  assert (Forall scalar (lit "]" ++ lit ",}")) as H1 by (apply scalarb_all; by vm_compute). pose proof (usize_scalar i) as H2.
  assert (Forall scalar (concat (map (fun c => dump_child c ++ lit ",") cs)) <-> forall s, s ∈ concat (map child_labels_list cs) -> Forall scalar s) as Hcs.
  { clear -HF. induction HF as [|c cs Hc _ IH]; cbn [map concat]; [split; [by intros _ s Hs%elem_of_nil|constructor]|].
    assert (Forall scalar (lit ",")) as H1 by (apply scalarb_all; by vm_compute).
    rewrite !Forall_app, Hc, IH. clear -H1. split; [intros [[Ha _] Hb] s [Hs|Hs]%elem_of_app; auto|]. intros H. split_and!; [|done|]; intros s Hs; apply H, elem_of_app; auto. }
  rewrite Hcs. clear -H1 H2. split; [intros (Hn & _ & Hl & _) s [->|Hs]%elem_of_cons; auto|].
  intros H. split_and!; [apply H, elem_of_list_here|done|intros s Hs; by apply H, elem_of_list_further|done].
Qed.
Lemma script_scalar r : Forall scalar (script r) <-> forall s, label s r -> Forall scalar s.
Proof.
  unfold script. rewrite lit_scalar_app by (by vm_compute). rewrite Forall_app. pose proof (child_scalar (Rule r)) as H. cbn [dump_child child_labels_list] in H. rewrite H.
  assert (Forall scalar (lit ";")) as H1 by (apply scalarb_all; by vm_compute). split.
  - intros [Hl _] s Hs. by apply Hl, elem_labels.
  - intros Hl. split; [|done]. intros s Hs. by apply Hl, elem_labels.
Qed.
Lemma page_scalar name r : Forall scalar (page name r) <-> Forall scalar name /\ forall s, label s r -> Forall scalar s.
Proof.
  assert (Forall scalar page_head) as H1 by (apply scalarb_all; vm_compute; reflexivity).
  assert (Forall scalar page_mid) as H2 by (apply scalarb_all; vm_compute; reflexivity).
  assert (Forall scalar page_tail) as H3 by (apply scalarb_all; vm_compute; reflexivity).
  unfold page. revert H1 H2 H3. generalize page_head page_mid page_tail. intros a b c H1 H2 H3. rewrite !Forall_app, script_scalar. tauto.
Qed.
Lemma c79_text name r : (exists bs, text_bytes (page name r) bs) <-> Forall scalar name /\ forall s, label s r -> Forall scalar s.
Proof.
  rewrite <- page_scalar. split; [by intros [bs [_ H]]|]. intros H. exists (as_bytes (page name r)). by apply as_bytes_ok.
Qed.

(** A file cut inside a character. *)
Lemma as_bytes_app a b : as_bytes (a ++ b) = as_bytes a ++ as_bytes b.
Proof. unfold as_bytes. by rewrite map_app, concat_app. Qed.
Lemma cut_character s bs : text_bytes s bs -> forall t, ~ text_bytes t (bs ++ [206%N]).
Proof.
  intros [Hs _] t [Ht _]. destruct (utf8_prefix _ _ Hs _ _ Ht) as (u & _ & Hu). inversion Hu as [|c s' b b' Hc Hs' E1 E2]. subst. destruct Hc; cbn in E2; injection E2; intros; subst; [lia|discriminate..].
Qed.
Definition short_os : os := Os true true true (fun n => Some (Nat.min n (S (length (as_bytes page_head))))).
Lemma c79_refuted : exists o d r name path bs d' b, write_contract o /\ text_bytes (page name r) bs /\ draw o d r name path = (Ret (), d') /\
  d' !! path = Some b /\ forall s, ~ text_bytes s b.
Proof.
  exists short_os, ∅, (RuleCtx (lit "a") [] 0), [949%N], (lit "a.html"), (as_bytes (page [949%N] (RuleCtx (lit "a") [] 0))).
  assert (text_bytes (page [949%N] (RuleCtx (lit "a") [] 0)) (as_bytes (page [949%N] (RuleCtx (lit "a") [] 0)))) as Ht.
  { apply as_bytes_ok, page_scalar. split; [apply scalarb_all; by vm_compute|]. intros s Hs. inversion Hs; subst.
    - apply scalarb_all. by vm_compute.
    - match goal with H : _ \/ _ |- _ => destruct H as [H|H]; by apply elem_of_nil in H end.
    - match goal with H : _ \/ _ |- _ => destruct H as [H|H]; by apply elem_of_nil in H end.
    - match goal with H : _ ∈ [] |- _ => by apply elem_of_nil in H end. }
  assert (Forall scalar page_head) as H1 by (apply scalarb_all; vm_compute; reflexivity).
  eexists _, (as_bytes page_head ++ [206%N]). split_and!.
  - intros n k [= <-]. lia.
  - exact Ht.
  - rewrite (c79_exact _ _ _ _ _ _ Ht). reflexivity.
  - rewrite lookup_insert. vm_compute. reflexivity.
  - apply (cut_character page_head). by apply as_bytes_ok.
Qed.

(** *** main and the tests with their files *)
Lemma read_shipped (huge : str -> bool) (o : os) (d : disk) (bs : list N) : os_read o = true -> text_bytes syntaxis2_text bs -> d !! lit "src/tool/syntaxis/syntaxis2.json" = Some bs ->
  read_tree huge o d (lit "src/tool/syntaxis/syntaxis2.json") = Ret shipped_tree.
Proof.
  intros Ho Hb Hd. unfold read_tree. rewrite Hd, Ho, (c80_agrees _ _ _ Hb). unfold from_str. rewrite c62_shipped, shipped_from_value. reflexivity.
Qed.
Lemma shipped_tree_load : load_tree shipped_tree = Ret (shipped, rules_of shipped_tree).
Proof. pose proof shipped_load as H. unfold load_ast in H. rewrite shipped_from_value in H. exact H. Qed.
Lemma ret_eq {A} (a b : A) : Ret a = Ret b -> a = b.
Proof. by intros [= ->]. Qed.
Lemma run_files_eq (nd : N -> bool) (huge : str -> bool) (order : list production) (fuel : nat) (o : os) (d : disk) (s file : str) (bs : list N) : os_read o = true -> text_bytes syntaxis2_text bs -> d !! lit "src/tool/syntaxis/syntaxis2.json" = Some bs ->
  run_files nd huge order fuel o d s file =
  match main_run nd order fuel syntaxis2_json s with
  | Ret (r, _, _, _) => draw o d r (lit "parser") file
  | Panic => (Panic, d)
  | OutOfFuel => (OutOfFuel, d)
  end.
Proof.
  intros Ho Hb Hd. unfold run_files, main_run. rewrite (read_shipped huge o d bs Ho Hb Hd), shipped_load. cbn [rbind]. rewrite shipped_tree_load. cbn [rbind].
  destruct (build_table fuel order shipped) as [[tab w]| |]; cbn [rbind]; [|reflexivity..].
  destruct (v1_lexer nd s) as [c| |]; cbn [rbind]; [|reflexivity..].
  destruct (scan_all c 15 0 fuel lexer_init) as [[toks rest]| |]; cbn [rbind]; [|reflexivity..].
  destruct (parse (g_vocabulary shipped) tab toks fuel) as [[r mm]| |]; cbn [rbind]; reflexivity.
Qed.
Lemma c79_deterministic (nd : N -> bool) (huge : str -> bool) (o : os) (d : disk) (s file : str) (bs : list N) (g : grammar) (x : list lexer_rule_data) : load_ast syntaxis2_json = Ret (g, x) -> os_read o = true -> text_bytes syntaxis2_text bs ->
  d !! lit "src/tool/syntaxis/syntaxis2.json" = Some bs ->
  exists n out, fst out <> OutOfFuel /\ forall order fuel, iteration_order g order -> n <= fuel -> run_files nd huge order fuel o d s file = out.
Proof.
  intros Hl Ho Hb Hd. apply shipped_load_inv in Hl as <-. destruct (main_any nd s) as (n & out & Hne & H).
  exists n, (match out with Ret (r, _, _, _) => draw o d r (lit "parser") file | Panic => (Panic, d) | OutOfFuel => (OutOfFuel, d) end). split.
  - clear H. destruct out as [[[[r w] rest] mm]| |]; [|discriminate|by destruct Hne]. unfold draw, create_and_write.
    destruct (os_template o); [|discriminate]. destruct (os_create o); [|discriminate]. cbv zeta. destruct (os_write o _); discriminate.
  - intros order fuel Hord Hf. rewrite (run_files_eq _ _ _ _ _ _ _ _ _ Ho Hb Hd), (H order fuel Hord Hf). reflexivity.
Qed.

Lemma healthy_draw o d r name path bs : healthy o -> text_bytes (page name r) bs -> draw o d r name path = (Ret (), <[path := bs]> d).
Proof.
  intros (Ht & _ & Hc & Hw) Hb. rewrite (c79_exact _ _ _ _ _ _ Hb), Ht, Hc, Hw. cbn [andb]. by rewrite take_ge.
Qed.
Lemma c79_run (nd : N -> bool) (huge : str -> bool) (o : os) (d : disk) (file : str) (bs page_bs : list N) (g : grammar) (x : list lexer_rule_data) : load_ast syntaxis2_json = Ret (g, x) -> healthy o -> text_bytes syntaxis2_text bs ->
  d !! lit "src/tool/syntaxis/syntaxis2.json" = Some bs -> text_bytes parser2_html page_bs ->
  exists n, forall order fuel, iteration_order g order -> n <= fuel ->
    run_files nd huge order fuel o d main_input file = (Ret (), <[file := page_bs]> d).
Proof.
  intros Hl Ho Hb Hd Hp. destruct (c58_committed nd g x Hl) as [n Hn]. exists n. intros order fuel Hord Hf. specialize (Hn order fuel Hord Hf).
  pose proof Ho as (_ & Hr & _). rewrite (run_files_eq _ _ _ _ _ _ _ _ _ Hr Hb Hd). unfold main_page in Hn.
  revert Hn. generalize (main_run nd order fuel syntaxis2_json main_input). intros [[[[r w] rest] mm]| |]; cbn [rbind]; [|discriminate..].
  intros Hn. apply healthy_draw; [exact Ho|]. rewrite (ret_eq _ _ Hn). exact Hp.
Qed.
Lemma c79_gen_lexer (huge : str -> bool) (o : os) (d : disk) (bs lexer_bs : list N) : healthy o -> text_bytes syntaxis2_text bs ->
  d !! lit "src/tool/syntaxis/syntaxis2.json" = Some bs -> text_bytes lexer_rs lexer_bs ->
  gen_lexer huge o d = (Ret (), <[lit "tests/lexer_generate/lexer.rs" := lexer_bs]> d).
Proof.
  intros Ho Hb Hd Hp. pose proof Ho as (Ht & Hr & Hc & Hw). unfold gen_lexer. rewrite (read_shipped huge o d bs Hr Hb Hd). cbn [rbind]. rewrite shipped_tree_load, Ht.
  rewrite (c60_committed _ _ shipped_load). unfold create_and_write. rewrite Hc, Hw. cbv zeta. rewrite (text_bytes_eq _ _ Hp), insert_insert. by rewrite take_ge.
Qed.
Lemma c79_load_draw (huge : str -> bool) (o : os) (d : disk) (bs : list N) : healthy o -> text_bytes syntaxis2_text bs -> d !! lit "src/tool/syntaxis/syntaxis2.json" = Some bs ->
  exists r b, from_str huge syntaxis2_text = Ret (Some r) /\ text_bytes (page (lit "syntaxis") r) b /\
    load_ast_and_draw huge o d = (Ret (), <[lit "syntaxis.html" := b]> d).
Proof.
  intros Ho Hb Hd. pose proof Ho as (_ & Hr & _). exists shipped_tree, (as_bytes (page (lit "syntaxis") shipped_tree)).
  assert (text_bytes (page (lit "syntaxis") shipped_tree) (as_bytes (page (lit "syntaxis") shipped_tree))) as H.
  { apply as_bytes_ok, scalarb_all. vm_compute. reflexivity. }
  split_and!; [unfold from_str; rewrite c62_shipped; apply shipped_from_value|exact H|]. unfold load_ast_and_draw. rewrite (read_shipped huge o d bs Hr Hb Hd). by apply healthy_draw.
Qed.
Lemma ex_files : healthy (Os true true true Some) /\ (exists bs, text_bytes syntaxis2_text bs) /\ (exists bs, text_bytes parser2_html bs) /\ exists bs, text_bytes lexer_rs bs.
Proof.
  split; [done|]. split_and!; eexists; apply as_bytes_ok, scalarb_all; vm_compute; reflexivity.
Qed.

(** ** A grammar file that cannot be read *)
Lemma c79_unreadable nd huge order fuel o d s file :
  (os_read o = false \/ forall bs t j r, d !! lit "src/tool/syntaxis/syntaxis2.json" = Some bs -> text_bytes t bs -> document huge 127 j t -> ~ describes j r) ->
  run_files nd huge order fuel o d s file = (Panic, d) /\ load_ast_and_draw huge o d = (Panic, d) /\ gen_lexer huge o d = (Panic, d).
Proof.
  intros H. assert (read_tree huge o d (lit "src/tool/syntaxis/syntaxis2.json") = Panic) as E.
  { unfold read_tree. destruct (d !! _) as [bs|] eqn:Ed; [|done]. destruct (os_read o); [|done]. destruct H as [H|H]; [done|].
    assert (from_reader huge bs = Ret None) as ->; [|done]. apply c80_rejects. intros t j r. by apply H. }
  unfold run_files, load_ast_and_draw, gen_lexer. by rewrite E.
Qed.
Lemma create_only o d path text : only_changed path d (snd (create_and_write o d path text)).
Proof.
  intros p Hp. unfold create_and_write. destruct (os_create o); [|done]. destruct (os_write o _); cbn; by rewrite !lookup_insert_ne by congruence.
Qed.
Lemma c79_untouched nd huge order fuel o d s file : only_changed file d (snd (run_files nd huge order fuel o d s file)).
Proof.
  unfold run_files. destruct (rbind _ _); [|done..]. unfold draw. destruct (os_template o); [|done]. apply create_only.
Qed.
