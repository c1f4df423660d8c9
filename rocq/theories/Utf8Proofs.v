(** Utf8Proofs.v -- offsets of tokens are positions in the UTF-8 bytes of the input (C05, C11). *)
From Verif Require Export LexerMain SpecUtf8.

Lemma utf8_char_len c bs : utf8_char c bs -> length bs = utf8_len c.
Proof.
  unfold utf8_len. intros H. destruct H as [c H|a b Ha Hb H|a b d Ha Hb Hd H|a b d e Ha Hb Hd He H]; cbn [length];
    repeat match goal with |- context [(?x <? ?y)%N] => destruct (N.ltb_spec x y) end; lia.
Qed.
Lemma utf8_blen s bs : utf8_text s bs -> length bs = blen s.
Proof. induction 1 as [|c s bs bs' Hc _ IH]; [done|]. cbn. rewrite app_length, IH. f_equal. by apply utf8_char_len. Qed.
Lemma utf8_app s1 s2 bs : utf8_text (s1 ++ s2) bs -> exists b1 b2, bs = b1 ++ b2 /\ utf8_text s1 b1 /\ utf8_text s2 b2.
Proof.
  revert bs. induction s1 as [|c s1 IH]; intros bs H; [exists [], bs; split_and!; [done|constructor|done]|].
  cbn in H. inversion H as [|? ? b bs' Hc Hs]; subst. apply IH in Hs as (b1 & b2 & -> & H1 & H2).
  exists (b ++ b1), b2. rewrite (assoc_L (++)). split_and!; [done|by constructor|done].
Qed.

(** Every text of code points has UTF-8 bytes, and only one sequence of them; different texts have different bytes. *)
Lemma utf8_char_total c : (c <= 1114111)%N -> exists bs, utf8_char c bs.
Proof.
  intros H. pose proof (N.div_mod' c 64) as E1. pose proof (N.mod_lt c 64 ltac:(done)) as M1. revert E1 M1. generalize (c mod 64)%N (c / 64)%N. intros d q E1 M1.
  pose proof (N.div_mod' q 64) as E2. pose proof (N.mod_lt q 64 ltac:(done)) as M2. revert E2 M2. generalize (q mod 64)%N (q / 64)%N. intros b p E2 M2.
  pose proof (N.div_mod' p 64) as E3. pose proof (N.mod_lt p 64 ltac:(done)) as M3. revert E3 M3. generalize (p mod 64)%N (p / 64)%N. intros a o E3 M3.
  destruct (N.lt_ge_cases c 128) as [L1|L1]; [eexists; by apply utf8_one|].
  destruct (N.lt_ge_cases c 2048) as [L2|L2]; [exists [192 + q; 128 + d]%N; assert (c = q * 64 + d)%N as -> by lia; apply utf8_two; lia|].
  destruct (N.lt_ge_cases c 65536) as [L3|L3].
  - exists [224 + p; 128 + b; 128 + d]%N. assert (c = (p * 64 + b) * 64 + d)%N as -> by lia. apply utf8_three; lia.
  - exists [240 + o; 128 + a; 128 + b; 128 + d]%N. assert (c = ((o * 64 + a) * 64 + b) * 64 + d)%N as -> by lia. apply utf8_four; lia.
Qed.
Lemma utf8_char_prefix c c' bs bs' r r' : utf8_char c bs -> utf8_char c' bs' -> bs ++ r = bs' ++ r' -> c = c' /\ bs = bs' /\ r = r'.
Proof.
  intros H H' E. destruct H, H'; cbn in E; injection E; intros; subst;
    first [lia|split_and!; [lia|repeat f_equal; lia|done]].
Qed.
Lemma utf8_code c bs : utf8_char c bs -> (c <= 1114111)%N.
Proof. intros H. destruct H; lia. Qed.
Lemma c11_utf8 s : (forall c, c ∈ s -> (c <= 1114111)%N) <-> exists bs, utf8_text s bs.
Proof.
  split.
  - induction s as [|c s IH]; intros H; [exists []; constructor|]. destruct (utf8_char_total c) as [b1 H1]; [apply H, elem_of_list_here|].
    destruct IH as [b2 H2]; [intros x Hx; by apply H, elem_of_list_further|]. exists (b1 ++ b2). by constructor.
  - intros [bs H]. induction H as [|c s b b' Hc _ IH]; intros x Hx; [by apply elem_of_nil in Hx|].
    apply elem_of_cons in Hx as [->|Hx]; [by eapply utf8_code|by apply IH].
Qed.
Lemma c11_utf8_unique s s' bs bs' : utf8_text s bs -> utf8_text s' bs' -> bs = bs' <-> s = s'.
Proof.
  intros H. revert s' bs'. induction H as [|c s b1 b2 Hc _ IH]; intros s' bs' H'; destruct H' as [|c' s' b1' b2' Hc' H'].
  - done.
  - split; [|done]. destruct Hc'; done.
  - split; [|done]. destruct Hc; done.
  - split.
    + intros E. destruct (utf8_char_prefix _ _ _ _ _ _ Hc Hc' E) as (-> & _ & E'). f_equal. by apply (IH s' b2').
    + intros [= -> E]. assert (b2 = b2') as -> by (by apply (IH s' b2')). f_equal.
      assert (K : b1 = b1'); [|exact K]. clear -Hc Hc'.
      destruct Hc; inversion Hc'; subst; try lia; repeat f_equal; lia.
Qed.

Lemma offsets_bytes (inp : str) bytes ts rest a t b :
  utf8_text inp bytes -> inp = texts ts ++ rest -> ts = a ++ t :: b ->
  char_start_index t = blen (texts a) -> char_stop_index t = blen (texts (a ++ [t])) ->
  exists before here after, bytes = before ++ here ++ after /\ utf8_text (text t) here /\
    length before = char_start_index t /\ length (before ++ here) = char_stop_index t.
Proof.
  intros Hu -> -> Hs He. unfold texts in *. rewrite map_app, concat_app in Hu. cbn in Hu. rewrite <- !(assoc_L (++)) in Hu.
  apply utf8_app in Hu as (b1 & bs & -> & H1 & H). apply utf8_app in H as (b2 & b3 & -> & H2 & _).
  exists b1, b2, b3. split_and!; [done|done| |].
  - rewrite Hs. by apply utf8_blen.
  - rewrite He, map_app, concat_app, app_length, (utf8_blen _ _ H1), (utf8_blen _ _ H2), blen_app. cbn. by rewrite app_nil_r.
Qed.
Lemma c11_bytes c ts st bytes t :
  lexer_ok c -> scanned (scan c) lexer_init ts st -> utf8_text (input c) bytes -> t ∈ ts -> token_type t <> 1 ->
  exists before here after, bytes = before ++ here ++ after /\ utf8_text (text t) here /\
    length before = char_start_index t /\ length (before ++ here) = char_stop_index t.
Proof.
  intros Hok Hsc Hu Ht Hty. destruct (c05_scan c ts st Hok Hsc) as (ts0 & rest & Hin & Hts & Hoff).
  assert (t ∈ ts0) as (a & b & E)%elem_of_list_split.
  { destruct Hts as [->|(_ & s & Hs & ->)]; [done|]. apply elem_of_app in Ht as [Ht|Ht]; [done|]. apply elem_of_list_singleton in Ht as ->.
    by destruct Hs as [Hs _]. }
  destruct (Hoff a t b E) as (H1 & H2 & _). exact (offsets_bytes _ _ _ _ _ _ _ Hu Hin E H1 H2).
Qed.
Lemma c11_bytes0 c ts st bytes t :
  lexer_ok c -> scanned (scan0 c) lexer_init ts st -> utf8_text (input c) bytes -> t ∈ ts ->
  exists before here after, bytes = before ++ here ++ after /\ utf8_text (text t) here /\
    length before = char_start_index t /\ length (before ++ here) = char_stop_index t.
Proof.
  intros Hok Hsc Hu Ht. destruct (c05_scan0 c ts st Hok Hsc) as (rest & Hin & Hoff).
  apply elem_of_list_split in Ht as (a & b & E).
  destruct (Hoff a t b E) as (H1 & H2 & _). exact (offsets_bytes _ _ _ _ _ _ _ Hu Hin E H1 H2).
Qed.
Lemma ex_utf8 : exists bytes, utf8_text ex_text bytes /\ length bytes <> length ex_text.
Proof.
  destruct (proj1 (c11_utf8 ex_text)) as [bytes H].
  - intros c Hc. unfold ex_text in Hc. cbn in Hc. repeat (apply elem_of_cons in Hc as [->|Hc]; [done|]). by apply elem_of_nil in Hc.
  - exists bytes. split; [done|]. rewrite (utf8_blen _ _ H). by vm_compute.
Qed.
