(** ColumnProofs.v -- C12 sharpened: byte counts are character counts exactly for ASCII texts. *)
From Verif Require Export LexerMain.

Lemma blen_ge s : length s <= blen s.
Proof. induction s as [|x s IH]; simpl; [done|]. pose proof (utf8_len_pos x). lia. Qed.
Lemma blen_length_iff s : blen s = length s <-> ascii s.
Proof.
  unfold ascii. induction s as [|x s IH]; simpl; [split; by try constructor|].
  rewrite Forall_cons, <- IH. pose proof (blen_ge s). unfold utf8_len.
  destruct (N.ltb_spec x 128); [split; [intros; split; [done|lia]|intros [_ ?]; lia]|].
  split; [|intros [? _]; lia]. repeat case_match; lia.
Qed.

Lemma position_column pre p : position_after pre p ->
  exists l0 l, pre = l0 ++ l /\ (l0 = [] \/ exists l1, l0 = l1 ++ [10%N]) /\ newlines l = 0 /\ (char_position p = length l <-> ascii l).
Proof.
  intros (_ & l0 & l & Hl & Hn & Hl0 & Hc). exists l0, l. split_and!; [done..|]. rewrite Hc. apply blen_length_iff.
Qed.

Lemma c12_iff c ts st a t b :
  lexer_ok c -> scanned (scan c) lexer_init ts st -> ts = a ++ t :: b -> token_type t <> 1 ->
  (char_start_index t = length (texts a) <-> ascii (texts a)) /\
  (char_stop_index t = length (texts (a ++ [t])) <-> ascii (texts (a ++ [t]))) /\
  exists l0 l, texts a = l0 ++ l /\ (l0 = [] \/ exists l1, l0 = l1 ++ [10%N]) /\ newlines l = 0 /\
    (char_position (start t) = length l <-> ascii l).
Proof.
  intros Hok Hs Hsp Hty.
  destruct (c09_positions _ _ _ _ _ _ Hok Hs Hsp) as (Hp & _ & _).
  destruct (c05_scan _ _ _ Hok Hs) as (ts0 & rest & E & Hcase & Hoff).
  assert (exists b', ts0 = a ++ t :: b') as [b' Hb'].
  { destruct Hcase as [<-|(_ & s & Hst & Hts)]; [by exists b|].
    destruct b as [|x b _] using rev_ind.
    - rewrite Hts in Hsp. apply app_inj_tail in Hsp as [_ ->]. by destruct Hst.
    - rewrite Hts, app_comm_cons, (assoc_L (++)) in Hsp. apply app_inj_tail in Hsp as [-> _]. by exists b. }
  destruct (Hoff _ _ _ Hb') as (H1 & H2 & _). rewrite H1, H2.
  split; [apply blen_length_iff|]. split; [apply blen_length_iff|]. by apply position_column.
Qed.
Lemma c12_iff0 c ts st a t b :
  lexer_ok c -> scanned (scan0 c) lexer_init ts st -> ts = a ++ t :: b ->
  (char_start_index t = length (texts a) <-> ascii (texts a)) /\
  (char_stop_index t = length (texts (a ++ [t])) <-> ascii (texts (a ++ [t]))) /\
  exists l0 l, texts a = l0 ++ l /\ (l0 = [] \/ exists l1, l0 = l1 ++ [10%N]) /\ newlines l = 0 /\
    (char_position (start t) = length l <-> ascii l).
Proof.
  intros Hok Hs Hsp.
  destruct (c09_positions0 _ _ _ _ _ _ Hok Hs Hsp) as (Hp & _ & _).
  destruct (c05_scan0 _ _ _ Hok Hs) as (rest & E & Hoff).
  destruct (Hoff _ _ _ Hsp) as (H1 & H2 & _). rewrite H1, H2.
  split; [apply blen_length_iff|]. split; [apply blen_length_iff|]. by apply position_column.
Qed.
(** ε and a blank: the first token is at character and byte 0, the second at character 1 and byte 2. *)
Lemma ex_columns : lexer_ok (ex_lexer [949%N; 32%N]) /\ exists t1 t2 st, scanned (scan (ex_lexer [949%N; 32%N])) lexer_init [t1; t2] st /\
  text t1 = [949%N] /\ char_start_index t1 = 0 /\ char_stop_index t1 = 2 /\ char_start_index t2 = 2 /\ char_position (start t2) = 2 /\ ~ ascii (text t1).
Proof.
  split; [apply ex_lexer_ok|].
  do 3 eexists. split; [econstructor; [vm_compute; reflexivity|]; econstructor; [vm_compute; reflexivity|constructor]|].
  split_and!; [by vm_compute..|]. intros H. apply blen_length_iff in H. by vm_compute in H.
Qed.
