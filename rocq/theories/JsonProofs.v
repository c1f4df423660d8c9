(** JsonProofs.v -- C62, C63: syntax trees read from JSON texts. *)
From Verif Require Export SpecJson JsonText SerdeProofs.

(** *** Blanks *)
Lemma json_blank_iff c : json_blank c = true <-> c ∈ [32; 9; 10; 13]%N.
Proof.
  unfold json_blank. rewrite !orb_true_iff, !N.eqb_eq, !elem_of_cons, elem_of_nil. tauto.
Qed.
Lemma skip_blank_spec s : exists w, blanks w /\ s = w ++ skip_blank s /\ match skip_blank s with [] => True | c :: _ => json_blank c = false end.
Proof.
  induction s as [|c s (w & Hw & E & Hn)]; [exists []; split; [constructor|done]|]. cbn [skip_blank]. destruct (json_blank c) eqn:Hc.
  - exists (c :: w). split; [constructor; [by apply json_blank_iff|done]|]. split; [cbn; by f_equal|done].
  - exists []. split; [constructor|]. split; [done|exact Hc].
Qed.
Lemma skip_blank_app w s : blanks w -> skip_blank (w ++ s) = skip_blank s.
Proof. intros H. induction H as [|c w Hc Hw IH]; [done|]. cbn. apply json_blank_iff in Hc. by rewrite Hc. Qed.
Lemma skip_blank_all w : blanks w -> skip_blank w = [].
Proof. intros H. rewrite <- (app_nil_r w). by rewrite skip_blank_app. Qed.
Lemma skip_blank_len s : length (skip_blank s) <= length s.
Proof. destruct (skip_blank_spec s) as (w & _ & E & _). rewrite E at 2. rewrite app_length. lia. Qed.

(** *** Numbers *)
Lemma json_digit_iff c : json_digit c = true <-> is_digit c.
Proof. unfold json_digit, is_digit. rewrite andb_true_iff, !N.leb_le. lia. Qed.
Definition no_digit (r : str) : Prop := match r with [] => True | c :: _ => json_digit c = false end.
Lemma span_digits_spec s : exists ds r, span_digits s = (ds, r) /\ s = ds ++ r /\ Forall is_digit ds /\ no_digit r.
Proof.
  induction s as [|c s (ds & r & E & Es & Hd & Hn)]; [by exists [], []|]. cbn [span_digits]. rewrite E. destruct (json_digit c) eqn:Hc.
  - exists (c :: ds), r. split; [done|]. split; [by rewrite Es|]. split; [|done]. constructor; [by apply json_digit_iff|done].
  - exists [], (c :: s). split; [done|]. split; [done|]. split; [constructor|done].
Qed.
Lemma span_digits_app ds r : Forall is_digit ds -> no_digit r -> span_digits (ds ++ r) = (ds, r).
Proof.
  intros H Hn. induction H as [|c ds Hc Hd IH]; [destruct r as [|c r]; [done|cbn in *; by rewrite Hn]|].
  cbn. apply json_digit_iff in Hc. by rewrite Hc, IH.
Qed.
Lemma decimal_value_fold ds v : Forall is_digit ds ->
  fold_left (fun v c => 10 * v + (c - 48))%N ds v = (v * 10 ^ N.of_nat (length ds) + decimal ds)%N.
Proof.
  intros H. revert v. induction H as [|d ds Hd Hds IH]; intros v; [cbn; lia|]. cbn [fold_left]. rewrite IH. cbn [decimal length].
  rewrite Nat2N.inj_succ, N.pow_succ_r'. lia.
Qed.
Lemma decimal_value_eq ds : Forall is_digit ds -> decimal_value ds = decimal ds.
Proof. intros H. unfold decimal_value. rewrite decimal_value_fold by done. lia. Qed.

Definition closed_off (r : str) : Prop := match r with [] => True | c :: _ => json_digit c = false /\ c <> 46%N /\ c <> 101%N /\ c <> 69%N end.
Lemma parse_fraction_sound s f r : parse_fraction s = JOk (f, r) -> s = f ++ r /\ fraction_text f.
Proof.
  destruct s as [|c s]; cbn; [intros [= <- <-]; by split; [|left]|]. destruct (N.eqb_spec c 46) as [->|Hc]; [|intros [= <- <-]; by split; [|left]].
  destruct (span_digits_spec s) as (ds & r' & -> & -> & Hd & _). destruct ds as [|d ds]; [discriminate|]. intros [= <- <-].
  split; [done|]. right. by exists (d :: ds).
Qed.
Lemma parse_fraction_complete f r : fraction_text f -> no_digit r -> (match r with c :: _ => c <> 46%N | [] => True end) -> parse_fraction (f ++ r) = JOk (f, r).
Proof.
  intros [->|(ds & -> & Hd & Hne)] Hn Hr.
  - destruct r as [|c r]; [done|]. cbn. by destruct (N.eqb_spec c 46) as [->|].
  - cbn. rewrite span_digits_app by done. by destruct ds.
Qed.
Lemma parse_exponent_sound s e r : parse_exponent s = JOk (e, r) -> s = e ++ r /\ exponent_text e.
Proof.
  destruct s as [|c s]; cbn [parse_exponent]; [intros [= <- <-]; by split; [|left]|].
  destruct ((c =? 101)%N || (c =? 69)%N) eqn:Hc; [|intros [= <- <-]; by split; [|left]].
  apply orb_true_iff in Hc. rewrite !N.eqb_eq in Hc.
  destruct (match s with x :: s'' => if (x =? 43)%N || (x =? 45)%N then ([x], s'') else ([], s) | [] => ([], []) end) as [sign s2] eqn:Es.
  assert (s = sign ++ s2 /\ (sign = [] \/ sign = [43%N] \/ sign = [45%N])) as [-> Hs].
  { destruct s as [|x s]; [injection Es as <- <-; by split; [|left]|].
    destruct ((x =? 43)%N || (x =? 45)%N) eqn:Hx; injection Es as <- <-; [|by split; [|left]].
    split; [done|]. apply orb_true_iff in Hx. rewrite !N.eqb_eq in Hx. right. destruct Hx as [->| ->]; auto. }
  destruct (span_digits_spec s2) as (ds & r' & -> & -> & Hd & _). destruct ds as [|d ds]; [discriminate|]. intros [= <- <-].
  split; [cbn; by rewrite <- app_assoc|]. right. exists c, sign, (d :: ds). by split_and!.
Qed.
Lemma parse_exponent_complete e r : exponent_text e -> closed_off r -> parse_exponent (e ++ r) = JOk (e, r).
Proof.
  intros [->|(x & sign & ds & -> & Hx & Hs & Hd & Hne)] Hr.
  - destruct r as [|c r]; [done|]. destruct Hr as (_ & _ & H1 & H2). cbn. apply N.eqb_neq in H1, H2. by rewrite H1, H2.
  - cbn [app parse_exponent]. replace ((x =? 101)%N || (x =? 69)%N) with true by (by destruct Hx as [->| ->]).
    assert (no_digit r) as Hn by (destruct r; [done|apply Hr]).
    rewrite <- app_assoc. destruct Hs as [->|[->| ->]]; cbn [app].
    + destruct ds as [|d ds]; [done|]. cbn [app]. inversion Hd as [|? ? Hd1 Hd2]; subst.
      assert ((d =? 43)%N || (d =? 45)%N = false) as -> by (unfold is_digit in Hd1; apply orb_false_iff; rewrite !N.eqb_neq; lia).
      change (d :: ds ++ r) with ((d :: ds) ++ r). by rewrite span_digits_app.
    + cbn. rewrite span_digits_app by done. by destruct ds.
    + cbn. rewrite span_digits_app by done. by destruct ds.
Qed.
Lemma fraction_exponent_no_digit f e r : fraction_text f -> exponent_text e -> closed_off r -> no_digit (f ++ e ++ r).
Proof.
  intros [->|(ds & -> & _)]; [|done]. intros [->|(x & sg & ds & -> & [->| ->] & _)]; [|done..]. intros H. destruct r; [done|apply H].
Qed.
Lemma exponent_no_dot e r : exponent_text e -> closed_off r -> no_digit (e ++ r) /\ match e ++ r with c :: _ => c <> 46%N | [] => True end.
Proof. intros [->|(x & sg & ds & -> & [->| ->] & _)]; [|done..]. intros H. destruct r; [done|]. destruct H as (H1 & H2 & _). done. Qed.

Lemma parse_number_sound huge s j r : parse_number huge s = JOk (j, r) -> exists t, s = t ++ r /\ number_text huge j t.
Proof.
  unfold parse_number. destruct (parse_sign s) as [sign s1] eqn:Es.
  assert (s = sign ++ s1 /\ (sign = [] \/ sign = [45%N])) as [-> Hs].
  { destruct s as [|c s]; cbn in Es; [injection Es as <- <-; by split; [|left]|].
    destruct (N.eqb_spec c 45) as [->|]; injection Es as <- <-; (split; [done|auto]). }
  clear Es. destruct (span_digits_spec s1) as (ds & s2 & -> & -> & Hd & _). destruct ds as [|d ds]; [discriminate|].
  destruct ((d =? 48)%N && negb (bool_decide (ds = []))) eqn:Hz; [discriminate|].
  assert (int_text (d :: ds)) as Hi.
  { split; [split; [done|discriminate]|]. intros r' [= -> <-]. cbn in Hz. apply negb_false_iff, bool_decide_eq_true in Hz. done. }
  destruct (parse_fraction s2) as [[f s3]| |] eqn:Ef; [|discriminate..]. cbn [jbind]. apply parse_fraction_sound in Ef as [-> Hf].
  destruct (parse_exponent s3) as [[e s4]| |] eqn:Ee; [|discriminate..]. cbn [jbind]. apply parse_exponent_sound in Ee as [-> He].
  rewrite decimal_value_eq by done.
  destruct (bool_decide (f = []) && bool_decide (e = []) && (decimal (d :: ds) <? 2 ^ 64)%N) eqn:Hw.
  - apply andb_true_iff in Hw as [Hw Hlt]. apply andb_true_iff in Hw as [Hf0 He0]. apply bool_decide_eq_true in Hf0, He0. subst f e.
    apply N.ltb_lt in Hlt. destruct (bool_decide (sign = [])) eqn:Hsg.
    + apply bool_decide_eq_true in Hsg. subst sign. intros [= <- <-]. exists (d :: ds). split; [done|]. exact (number_u64 huge (d :: ds) Hi Hlt).
    + apply bool_decide_eq_false in Hsg. destruct Hs as [->| ->]; [done|]. intros [= <- <-]. exists (45%N :: d :: ds). split; [done|]. exact (number_negative huge (d :: ds) Hi Hlt).
  - destruct (huge _) eqn:Hh; [discriminate|]. intros [= <- <-]. exists (sign ++ (d :: ds) ++ f ++ e). split; [by rewrite <- !app_assoc|].
    apply number_other; [done..| |exact Hh]. apply andb_false_iff in Hw as [Hw|Hw].
    + apply andb_false_iff in Hw as [Hw|Hw]; apply bool_decide_eq_false in Hw; auto.
    + right. right. by apply N.ltb_ge in Hw.
Qed.
Lemma parse_number_run huge sign i f e r : (sign = [] \/ sign = [45%N]) -> int_text i -> fraction_text f -> exponent_text e -> closed_off r ->
  parse_number huge ((sign ++ i ++ f ++ e) ++ r) =
    if bool_decide (f = []) && bool_decide (e = []) && (decimal i <? 2 ^ 64)%N then
      (if bool_decide (sign = []) then JOk (JU64 (N.to_nat (decimal i)), r) else JOk (JOtherNumber, r))
    else if huge (sign ++ i ++ f ++ e) then JErr else JOk (JOtherNumber, r).
Proof.
  intros Hs [[Hd Hne] Hz] Hf He Hr. unfold parse_number.
  assert (parse_sign ((sign ++ i ++ f ++ e) ++ r) = (sign, i ++ f ++ e ++ r)) as ->.
  { rewrite <- !app_assoc. destruct Hs as [->| ->]; [|done]. destruct i as [|d i]; [done|]. cbn.
    inversion Hd as [|? ? Hd1 Hd2]; subst. unfold is_digit in Hd1. destruct (N.eqb_spec d 45); [lia|done]. }
  rewrite span_digits_app; [|done|by apply fraction_exponent_no_digit]. destruct i as [|d i]; [done|].
  replace ((d =? 48)%N && negb (bool_decide (i = []))) with false.
  2: { destruct (N.eqb_spec d 48) as [->|]; [|done]. rewrite bool_decide_true; [done|by apply Hz]. }
  rewrite parse_fraction_complete; [|done|by apply exponent_no_dot..]. cbn [jbind]. rewrite parse_exponent_complete by done. cbn [jbind].
  by rewrite decimal_value_eq.
Qed.
Lemma parse_number_complete huge j t r : number_text huge j t -> closed_off r -> parse_number huge (t ++ r) = JOk (j, r).
Proof.
  intros H Hr. destruct H as [i Hi Hlt|i Hi Hlt|sign i f e Hs Hi Hf He Hw Hh].
  - pose proof (parse_number_run huge [] i [] [] r (or_introl eq_refl) Hi (or_introl eq_refl) (or_introl eq_refl) Hr) as K.
    rewrite !app_nil_r in K. cbn [app] in K. rewrite K. apply N.ltb_lt in Hlt. by rewrite Hlt.
  - pose proof (parse_number_run huge [45%N] i [] [] r (or_intror eq_refl) Hi (or_introl eq_refl) (or_introl eq_refl) Hr) as K.
    rewrite !app_nil_r in K. cbn [app] in K. cbn [app]. rewrite K. apply N.ltb_lt in Hlt. by rewrite Hlt.
  - rewrite parse_number_run by done. rewrite Hh. destruct (bool_decide (f = []) && bool_decide (e = []) && (decimal i <? 2 ^ 64)%N) eqn:E; [|done].
    exfalso. apply andb_true_iff in E as [E E3]. apply andb_true_iff in E as [E1 E2]. apply bool_decide_eq_true in E1, E2. apply N.ltb_lt in E3.
    destruct Hw as [?|[?|?]]; [done..|lia].
Qed.
Lemma number_head huge j t : number_text huge j t -> exists c t', t = c :: t' /\ (c =? 45)%N || json_digit c = true.
Proof.
  assert (forall i, int_text i -> exists c t', i = c :: t' /\ (c =? 45)%N || json_digit c = true) as K.
  { intros [|c i] [[Hd Hne] _]; [done|]. exists c, i. split; [done|]. inversion Hd; subst. by rewrite (proj2 (json_digit_iff c)), orb_true_r. }
  intros [i Hi _|i Hi _|sign i f e Hs Hi _ _ _ _]; [by apply K|by exists 45%N, i|].
  destruct Hs as [->| ->]; [|by eexists _, _]. destruct (K i Hi) as (c & t' & -> & Hc). by eexists _, _.
Qed.

(** *** Strings *)
Definition hex_ok (c : N) : bool :=
  match hex_digit_value c with
  | Some v => (bool_decide (lit "0123456789abcdef" !! N.to_nat v = Some c) || bool_decide (lit "0123456789ABCDEF" !! N.to_nat v = Some c)) && (v <? 16)%N
  | None => true
  end.
Lemma hex_digit_none c : (128 <= c)%N -> hex_digit_value c = None.
Proof.
  intros H. unfold hex_digit_value. destruct (N.leb_spec c 57); [lia|]. destruct (N.leb_spec c 70); [lia|]. destruct (N.leb_spec c 102); [lia|].
  by rewrite !andb_false_r.
Qed.
Lemma hex_ok_all : forallb (fun i => hex_ok (N.of_nat i)) (seq 0 128) = true.
Proof. vm_compute. reflexivity. Qed.
Lemma hex_digit_sound c v : hex_digit_value c = Some v -> hex_digit (N.to_nat v) c /\ (v < 16)%N.
Proof.
  intros H. destruct (N.lt_ge_cases c 128) as [Hc|Hc]; [|by rewrite hex_digit_none in H].
  pose proof hex_ok_all as K. rewrite forallb_forall in K. specialize (K (N.to_nat c)). rewrite N2Nat.id in K.
  assert (hex_ok c = true) as Hok by (apply K, in_seq; lia). unfold hex_ok in Hok. rewrite H in Hok.
  apply andb_true_iff in Hok as [Ho Hv]. apply N.ltb_lt in Hv. split; [|done]. apply orb_true_iff in Ho as [Ho|Ho]; apply bool_decide_eq_true in Ho; [by left|by right].
Qed.
Lemma hex_digit_complete v c : hex_digit v c -> hex_digit_value c = Some (N.of_nat v) /\ v < 16.
Proof.
  assert (forall s : str, length s = 16 -> forallb (fun i => match s !! i with Some c => bool_decide (hex_digit_value c = Some (N.of_nat i)) | None => true end) (seq 0 16) = true ->
    s !! v = Some c -> hex_digit_value c = Some (N.of_nat v) /\ v < 16) as K.
  { intros s Hl Hs Hv. assert (v < 16) as Hlt by (rewrite <- Hl; by eapply lookup_lt_Some). split; [|done].
    rewrite forallb_forall in Hs. specialize (Hs v). rewrite Hv in Hs. apply bool_decide_eq_true in Hs; [done|]. apply in_seq. lia. }
  intros [H|H]; (eapply K; [..|exact H]; vm_compute; reflexivity).
Qed.
Lemma hex4_sound x y z w n : hex4 x y z w = Some n -> hex_text n [x; y; z; w].
Proof.
  unfold hex4. destruct (hex_digit_value x) as [a|] eqn:Ha; [|discriminate]. destruct (hex_digit_value y) as [b|] eqn:Hb; [|discriminate].
  destruct (hex_digit_value z) as [c|] eqn:Hc; [|discriminate]. destruct (hex_digit_value w) as [d|] eqn:Hd; [|discriminate]. intros [= <-].
  apply hex_digit_sound in Ha as [Ha _], Hb as [Hb _], Hc as [Hc _], Hd as [Hd _].
  exists (N.to_nat a), (N.to_nat b), (N.to_nat c), (N.to_nat d), x, y, z, w. split_and!; [done..|]. cbn [Nat.pow]. lia.
Qed.
Lemma hex4_complete n h : hex_text n h -> exists x y z w, h = [x; y; z; w] /\ hex4 x y z w = Some n.
Proof.
  intros (a & b & c & d & x & y & z & w & -> & Ha & Hb & Hc & Hd & ->). exists x, y, z, w. split; [done|].
  apply hex_digit_complete in Ha as [Ha _], Hb as [Hb _], Hc as [Hc _], Hd as [Hd _]. unfold hex4. rewrite Ha, Hb, Hc, Hd. f_equal. cbn [Nat.pow]. lia.
Qed.
Lemma short_escape_sound e x : short_escape e = Some x -> (e, x) ∈ short_escapes.
Proof.
  unfold short_escape, short_escapes. intros H.
  repeat match type of H with (if (?a =? ?b)%N then _ else _) = _ => destruct (N.eqb_spec a b) as [->|?]; [injection H as <-; apply elem_of_list_In; cbn; tauto|] end.
  discriminate.
Qed.
Lemma short_escape_complete e x : (e, x) ∈ short_escapes -> short_escape e = Some x /\ e <> 117%N.
Proof.
  unfold short_escapes. rewrite !elem_of_cons, elem_of_nil. intros H.
  repeat (destruct H as [[= -> ->]|H]; [split; [reflexivity|discriminate]|]). destruct H.
Qed.
Lemma in_range a b n : ((a <=? n) && (n <? b))%N = true <-> (a <= n < b)%N.
Proof. rewrite andb_true_iff, N.leb_le, N.ltb_lt. tauto. Qed.
Lemma in_range_not a b n : ((a <=? n) && (n <? b))%N = false <-> ~ (a <= n < b)%N.
Proof. rewrite <- not_true_iff_false, in_range. tauto. Qed.

Lemma parse_string_sound s : forall x r, parse_string s = JOk (x, r) -> exists t, s = t ++ 34%N :: r /\ string_text x t.
Proof.
  induction s as [s IH] using (induction_ltof1 _ (@length N)). unfold ltof in IH. intros x r.
  destruct s as [|c s1]; [discriminate|]. cbn [parse_string]. destruct (N.eqb_spec c 34) as [->|Hq].
  { intros [= <- <-]. exists []. split; [done|constructor]. }
  assert (forall c' s', length s' < S (length s1) -> jcons c' (parse_string s') = JOk (x, r) ->
    exists x' t, x = c' :: x' /\ s' = t ++ 34%N :: r /\ string_text x' t) as K.
  { intros c' s' Hl H. unfold jcons in H. destruct (parse_string s') as [[x' r']| |] eqn:E; [|discriminate..]. cbn in H. injection H as <- ->.
    apply IH in E as (t & -> & Ht); [|exact Hl]. by exists x', t. }
  destruct (N.eqb_spec c 92) as [->|Hb].
  2: { destruct (N.ltb_spec c 32) as [Hc|Hc]; [discriminate|]. intros H. apply K in H as (x' & t & -> & -> & Ht); [|lia].
       exists (c :: t). split; [done|]. by apply string_plain. }
  destruct s1 as [|e s2]; [discriminate|]. cbn [length] in K. destruct (N.eqb_spec e 117) as [->|Hu].
  2: { destruct (short_escape e) as [y|] eqn:Ey; [|discriminate]. intros H. apply K in H as (x' & t & -> & -> & Ht); [|lia].
       exists (92%N :: e :: t). split; [done|]. apply string_short; [by apply short_escape_sound|done]. }
  destruct s2 as [|h1 [|h2 [|h3 [|h4 s3]]]]; try discriminate. cbn [length] in K.
  destruct (hex4 h1 h2 h3 h4) as [n|] eqn:En; [|discriminate]. apply hex4_sound in En.
  destruct ((56320 <=? n) && (n <? 57344))%N eqn:Elo; [discriminate|]. apply in_range_not in Elo.
  destruct ((55296 <=? n) && (n <? 56320))%N eqn:Ehi.
  - apply in_range in Ehi. destruct s3 as [|a [|b [|g1 [|g2 [|g3 [|g4 s4]]]]]]; try discriminate. cbn [length] in K.
    destruct ((a =? 92)%N && (b =? 117)%N) eqn:Eab; [|discriminate]. apply andb_true_iff in Eab as [Ea Eb]. apply N.eqb_eq in Ea, Eb. subst a b.
    destruct (hex4 g1 g2 g3 g4) as [m|] eqn:Em; [|discriminate]. apply hex4_sound in Em.
    destruct ((56320 <=? m) && (m <? 57344))%N eqn:Em2; [|discriminate]. apply in_range in Em2.
    intros H. apply K in H as (x' & t & -> & -> & Ht); [|lia].
    exists (92%N :: 117%N :: [h1; h2; h3; h4] ++ 92%N :: 117%N :: [g1; g2; g3; g4] ++ t). split; [done|]. by apply (string_pair _ n m).
  - apply in_range_not in Ehi. intros H. apply K in H as (x' & t & -> & -> & Ht); [|lia].
    exists (92%N :: 117%N :: [h1; h2; h3; h4] ++ t). split; [done|]. by apply string_hex.
Qed.
Lemma parse_string_complete x t r : string_text x t -> parse_string (t ++ 34%N :: r) = JOk (x, r).
Proof.
  intros H. induction H as [|c s t Hc Hq Hb H IH|c e s t He H IH|c h s t Hh Hhi Hlo H IH|c hi lo h l s t Hh Hl Hhi Hlo -> H IH].
  - done.
  - cbn [app parse_string]. apply N.eqb_neq in Hq, Hb. rewrite Hq, Hb. destruct (N.ltb_spec c 32); [lia|]. by rewrite IH.
  - cbn [app parse_string]. apply short_escape_complete in He as [He Hu]. apply N.eqb_neq in Hu. rewrite Hu, He.
    change (92 =? 34)%N with false. change (92 =? 92)%N with true. cbn iota. by rewrite IH.
  - apply hex4_complete in Hh as (x & y & z & w & -> & Hx). cbn [app parse_string].
    change (92 =? 34)%N with false. change (92 =? 92)%N with true. change (117 =? 117)%N with true. cbn iota. rewrite Hx.
    rewrite (proj2 (in_range_not 56320 57344 c)) by exact Hlo. rewrite (proj2 (in_range_not 55296 56320 c)) by exact Hhi. by rewrite IH.
  - apply hex4_complete in Hh as (x & y & z & w & -> & Hx). apply hex4_complete in Hl as (x' & y' & z' & w' & -> & Hx'). cbn [app parse_string].
    change (92 =? 34)%N with false. change (92 =? 92)%N with true. change (117 =? 117)%N with true. cbn iota. rewrite Hx.
    rewrite (proj2 (in_range_not 56320 57344 hi)) by (unfold high_surrogate in Hhi; lia). rewrite (proj2 (in_range 55296 56320 hi)) by exact Hhi.
    cbn [andb]. rewrite Hx', (proj2 (in_range 56320 57344 lo)) by exact Hlo. by rewrite IH.
Qed.
Lemma parse_string_len s x r : parse_string s = JOk (x, r) -> length r < length s.
Proof. intros H. apply parse_string_sound in H as (t & -> & _). rewrite app_length. cbn. lia. Qed.

(** *** Values: what is read is in the grammar *)
Lemma parse_word_sound w s r : parse_word w s = Some r -> s = w ++ r.
Proof.
  revert s. induction w as [|c w IH]; intros s; [by intros [= ->]|]. destruct s as [|x s]; [discriminate|]. cbn.
  destruct (N.eqb_spec c x) as [->|]; [|discriminate]. intros H. by rewrite (IH _ H).
Qed.
Lemma parse_word_complete w r : parse_word w (w ++ r) = Some r.
Proof. induction w as [|c w IH]; [done|]. cbn. by rewrite N.eqb_refl. Qed.
Lemma parse_ident_sound w s j j' r : parse_ident w s j = JOk (j', r) -> s = w ++ r /\ j' = j.
Proof. unfold parse_ident. destruct (parse_word w s) eqn:E; [|discriminate]. intros [= <- <-]. by apply parse_word_sound in E. Qed.
Lemma jbind_ok {A B} (m : jres A) (k : A -> jres B) b : jbind m k = JOk b -> exists a, m = JOk a /\ k a = JOk b.
Proof. destruct m as [a| |]; [|discriminate..]. intros H. by exists a. Qed.

Lemma keep_last_snoc ms k v : keep_last (ms ++ [(k, v)]) = filter (fun x => fst x <> k) (keep_last ms) ++ [(k, v)].
Proof.
  induction ms as [|[k' v'] ms IH]; [done|]. cbn [app keep_last]. rewrite map_app. cbn [map fst].
  destruct (decide (k' = k)) as [->|Hk].
  - rewrite (bool_decide_true (k ∈ map fst ms ++ [k])) by (apply elem_of_app; right; by apply elem_of_list_singleton). rewrite IH.
    destruct (bool_decide (k ∈ map fst ms)); [done|]. rewrite filter_cons. cbn [fst]. by rewrite decide_False by (intros []; done).
  - assert (bool_decide (k' ∈ map fst ms ++ [k]) = bool_decide (k' ∈ map fst ms)) as ->.
    { apply bool_decide_ext. rewrite elem_of_app, elem_of_list_singleton. tauto. }
    destruct (bool_decide (k' ∈ map fst ms)); [done|]. rewrite filter_cons. cbn [fst]. rewrite decide_True by done. cbn. by rewrite IH.
Qed.
Lemma set_members new : fold_left set_member new [] = keep_last new.
Proof.
  induction new as [|[k v] new IH] using rev_ind; [done|]. rewrite fold_left_app, IH. cbn [fold_left]. unfold set_member. cbn [fst]. by rewrite keep_last_snoc.
Qed.

Section Sound.
  Context (huge : str -> bool).
  Definition value_sound (f : nat) : Prop := forall d s j r, parse_value huge f (S d) s = JOk (j, r) ->
    exists w t, blanks w /\ s = w ++ t ++ r /\ value_text huge d j t.
  Definition items_sound (f : nat) : Prop := forall d first s js r, parse_items huge f (S d) first s = JOk (js, r) ->
    if first then exists t, s = t ++ 93%N :: r /\ items_text huge d js t
    else exists w, blanks w /\ ((js = [] /\ s = w ++ 93%N :: r) \/ exists t, s = w ++ 44%N :: t ++ 93%N :: r /\ items_text huge d js t /\ js <> []).
  Definition members_sound (f : nat) : Prop := forall d first ms s ms' r, parse_members huge f (S d) first ms s = JOk (ms', r) ->
    exists new, ms' = fold_left set_member new ms /\
    if first then exists t, s = t ++ 125%N :: r /\ members_text huge d new t
    else exists w, blanks w /\ ((new = [] /\ s = w ++ 125%N :: r) \/ exists t, s = w ++ 44%N :: t ++ 125%N :: r /\ members_text huge d new t /\ new <> []).

  Lemma value_sound_S f : items_sound f -> members_sound f -> value_sound (S f).
  Proof.
    intros HI HM d s j r. cbn [parse_value]. destruct (skip_blank_spec s) as (w & Hw & Es & _). destruct (skip_blank s) as [|c s']; [discriminate|].
    intros H. exists w.
    enough (exists t, c :: s' = t ++ r /\ value_text huge d j t) as (t & Et & Ht) by (exists t; by rewrite Es, Et).
    clear s Es w Hw.
    destruct (N.eqb_spec c 110) as [->|_]. { apply parse_ident_sound in H as [-> ->]. exists (lit "null"). split; [done|constructor]. }
    destruct (N.eqb_spec c 116) as [->|_]. { apply parse_ident_sound in H as [-> ->]. exists (lit "true"). split; [done|constructor]. }
    destruct (N.eqb_spec c 102) as [->|_]. { apply parse_ident_sound in H as [-> ->]. exists (lit "false"). split; [done|constructor]. }
    destruct ((c =? 45)%N || json_digit c). { apply parse_number_sound in H as (t & Et & Ht). exists t. split; [done|by constructor]. }
    destruct (N.eqb_spec c 34) as [->|_].
    { apply jbind_ok in H as ([x r'] & Hx & [= <- <-]). apply parse_string_sound in Hx as (t & -> & Ht). exists (34%N :: t ++ [34%N]).
      split; [cbn; by rewrite <- app_assoc|by constructor]. }
    destruct (N.eqb_spec c 91) as [->|_].
    { destruct d as [|d]; [discriminate|]. cbn [Nat.leb] in H. apply jbind_ok in H as ([js r'] & Hx & [= <- <-]).
      cbn [Nat.sub] in Hx. apply HI in Hx as (t & -> & Ht). exists (91%N :: t ++ [93%N]). split; [cbn; by rewrite <- app_assoc|by constructor]. }
    destruct (N.eqb_spec c 123) as [->|_]; [|discriminate].
    destruct d as [|d]; [discriminate|]. cbn [Nat.leb] in H. apply jbind_ok in H as ([ms r'] & Hx & [= <- <-]).
    cbn [Nat.sub] in Hx. apply HM in Hx as (new & -> & t & -> & Ht). exists (123%N :: t ++ [125%N]). split; [cbn; by rewrite <- app_assoc|].
    rewrite set_members. by constructor.
  Qed.
  Lemma items_sound_S f : value_sound f -> items_sound f -> items_sound (S f).
  Proof.
    intros HV HI d first s js r. cbn [parse_items]. destruct (skip_blank_spec s) as (w & Hw & Es & _). destruct (skip_blank s) as [|c s']; [discriminate|].
    assert (forall x, (let? (j, r0) := parse_value huge f (S d) x in let? (js0, r') := parse_items huge f (S d) false r0 in JOk (j :: js0, r')) = JOk (js, r) ->
      exists t, x = t ++ 93%N :: r /\ items_text huge d js t /\ js <> []) as K.
    { intros x H. apply jbind_ok in H as ([j r0] & Hv & H). apply jbind_ok in H as ([js0 r'] & Hi & [= <- ->]).
      apply HV in Hv as (w1 & t & Hw1 & -> & Ht). apply HI in Hi as (w2 & Hw2 & [[-> ->]|(u & -> & Hu & Hne)]).
      - exists (w1 ++ t ++ w2). split; [by rewrite <- !app_assoc|]. split; [by constructor|done].
      - exists (w1 ++ t ++ w2 ++ 44%N :: u). split; [rewrite <- !app_assoc; cbn; by rewrite ?app_comm_cons, <- ?app_assoc|]. split; [by constructor|done]. }
    destruct (N.eqb_spec c 93) as [->|_].
    { intros [= <- <-]. destruct first; [exists w; split; [done|by constructor]|]. exists w. split; [done|]. by left. }
    destruct first.
    - intros H. apply K in H as (t & Et & Ht & _). rewrite Et in Es. exists (w ++ t). split; [by rewrite Es, <- app_assoc|].
      clear -Hw Ht. destruct Ht as [d w1 H|d w1 j t w2 H1 Ht H2|d w1 j t w2 js u H1 Ht H2 Hu Hn].
      + constructor. by apply Forall_app.
      + rewrite app_assoc. constructor; [by apply Forall_app|done..].
      + rewrite app_assoc. constructor; [by apply Forall_app|done..].
    - destruct (N.eqb_spec c 44) as [->|_]; [|discriminate].
      destruct (skip_blank_spec s') as (w' & Hw' & Es' & _). destruct (skip_blank s') as [|c' s'']; [discriminate|].
      destruct (N.eqb_spec c' 93) as [->|_]; [discriminate|]. intros H. apply K in H as (t & Et & Ht & Hn). exists w. split; [done|]. right.
      exists (w' ++ t). split; [by rewrite Es, Es', Et, <- app_assoc|]. split; [|done].
      clear -Hw' Ht. destruct Ht as [d w1 H|d w1 j t w2 H1 Ht H2|d w1 j t w2 js u H1 Ht H2 Hu Hn].
      + constructor. by apply Forall_app.
      + rewrite app_assoc. constructor; [by apply Forall_app|done..].
      + rewrite app_assoc. constructor; [by apply Forall_app|done..].
  Qed.
  Lemma members_sound_S f : value_sound f -> members_sound f -> members_sound (S f).
  Proof.
    intros HV HM d first ms s ms' r. cbn [parse_members]. destruct (skip_blank_spec s) as (w & Hw & Es & _). destruct (skip_blank s) as [|c s']; [discriminate|].
    assert (forall c x, (if (c =? 34)%N then
        let? (k, r0) := parse_string x in
        match skip_blank r0 with
        | [] => JErr
        | c' :: r' => if (c' =? 58)%N then let? (j, r'') := parse_value huge f (S d) r' in parse_members huge f (S d) false (set_member ms (k, j)) r'' else JErr
        end
      else JErr) = JOk (ms', r) ->
      exists new t, ms' = fold_left set_member new ms /\ c :: x = t ++ 125%N :: r /\ members_text huge d new t /\ new <> []) as K.
    { intros c0 x. destruct (N.eqb_spec c0 34) as [->|_]; [|discriminate]. intros H. apply jbind_ok in H as ([k r0] & Hk & H).
      apply parse_string_sound in Hk as (kt & -> & Hk). destruct (skip_blank_spec r0) as (w1 & Hw1 & E1 & _). destruct (skip_blank r0) as [|c1 r1]; [discriminate|].
      destruct (N.eqb_spec c1 58) as [->|_]; [|discriminate]. apply jbind_ok in H as ([j r2] & Hv & H).
      apply HV in Hv as (w2 & t & Hw2 & -> & Ht). apply HM in H as (new & -> & w3 & Hw3 & H).
      assert (member_text huge d (k, j) (34%N :: kt ++ 34%N :: w1 ++ 58%N :: w2 ++ t)) as Hm by (by constructor).
      destruct H as [[-> ->]|(u & -> & Hu & Hne)].
      - exists [(k, j)], ([] ++ (34%N :: kt ++ 34%N :: w1 ++ 58%N :: w2 ++ t) ++ w3). split; [done|].
        split; [rewrite E1; cbn; rewrite <- !app_assoc; cbn; by rewrite <- !app_assoc; cbn; rewrite <- !app_assoc|].
        split; [apply members_one; [constructor|done..]|done].
      - exists ((k, j) :: new), ([] ++ (34%N :: kt ++ 34%N :: w1 ++ 58%N :: w2 ++ t) ++ w3 ++ 44%N :: u). split; [done|].
        split; [rewrite E1; cbn; repeat (rewrite <- !app_assoc; cbn); done|].
        split; [apply members_more; [constructor|done..]|done]. }
    destruct (N.eqb_spec c 125) as [->|_].
    { intros [= <- <-]. exists []. split; [done|]. destruct first; [exists w; split; [done|by constructor]|]. exists w. split; [done|]. by left. }
    destruct first.
    - intros H. apply K in H as (new & t & -> & Et & Ht & _). rewrite Et in Es. exists new. split; [done|]. exists (w ++ t). split; [by rewrite Es, <- app_assoc|].
      clear -Hw Ht. destruct Ht as [d w1 H|d w1 m t w2 H1 Ht H2|d w1 m t w2 ms u H1 Ht H2 Hu Hn].
      + constructor. by apply Forall_app.
      + rewrite app_assoc. constructor; [by apply Forall_app|done..].
      + rewrite app_assoc. constructor; [by apply Forall_app|done..].
    - destruct (N.eqb_spec c 44) as [->|_]; [|discriminate].
      destruct (skip_blank_spec s') as (w' & Hw' & Es' & _). destruct (skip_blank s') as [|c' s'']; [discriminate|].
      destruct (N.eqb_spec c' 125) as [->|_]; [discriminate|]. intros H. apply K in H as (new & t & -> & Et & Ht & Hn).
      exists new. split; [done|]. exists w. split; [done|]. right.
      exists (w' ++ t). split; [by rewrite Es, Es', Et, <- app_assoc|]. split; [|done].
      clear -Hw' Ht. destruct Ht as [d w1 H|d w1 m t w2 H1 Ht H2|d w1 m t w2 ms u H1 Ht H2 Hu Hn].
      + constructor. by apply Forall_app.
      + rewrite app_assoc. constructor; [by apply Forall_app|done..].
      + rewrite app_assoc. constructor; [by apply Forall_app|done..].
  Qed.
  Lemma all_sound f : value_sound f /\ items_sound f /\ members_sound f.
  Proof.
    induction f as [|f (HV & HI & HM)]; [repeat split; discriminate|].
    split; [by apply value_sound_S|]. split; [by apply items_sound_S|by apply members_sound_S].
  Qed.
End Sound.

(** *** Everything in the grammar is read *)
Scheme value_text_mind := Induction for value_text Sort Prop
  with items_text_mind := Induction for items_text Sort Prop
  with members_text_mind := Induction for members_text Sort Prop
  with member_text_mind := Induction for member_text Sort Prop.
Combined Scheme json_text_ind from value_text_mind, items_text_mind, members_text_mind, member_text_mind.

Section Complete.
  Context (huge : str -> bool).
  Lemma value_head d j t : value_text huge d j t -> exists c t', t = c :: t' /\ json_blank c = false /\ c <> 93%N /\ c <> 125%N.
  Proof.
    intros [| | |d' j' t' H| | |]; try (by eexists _, _; split_and!).
    apply number_head in H as (c & t'' & -> & Hc). exists c, t''. split; [done|]. apply orb_true_iff in Hc as [Hc|Hc].
    - apply N.eqb_eq in Hc as ->. done.
    - apply json_digit_iff in Hc. unfold is_digit in Hc. split; [|lia]. unfold json_blank. rewrite !orb_false_iff, !N.eqb_neq. lia.
  Qed.
  Lemma items_start d js u : items_text huge d js u -> js <> [] -> exists c x, (forall r, skip_blank (u ++ r) = c :: x ++ r) /\ json_blank c = false /\ c <> 93%N.
  Proof.
    intros H Hne. destruct H as [d w H|d w1 j t w2 H1 Ht H2|d w1 j t w2 js u H1 Ht H2 Hu Hn]; [done|..];
      destruct (value_head _ _ _ Ht) as (c & t' & -> & Hc & Hc' & _).
    - exists c, (t' ++ w2). split; [|done]. intros r. rewrite <- !app_assoc, skip_blank_app by done. cbn. by rewrite Hc, <- ?app_assoc.
    - exists c, (t' ++ w2 ++ 44%N :: u). split; [|done]. intros r. rewrite <- !app_assoc, skip_blank_app by done. cbn. rewrite Hc. repeat (rewrite <- ?app_assoc; cbn). done.
  Qed.
  Lemma members_start d ms u : members_text huge d ms u -> ms <> [] -> exists x, forall r, skip_blank (u ++ r) = 34%N :: x ++ r.
  Proof.
    intros H Hne. destruct H as [d w H|d w1 m t w2 H1 Ht H2|d w1 m t w2 ms u H1 Ht H2 Hu Hn]; [done|..]; destruct Ht as [d k j kt v1 v2 t Hk Hv1 Hv2 Ht].
    - exists ((kt ++ 34%N :: v1 ++ 58%N :: v2 ++ t) ++ w2). intros r. rewrite <- (app_assoc w1), skip_blank_app by done. reflexivity.
    - exists ((kt ++ 34%N :: v1 ++ 58%N :: v2 ++ t) ++ w2 ++ 44%N :: u). intros r. rewrite <- (app_assoc w1), skip_blank_app by done. reflexivity.
  Qed.
  Lemma items_comma f d w js u r : blanks w -> items_text huge d js u -> js <> [] ->
    parse_items huge f (S d) false (w ++ 44%N :: u ++ r) = parse_items huge f (S d) true (u ++ r).
  Proof.
    intros Hw Hu Hn. destruct f as [|f]; [done|]. destruct (items_start _ _ _ Hu Hn) as (c & x & Hs & Hb & Hc). cbn [parse_items].
    rewrite skip_blank_app by done. cbn [skip_blank]. change (json_blank 44) with false. change (44 =? 93)%N with false. change (44 =? 44)%N with true. cbn iota.
    rewrite Hs. apply N.eqb_neq in Hc. by rewrite Hc.
  Qed.
  Lemma members_comma f d w ms0 ms u r : blanks w -> members_text huge d ms u -> ms <> [] ->
    parse_members huge f (S d) false ms0 (w ++ 44%N :: u ++ r) = parse_members huge f (S d) true ms0 (u ++ r).
  Proof.
    intros Hw Hu Hn. destruct f as [|f]; [done|]. destruct (members_start _ _ _ Hu Hn) as (x & Hs). cbn [parse_members].
    rewrite skip_blank_app by done. cbn [skip_blank]. change (json_blank 44) with false. change (44 =? 125)%N with false. change (44 =? 44)%N with true. cbn iota.
    rewrite Hs. done.
  Qed.
  Lemma parse_value_blank f d w s : blanks w -> parse_value huge f d (w ++ s) = parse_value huge f d s.
  Proof. intros H. destruct f; [done|]. cbn [parse_value]. by rewrite skip_blank_app. Qed.
  Lemma blank_closed c r : c ∈ [32; 9; 10; 13; 44; 93; 125]%N -> closed_off (c :: r).
  Proof. intros H. rewrite !elem_of_cons, elem_of_nil in H. cbn. destruct H as [->|[->|[->|[->|[->|[->|[->|[]]]]]]]]; done. Qed.
  Lemma blanks_closed w c r : blanks w -> c = 44%N \/ c = 93%N \/ c = 125%N -> closed_off (w ++ c :: r).
  Proof.
    intros Hw Hc. destruct Hw as [|x w Hx Hw]; cbn [app]; apply blank_closed.
    - destruct Hc as [->|[->| ->]]; apply elem_of_list_In; cbn; tauto.
    - rewrite !elem_of_cons, elem_of_nil in *. tauto.
  Qed.

  Definition value_done d j t : Prop := forall f r, 2 * length t < f -> closed_off r -> parse_value huge f (S d) (t ++ r) = JOk (j, r).
  Definition items_done d js t : Prop := forall f r, S (2 * length t) < f -> parse_items huge f (S d) true (t ++ 93%N :: r) = JOk (js, r).
  Definition members_done d ms t : Prop := forall f r ms0, S (2 * length t) < f ->
    parse_members huge f (S d) true ms0 (t ++ 125%N :: r) = JOk (fold_left set_member ms ms0, r).
  Definition member_done d (m : str * json) t : Prop := forall f r ms0 w, 2 * length t < f -> closed_off r -> blanks w ->
    parse_members huge (S f) (S d) true ms0 (w ++ t ++ r) = parse_members huge f (S d) false (set_member ms0 m) r.

  Lemma items_next f d w j t x js r : blanks w -> value_text huge d j t -> value_done d j t -> closed_off x -> 2 * length t < f ->
    parse_items huge f (S d) false x = JOk (js, r) -> parse_items huge (S f) (S d) true (w ++ t ++ x) = JOk (j :: js, r).
  Proof.
    intros Hw Ht IH Hx Hf H. cbn [parse_items]. rewrite skip_blank_app by done.
    destruct (value_head _ _ _ Ht) as (c & t' & E & Hb & Hc & _).
    assert (skip_blank (t ++ x) = t ++ x) as -> by (rewrite E; cbn; by rewrite Hb).
    assert (t ++ x = c :: t' ++ x) as E' by (by rewrite E). rewrite E'. apply N.eqb_neq in Hc. rewrite Hc. rewrite <- E'.
    rewrite IH by done. cbn [jbind]. by rewrite H.
  Qed.
  Lemma all_complete :
    (forall d j t, value_text huge d j t -> value_done d j t) /\
    (forall d js t, items_text huge d js t -> items_done d js t) /\
    (forall d ms t, members_text huge d ms t -> members_done d ms t) /\
    (forall d m t, member_text huge d m t -> member_done d m t).
  Proof.
    apply (json_text_ind huge (fun d j t _ => value_done d j t) (fun d js t _ => items_done d js t) (fun d ms t _ => members_done d ms t) (fun d m t _ => member_done d m t)).
    - intros d f r Hf _. destruct f; [cbn in Hf; lia|]. reflexivity.
    - intros d f r Hf _. destruct f; [cbn in Hf; lia|]. reflexivity.
    - intros d f r Hf _. destruct f; [cbn in Hf; lia|]. reflexivity.
    - intros d j t H f r Hf Hr. destruct f as [|f]; [lia|]. pose proof (value_head d j t (text_number _ _ _ _ H)) as (c & t' & E & Hb & _).
      destruct (number_head _ _ _ H) as (c' & t'' & E' & Hc). rewrite E in E'. injection E' as <- <-. cbn [parse_value].
      assert (skip_blank (t ++ r) = t ++ r) as -> by (rewrite E; cbn; by rewrite Hb).
      assert (t ++ r = c :: t' ++ r) as E' by (by rewrite E). rewrite E'.
      assert (c <> 110 /\ c <> 116 /\ c <> 102)%N as (H1 & H2 & H3).
      { apply orb_true_iff in Hc as [Hc|Hc]; [apply N.eqb_eq in Hc; lia|]. apply json_digit_iff in Hc. unfold is_digit in Hc. lia. }
      apply N.eqb_neq in H1, H2, H3. rewrite H1, H2, H3, Hc, <- E'. by apply parse_number_complete.
    - intros d s t H f r Hf Hr. destruct f as [|f]; [lia|].
      change (parse_value huge (S f) (S d) ((34%N :: t ++ [34%N]) ++ r)) with (let? (x, r0) := parse_string ((t ++ [34%N]) ++ r) in JOk (JString x, r0)).
      rewrite <- app_assoc. cbn [app]. by rewrite (parse_string_complete s t r).
    - intros d js t H IH f r Hf Hr. destruct f as [|f]; [lia|].
      change (parse_value huge (S f) (S (S d)) ((91%N :: t ++ [93%N]) ++ r)) with (let? (js, r0) := parse_items huge f (S d) true ((t ++ [93%N]) ++ r) in JOk (JArray js, r0)).
      rewrite <- app_assoc. cbn [app]. rewrite IH; [done|]. cbn [length] in Hf. rewrite app_length in Hf. cbn in Hf. lia.
    - intros d ms t H IH f r Hf Hr. destruct f as [|f]; [lia|].
      change (parse_value huge (S f) (S (S d)) ((123%N :: t ++ [125%N]) ++ r)) with (let? (ms, r0) := parse_members huge f (S d) true [] ((t ++ [125%N]) ++ r) in JOk (JObject ms, r0)).
      rewrite <- app_assoc. cbn [app]. rewrite IH; [by rewrite set_members|]. cbn [length] in Hf. rewrite app_length in Hf. cbn in Hf. lia.
    - intros d w Hw f r Hf. destruct f as [|f]; [lia|]. cbn [parse_items]. by rewrite skip_blank_app.
    - intros d w1 j t w2 Hw1 Ht IH Hw2 f r Hf. rewrite !app_length in Hf. destruct f as [|f]; [lia|]. rewrite <- !app_assoc.
      apply items_next; [done..|by apply blanks_closed; auto|lia|]. destruct f as [|f]; [lia|]. cbn [parse_items]. by rewrite skip_blank_app.
    - intros d w1 j t w2 js u Hw1 Ht IH Hw2 Hu IHu Hn f r Hf. rewrite !app_length in Hf. cbn [length] in Hf. destruct f as [|f]; [lia|]. rewrite <- !app_assoc. cbn [app].
      apply items_next; [done..|by apply blanks_closed; auto|lia|]. rewrite (items_comma f d w2 js u) by done. apply IHu. lia.
    - intros d w Hw f r ms0 Hf. destruct f as [|f]; [lia|]. cbn [parse_members]. by rewrite skip_blank_app.
    - intros d w1 m t w2 Hw1 Ht IH Hw2 f r ms0 Hf. rewrite !app_length in Hf. destruct f as [|f]; [lia|]. rewrite <- !app_assoc.
      rewrite IH; [|lia|by apply blanks_closed; auto|done]. destruct f as [|f]; [lia|]. cbn [parse_members]. by rewrite skip_blank_app.
    - intros d w1 m t w2 ms u Hw1 Ht IH Hw2 Hu IHu Hn f r ms0 Hf. rewrite !app_length in Hf. cbn [length] in Hf. destruct f as [|f]; [lia|]. rewrite <- !app_assoc. cbn [app].
      rewrite IH; [|lia|by apply blanks_closed; auto|done]. rewrite (members_comma f d w2 _ ms u) by done. rewrite IHu by lia. done.
    - intros d k j kt w1 w2 t Hk Hw1 Hw2 Ht IH f r ms0 w Hf Hr Hw. cbn [parse_members]. rewrite skip_blank_app by done.
      cbn [app skip_blank]. change (json_blank 34) with false. change (34 =? 125)%N with false. change (34 =? 34)%N with true. cbn iota.
      rewrite <- app_assoc. cbn [app]. rewrite (parse_string_complete k kt) by done. cbn [jbind].
      rewrite <- app_assoc. rewrite skip_blank_app by done. cbn [app skip_blank]. change (json_blank 58) with false. change (58 =? 58)%N with true. cbn iota.
      rewrite <- app_assoc, parse_value_blank by done. rewrite IH; [done| |done].
      cbn [length] in Hf. rewrite app_length in Hf. cbn [length] in Hf. rewrite app_length in Hf. cbn [length] in Hf. rewrite app_length in Hf. lia.
  Qed.

  (** *** The fuel suffices *)
  Lemma parse_value_len f d s j r : parse_value huge f (S d) s = JOk (j, r) -> length r < length s.
  Proof.
    intros H. apply (all_sound huge f) in H as (w & t & _ & -> & Ht). destruct (value_head _ _ _ Ht) as (c & t' & -> & _).
    rewrite !app_length. cbn. lia.
  Qed.
  Definition value_fuel f : Prop := forall d s, 2 * length s < f -> parse_value huge f (S d) s <> JFuel.
  Definition items_fuel f : Prop := forall d first s, S (2 * length s) < f -> parse_items huge f (S d) first s <> JFuel.
  Definition members_fuel f : Prop := forall d first ms s, S (2 * length s) < f -> parse_members huge f (S d) first ms s <> JFuel.
  Lemma parse_string_fuel s : parse_string s <> JFuel.
  Proof.
    induction s as [s IH] using (induction_ltof1 _ (@length N)). unfold ltof in IH.
    assert (forall c s', length s' < length s -> jcons c (parse_string s') <> JFuel) as K.
    { intros c s' Hl. unfold jcons. specialize (IH s' Hl). destruct (parse_string s') as [[]| |]; done. }
    destruct s as [|c s1]; [done|]. cbn [parse_string length] in *. repeat case_match; subst; try done; apply K; cbn; lia.
  Qed.
  Lemma parse_number_fuel s : parse_number huge s <> JFuel.
  Proof.
    assert (forall s, parse_fraction s <> JFuel) as K1 by (intros s0; unfold parse_fraction; repeat case_match; done).
    assert (forall s, parse_exponent s <> JFuel) as K2 by (intros s0; unfold parse_exponent; repeat case_match; done).
    unfold parse_number. destruct (parse_sign s) as [sg s1]. destruct (span_digits s1) as [[|d ds] s2]; [done|]. destruct (_ && _); [done|].
    specialize (K1 s2). destruct (parse_fraction s2) as [[f s3]| |]; [|done..]. cbn [jbind]. specialize (K2 s3). destruct (parse_exponent s3) as [[e s4]| |]; [|done..].
    cbn [jbind]. repeat match goal with |- (if ?b then _ else _) <> _ => destruct b end; done.
  Qed.
  Lemma all_fuel f : value_fuel f /\ items_fuel f /\ members_fuel f.
  Proof.
    induction f as [|f (HV & HI & HM)]; [split_and!; red; intros; lia|]. split_and!.
    - intros d s Hf. cbn [parse_value]. pose proof (skip_blank_len s) as Hl. destruct (skip_blank s) as [|c s']; [done|]. cbn [length] in Hl.
      repeat match goal with |- (if ?b then _ else _) <> _ => destruct b eqn:? end; try done; try (unfold parse_ident; case_match; done).
      + apply parse_number_fuel.
      + pose proof (parse_string_fuel s') as K. destruct (parse_string s') as [[]| |]; done.
      + destruct d as [|d]; [done|]. cbn [Nat.sub]. pose proof (HI d true s') as K. destruct (parse_items huge f (S d) true s') as [[]| |]; try done. exfalso. apply K; [lia|done].
      + destruct d as [|d]; [done|]. cbn [Nat.sub]. pose proof (HM d true [] s') as K. destruct (parse_members huge f (S d) true [] s') as [[]| |]; try done. exfalso. apply K; [lia|done].
    - intros d first s Hf. cbn [parse_items]. pose proof (skip_blank_len s) as Hl. destruct (skip_blank s) as [|c s']; [done|]. cbn [length] in Hl.
      assert (forall x, length x <= length s -> (let? (j, r0) := parse_value huge f (S d) x in let? (js0, r') := parse_items huge f (S d) false r0 in JOk (j :: js0, r')) <> JFuel) as K.
      { intros x Hx. pose proof (HV d x) as K1. destruct (parse_value huge f (S d) x) as [[j r0]| |] eqn:E; cbn [jbind]; [|done|exfalso; apply K1; [lia|done]].
        apply parse_value_len in E. pose proof (HI d false r0) as K2. destruct (parse_items huge f (S d) false r0) as [[]| |]; cbn; try done. exfalso. apply K2; [lia|done]. }
      destruct (c =? 93)%N; [done|]. destruct first; [apply K; cbn; lia|]. destruct (c =? 44)%N; [|done].
      pose proof (skip_blank_len s') as Hl'. destruct (skip_blank s') as [|c' s'']; [done|]. destruct (c' =? 93)%N; [done|]. apply K. cbn in *. lia.
    - intros d first ms s Hf. cbn [parse_members]. pose proof (skip_blank_len s) as Hl. destruct (skip_blank s) as [|c s']; [done|]. cbn [length] in Hl.
      assert (forall c x, S (length x) <= length s -> (if (c =? 34)%N then
        let? (k, r0) := parse_string x in
        match skip_blank r0 with
        | [] => JErr
        | c' :: r' => if (c' =? 58)%N then let? (j, r'') := parse_value huge f (S d) r' in parse_members huge f (S d) false (set_member ms (k, j)) r'' else JErr
        end
      else JErr) <> JFuel) as K.
      { intros c0 x Hx. destruct (c0 =? 34)%N; [|done]. pose proof (parse_string_fuel x) as K0. destruct (parse_string x) as [[k r0]| |] eqn:Ek; [|done..]. cbn [jbind].
        apply parse_string_len in Ek. pose proof (skip_blank_len r0) as Hl0. destruct (skip_blank r0) as [|c1 r1]; [done|]. cbn [length] in Hl0. destruct (c1 =? 58)%N; [|done].
        pose proof (HV d r1) as K1. destruct (parse_value huge f (S d) r1) as [[j r2]| |] eqn:E; cbn [jbind]; [|done|exfalso; apply K1; [lia|done]].
        apply parse_value_len in E. apply HM. lia. }
      destruct (c =? 125)%N; [done|]. destruct first; [apply K; cbn; lia|]. destruct (c =? 44)%N; [|done].
      pose proof (skip_blank_len s') as Hl'. destruct (skip_blank s') as [|c' s'']; [done|]. destruct (c' =? 125)%N; [done|]. apply K. cbn in *. lia.
  Qed.

  Lemma json_no_fuel s : json_from_str huge s <> JFuel.
  Proof.
    unfold json_from_str. pose proof (proj1 (all_fuel (S (2 * length s))) 127 s) as K.
    destruct (parse_value huge (S (2 * length s)) 128 s) as [[j r]| |]; cbn [jbind]; [by destruct (skip_blank r)|done|exfalso; apply K; [lia|done]].
  Qed.
  Lemma json_iff s j : json_from_str huge s = JOk j <-> document huge 127 j s.
  Proof.
    unfold json_from_str. split.
    - intros H. apply jbind_ok in H as ([j' r] & Hv & H). destruct (skip_blank_spec r) as (w2 & Hw2 & E & _). destruct (skip_blank r) as [|? ?]; [|done].
      injection H as ->. rewrite app_nil_r in E. subst r. apply (all_sound huge) in Hv as (w1 & t & Hw1 & -> & Ht). by exists w1, t, w2.
    - intros (w1 & t & w2 & Hw1 & Ht & Hw2 & ->). rewrite parse_value_blank by done.
      rewrite (proj1 all_complete _ _ _ Ht); [cbn [jbind]; by rewrite skip_blank_all|rewrite !app_length; lia|].
      destruct Hw2 as [|c w2 Hc _]; [done|]. apply blank_closed. rewrite !elem_of_cons, elem_of_nil in *. tauto.
  Qed.
End Complete.
