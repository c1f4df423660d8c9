(** LexerInstProofs.v -- the lexers of the grammar language on all texts. *)
From Verif Require Export RegexProofs.

(** *** The compiled regexes of v1 *)
Definition ch (c : N) : re := RClass false [CRange c c].
Fixpoint lit_re (s : str) : re :=
  match s with [] => REmpty | [c] => ch c | c :: s' => RCat (ch c) (lit_re s') end.
Definition name_items : list citem := [CRange 97 122; CRange 65 90; CRange 48 57; CRange 95 95].
Definition blank_items : list citem := [CRange 32 32; CRange 13 13; CRange 10 10; CRange 9 9; CRange 12 12].
Definition hex_items : list citem := [CRange 97 102; CRange 48 57].
Definition some_of (l : list citem) : re := RCat (RClass false l) (RMany true (RClass false l)).
Definition r_name (lo hi : N) : re := RCat (RClass false [CRange lo hi]) (some_of name_items).
Definition two (a b : N) : re := lit_re [a; b].
Definition r_colon : re :=
  RAlt (lit_re [58; 58; 61]%N) (RAlt (two 58 61) (RAlt (two 45 62) (RAlt (two 61 62) (RAlt (ch 58) (ch 61))))).
Definition r_epsilon : re :=
  RAlt (ch 949) (lit_re [101; 112; 115; 105; 108; 111; 110]%N).
Definition r_code : re :=
  RCat (ch 92) (RCat (ch 117) (RCat (ch 123) (RCat (RAlt (RAlt (two 48 120) (ch 48)) REmpty) (RCat (some_of hex_items) (ch 125))))).
Definition r_escape : re :=
  RAlt (two 92 92) (RAlt (two 92 39) (RAlt (two 92 97) (RAlt (two 92 100) (RAlt (two 92 110) (RAlt (two 92 114)
    (RAlt (two 92 116) (RAlt (two 92 102) (RAlt (two 92 118) r_code)))))))).
Definition plain_items : list citem :=
  [CRange 7 7; CDigit; CRange 10 10; CRange 13 13; CRange 9 9; CRange 12 12; CRange 11 11; CRange 92 92; CRange 39 39].
Definition r_unit : re := RAlt (RClass true plain_items) (RAlt r_escape (RClass false [CDigit])).
Definition r_string : re := RCat (ch 39) (RCat (RMany true r_unit) (ch 39)).
Definition r_slash : re := RAlt (two 92 47) (RClass true [CRange 47 47]).
Definition r_regular : re := RCat (ch 47) (RCat (RCat r_slash (RMany true r_slash)) (ch 47)).
Definition v1_res : list re :=
  [ r_name 97 122; r_name 65 90; r_colon; ch 59; ch 124; r_epsilon; ch 42; ch 43; ch 63; ch 40; ch 41;
    r_string; r_regular; some_of blank_items ].
Lemma v1_compiles : map regex_of_text v1_regexes = map Some v1_res.
Proof. vm_compute. reflexivity. Qed.

Section v1.
  Context (nd : N -> bool) (Hnd : digits_ok nd).
  Notation rests := (rests nd).

  (** *** Characters *)
  Lemma in_pos l c : in_class nd false l c = existsb (in_item nd c) l.
  Proof using. unfold in_class. by destruct (existsb _ _). Qed.
  Lemma in_neg l c : in_class nd true l c = negb (existsb (in_item nd c) l).
  Proof using. unfold in_class. by destruct (existsb _ _). Qed.
  Lemma in_ch a c : in_class nd false [CRange a a] c = (c =? a)%N.
  Proof using.
    rewrite in_pos. simpl. rewrite orb_false_r. destruct (N.eqb_spec c a) as [->|Hn].
    - by rewrite N.leb_refl.
    - destruct (N.leb_spec a c), (N.leb_spec c a); simpl; try done. lia.
  Qed.
  Lemma rests_ch a c s : rests (ch a) (c :: s) = if (c =? a)%N then [s] else [].
  Proof using. unfold ch. cbn [Regex.rests]. by rewrite in_ch. Qed.
  Lemma in_range lo hi c : in_class nd false [CRange lo hi] c = true <-> (lo <= c <= hi)%N.
  Proof using. rewrite in_pos. simpl. rewrite orb_false_r, andb_true_iff, !N.leb_le. done. Qed.
  Lemma in_name c : in_class nd false name_items c = true <-> name_char c.
  Proof using.
    rewrite in_pos. unfold name_items, name_char, lower, upper. simpl.
    rewrite !orb_true_iff, !andb_true_iff, !N.leb_le. split; intros H.
    - destruct H as [H|[H|[H|[H|H]]]]; try done; lia.
    - destruct H as [H|[H|[H|H]]]; try lia.
  Qed.
  Lemma in_blank c : in_class nd false blank_items c = true <-> blank c.
  Proof using.
    rewrite in_pos. unfold blank_items, blank. simpl.
    rewrite !orb_true_iff, !andb_true_iff, !N.leb_le. split; intros H.
    - destruct H as [H|[H|[H|[H|[H|H]]]]]; try done; lia.
    - destruct H as [H|[H|[H|[H|H]]]]; lia.
  Qed.
  Lemma in_hex c : in_class nd false hex_items c = true <-> hex c.
  Proof using.
    rewrite in_pos. unfold hex_items, hex. simpl.
    rewrite !orb_true_iff, !andb_true_iff, !N.leb_le. split; intros H.
    - destruct H as [H|[H|H]]; try done; lia.
    - destruct H as [H|H]; lia.
  Qed.
  Lemma in_plain c : in_class nd true plain_items c = true <-> c ∉ [7; 9; 10; 11; 12; 13; 39; 92]%N /\ nd c = false.
  Proof using.
    rewrite in_neg. unfold plain_items. simpl. rewrite negb_true_iff, !orb_false_iff, !andb_false_iff, !N.leb_gt.
    rewrite !not_elem_of_cons. split; intros H.
    - destruct H as (H1 & H2 & H3 & H4 & H5 & H6 & H7 & H8 & H9 & _).
      split_and!; try (intros ->; lia); [by apply not_elem_of_nil|done].
    - destruct H as ((H1 & H2 & H3 & H4 & H5 & H6 & H7 & H8 & _) & H9). split_and!; try done; lia.
  Qed.
  Lemma nd_plain c : nd c = true -> c ∉ [7; 9; 10; 11; 12; 13; 39; 92]%N.
  Proof using Hnd.
    intros H Hin. assert (c < 128)%N.
    { repeat (apply elem_of_cons in Hin as [->|Hin]; [lia|]). by apply elem_of_nil in Hin. }
    apply Hnd in H; [|done]. repeat (apply elem_of_cons in Hin as [->|Hin]; [lia|]). by apply elem_of_nil in Hin.
  Qed.

  (** *** Runs of a class *)
  Lemma span (p : N -> bool) (s : str) : exists w rest, s = w ++ rest /\ Forall (fun c => p c = true) w /\
    forall c r, rest = c :: r -> p c = false.
  Proof using.
    induction s as [|c s (w & rest & -> & Hw & Hr)]; [by exists [], []|].
    destruct (p c) eqn:E; [exists (c :: w), rest; split_and!; [done|by constructor|done]|].
    exists [], (c :: w ++ rest). split_and!; [done|done|]. intros ? ? [= -> _]. done.
  Qed.
  Lemma many_run l w rest :
    Forall (fun c => in_class nd false l c = true) w ->
    (forall c r, rest = c :: r -> in_class nd false l c = false) ->
    head (rests (RMany true (RClass false l)) (w ++ rest)) = Some rest.
  Proof using.
    intros Hw Hr. induction Hw as [|c w Hc Hw IH].
    - change ([] ++ rest) with rest. rewrite many_stop; [done|]. destruct rest as [|c r]; [done|]. cbn [Regex.rests]. by rewrite (Hr c r).
    - change ((c :: w) ++ rest) with (c :: w ++ rest). apply many_step with (w ++ rest); [|simpl; lia|done].
      cbn [Regex.rests]. by rewrite Hc.
  Qed.
  Lemma some_run l w rest : w <> [] ->
    Forall (fun c => in_class nd false l c = true) w ->
    (forall c r, rest = c :: r -> in_class nd false l c = false) ->
    head (rests (some_of l) (w ++ rest)) = Some rest.
  Proof using.
    intros Hne Hw Hr. destruct Hw as [|c w Hc Hw]; [done|]. unfold some_of.
    change ((c :: w) ++ rest) with (c :: w ++ rest). apply pref_cat with (w ++ rest); [|by apply many_run].
    cbn [Regex.rests]. by rewrite Hc.
  Qed.
  Lemma lang_class_inv n l x : lang nd (RClass n l) x -> exists c, x = [c] /\ in_class nd n l c = true.
  Proof using. inversion 1; subst. eauto. Qed.
  Lemma lang_ch_inv a x : lang nd (ch a) x -> x = [a].
  Proof using. intros (c & -> & H)%lang_class_inv. rewrite in_ch in H. by apply N.eqb_eq in H as ->. Qed.
  Lemma lang_cat_inv a b x : lang nd (RCat a b) x -> exists y z, x = y ++ z /\ lang nd a y /\ lang nd b z.
  Proof using. inversion 1; subst. eauto. Qed.
  Lemma lang_alt_inv a b x : lang nd (RAlt a b) x -> lang nd a x \/ lang nd b x.
  Proof using. inversion 1; subst; eauto. Qed.
  Lemma lang_many_inv g a x : lang nd (RMany g a) x -> exists xs, x = concat xs /\ Forall (fun x => x <> [] /\ lang nd a x) xs.
  Proof using. inversion 1; subst; eauto. Qed.
  Lemma lang_some_inv l x : lang nd (some_of l) x -> x <> [] /\ Forall (fun c => in_class nd false l c = true) x.
  Proof using.
    unfold some_of. intros (y & z & -> & (c & -> & Hc)%lang_class_inv & (xs & -> & Hxs)%lang_many_inv)%lang_cat_inv.
    split; [done|]. simpl. constructor; [done|]. induction Hxs as [|x xs [_ (d & -> & Hd)%lang_class_inv] _ IH]; simpl; [done|].
    by constructor.
  Qed.
  Lemma lang_lit_inv x y : lang nd (lit_re x) y -> y = x.
  Proof using.
    revert y. induction x as [|c x IH]; intros y; simpl.
    - by inversion 1.
    - destruct x as [|d x]; [by intros ->%lang_ch_inv|].
      intros (u & v & -> & ->%lang_ch_inv & ->%IH)%lang_cat_inv. done.
  Qed.
  Lemma rests_lit x s : x <> [] ->
    rests (lit_re x) s = match strip_prefix x s with Some r => [r] | None => [] end.
  Proof using.
    revert s. induction x as [|c x IH]; intros s Hne; [done|]. destruct x as [|d x].
    - destruct s as [|a s]; [done|]. unfold lit_re, ch. cbn [Regex.rests strip_prefix]. rewrite in_ch, (N.eqb_sym a c).
      by destruct (c =? a)%N.
    - change (lit_re (c :: d :: x)) with (RCat (ch c) (lit_re (d :: x))). cbn [Regex.rests]. unfold ch.
      destruct s as [|a s]; [done|]. cbn [Regex.rests]. rewrite in_ch.
      change (strip_prefix (c :: d :: x) (a :: s)) with (if (c =? a)%N then strip_prefix (d :: x) s else None).
      rewrite (N.eqb_sym a c). destruct (c =? a)%N; [|done]. cbn [map concat]. rewrite app_nil_r. by apply IH.
  Qed.

  (** *** Names *)
  Definition no_start (p : N -> Prop) (s : str) : Prop := forall c r, s = c :: r -> ~ p c.
  Lemma Forall_iff_bool (p : N -> Prop) (q : N -> bool) w : (forall c, q c = true <-> p c) ->
    Forall p w <-> Forall (fun c => q c = true) w.
  Proof using. intros H. split; intros Hw; (eapply Forall_impl; [exact Hw|]); intros c; simpl; by rewrite H. Qed.
  Lemma no_start_bool (p : N -> Prop) (q : N -> bool) s : (forall c, q c = true <-> p c) ->
    no_start p s <-> forall c r, s = c :: r -> q c = false.
  Proof using.
    intros H. split; intros Hs c r E.
    - apply not_true_iff_false. rewrite H. by eapply Hs.
    - rewrite <- H, (Hs c r E). done.
  Qed.
  Lemma name_fwd lo hi c w rest :
    (lo <= c <= hi)%N -> w <> [] -> Forall name_char w -> no_start name_char rest ->
    find_at0 nd (r_name lo hi) ((c :: w) ++ rest) = Some (blen (c :: w)).
  Proof using.
    intros Hc Hne Hw Hr. apply find_pref. unfold r_name.
    apply pref_cat with (w ++ rest).
    - cbn [Regex.rests app]. rewrite (proj2 (in_range lo hi c)) by done. done.
    - apply some_run; [done| |].
      + by rewrite <- (Forall_iff_bool name_char _ w in_name).
      + by rewrite <- (no_start_bool name_char _ rest in_name).
  Qed.
  Lemma span_prop (p : N -> Prop) (q : N -> bool) (s : str) : (forall c, q c = true <-> p c) ->
    exists w rest, s = w ++ rest /\ Forall p w /\ no_start p rest.
  Proof using.
    intros H. destruct (span q s) as (w & rest & -> & Hw & Hr). exists w, rest.
    rewrite (Forall_iff_bool p q w H), (no_start_bool p q rest H). done.
  Qed.
  Lemma span_prefix (p : N -> Prop) (a w s rest : str) : a ++ s = w ++ rest -> Forall p a -> no_start p rest ->
    exists b, w = a ++ b.
  Proof using.
    intros E Ha Hr. revert w E. induction Ha as [|c a Hc Ha IH]; intros w E; [by exists w|].
    destruct w as [|d w]; simpl in E.
    - exfalso. by eapply Hr; [symmetry; exact E|].
    - injection E as -> E. destruct (IH w E) as (b & ->). by exists b.
  Qed.
  Lemma name_bwd lo hi s e : find_at0 nd (r_name lo hi) s = Some e ->
    exists c w rest, s = (c :: w) ++ rest /\ e = blen (c :: w) /\ (lo <= c <= hi)%N /\ w <> [] /\
      Forall name_char w /\ no_start name_char rest.
  Proof using.
    intros H. pose proof H as H0. apply find_inv in H as (x & s' & -> & <- & Hx & _). unfold r_name in Hx.
    apply lang_cat_inv in Hx as (y & z & -> & (c & -> & Hc)%lang_class_inv & (Hz1 & Hz2)%lang_some_inv).
    apply in_range in Hc. rewrite <- (Forall_iff_bool name_char _ z in_name) in Hz2.
    destruct (span_prop name_char _ (z ++ s') in_name) as (w & rest & E & Hw & Hr).
    destruct (span_prefix _ _ _ _ _ E Hz2 Hr) as (b & ->).
    exists c, (z ++ b), rest.
    assert (E' : ([c] ++ z) ++ s' = (c :: z ++ b) ++ rest) by (simpl; by rewrite E).
    rewrite E' in H0 |- *. rewrite (name_fwd lo hi c (z ++ b) rest) in H0; [|done|by destruct z|done|done].
    injection H0 as H0. split; [done|]. split; [by symmetry|]. split; [done|]. split; [by destruct z|]. done.
  Qed.

  (** *** Blanks *)
  Lemma blank_fwd w rest : w <> [] -> Forall blank w -> no_start blank rest ->
    find_at0 nd (some_of blank_items) (w ++ rest) = Some (blen w).
  Proof using.
    intros Hne Hw Hr. apply find_pref. apply some_run; [done| |].
    - by rewrite <- (Forall_iff_bool blank _ w in_blank).
    - by rewrite <- (no_start_bool blank _ rest in_blank).
  Qed.
  Lemma blank_bwd s e : find_at0 nd (some_of blank_items) s = Some e ->
    exists w rest, s = w ++ rest /\ e = blen w /\ w <> [] /\ Forall blank w /\ no_start blank rest.
  Proof using.
    intros H. pose proof H as H0. apply find_inv in H as (x & s' & -> & <- & Hx & _).
    apply lang_some_inv in Hx as [Hz1 Hz2]. rewrite <- (Forall_iff_bool blank _ x in_blank) in Hz2.
    destruct (span_prop blank _ (x ++ s') in_blank) as (w & rest & E & Hw & Hr).
    destruct (span_prefix _ _ _ _ _ E Hz2 Hr) as (b & ->). exists (x ++ b), rest.
    rewrite E in H0 |- *. rewrite blank_fwd in H0; [|by destruct x|done|done]. injection H0 as H0.
    split; [done|]. split; [by symmetry|]. split; [by destruct x|]. done.
  Qed.

  (** *** Single characters *)
  Lemma ch_fwd a rest : find_at0 nd (ch a) ([a] ++ rest) = Some (blen [a]).
  Proof using. apply find_pref. change ([a] ++ rest) with (a :: rest). by rewrite rests_ch, N.eqb_refl. Qed.
  Lemma ch_bwd a s e : find_at0 nd (ch a) s = Some e -> exists rest, s = [a] ++ rest /\ e = blen [a].
  Proof using. intros (x & s' & -> & <- & ->%lang_ch_inv & _)%find_inv. by exists s'. Qed.

  (** *** COLON *)
  Definition colons : list str := [lit "::="; lit ":="; lit "->"; lit "=>"; lit ":"; lit "="].
  Definition colon_apart (x rest : str) : Prop :=
    (x = lit ":" -> forall s, rest <> lit "=" ++ s /\ rest <> lit ":=" ++ s) /\
    (x = lit "=" -> forall s, rest <> lit ">" ++ s).
  Lemma colon_fwd x rest : x ∈ colons -> colon_apart x rest -> find_at0 nd r_colon (x ++ rest) = Some (blen x).
  Proof using.
    intros Hx [H1 H2]. apply find_pref. unfold r_colon, two. change (ch 58) with (lit_re [58%N]). change (ch 61) with (lit_re [61%N]).
    cbn [Regex.rests]. rewrite !rests_lit by done. unfold colons in Hx.
    repeat (apply elem_of_cons in Hx as [->|Hx]); [..|by apply elem_of_nil in Hx]; try reflexivity.
    - change (lit ":" ++ rest) with (58%N :: rest). cbn [strip_prefix]. rewrite N.eqb_refl.
      destruct rest as [|c rest]; [reflexivity|]. destruct (N.eqb_spec 58 c) as [<-|Hn].
      + destruct rest as [|d rest]; [reflexivity|]. destruct (N.eqb_spec 61 d) as [<-|Hn]; [|reflexivity].
        exfalso. by destruct (H1 eq_refl rest) as [_ ?].
      + destruct (N.eqb_spec 61 c) as [<-|Hn']; [|reflexivity]. exfalso. by destruct (H1 eq_refl rest) as [? _].
    - change (lit "=" ++ rest) with (61%N :: rest). cbn [strip_prefix].
      destruct rest as [|c rest]; [reflexivity|]. destruct (N.eqb_spec 62 c) as [<-|Hn]; [|reflexivity].
      exfalso. by apply (H2 eq_refl rest).
  Qed.
  Lemma colon_bwd s e : find_at0 nd r_colon s = Some e ->
    exists x rest, s = x ++ rest /\ e = blen x /\ x ∈ colons /\ colon_apart x rest.
  Proof using.
    clear Hnd. intros H. pose proof H as H0. apply find_inv in H as (x & rest & -> & <- & Hx & _). exists x, rest.
    split_and!; [done|done| |].
    - unfold r_colon, two in Hx. unfold colons.
      repeat (apply lang_alt_inv in Hx as [->%lang_lit_inv|Hx]; [set_solver|]).
      apply lang_alt_inv in Hx as [->%lang_ch_inv| ->%lang_ch_inv]; set_solver.
    - split.
      + intros -> r. split; intros ->.
        * change (lit ":" ++ lit "=" ++ r) with (lit ":=" ++ r) in H0. rewrite colon_fwd in H0; [done|unfold colons; set_solver|by split].
        * change (lit ":" ++ lit ":=" ++ r) with (lit "::=" ++ r) in H0. rewrite colon_fwd in H0; [done|unfold colons; set_solver|by split].
      + intros -> r ->. change (lit "=" ++ lit ">" ++ r) with (lit "=>" ++ r) in H0.
        rewrite colon_fwd in H0; [done|unfold colons; set_solver|by split].
  Qed.

  (** *** EPSILON *)
  Lemma epsilon_fwd rest : find_at0 nd r_epsilon ([949%N] ++ rest) = Some (blen [949%N]).
  Proof using. apply find_pref. unfold r_epsilon. apply pref_alt_l. change ([949%N] ++ rest) with (949%N :: rest). by rewrite rests_ch. Qed.
  Lemma epsilon_bwd s e : find_at0 nd r_epsilon s = Some e ->
    exists x rest, s = x ++ rest /\ e = blen x /\ (x = [949%N] \/ x = lit "epsilon").
  Proof using.
    intros (x & rest & -> & <- & Hx & _)%find_inv. exists x, rest. split_and!; [done|done|].
    unfold r_epsilon in Hx. apply lang_alt_inv in Hx as [->%lang_ch_inv| ->%lang_lit_inv]; [by left|by right].
  Qed.

  (** *** STRING_LITERAL *)
  Lemma unique_head r x s : lang nd r x -> (forall y s', lang nd r y -> x ++ s = y ++ s' -> s' = s) ->
    head (rests r (x ++ s)) = Some s.
  Proof using.
    intros Hx Hu. pose proof (rests_complete nd r x s Hx) as Hc.
    destruct (rests r (x ++ s)) as [|s' l] eqn:E; [by apply elem_of_nil in Hc|]. simpl. f_equal.
    destruct (rests_sound nd r (x ++ s) s') as (y & Ey & Hy); [rewrite E; by left|]. by eapply Hu.
  Qed.
  Lemma cut_at (a : N) (x y s t : str) : a ∉ x -> a ∉ y -> x ++ a :: s = y ++ a :: t -> s = t.
  Proof using.
    revert y. induction x as [|c x IH]; intros [|d y] Hx Hy E; simpl in E.
    - by injection E.
    - injection E as -> _. exfalso. apply Hy. by left.
    - injection E as -> _. exfalso. apply Hx. by left.
    - injection E as -> E. apply (IH y); [|by intros ?; apply Hy; right|done]. intros ?. apply Hx. by right.
  Qed.
  Lemma hex_125 h : Forall hex h -> 125%N ∉ h.
  Proof using. intros H Hin. eapply Forall_forall in Hin as Hh; [|exact H]. unfold hex in Hh. lia. Qed.
  Lemma code_inv y : lang nd r_code y -> exists pre h, y = lit "\u{" ++ pre ++ h ++ lit "}" /\
    pre ∈ [[]; lit "0"; lit "0x"] /\ h <> [] /\ Forall hex h.
  Proof using.
    unfold r_code. intros (y1 & y2 & -> & ->%lang_ch_inv & H)%lang_cat_inv.
    apply lang_cat_inv in H as (y3 & y4 & -> & ->%lang_ch_inv & H).
    apply lang_cat_inv in H as (y5 & y6 & -> & ->%lang_ch_inv & H).
    apply lang_cat_inv in H as (pre & y8 & -> & Hpre & H).
    apply lang_cat_inv in H as (h & y9 & -> & [Hh1 Hh2]%lang_some_inv & ->%lang_ch_inv).
    exists pre, h. split_and!; [done| |done|].
    - clear Hnd. apply lang_alt_inv in Hpre as [[->%lang_lit_inv| ->%lang_ch_inv]%lang_alt_inv|Hpre]; [set_solver..|].
      inversion Hpre. set_solver.
    - by rewrite (Forall_iff_bool hex _ h in_hex).
  Qed.
  Lemma lang_ch a : lang nd (ch a) [a].
  Proof using. unfold ch. constructor. by rewrite in_ch, N.eqb_refl. Qed.
  Lemma lang_lit x : lang nd (lit_re x) x.
  Proof using.
    induction x as [|c x IH]; simpl; [constructor|]. destruct x as [|d x]; [apply lang_ch|].
    apply (lang_cat nd (ch c) _ [c]); [apply lang_ch|done].
  Qed.
  Lemma lang_some l x : x <> [] -> Forall (fun c => in_class nd false l c = true) x -> lang nd (some_of l) x.
  Proof using.
    intros Hne H. destruct H as [|c x Hc H]; [done|]. apply (lang_cat nd _ _ [c] x); [by constructor|].
    assert (E : x = concat (map (fun c => [c]) x)).
    { clear. induction x as [|c x IH]; simpl; [done|]. by f_equal. }
    rewrite E. constructor. clear E Hne. induction H; simpl; constructor; [|done]. split; [done|by constructor].
  Qed.
  Lemma code_lang pre h : pre ∈ [[]; lit "0"; lit "0x"] -> h <> [] -> Forall hex h ->
    lang nd r_code (lit "\u{" ++ pre ++ h ++ lit "}").
  Proof using.
    intros Hp Hne Hh. unfold r_code.
    apply (lang_cat nd _ _ [92%N] ([117%N] ++ [123%N] ++ pre ++ h ++ [125%N])); [apply lang_ch|].
    apply (lang_cat nd _ _ [117%N]); [apply lang_ch|]. apply (lang_cat nd _ _ [123%N]); [apply lang_ch|].
    apply lang_cat; [|apply lang_cat; [|apply lang_ch]].
    - apply elem_of_cons in Hp as [->|Hp]; [apply lang_alt_r; constructor|].
      apply elem_of_cons in Hp as [->|Hp]; [apply lang_alt_l, lang_alt_r, lang_ch|].
      apply elem_of_list_singleton in Hp as ->. apply lang_alt_l, lang_alt_l, (lang_lit [48; 120]%N).
    - apply lang_some; [done|]. by rewrite <- (Forall_iff_bool hex _ h in_hex).
  Qed.
  Lemma code_head pre h s : pre ∈ [[]; lit "0"; lit "0x"] -> h <> [] -> Forall hex h ->
    head (rests r_code ((lit "\u{" ++ pre ++ h ++ lit "}") ++ s)) = Some s.
  Proof using.
    intros Hp Hne Hh. apply unique_head; [by apply code_lang|].
    intros y s' (pre' & h' & -> & Hp' & Hne' & Hh')%code_inv E.
    assert (Hno : forall p g, p ∈ [[]; lit "0"; lit "0x"] -> Forall hex g -> 125%N ∉ lit "\u{" ++ p ++ g).
    { intros p g Hpp Hg. rewrite !not_elem_of_app. split_and!; [| |by apply hex_125].
      - vm_compute. clear. set_solver.
      - clear -Hpp. repeat (apply elem_of_cons in Hpp as [->|Hpp]; [vm_compute; set_solver|]). by apply elem_of_nil in Hpp. }
    assert (E' : (lit "\u{" ++ pre ++ h) ++ 125%N :: s = (lit "\u{" ++ pre' ++ h') ++ 125%N :: s').
    { repeat rewrite <- (assoc_L (++)) in E. repeat rewrite <- (assoc_L (++)). exact E. }
    symmetry. eapply cut_at; [| |exact E']; by apply Hno.
  Qed.
  Lemma plain_92 s : rests (RClass true plain_items) (92%N :: s) = [].
  Proof using.
    cbn [Regex.rests]. destruct (in_class nd true plain_items 92) eqn:E; [|done]. apply in_plain in E as [E _].
    exfalso. apply E. vm_compute. clear. set_solver.
  Qed.
  Lemma unit_head u s : string_unit u -> head (rests r_unit (u ++ s)) = Some s.
  Proof using Hnd.
    intros Hu. unfold r_unit. destruct Hu as [c Hc|c Hc|pre h Hp Hne Hh].
    - change ([c] ++ s) with (c :: s). destruct (nd c) eqn:E.
      + apply pref_alt_r; [|apply pref_alt_r].
        * cbn [Regex.rests]. destruct (in_class nd true plain_items c) eqn:E'; [|done]. apply in_plain in E' as [_ E']. congruence.
        * apply first_fails; [done|]. clear -Hc. assert (Hn : (c =? 92)%N = false).
          { apply N.eqb_neq. intros ->. apply Hc. vm_compute. set_solver. }
          unfold r_escape, r_code, two, lit_re, ch. cbn [first_char nullable]. rewrite !in_ch, !Hn. done.
        * cbn [Regex.rests]. rewrite in_pos. simpl. by rewrite E.
      + apply pref_alt_l. cbn [Regex.rests]. rewrite (proj2 (in_plain c)); done.
    - apply pref_alt_r; [apply plain_92|]. apply pref_alt_l. change ([92%N; c] ++ s) with (92%N :: c :: s).
      unfold r_escape, two. clear -Hc. change (lit "\'adnrtfv") with [92; 39; 97; 100; 110; 114; 116; 102; 118]%N in Hc.
      repeat (apply elem_of_cons in Hc as [->|Hc]); [..|by apply elem_of_nil in Hc]; reflexivity.
    - apply pref_alt_r; [apply plain_92|]. apply pref_alt_l. unfold r_escape, two.
      repeat (apply pref_alt_r; [reflexivity|]). by apply code_head.
  Qed.
  Lemma unit_ne u : string_unit u -> u <> [].
  Proof using. by destruct 1. Qed.
  Lemma unit_39 s : rests r_unit (39%N :: s) = [].
  Proof using Hnd.
    apply first_fails; [done|]. unfold r_unit, r_escape, r_code, two, lit_re, ch. cbn [first_char nullable].
    rewrite !in_ch. assert (E1 : in_class nd true plain_items 39 = false).
    { apply not_true_iff_false. intros [H _]%in_plain. apply H. vm_compute. clear. set_solver. }
    assert (E2 : in_class nd false [CDigit] 39 = false).
    { apply not_true_iff_false. rewrite in_pos. simpl. rewrite orb_false_r. intros H. apply Hnd in H; lia. }
    rewrite E1, E2. reflexivity.
  Qed.
  Lemma units_head us s : Forall string_unit us -> head (rests (RMany true r_unit) (concat us ++ 39%N :: s)) = Some (39%N :: s).
  Proof using Hnd.
    intros H. induction H as [|u us Hu H IH].
    - change (concat [] ++ 39%N :: s) with (39%N :: s). by rewrite (many_stop nd _ _ (unit_39 s)).
    - change (concat (u :: us)) with (u ++ concat us). rewrite <- (assoc_L (++)).
      apply many_step with (concat us ++ 39%N :: s); [by apply unit_head| |done].
      apply unit_ne in Hu. rewrite (app_length u). destruct u; [done|]. simpl. lia.
  Qed.
  Lemma string_fwd us rest : Forall string_unit us ->
    find_at0 nd r_string ((39%N :: concat us ++ [39%N]) ++ rest) = Some (blen (39%N :: concat us ++ [39%N])).
  Proof using Hnd.
    intros H. apply find_pref. unfold r_string. apply pref_cat with (concat us ++ 39%N :: rest).
    - change ((39%N :: concat us ++ [39%N]) ++ rest) with (39%N :: (concat us ++ [39%N]) ++ rest).
      rewrite rests_ch, N.eqb_refl, <- (assoc_L (++)). done.
    - apply pref_cat with (39%N :: rest); [by apply units_head|]. by rewrite rests_ch.
  Qed.
  Lemma unit_inv u : lang nd r_unit u -> string_unit u.
  Proof using Hnd.
    unfold r_unit. intros [(c & -> & [Hc _]%in_plain)%lang_class_inv|[Hu|(c & -> & Hc)%lang_class_inv]%lang_alt_inv]%lang_alt_inv.
    - by constructor.
    - unfold r_escape, two in Hu.
      repeat (apply lang_alt_inv in Hu as [->%lang_lit_inv|Hu]; [apply su_escape; clear; vm_compute; set_solver|]).
      apply code_inv in Hu as (pre & h & -> & ? & ? & ?). by constructor.
    - constructor. apply nd_plain. rewrite in_pos in Hc. simpl in Hc. by rewrite orb_false_r in Hc.
  Qed.
  Lemma string_bwd s e : find_at0 nd r_string s = Some e ->
    exists us rest, s = (39%N :: concat us ++ [39%N]) ++ rest /\ e = blen (39%N :: concat us ++ [39%N]) /\ Forall string_unit us.
  Proof using Hnd.
    intros (x & rest & -> & <- & Hx & _)%find_inv. unfold r_string in Hx.
    apply lang_cat_inv in Hx as (a & b & -> & ->%lang_ch_inv & Hx).
    apply lang_cat_inv in Hx as (m & b' & -> & (us & -> & Hus)%lang_many_inv & ->%lang_ch_inv).
    exists us, rest. split_and!; [done|done|]. eapply Forall_impl; [exact Hus|]. intros u [_ Hu]. by apply unit_inv.
  Qed.

  (** *** REGULAR_LITERAL *)
  Lemma many_eq a s : rests (RMany true a) s =
    concat (map (rests (RMany true a)) (List.filter (fun r => length r <? length s) (rests a s))) ++ [s].
  Proof using.
    cbn [Regex.rests]. destruct (length s) as [|n] eqn:E.
    - simpl. assert (E' : List.filter (fun r => length r <? 0) (rests a s) = []); [|by rewrite E'].
      generalize (rests a s). intros l. induction l; done.
    - cbn [many]. rewrite E. f_equal. f_equal. apply map_ext_in. intros r [_ Hr%Nat.ltb_lt]%filter_In. apply many_fuel; lia.
  Qed.
  Lemma concat_map_concat {A B C} (f : B -> list C) (g : A -> list B) l :
    concat (map f (concat (map g l))) = concat (map (fun x => concat (map f (g x))) l).
  Proof using. induction l as [|x l IH]; simpl; [done|]. by rewrite map_app, concat_app, IH. Qed.
  Definition tail_re : re := RCat (RMany true r_slash) (ch 47).
  Lemma tail_eq s : rests tail_re s =
    concat (map (rests tail_re) (List.filter (fun r => length r <? length s) (rests r_slash s))) ++ rests (ch 47) s.
  Proof using.
    unfold tail_re. cbn [Regex.rests]. fold (rests (RMany true r_slash) s). 
    change (many (rests r_slash) true (length s) s) with (rests (RMany true r_slash) s).
    rewrite (many_eq r_slash s) at 1. rewrite map_app, concat_app, concat_map_concat. cbn [map concat]. by rewrite app_nil_r.
  Qed.
  Lemma slash_cons c s : rests r_slash (c :: s) =
    (if (c =? 92)%N then match s with d :: s' => if (d =? 47)%N then [s'] else [] | [] => [] end else []) ++
    (if (c =? 47)%N then [] else [s]).
  Proof using.
    unfold r_slash, two. cbn [Regex.rests]. rewrite rests_lit by done. cbn [strip_prefix]. f_equal.
    - rewrite (N.eqb_sym 92 c). destruct (c =? 92)%N; [|done]. destruct s as [|d s]; [done|]. rewrite (N.eqb_sym 47 d). by destruct (d =? 47)%N.
    - rewrite in_neg. simpl. rewrite orb_false_r. rewrite <- (in_ch 47 c), in_pos. simpl. rewrite orb_false_r.
      by destruct ((47 <=? c)%N && (c <=? 47)%N).
  Qed.
  Lemma T_nil : rests tail_re [] = [].
  Proof using. reflexivity. Qed.
  Lemma T_slash s : rests tail_re (47%N :: s) = [s].
  Proof using. rewrite tail_eq, slash_cons, rests_ch. reflexivity. Qed.
  Lemma T_esc s : rests tail_re (92%N :: 47%N :: s) = rests tail_re s ++ [s].
  Proof using.
    rewrite tail_eq, slash_cons, rests_ch. simpl (92 =? 92)%N. simpl (47 =? 47)%N. simpl (92 =? 47)%N. cbn [app].
    cbn [List.filter length]. rewrite !(proj2 (Nat.ltb_lt _ _)) by lia. cbn [map concat]. rewrite T_slash.
    by rewrite !app_nil_r.
  Qed.
  Definition starts_slash (s : str) : Prop := exists s', s = 47%N :: s'.
  Lemma T_char c s : c <> 47%N -> (c = 92%N -> ~ starts_slash s) -> rests tail_re (c :: s) = rests tail_re s.
  Proof using.
    intros Hc Hs. rewrite tail_eq, slash_cons, rests_ch. rewrite (proj2 (N.eqb_neq c 47)) by done. rewrite app_nil_r.
    assert (E : (if (c =? 92)%N then match s with d :: s' => if (d =? 47)%N then [s'] else [] | [] => [] end else []) = []).
    { destruct (N.eqb_spec c 92) as [->|]; [|done]. destruct s as [|d s]; [done|]. destruct (N.eqb_spec d 47) as [->|]; [|done].
      exfalso. apply Hs; [done|]. by exists s. }
    rewrite E. cbn [app List.filter length]. rewrite (proj2 (Nat.ltb_lt _ _)) by lia. cbn [map concat]. by rewrite app_nil_r.
  Qed.
  Lemma P_eq c s : c <> 47%N -> rests (RCat (RCat r_slash (RMany true r_slash)) (ch 47)) (c :: s) = rests tail_re (c :: s).
  Proof using.
    intros Hc. rewrite tail_eq. cbn [Regex.rests]. rewrite rests_ch, (proj2 (N.eqb_neq c 47)) by done. rewrite app_nil_r.
    rewrite concat_map_concat. f_equal. unfold tail_re. cbn [Regex.rests].
    assert (E : List.filter (fun r => length r <? length (c :: s)) (rests r_slash (c :: s)) = rests r_slash (c :: s)).
    { rewrite slash_cons. destruct (c =? 92)%N, (c =? 47)%N; try done; (destruct s as [|d s]; [done|]); 
        try (destruct (d =? 47)%N); cbn [app List.filter length]; rewrite ?(proj2 (Nat.ltb_lt _ _)) by lia; done. }
    by rewrite E.
  Qed.
  Lemma P_slash s : rests (RCat (RCat r_slash (RMany true r_slash)) (ch 47)) (47%N :: s) = [].
  Proof using. cbn [Regex.rests]. rewrite slash_cons. reflexivity. Qed.
  Lemma T_none s : 47%N ∉ s -> rests tail_re s = [].
  Proof using.
    clear Hnd. induction s as [|c s IH]; intros H; [apply T_nil|]. apply not_elem_of_cons in H as [H1 H2].
    rewrite T_char; [by apply IH|done|]. intros _ (s' & ->). set_solver.
  Qed.
  Lemma T_some s : 47%N ∈ s -> rests tail_re s <> [].
  Proof using.
    clear Hnd. assert (Hg : forall n s, length s <= n -> 47%N ∈ s -> rests tail_re s <> []); [|by eapply Hg].
    clear s. induction n as [|n IH]; intros s Hn H; [destruct s; [by apply elem_of_nil in H|simpl in Hn; lia]|].
    destruct s as [|c s]; [by apply elem_of_nil in H|]. simpl in Hn.
    destruct (N.eq_dec c 47) as [->|Hc]; [by rewrite T_slash|].
    apply elem_of_cons in H as [?|H]; [done|].
    destruct (N.eq_dec c 92) as [->|Hc']; [destruct s as [|d s]; [by apply elem_of_nil in H|];
      destruct (N.eq_dec d 47) as [->|Hd]|].
    - rewrite T_esc. by destruct (rests tail_re s).
    - rewrite T_char; [apply IH; [lia|done]|done|]. intros _ (s' & [= -> _]). done.
    - rewrite T_char; [apply IH; [lia|done]|done|]. intros ->. done.
  Qed.
  Lemma units_no_slash us t : Forall slash_unit us -> ~ starts_slash t -> ~ starts_slash (concat us ++ t).
  Proof using.
    intros H Ht. destruct H as [|u us Hu _]; [done|]. destruct Hu as [->|(c & -> & Hc)]; intros (s' & E); injection E as E; done.
  Qed.
  Lemma T_units us t : Forall slash_unit us -> ~ starts_slash t -> rests tail_re t <> [] ->
    head (rests tail_re (concat us ++ t)) = head (rests tail_re t).
  Proof using.
    intros H Ht Hne. induction H as [|u us Hu H IH]; [done|]. cbn [concat]. rewrite <- (assoc_L (++)).
    destruct Hu as [->|(c & -> & Hc)].
    - change ([92; 47]%N ++ concat us ++ t) with (92%N :: 47%N :: concat us ++ t). rewrite T_esc.
      destruct (rests tail_re (concat us ++ t)); [|done].
      symmetry in IH. apply head_none in IH. done.
    - change ([c] ++ concat us ++ t) with (c :: concat us ++ t). rewrite T_char; [done|done|]. intros _. by apply units_no_slash.
  Qed.
  Lemma regular_head us rest : Forall slash_unit us -> (last us = Some [92%N] -> 47%N ∉ rest) ->
    head (rests tail_re (concat us ++ 47%N :: rest)) = Some rest.
  Proof using.
    intros H Hl. destruct us as [|u us] using rev_ind; [change (concat [] ++ 47%N :: rest) with (47%N :: rest); by rewrite T_slash|].
    clear IHus. rewrite last_snoc in Hl. apply Forall_app in H as [H [Hu _]%Forall_cons].
    rewrite concat_app. cbn [concat]. rewrite app_nil_r, <- (assoc_L (++)).
    destruct Hu as [->|(c & -> & Hc)].
    - change ([92; 47]%N ++ 47%N :: rest) with (92%N :: 47%N :: 47%N :: rest).
      rewrite T_units; [by rewrite T_esc, T_slash|done|intros (? & E); discriminate E|rewrite T_esc, T_slash; discriminate].
    - change ([c] ++ 47%N :: rest) with (c :: 47%N :: rest). destruct (N.eq_dec c 92) as [->|Hn].
      + rewrite T_units; rewrite ?T_esc, ?(T_none rest) by (by apply Hl); try done. intros (? & E); discriminate E.
      + assert (E : rests tail_re (c :: 47%N :: rest) = [rest]) by (rewrite T_char, T_slash; done).
        rewrite T_units; rewrite ?E; try done. intros (? & [= -> _]). done.
  Qed.
  Lemma unit_start us : Forall slash_unit us -> us <> [] -> exists c w, concat us = c :: w /\ c <> 47%N.
  Proof using. intros H. destruct H as [|u us [->|(c & -> & Hc)] _]; [done| |]; intros _; simpl; eauto. Qed.
  Definition regular_text (us : list str) : str := 47%N :: concat us ++ [47%N].
  Lemma regular_rests us rest : us <> [] -> Forall slash_unit us ->
    rests r_regular (regular_text us ++ rest) = rests tail_re (concat us ++ 47%N :: rest).
  Proof using.
    intros Hne H. unfold r_regular, regular_text. cbn [app]. rewrite <- (assoc_L (++)).
    change (rests (RCat (ch 47) ?r) ?s) with (concat (map (rests r) (rests (ch 47) s))).
    rewrite rests_ch. simpl (47 =? 47)%N. cbn [map concat app]. rewrite app_nil_r.
    destruct (unit_start us H Hne) as (c & w & E & Hc). rewrite E. cbn [app]. by apply P_eq.
  Qed.
  Lemma regular_fwd us rest : us <> [] -> Forall slash_unit us -> (last us = Some [92%N] -> 47%N ∉ rest) ->
    find_at0 nd r_regular (regular_text us ++ rest) = Some (blen (regular_text us)).
  Proof using. intros Hne H Hl. apply find_pref. rewrite regular_rests by done. by apply regular_head. Qed.
  Lemma slash_inv u : lang nd r_slash u -> slash_unit u.
  Proof using.
    unfold r_slash, two. intros [->%lang_lit_inv|(c & -> & Hc)%lang_class_inv]%lang_alt_inv; [by left|].
    right. exists c. split; [done|]. intros ->. rewrite in_neg in Hc. done.
  Qed.
  Lemma regular_inv x : lang nd r_regular x -> exists us, x = regular_text us /\ us <> [] /\ Forall slash_unit us.
  Proof using.
    unfold r_regular. intros (a & b & -> & ->%lang_ch_inv & Hx)%lang_cat_inv.
    apply lang_cat_inv in Hx as (m & b' & -> & Hm & ->%lang_ch_inv).
    apply lang_cat_inv in Hm as (u & v & -> & Hu%slash_inv & (us & -> & Hus)%lang_many_inv).
    exists (u :: us). split_and!; [done|done|]. constructor; [done|].
    eapply Forall_impl; [exact Hus|]. intros ? [_ ?]. by apply slash_inv.
  Qed.
  Lemma regular_bwd s e : find_at0 nd r_regular s = Some e ->
    exists us rest, s = regular_text us ++ rest /\ e = blen (regular_text us) /\ us <> [] /\ Forall slash_unit us /\
      forall us', regular_text us = regular_text us' -> Forall slash_unit us' -> last us' = Some [92%N] -> 47%N ∉ rest.
  Proof using.
    intros (x & rest & -> & <- & (us & -> & Hne & Hus)%regular_inv & Hh)%find_inv. exists us, rest.
    split_and!; [done|done|done|done|]. intros us' E Hus' Hl Hin. rewrite E in Hh. 
    assert (Hne' : us' <> []) by (intros ->; done).
    rewrite regular_rests in Hh by done.
    apply last_Some in Hl as (us0 & ->). apply Forall_app in Hus' as [H0 _].
    rewrite concat_app in Hh. cbn [concat] in Hh. rewrite app_nil_r, <- (assoc_L (++)) in Hh.
    change ([92%N] ++ 47%N :: rest) with (92%N :: 47%N :: rest) in Hh.
    rewrite T_units in Hh; [|done|intros (? & E'); discriminate E'|rewrite T_esc; by destruct (rests tail_re rest)].
    rewrite T_esc in Hh. pose proof (T_some rest Hin) as Hs. destruct (rests tail_re rest) as [|t l] eqn:Et; [done|].
    injection Hh as ->. destruct (rests_sound nd tail_re rest rest) as (y & Ey & Hy); [rewrite Et; by left|].
    unfold tail_re in Hy. apply lang_cat_inv in Hy as (y1 & y2 & -> & _ & ->%lang_ch_inv).
    apply (f_equal length) in Ey. rewrite !app_length in Ey. simpl in Ey. lia.
  Qed.
End v1.
