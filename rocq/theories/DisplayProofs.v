(** DisplayProofs.v -- C46. *)
From Verif Require Export SpecDisplay SpecVocab VocabProofs.
From Verif Require Import DrawerProofs.
From Coq Require Import DecimalNat.

Lemma usize_to_string_inj a b : usize_to_string a = usize_to_string b -> a = b.
Proof.
  intros H. apply Unsigned.to_uint_inj. unfold usize_to_string in H. revert H.
  generalize (Nat.to_uint a) (Nat.to_uint b). intros u. induction u; intros w; destruct w; simpl; try done;
    intros [= H]; f_equal; auto.
Qed.
Lemma usize_to_string_digits n : Forall digit (usize_to_string n).
Proof. apply uint_str_digits. Qed.
Lemma usize_to_string_word n : word (usize_to_string n).
Proof.
  split.
  - unfold usize_to_string. intros H. assert (Nat.to_uint n = Decimal.Nil) as E by (by destruct (Nat.to_uint n)).
    pose proof (Unsigned.of_to n) as Hn. rewrite E in Hn. subst n. discriminate E.
  - eapply Forall_impl; [apply usize_to_string_digits|]. unfold digit, name_char. intros c Hc. lia.
Qed.
Definition dname := get_nonterminal_name_with_default.
Lemma dname_word v id : readable_names v -> word (dname v id).
Proof.
  intros [H _]. unfold dname, get_nonterminal_name_with_default.
  destruct (nt_id_to_name v !! id) eqn:E; [by eapply H|apply usize_to_string_word].
Qed.
Lemma dname_inj v a b : (forall n i, get_nonterminal_id_by_name v n = Some i <-> get_nonterminal_name_by_id v i = Some n) ->
  readable_names v -> dname v a = dname v b -> a = b.
Proof.
  intros Hb [H _]. unfold dname, get_nonterminal_name_with_default, get_nonterminal_name_by_id in *.
  destruct (nt_id_to_name v !! a) as [n|] eqn:Ea, (nt_id_to_name v !! b) as [m|] eqn:Eb; intros E.
  - subst m. apply Hb in Ea, Eb. congruence.
  - destruct (H _ _ Ea) as [_ []]. rewrite E. apply usize_to_string_digits.
  - destruct (H _ _ Eb) as [_ []]. rewrite <- E. apply usize_to_string_digits.
  - by apply usize_to_string_inj.
Qed.

(** Two words followed by non-name characters. *)
Lemma words_split a b x y s t :
  Forall name_char a -> Forall name_char b -> ~ name_char x -> ~ name_char y ->
  a ++ x :: s = b ++ y :: t -> a = b /\ x = y /\ s = t.
Proof.
  intros Ha Hb Hx Hy. revert b Hb. induction Ha as [|c a Hc _ IH]; intros b Hb E.
  - destruct Hb as [|d b Hd _]; simpl in E; [by injection E as -> ->|]. injection E as -> _. done.
  - destruct Hb as [|d b Hd Hb]; simpl in E; [injection E as -> _; done|].
    injection E as -> E. destruct (IH b Hb E) as (-> & -> & ->). done.
Qed.
Lemma name_char_no c : c = 32%N \/ c = 59%N \/ c = 10%N -> ~ name_char c.
Proof. unfold name_char. intros [ -> |[ -> | -> ]]; tauto. Qed.

Section display.
  Context (v : vocabulary).
  Context (Ht : forall n i, get_terminal_id_by_name v n = Some i <-> get_terminal_name_by_id v i = Some n).
  Context (Hn : forall n i, get_nonterminal_id_by_name v n = Some i <-> get_nonterminal_name_by_id v i = Some n).
  Context (Hr : readable_names v).

  (** terminals only *)
  Lemma display_terminals_inj r1 r2 s1 s2 t1 t2 :
    (forall b, NT b ∉ r1) -> (forall b, NT b ∉ r2) ->
    display_rhs v r1 = Ret s1 -> display_rhs v r2 = Ret s2 ->
    s1 ++ 59%N :: t1 = s2 ++ 59%N :: t2 -> r1 = r2 /\ t1 = t2.
  Proof using Ht Hr.
    revert r2 s1 s2. induction r1 as [|i1 r1 IH]; intros r2 s1 s2 H1 H2 D1 D2 E.
    - simpl in D1. injection D1 as <-. destruct r2 as [|i2 r2].
      + injection D2 as <-. by injection E as <-.
      + destruct i2 as [b|b]; [by destruct (H2 b); apply elem_of_list_here|]. simpl in D2.
        destruct (get_terminal_name v b); simpl in D2; [|done|done].
        destruct (display_rhs v r2); simpl in D2; [|done|done]. injection D2 as <-. done.
    - destruct i1 as [b|b]; [by destruct (H1 b); apply elem_of_list_here|]. simpl in D1.
      destruct (get_terminal_name v b) as [n1| |] eqn:En1; simpl in D1; [|done|done].
      destruct (display_rhs v r1) as [u1| |] eqn:Eu1; simpl in D1; [|done|done]. injection D1 as <-.
      destruct r2 as [|i2 r2]; [simpl in D2; injection D2 as <-; done|].
      destruct i2 as [b2|b2]; [by destruct (H2 b2); apply elem_of_list_here|]. simpl in D2.
      destruct (get_terminal_name v b2) as [n2| |] eqn:En2; simpl in D2; [|done|done].
      destruct (display_rhs v r2) as [u2| |] eqn:Eu2; simpl in D2; [|done|done]. injection D2 as <-.
      assert (G1 : get_terminal_name_by_id v b = Some n1).
      { unfold get_terminal_name, get_terminal_name_by_id in *. by destruct (t_id_to_name v !! b) as [?|]; [injection En1 as ->|]. }
      assert (G2 : get_terminal_name_by_id v b2 = Some n2).
      { unfold get_terminal_name, get_terminal_name_by_id in *. by destruct (t_id_to_name v !! b2) as [?|]; [injection En2 as ->|]. }
      assert (W1 : word n1) by (by eapply Hr). assert (W2 : word n2) by (by eapply Hr).
      simpl in E. injection E as E. rewrite <- !app_assoc in E.
      (* after the name comes a blank or a semicolon *)
      assert (K : forall r u t, (forall b, NT b ∉ r) -> display_rhs v r = Ret u -> exists x w, u ++ 59%N :: t = x :: w /\ ~ name_char x).
      { intros [|[c|c] r] u t Hc Du; simpl in Du.
        - injection Du as <-. eexists _, _. split; [done|]. apply name_char_no; auto.
        - by destruct (Hc c); apply elem_of_list_here.
        - destruct (get_terminal_name v c); simpl in Du; [|done|done].
          destruct (display_rhs v r); simpl in Du; [|done|done]. injection Du as <-.
          eexists _, _. split; [done|]. apply name_char_no; auto. }
      assert (F1 : forall b, NT b ∉ r1) by (intros c Hc; apply (H1 c); by apply elem_of_list_further).
      assert (F2 : forall b, NT b ∉ r2) by (intros c Hc; apply (H2 c); by apply elem_of_list_further).
      destruct (K r1 u1 t1 F1 Eu1) as (x1 & w1 & K1 & X1). destruct (K r2 u2 t2 F2 Eu2) as (x2 & w2 & K2 & X2).
      rewrite K1, K2 in E. apply words_split in E as (-> & -> & ->); [|apply W1|apply W2|done|done].
      apply Ht in G1, G2. assert (b = b2) as -> by congruence.
      destruct (IH r2 u1 u2 F1 F2 eq_refl Eu2) as [-> ->]; [by rewrite K1, K2|]. done.
  Qed.

  (** what a right-hand side without leading nonterminal begins with *)
  Lemma display_rhs_head r u t : (forall b, NT b ∉ r) -> display_rhs v r = Ret u ->
    exists x w, u ++ 59%N :: t = x :: w /\ ~ name_char x.
  Proof using.
    intros Hc Du. destruct r as [|[c|c] r]; simpl in Du.
    - injection Du as <-. eexists _, _. split; [done|]. apply name_char_no; auto.
    - by destruct (Hc c); apply elem_of_list_here.
    - destruct (get_terminal_name v c); simpl in Du; [|done|done].
      destruct (display_rhs v r); simpl in Du; [|done|done]. injection Du as <-.
      eexists _, _. split; [done|]. apply name_char_no; auto.
  Qed.

  Lemma display_rhs_inj p1 p2 s1 s2 t1 t2 :
    nonterminal_only_first p1 -> nonterminal_only_first p2 ->
    display_rhs v (right p1) = Ret s1 -> display_rhs v (right p2) = Ret s2 ->
    s1 ++ 59%N :: t1 = s2 ++ 59%N :: t2 -> right p1 = right p2 /\ t1 = t2.
  Proof using Ht Hn Hr.
    destruct p1 as [l1 r1], p2 as [l2 r2]. unfold nonterminal_only_first. simpl. intros F1 F2 D1 D2 E.
    assert (Hc : forall r, (forall b, NT b ∉ tail r) -> (forall b, NT b ∉ r) \/ exists a r', r = NT a :: r' /\ forall b, NT b ∉ r').
    { intros [|[a|a] r] H; [left; intros b; apply not_elem_of_nil|right; eauto|left].
      intros b [?|?]%elem_of_cons; [done|]. by apply (H b). }
    assert (Hne : forall a t x w, dname v a ++ t = x :: w -> name_char x).
    { intros a t x w Hx. destruct (dname_word v a Hr) as [Hw1 Hw2]. destruct (dname v a) as [|c l]; [done|].
      injection Hx as -> _. by inversion Hw2. }
    destruct (Hc _ F1) as [N1|(a1 & r1' & -> & N1)], (Hc _ F2) as [N2|(a2 & r2' & -> & N2)].
    - by eapply display_terminals_inj.
    - exfalso. destruct (display_rhs_head r1 s1 t1 N1 D1) as (x & w & Ex & Hx). simpl in D2.
      destruct (display_rhs v r2') as [u| |]; simpl in D2; [|done|done]. injection D2 as <-.
      rewrite Ex in E. rewrite <- app_assoc in E. symmetry in E. by apply Hx, (Hne _ _ _ _ E).
    - exfalso. destruct (display_rhs_head r2 s2 t2 N2 D2) as (x & w & Ex & Hx). simpl in D1.
      destruct (display_rhs v r1') as [u| |]; simpl in D1; [|done|done]. injection D1 as <-.
      rewrite Ex in E. rewrite <- app_assoc in E. by apply Hx, (Hne _ _ _ _ E).
    - simpl in D1, D2.
      destruct (display_rhs v r1') as [u1| |] eqn:U1; simpl in D1; [|done|done]. injection D1 as <-.
      destruct (display_rhs v r2') as [u2| |] eqn:U2; simpl in D2; [|done|done]. injection D2 as <-.
      rewrite <- !app_assoc in E.
      destruct (display_rhs_head r1' u1 t1 N1 U1) as (x1 & w1 & K1 & X1).
      destruct (display_rhs_head r2' u2 t2 N2 U2) as (x2 & w2 & K2 & X2).
      rewrite K1, K2 in E. apply words_split in E as (E & -> & ->); [|apply dname_word, Hr|apply dname_word, Hr|done|done].
      apply dname_inj in E; [|done|done]. subst a2.
      destruct (display_terminals_inj r1' r2' u1 u2 t1 t2 N1 N2 U1 U2) as [-> ->]; [by rewrite K1, K2|]. done.
  Qed.

  Lemma display_production_inj p1 p2 s1 s2 t1 t2 :
    nonterminal_only_first p1 -> nonterminal_only_first p2 ->
    display_production v p1 = Ret s1 -> display_production v p2 = Ret s2 ->
    s1 ++ t1 = s2 ++ t2 -> p1 = p2 /\ t1 = t2.
  Proof using Ht Hn Hr.
    intros F1 F2 D1 D2 E. unfold display_production in *.
    destruct (display_rhs v (right p1)) as [u1| |] eqn:U1; simpl in D1; [|done|done]. injection D1 as <-.
    destruct (display_rhs v (right p2)) as [u2| |] eqn:U2; simpl in D2; [|done|done]. injection D2 as <-.
    rewrite <- !app_assoc in E. simpl in E.
    apply words_split in E as (El & _ & E); [|apply dname_word, Hr|apply dname_word, Hr|apply name_char_no; auto|apply name_char_no; auto].
    apply dname_inj in El; [|done|done]. injection E as E. rewrite <- !app_assoc in E. simpl in E.
    destruct (display_rhs_inj p1 p2 u1 u2 _ _ F1 F2 U1 U2 E) as [Er Et]. injection Et as ->.
    split; [|done]. destruct p1, p2; simpl in *; congruence.
  Qed.
End display.

Lemma display_fold v order acc s :
  rfold (fun acc p => let! s := display_production v p in Ret (acc ++ s)) order acc = Ret s ->
  exists l, Forall2 (fun p x => display_production v p = Ret x) order l /\ s = acc ++ concat l.
Proof.
  revert acc. induction order as [|p order IH]; intros acc H; simpl in H.
  - injection H as <-. exists []. split; [constructor|]. by rewrite app_nil_r.
  - destruct (display_production v p) as [x| |] eqn:E; simpl in H; [|done|done].
    destruct (IH _ H) as (l & HF & ->). exists (x :: l). split; [by constructor|]. by rewrite <- app_assoc.
Qed.
Lemma display_production_ne v p s : display_production v p = Ret s -> s <> [].
Proof.
  unfold display_production. destruct (display_rhs v (right p)); simpl; [|done|done]. intros [= <-].
  by destruct (get_nonterminal_name_with_default v (left p)).
Qed.

Lemma c46_injective ops g1 g2 order1 order2 s :
  g_vocabulary g1 = vrun vocabulary_new ops -> g_vocabulary g2 = vrun vocabulary_new ops ->
  readable_names (vrun vocabulary_new ops) ->
  (forall p, p ∈ productions g1 \/ p ∈ productions g2 -> nonterminal_only_first p) ->
  iteration_order g1 order1 -> iteration_order g2 order2 ->
  display_grammar order1 g1 = Ret s -> display_grammar order2 g2 = Ret s ->
  order1 = order2 /\ productions g1 = productions g2.
Proof.
  intros V1 V2 Hr HF O1 O2 D1 D2.
  destruct (c01 ops) as [Ht Hn]. unfold display_grammar in *. rewrite V1 in D1. rewrite V2 in D2.
  set (v := vrun vocabulary_new ops) in *. clearbody v. clear V1 V2 ops.
  apply display_fold in D1 as (l1 & F1 & ->). apply display_fold in D2 as (l2 & F2 & E). simpl in E.
  assert (G1 : Forall nonterminal_only_first order1).
  { apply Forall_forall. intros p Hp. apply HF. left. rewrite O1 in Hp. by apply elem_of_elements in Hp. }
  assert (G2 : Forall nonterminal_only_first order2).
  { apply Forall_forall. intros p Hp. apply HF. right. rewrite O2 in Hp. by apply elem_of_elements in Hp. }
  assert (order1 = order2) as ->.
  { clear O1 O2 HF. revert order2 l2 F2 E G2 G1. induction F1 as [|p1 x1 o1 l1 P1 F1 IH]; intros order2 l2 F2 E G2 G1.
    - destruct F2 as [|p2 x2 o2 l2 P2 F2]; [done|]. exfalso. simpl in E. symmetry in E. apply app_eq_nil in E as [E _].
      by apply display_production_ne in P2.
    - destruct F2 as [|p2 x2 o2 l2 P2 F2].
      + exfalso. simpl in E. apply app_eq_nil in E as [E _]. by apply display_production_ne in P1.
      + apply Forall_cons in G1 as [N1 G1']. apply Forall_cons in G2 as [N2 G2'].
        destruct (display_production_inj v Ht Hn Hr p1 p2 x1 x2 _ _ N1 N2 P1 P2 E) as [-> E'].
        f_equal. by eapply IH. }
  split; [done|]. apply set_eq. intros p. rewrite <- !elem_of_elements. by rewrite <- O1, <- O2.
Qed.

(** What a printed line looks like, and when printing panics. *)
Lemma c46_panics order g :
  display_grammar order g <> OutOfFuel /\
  (display_grammar order g = Panic <->
   exists p t, p ∈ order /\ T t ∈ right p /\ get_terminal_name_by_id (g_vocabulary g) t = None).
Proof.
  unfold display_grammar. set (v := g_vocabulary g). clearbody v.
  assert (R : forall r, display_rhs v r <> OutOfFuel /\ (display_rhs v r = Panic <-> exists t, T t ∈ r /\ get_terminal_name_by_id v t = None)).
  { induction r as [|[b|b] r [IH1 IH2]]; simpl.
    - split; [done|]. split; [done|]. intros (t & Ht & _). by apply not_elem_of_nil in Ht.
    - destruct (display_rhs v r) as [s| |]; simpl; [|split;[done|]|done].
      + split; [done|]. split; [done|]. intros (t & [?|Ht]%elem_of_cons & E); [done|]. destruct IH2 as [_ IH2]. by discriminate IH2; eauto.
      + split; [intros _|done]. destruct (proj1 IH2 eq_refl) as (t & Ht & E). exists t. split; [by apply elem_of_list_further|done].
    - unfold get_terminal_name, get_terminal_name_by_id in *. destruct (t_id_to_name v !! b) as [n|] eqn:Eb; simpl.
      + destruct (display_rhs v r) as [s| |]; simpl; [|split;[done|]|done].
        * split; [done|]. split; [done|]. intros (t & [Et|Ht]%elem_of_cons & E); [injection Et as ->; congruence|].
          destruct IH2 as [_ IH2]. by discriminate IH2; eauto.
        * split; [intros _|done]. destruct (proj1 IH2 eq_refl) as (t & Ht & E). exists t. split; [by apply elem_of_list_further|done].
      + split; [done|]. split; [intros _|done]. exists b. split; [apply elem_of_list_here|done]. }
  assert (P : forall p, display_production v p <> OutOfFuel /\ (display_production v p = Panic <-> exists t, T t ∈ right p /\ get_terminal_name_by_id v t = None)).
  { intros p. destruct (R (right p)) as [R1 R2]. unfold display_production. destruct (display_rhs v (right p)); simpl; [|split; [done|]; by rewrite <- R2|done].
    split; [done|]. rewrite <- R2. done. }
  generalize (@nil N). induction order as [|p order IH]; intros acc; simpl.
  - split; [done|]. split; [done|]. intros (p & t & Hp & _). by apply not_elem_of_nil in Hp.
  - destruct (P p) as [P1 P2]. destruct (display_production v p) as [s| |] eqn:E; simpl; [|split; [done|]|done].
    + destruct (IH (acc ++ s)) as [I1 I2]. split; [done|]. rewrite I2. split; intros (q & t & Hq & Ht & Hu); exists q, t.
      * split; [by apply elem_of_list_further|done].
      * apply elem_of_cons in Hq as [->|Hq]; [|done]. destruct P2 as [_ P2]. by discriminate P2; eauto.
    + split; [intros _|done]. destruct (proj1 P2 eq_refl) as (t & Ht & Hu). exists p, t. split; [apply elem_of_list_here|done].
Qed.

(** Two grammars over one vocabulary, printed alike. *)
Definition v46_ops : list vop := [AddNamed 0 (lit "s"); AddNamed 1 (lit "a"); AddNamed 2 (lit "b"); AddNamed 3 (lit "ab"); AddTerminal 2 (lit "NUM")].
Definition g46 (v : vocabulary) (r : list item) : grammar := Grammar (lit "g") v {[ Production 0 r ]}.
#[global] Instance name_char_dec c : Decision (name_char c).
Proof. unfold name_char. apply _. Defined.
#[global] Instance word_dec s : Decision (word s).
Proof. unfold word. apply _. Defined.
#[global] Instance digit_dec c : Decision (digit c).
Proof. unfold digit. apply _. Defined.
Lemma readable_by_check v :
  bool_decide (map_Forall (fun (_ : nat) n => word n /\ ~ Forall digit n) (nt_id_to_name v)) = true ->
  bool_decide (map_Forall (fun (_ : nat) n => word n) (t_id_to_name v)) = true -> readable_names v.
Proof.
  intros H1%bool_decide_eq_true H2%bool_decide_eq_true. split; intros id n H; [by apply (H1 id)|by apply (H2 id)].
Qed.
Lemma readable46 : readable_names (vrun vocabulary_new v46_ops).
Proof. apply readable_by_check; vm_compute; reflexivity. Qed.
Lemma c46_refuted_at v s : readable_names v ->
  display_grammar [Production 0 [NT 1; NT 2]] (g46 v [NT 1; NT 2]) = Ret s ->
  display_grammar [Production 0 [NT 3]] (g46 v [NT 3]) = Ret s ->
  exists g1 g2 order1 order2 s, g_vocabulary g1 = g_vocabulary g2 /\ readable_names (g_vocabulary g1) /\
  iteration_order g1 order1 /\ iteration_order g2 order2 /\
  display_grammar order1 g1 = Ret s /\ display_grammar order2 g2 = Ret s /\ productions g1 <> productions g2.
Proof.
  intros Hr H1 H2.
  exists (g46 v [NT 1; NT 2]), (g46 v [NT 3]), [Production 0 [NT 1; NT 2]], [Production 0 [NT 3]].
  exists s. split; [done|]. split; [done|].
  split; [unfold iteration_order; simpl; by rewrite elements_singleton|].
  split; [unfold iteration_order; simpl; by rewrite elements_singleton|].
  split; [done|]. split; [done|].
  simpl. intros H. assert (Production 0 [NT 1; NT 2] ∈ ({[Production 0 [NT 3]]} : gset production)) as Hi by (rewrite <- H; by apply elem_of_singleton).
  apply elem_of_singleton in Hi. discriminate Hi.
Qed.
Lemma c46_refuted :
  exists g1 g2 order1 order2 s, g_vocabulary g1 = g_vocabulary g2 /\ readable_names (g_vocabulary g1) /\
  iteration_order g1 order1 /\ iteration_order g2 order2 /\
  display_grammar order1 g1 = Ret s /\ display_grammar order2 g2 = Ret s /\ productions g1 <> productions g2.
Proof.
  apply (c46_refuted_at (vrun vocabulary_new v46_ops) (lit "s ->ab;" ++ [10%N]) readable46); vm_compute; reflexivity.
Qed.

(** A grammar the injectivity theorem speaks about. *)
Lemma ex46 : readable_names (vrun vocabulary_new v46_ops) /\
  (forall v, iteration_order (g46 v [NT 1; T 2; T 2]) [Production 0 [NT 1; T 2; T 2]]) /\
  nonterminal_only_first (Production 0 [NT 1; T 2; T 2]) /\
  display_grammar [Production 0 [NT 1; T 2; T 2]] (g46 (vrun vocabulary_new v46_ops) [NT 1; T 2; T 2]) = Ret (lit "s ->a NUM NUM;" ++ [10%N]).
Proof.
  split; [exact readable46|]. split; [intros v; unfold iteration_order; simpl; by rewrite elements_singleton|].
  split; [|vm_compute; reflexivity]. intros b. simpl. intros H. repeat (apply elem_of_cons in H as [H|H]; [discriminate H|]). by apply not_elem_of_nil in H.
Qed.
