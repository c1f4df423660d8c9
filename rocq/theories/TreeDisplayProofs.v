(** TreeDisplayProofs.v -- C15 (edge terminals), C55, C56. *)
From Verif Require Export SpecTreeDisplay TreeProofs.
From Verif Require Import DisplayProofs.

Lemma split_at (P : N -> Prop) a b x y s t :
  Forall P a -> Forall P b -> ~ P x -> ~ P y -> a ++ x :: s = b ++ y :: t -> a = b /\ x = y /\ s = t.
Proof.
  intros Ha Hb Hx Hy. revert b Hb. induction Ha as [|c a Hc _ IH]; intros b Hb E.
  - destruct Hb as [|d b Hd _]; cbn in E; [by injection E as -> ->|]. injection E as -> _. done.
  - destruct Hb as [|d b Hd Hb]; cbn in E; [injection E as -> _; done|].
    injection E as -> E. destruct (IH b Hb E) as (-> & -> & ->). done.
Qed.

Definition kids_display (cs : list ast) : str := concat (map (fun c => ast_display c ++ [32%N]) cs).
Lemma rule_display_unfold n cs i : rule_display (RuleCtx n cs i) = n ++ 32%N :: 40%N :: kids_display cs ++ [41%N].
Proof.
  cbn [rule_display]. change (lit " (") with [32%N; 40%N]. change (lit ")") with [41%N]. cbn [app]. do 4 f_equal.
  unfold kids_display. induction cs as [|c cs IH]; [done|]. cbn [map concat]. rewrite IH. by rewrite <- app_assoc.
Qed.

Definition closed_start (s : str) : Prop := match s with c :: _ => c <> 40%N | [] => True end.
Lemma plain_not_paren n s c : plain n -> c <> 40%N -> closed_start (n ++ c :: s).
Proof. intros [|x l Hx _] Hc; cbn; [done|]. by destruct Hx as (? & ? & ?). Qed.
Lemma kids_closed cs x : Forall (fun c => plain_names (shape_of c)) cs -> closed_start (kids_display cs ++ 41%N :: x).
Proof.
  intros [|c l Hc _]; [done|]. unfold kids_display. cbn [map concat]. rewrite <- !app_assoc. cbn [app].
  destruct c as [t|[n es i]|t].
  - inversion Hc; subst. cbn [ast_display]. by apply plain_not_paren.
  - cbn [ast_display]. rewrite rule_display_unfold, <- app_assoc. cbn [app]. inversion Hc; subst. by apply plain_not_paren.
  - inversion Hc; subst. cbn [ast_display]. by apply plain_not_paren.
Qed.

Lemma display_read a : plain_names (shape_of a) -> forall b x y, plain_names (shape_of b) -> closed_start x -> closed_start y ->
  ast_display a ++ 32%N :: x = ast_display b ++ 32%N :: y -> shape_of a = shape_of b /\ x = y.
Proof.
  assert (Hnc : ~ (32 <> 32 /\ 32 <> 40 /\ 32 <> 41)%N) by (intros [? _]; done).
  assert (Hleaf : forall n b x y, plain n -> plain_names (shape_of b) -> closed_start x -> closed_start y ->
    n ++ 32%N :: x = ast_display b ++ 32%N :: y -> Leaf n = shape_of b /\ x = y).
  { intros n b x y Hn Hb Hx Hy E. destruct b as [t|[m cs i]|t]; cbn [ast_display] in E.
    - inversion Hb; subst. apply (split_at (fun c => c <> 32%N /\ c <> 40%N /\ c <> 41%N)) in E as (-> & _ & ->); done.
    - exfalso. rewrite rule_display_unfold in E; repeat (rewrite <- !app_assoc in E; cbn [app] in E). inversion Hb; subst.
      apply (split_at (fun c => c <> 32%N /\ c <> 40%N /\ c <> 41%N)) in E as (_ & _ & ->); [by destruct Hx|done..].
    - inversion Hb; subst. apply (split_at (fun c => c <> 32%N /\ c <> 40%N /\ c <> 41%N)) in E as (-> & _ & ->); done. }
  revert a. apply (ast_rect' (fun a => plain_names (shape_of a) -> forall b x y, plain_names (shape_of b) -> closed_start x -> closed_start y ->
    ast_display a ++ 32%N :: x = ast_display b ++ 32%N :: y -> shape_of a = shape_of b /\ x = y)
   (fun r => plain_names (rule_shape r) -> forall b x y, plain_names (shape_of b) -> closed_start x -> closed_start y ->
    rule_display r ++ 32%N :: x = ast_display b ++ 32%N :: y -> rule_shape r = shape_of b /\ x = y)).
  - intros t Ha b x y Hb Hx Hy E. inversion Ha; subst. by apply Hleaf.
  - intros t Ha b x y Hb Hx Hy E. inversion Ha; subst. by apply Hleaf.
  - intros r H. exact H.
  - intros n cs i IH Ha b x y Hb Hx Hy E. inversion Ha as [|? ? Hn Hcs]; subst. clear Ha. rewrite rule_display_unfold in E; repeat (rewrite <- !app_assoc in E; cbn [app] in E).
    destruct b as [t|[m ds j]|t]; cbn [ast_display] in E.
    + exfalso. inversion Hb; subst. apply (split_at (fun c => c <> 32%N /\ c <> 40%N /\ c <> 41%N)) in E as (_ & _ & <-); [by destruct Hy|done..].
    + rewrite rule_display_unfold in E; repeat (rewrite <- !app_assoc in E; cbn [app] in E). cbn [shape_of] in Hb. inversion Hb as [|? ? Hm Hds]; subst. clear Hb.
      apply (split_at (fun c => c <> 32%N /\ c <> 40%N /\ c <> 41%N)) in E as (-> & _ & E); [|done..]. injection E as E.
      assert (map shape_of cs = map shape_of ds /\ x = y) as [Ek ->]; [|cbn [rule_shape shape_of]; by rewrite Ek].
      rewrite Forall_map in Hcs, Hds. clear Hn Hm i j. revert ds Hds E. induction IH as [|c cs Hc _ IHcs]; intros ds Hds E.
      * destruct ds as [|d ds]; [by injection E as ->|]. exfalso. unfold kids_display in E. cbn [map concat app] in E.
        apply Forall_cons in Hds as [Hd _]. rewrite <- !app_assoc in E.
        destruct d as [t|[k es j]|t]; cbn [ast_display shape_of rule_shape] in E, Hd; inversion Hd as [? Hp|? ? Hp]; subst;
          [|rewrite rule_display_unfold, <- app_assoc in E|]; destruct Hp as [|c0 l0 (? & ? & ?)]; cbn [app] in E; injection E; intros; congruence.
      * apply Forall_cons in Hcs as [Hpc Hcs]. destruct ds as [|d ds].
        { exfalso. unfold kids_display in E. cbn [map concat app] in E. rewrite <- !app_assoc in E.
          destruct c as [t|[k es j]|t]; cbn [ast_display shape_of rule_shape] in E, Hpc; inversion Hpc as [? Hp|? ? Hp]; subst;
          [|rewrite rule_display_unfold, <- app_assoc in E|]; destruct Hp as [|c0 l0 (? & ? & ?)]; cbn [app] in E; injection E; intros; congruence. }
        apply Forall_cons in Hds as [Hpd Hds]. unfold kids_display in E. cbn [map concat] in E. rewrite <- !app_assoc in E. cbn [app] in E.
        destruct (Hc Hpc d _ _ Hpd (kids_closed cs _ Hcs) (kids_closed ds _ Hds) E) as [E1 E2].
        destruct (IHcs Hcs ds Hds E2) as [E3 ->]. cbn [map]. by rewrite E1, E3.
    + exfalso. inversion Hb; subst. apply (split_at (fun c => c <> 32%N /\ c <> 40%N /\ c <> 41%N)) in E as (_ & _ & <-); [by destruct Hy|done..].
Qed.

Lemma c55_partial a b : plain_names (shape_of a) -> plain_names (shape_of b) -> ast_display a = ast_display b -> shape_of a = shape_of b.
Proof. intros Ha Hb E. apply (display_read a Ha b [] []); [done..|]. by rewrite E. Qed.
Lemma c55_refuted : exists a b, ast_display a = ast_display b /\ shape_of a <> shape_of b.
Proof.
  exists (Rule (RuleCtx (lit "list") [Terminal (token_new 2 (lit "A B") [])] 0)), (Rule (RuleCtx (lit "list") [Terminal (token_new 2 (lit "A") []); Terminal (token_new 3 (lit "B") [])] 0)).
  split; [reflexivity|]. intros E. discriminate E.
Qed.

(** Edges. *)
Lemma c15_first r t : get_first_terminal r = Some t <-> first_leaf r (Terminal t).
Proof.
  split.
  - induction r as [n cs i IH] using tree_ind. destruct cs as [|[u|c|u] cs]; cbn [get_first_terminal]; [done|intros [= ->]; constructor|intros H|done].
    constructor. apply IH; [apply elem_of_list_here|done].
  - intros H. remember (Terminal t) as a eqn:E. induction H as [| |n r cs i a H IH]; [by injection E as ->|done|by apply IH].
Qed.
Lemma last_terminal_snoc n cs c i : get_last_terminal (RuleCtx n (cs ++ [c]) i) = match c with Terminal t => Some t | Rule r => get_last_terminal r | Error _ => None end.
Proof.
  induction cs as [|d cs IH]; [reflexivity|]. rewrite <- IH. cbn [app get_last_terminal].
  destruct (cs ++ [c]) as [|e l] eqn:E; [by destruct cs|]. by destruct d.
Qed.
Lemma c15_last r t : get_last_terminal r = Some t <-> last_leaf r (Terminal t).
Proof.
  split.
  - induction r as [n cs i IH] using tree_ind. destruct cs as [|c cs _] using rev_ind; [done|]. rewrite last_terminal_snoc.
    destruct c as [u|c|u]; [intros [= ->]; constructor|intros H|done]. constructor. apply IH; [|done]. apply elem_of_app. right. apply elem_of_list_here.
  - intros H. remember (Terminal t) as a eqn:E. induction H as [| |n r cs i a H IH]; rewrite last_terminal_snoc; [by injection E as ->|done|by apply IH].
Qed.
Lemma c15_edges r t :
  (get_first_terminal r = Some t <-> first_leaf r (Terminal t)) /\ (get_last_terminal r = Some t <-> last_leaf r (Terminal t)) /\
  get_child_count r = length (children r) /\
  (forall a b, first_leaf r a -> first_leaf r b -> a = b) /\ (forall a b, last_leaf r a -> last_leaf r b -> a = b).
Proof.
  split; [apply c15_first|]. split; [apply c15_last|]. split; [reflexivity|]. split.
  - intros a b H. revert b. induction H as [| |n r cs i a H IH]; intros b Hb; inversion Hb; subst; auto.
  - assert (forall r a, last_leaf r a -> match last (children r) with Some (Rule c) => last_leaf c a | Some b => a = b | None => False end) as K.
    { intros r' a H. destruct H; cbn [children]; rewrite last_snoc; done. }
    intros a b H. revert b. induction H as [n t' cs i|n t' cs i|n r cs i a H IH]; intros b Hb; apply K in Hb; cbn [children] in Hb; rewrite last_snoc in Hb; [done|done|].
    by apply IH.
Qed.

(** Tokens. *)
Lemma digits_split a b x y s t : ~ digit x -> ~ digit y -> usize_to_string a ++ x :: s = usize_to_string b ++ y :: t -> a = b /\ x = y /\ s = t.
Proof.
  intros Hx Hy E. apply (split_at digit) in E as (E & -> & ->); [|apply usize_to_string_digits..|done|done]. by apply usize_to_string_inj in E as ->.
Qed.
Lemma split_last (P : N -> Prop) a b x y s t :
  Forall P s -> Forall P t -> ~ P x -> ~ P y -> a ++ x :: s = b ++ y :: t -> a = b /\ x = y /\ s = t.
Proof.
  intros Hs Ht Hx Hy E. apply (f_equal (@rev N)) in E. rewrite !rev_app_distr in E. cbn [rev] in E. rewrite <- !app_assoc in E. cbn [app] in E.
  apply (split_at P) in E as (E1 & -> & E2); [|by apply Forall_rev..|done|done].
  apply (f_equal (@rev N)) in E1, E2. rewrite !rev_involutive in E1, E2. done.
Qed.
Definition no_quote (s : str) : Prop := Forall (fun c => c <> 39%N) s.
Lemma no_quote_number n : no_quote (usize_to_string n).
Proof. eapply Forall_impl; [apply usize_to_string_digits|]. unfold digit. intros c Hc. lia. Qed.
Lemma no_quote_position p : no_quote (position_display p).
Proof.
  unfold position_display, no_quote. rewrite !Forall_app. split_and!; try apply no_quote_number; vm_compute; repeat constructor; discriminate.
Qed.
Lemma no_angle_number n : Forall (fun c => c <> 60%N) (usize_to_string n).
Proof. eapply Forall_impl; [apply usize_to_string_digits|]. unfold digit. intros c Hc. lia. Qed.
Lemma no_angle_position p : Forall (fun c => c <> 60%N) (position_display p).
Proof.
  unfold position_display. rewrite !Forall_app. split_and!; try apply no_angle_number; vm_compute; repeat constructor; discriminate.
Qed.
Lemma position_display_inj p q s t : position_display p ++ 62%N :: s = position_display q ++ 62%N :: t -> p = q /\ s = t.
Proof.
  destruct p as [a b], q as [c d]. unfold position_display. cbn [line char_position]. rewrite <- !app_assoc. intros E. apply app_inv_head in E.
  change (lit ", position: ") with (44%N :: lit " position: ") in E. cbn [app] in E.
  apply digits_split in E as (-> & _ & E); [|unfold digit; lia..]. apply app_inv_head in E.
  apply digits_split in E as (-> & _ & ->); [|unfold digit; lia..]. done.
Qed.

Lemma position_display_inj' p q : position_display p = position_display q -> p = q.
Proof. intros E. apply (position_display_inj p q [] []). by rewrite E. Qed.

Lemma c56_partial t u : 39%N ∉ token_name t -> 39%N ∉ token_name u -> token_display t = token_display u -> same_but_channel t u.
Proof.
  intros Ht Hu E. unfold token_display in E. apply app_inv_head in E.
  change (lit ", ") with [44%N; 32%N] in E. cbn [app] in E. apply digits_split in E as (E1 & _ & E); [|unfold digit; lia..]. injection E as E.
  change (lit ":") with [58%N] in E. cbn [app] in E. apply digits_split in E as (E2 & _ & E); [|unfold digit; lia..].
  change (lit "='") with [61%N; 39%N] in E. cbn [app] in E. apply digits_split in E as (E3 & _ & E); [|unfold digit; lia..]. injection E as E.
  change (lit "', <") with [39%N; 44%N; 32%N; 60%N] in E. cbn [app] in E.
  assert (K : forall w : token, 39%N ∉ token_name w -> Forall (fun c => c <> 39%N) (44%N :: 32%N :: 60%N :: token_name w ++ lit ">, <" ++ usize_to_string (token_type w) ++
    lit ">, start: <" ++ position_display (start w) ++ lit ">, stop: <" ++ position_display (Ast.stop w) ++ lit ">]")).
  { intros w Hw. do 3 (constructor; [discriminate|]). rewrite !Forall_app. split_and!;
      try apply no_quote_number; try apply no_quote_position; try (vm_compute; repeat constructor; discriminate).
    apply Forall_forall. intros c Hc ->. done. }
  apply (split_last (fun c => c <> 39%N)) in E as (E4 & _ & E); [|by apply K|by apply K|tauto..]. clear K.
  injection E as E.
  assert (forall (w : token), token_name w ++ lit ">, <" ++ usize_to_string (token_type w) ++ lit ">, start: <" ++ position_display (start w) ++ lit ">, stop: <" ++ position_display (Ast.stop w) ++ lit ">]" =
    (((token_name w ++ lit ">, ") ++ 60%N :: usize_to_string (token_type w) ++ lit ">, start: ") ++ 60%N :: position_display (start w) ++ lit ">, stop: ") ++ 60%N :: position_display (Ast.stop w) ++ lit ">]") as R.
  { intros w. change (lit ">, <") with (lit ">, " ++ [60%N]). change (lit ">, start: <") with (lit ">, start: " ++ [60%N]). change (lit ">, stop: <") with (lit ">, stop: " ++ [60%N]).
    repeat (rewrite <- !app_assoc; cbn [app]). done. }
  rewrite !R in E. clear R.
  apply (split_last (fun c => c <> 60%N)) in E as (E & _ & E5); [|apply Forall_app; split; [apply no_angle_position|repeat constructor; discriminate]..|tauto|tauto].
  apply app_inv_tail in E5. 
  apply (split_last (fun c => c <> 60%N)) in E as (E & _ & E6); [|apply Forall_app; split; [apply no_angle_position|repeat constructor; discriminate]..|tauto|tauto].
  apply app_inv_tail in E6.
  apply (split_last (fun c => c <> 60%N)) in E as (E & _ & E7); [|apply Forall_app; split; [apply no_angle_number|repeat constructor; discriminate]..|tauto|tauto].
  apply app_inv_tail in E, E7. apply usize_to_string_inj in E7.
  unfold same_but_channel. split_and!; try done; apply position_display_inj'; done.
Qed.
Lemma c56_refuted : exists t u, token_display t = token_display u /\ ~ same_but_channel t u.
Proof.
  exists (token_new 2 (lit "B") (lit "x', <A")), (token_new 2 (lit "A', <B") (lit "x")). split; [reflexivity|]. intros (_ & E & _). discriminate E.
Qed.
