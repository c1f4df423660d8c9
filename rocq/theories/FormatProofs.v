(** FormatProofs.v -- displayed numbers are decimal numerals; the layout of displayed tokens, trees and grammars. *)
From Coq Require Import DecimalNat DecimalFacts.
From Verif Require Export SpecFormat DisplayProofs FirstProofs.

Lemma uint_str_value u acc : Nat.of_uint_acc u acc = fold_left (fun v c => 10 * v + N.to_nat (c - 48)%N) (uint_str u) acc.
Proof.
  revert acc. induction u as [|u IH|u IH|u IH|u IH|u IH|u IH|u IH|u IH|u IH|u IH]; intros acc; [done|..].
  all: cbn [uint_str fold_left]; rewrite <- IH; cbn [Nat.of_uint_acc]; f_equal.
  all: rewrite Nat.tail_mul_spec; simpl; lia.
Qed.
Lemma usize_numeral n : numeral n (usize_to_string n).
Proof.
  unfold numeral, usize_to_string.
  assert (Nat.to_uint n = Decimal.unorm (Nat.to_uint n)) as E.
  { rewrite <- Unsigned.to_of, Unsigned.of_to. done. }
  split_and!.
  - rewrite <- uint_str_value. apply (Unsigned.of_to n).
  - clear E. induction (Nat.to_uint n); simpl; constructor; lia || done.
  - rewrite E. unfold Decimal.unorm. by destruct (Decimal.nzhead _).
  - rewrite E. unfold Decimal.unorm. assert (forall u r, uint_str (Decimal.nzhead u) <> 48%N :: r) as K.
    { induction u; intros r; simpl; [done|apply IHu|done..]. }
    intros r. destruct (Decimal.nzhead (Nat.to_uint n)) eqn:D; simpl; [by intros [= <-]|..]; rewrite ?D; intros H.
    all: destruct (K (Nat.to_uint n) r); by rewrite D.
Qed.

Lemma c56_format t : exists index from upto type l1 p1 l2 p2,
  token_display t = lit "[@" ++ index ++ lit ", " ++ from ++ lit ":" ++ upto ++ lit "='" ++ text t ++ lit "', <" ++ token_name t ++ lit ">, <" ++ type ++
    lit ">, start: <line: " ++ l1 ++ lit ", position: " ++ p1 ++ lit ">, stop: <line: " ++ l2 ++ lit ", position: " ++ p2 ++ lit ">]" /\
  numeral (token_index t) index /\ numeral (char_start_index t) from /\ numeral (char_stop_index t) upto /\ numeral (token_type t) type /\
  numeral (line (start t)) l1 /\ numeral (char_position (start t)) p1 /\ numeral (line (stop t)) l2 /\ numeral (char_position (stop t)) p2.
Proof.
  exists (usize_to_string (token_index t)), (usize_to_string (char_start_index t)), (usize_to_string (char_stop_index t)), (usize_to_string (token_type t)),
    (usize_to_string (line (start t))), (usize_to_string (char_position (start t))), (usize_to_string (line (stop t))), (usize_to_string (char_position (stop t))).
  split; [|split_and!; apply usize_numeral].
  unfold token_display, position_display. rewrite <- !app_assoc. reflexivity.
Qed.
Lemma c56_format_example : let t := Token 2 (lit "ID") (Position 3 7) (Position 3 10) 0 (lit "foo") 12 40 43 in
  token_display t = lit "[@12, 40:43='foo', <ID>, <2>, start: <line: 3, position: 7>, stop: <line: 3, position: 10>]".
Proof. reflexivity. Qed.

Lemma display_children cs : (fix go (cs : list ast) : str := match cs with [] => [] | c :: cs' => ast_display c ++ lit " " ++ go cs' end) cs =
  concat (map (fun s => s ++ lit " ") (map ast_display cs)).
Proof. induction cs as [|c cs IH]; [done|]. cbn -[lit]. by rewrite IH, <- (assoc_L (++)). Qed.
Lemma c55_format a : shown (shape_of a) (ast_display a).
Proof.
  refine (ast_rect' (fun a => shown (shape_of a) (ast_display a)) (fun r => shown (rule_shape r) (rule_display r)) _ _ _ _ a).
  - intros t. constructor.
  - intros t. constructor.
  - intros r H. exact H.
  - intros n cs i H. cbn [rule_shape rule_display]. rewrite display_children. constructor.
    induction H; simpl; constructor; done.
Qed.

Lemma printed_nonterminal_default v id : printed_nonterminal v id (get_nonterminal_name_with_default v id).
Proof.
  unfold get_nonterminal_name_with_default. destruct (nt_id_to_name v !! id) eqn:E.
  - by apply printed_named.
  - apply printed_unnamed; [done|apply usize_numeral].
Qed.
Lemma display_rhs_format v rhs s : display_rhs v rhs = Ret s -> exists ss, Forall2 (printed_item v) rhs ss /\ s = concat ss.
Proof.
  revert s. induction rhs as [|[id|id] rhs IH]; intros s H; simpl in H.
  - injection H as <-. exists []. split; [constructor|done].
  - apply rbind_Ret in H as (s' & H1 & H2). injection H2 as <-. destruct (IH _ H1) as (ss & Hs & ->).
    exists (get_nonterminal_name_with_default v id :: ss). split; [|done]. constructor; [|done]. constructor. apply printed_nonterminal_default.
  - apply rbind_Ret in H as (n & H0 & H). apply rbind_Ret in H as (s' & H1 & H2). injection H2 as <-. destruct (IH _ H1) as (ss & Hs & ->).
    exists ((lit " " ++ n) :: ss). split; [|done]. constructor; [|done]. constructor.
    unfold get_terminal_name in H0. unfold get_terminal_name_by_id. destruct (t_id_to_name v !! id); simpl in H0; [by injection H0 as ->|done].
Qed.
Lemma c46_format order g s : display_grammar order g = Ret s ->
  exists lines, Forall2 (printed_production (g_vocabulary g)) order lines /\ s = concat lines.
Proof.
  unfold display_grammar. enough (forall acc, rfold (fun acc p => let! s := display_production (g_vocabulary g) p in Ret (acc ++ s)) order acc = Ret s ->
    exists lines, Forall2 (printed_production (g_vocabulary g)) order lines /\ s = acc ++ concat lines) as K by (intros H; by apply K in H).
  induction order as [|p order IH]; intros acc H; simpl in H.
  - injection H as <-. exists []. split; [constructor|]. by rewrite app_nil_r.
  - apply rbind_Ret in H as (acc' & H1 & H2). apply rbind_Ret in H1 as (l & H1 & H3). injection H3 as <-.
    apply IH in H2 as (lines & Hl & ->). exists (l :: lines). split; [|simpl; by rewrite (assoc_L (++))]. constructor; [|done].
    unfold display_production in H1. apply rbind_Ret in H1 as (r & H1 & H3). injection H3 as <-.
    apply display_rhs_format in H1 as (ss & Hs & ->). constructor; [apply printed_nonterminal_default|done].
Qed.
