(** ReadsAll.v -- if every rule can be read, every element of the grammar can, with operands recognised by their number. *)
From Verif Require Export GroupsProofs.

(** In the list of operands the ones inside an operand come before it. *)
Definition inner_first (l : list (suffix * atom)) : Prop :=
  forall pre k a post, l = pre ++ (k, a) :: post -> forall x, x ∈ atom_operands a -> x ∈ pre.
Lemma inner_first_app l1 l2 : inner_first l1 -> inner_first l2 -> inner_first (l1 ++ l2).
Proof.
  intros H1 H2 pre k a post E x Hx. apply app_eq_app in E as [l [[-> E]|[-> E]]].
  - destruct l as [|y l]; simpl in E.
    + destruct l2 as [|y l2]; [done|]. injection E as <- <-. specialize (H2 [] k a post eq_refl x Hx). by apply elem_of_nil in H2.
    + injection E as <- ->. exact (H1 pre k a l eq_refl x Hx).
  - apply elem_of_app. right. exact (H2 l k a post E x Hx).
Qed.
Lemma inner_first_concat {A} (f : A -> list (suffix * atom)) l : (forall x, x ∈ l -> inner_first (f x)) -> inner_first (concat (map f l)).
Proof.
  induction l as [|x l IH]; intros H; cbn [map concat].
  - intros pre k a post E. by destruct pre.
  - apply inner_first_app; [apply H, elem_of_list_here|]. apply IH. intros y Hy. by apply H, elem_of_list_further.
Qed.
Fixpoint element_inner e : inner_first (element_operands e)
with atom_inner a : inner_first (atom_operands a)
with alternative_inner a : inner_first (alternative_operands a).
Proof.
  - destruct e as [a [[k b]|]]; cbn [element_operands]; [|rewrite app_nil_r; exact (atom_inner a)].
    intros pre k' a' post E x Hx. destruct post as [|y post _] using rev_ind.
    + apply app_inj_tail in E as [<- [= <- <-]]. exact Hx.
    + rewrite app_comm_cons, app_assoc in E. apply app_inj_tail in E as [E _]. exact (atom_inner a _ _ _ _ E x Hx).
  - destruct a as [| | |alts]; try (intros pre k a' post E; by destruct pre). cbn [atom_operands].
    induction alts as [|alt alts IH]; cbn [map concat]; [intros pre k a' post E; by destruct pre|].
    apply inner_first_app; [exact (alternative_inner alt)|exact IH].
  - destruct a as [|es]; [intros pre k a' post E; by destruct pre|]. cbn [alternative_operands].
    induction es as [|e es IH]; cbn [map concat]; [intros pre k a' post E; by destruct pre|].
    apply inner_first_app; [exact (element_inner e)|exact IH].
Qed.
Lemma operands_inner G : inner_first (operands G).
Proof.
  apply inner_first_concat. intros [name alts|]  _; [|intros pre k a post E; by destruct pre].
  apply inner_first_concat. intros alt _. exact (alternative_inner alt).
Qed.

Fixpoint element_operand_in e k a : (k, a) ∈ element_operands e -> exists b, within_element (Element a (Some (k, b))) e
with atom_operand_in x k a : (k, a) ∈ atom_operands x -> exists b, forall s, within_element (Element a (Some (k, b))) (Element x s)
with alternative_operand_in x k a : (k, a) ∈ alternative_operands x -> exists b, within_alternative (Element a (Some (k, b))) x.
Proof.
  - destruct e as [x s]. cbn [element_operands]. intros [H|H]%elem_of_app.
    + destruct (atom_operand_in x k a H) as [b Hb]. exists b. apply Hb.
    + destruct s as [[k' b]|]; [|by apply elem_of_nil in H]. apply elem_of_list_singleton in H. injection H as <- <-. exists b. constructor.
  - destruct x as [| | |alts]; try (intros H; by apply elem_of_nil in H). cbn [atom_operands]. intros H.
    assert (exists alt b, alt ∈ alts /\ within_alternative (Element a (Some (k, b))) alt) as (alt & b & Ha & Hw).
    { induction alts as [|alt alts IH]; cbn [map concat] in H; [by apply elem_of_nil in H|]. apply elem_of_app in H as [H|H].
      - destruct (alternative_operand_in alt k a H) as [b Hb]. exists alt, b. split; [apply elem_of_list_here|done].
      - destruct (IH H) as (alt' & b & Ha & Hb). exists alt', b. split; [by apply elem_of_list_further|done]. }
    exists b. intros s. by eapply within_group.
  - destruct x as [|es]; [intros H; by apply elem_of_nil in H|]. cbn [alternative_operands]. intros H.
    assert (exists e b, e ∈ es /\ within_element (Element a (Some (k, b))) e) as (e & b & He & Hw).
    { induction es as [|e es IH]; cbn [map concat] in H; [by apply elem_of_nil in H|]. apply elem_of_app in H as [H|H].
      - destruct (element_operand_in e k a H) as [b Hb]. exists e, b. split; [apply elem_of_list_here|done].
      - destruct (IH H) as (e' & b & Ha & Hb). exists e', b. split; [by apply elem_of_list_further|done]. }
    exists b. by eapply within_sequence.
Qed.
Lemma in_concat_map {A B} (f : A -> list B) l y : y ∈ concat (map f l) <-> exists x, x ∈ l /\ y ∈ f x.
Proof.
  induction l as [|x l IH]; cbn [map concat].
  - split; [by intros ?%elem_of_nil|]. intros (x & H & _). by apply elem_of_nil in H.
  - rewrite elem_of_app, IH. split.
    + intros [H|(x' & H & H')]; [exists x|exists x']; (split; [|done]); [apply elem_of_list_here|by apply elem_of_list_further].
    + intros (x' & [->|H]%elem_of_cons & H'); [by left|right; eauto].
Qed.
Lemma operand_occurs G k a : (k, a) ∈ operands G -> exists b, occurs (Element a (Some (k, b))) G.
Proof.
  intros ([name alts|] & HG & H)%in_concat_map; [|by apply elem_of_nil in H].
  apply in_concat_map in H as (alt & Ha & H). destruct (alternative_operand_in alt k a H) as [b Hb]. exists b, name, alts, alt. done.
Qed.
Lemma within_operands x y : y ∈ element_operands x ->
  (forall e, within_element x e -> y ∈ element_operands e) /\ (forall a, within_alternative x a -> y ∈ alternative_operands a).
Proof.
  intros Hy. apply (within_mut x (fun e => y ∈ element_operands e) (fun a => y ∈ alternative_operands a)).
  - done.
  - intros alts alt e s Ha _ IH ->. cbn [element_operands atom_operands]. apply elem_of_app. left. apply in_concat_map. eauto.
  - intros es e He _ IH. cbn [alternative_operands]. apply in_concat_map. eauto.
Qed.
Lemma occurs_operands G x y : occurs x G -> y ∈ element_operands x -> y ∈ operands G.
Proof.
  intros (name & alts & alt & HG & Ha & Hw) Hy. apply in_concat_map. exists (ParserRule name alts). split; [done|].
  apply in_concat_map. exists alt. split; [done|]. exact (proj2 (within_operands x y Hy) alt Hw).
Qed.

Section readable.
  Context (G : list rule) (number : atom -> nat).
  Notation as_read := (first_operand number G).
  Context (Hwf : forall e, occurs e G -> wf_element e = true).
  Context (Hrules : forall n s, occurs (Element (RuleRef n) s) G -> exists w, reads_atom G as_read (RuleRef n) w).
  Notation ok ka := (exists w, reads_atom G as_read (as_read ka.1 ka.2) w).

  Fixpoint element_reads e : occurs e G -> wf_element e = true -> (forall y, y ∈ element_operands e -> ok y) -> exists w, reads_element G as_read e w
  with atom_reads a : forall s, occurs (Element a s) G -> wf_atom a = true -> (forall y, y ∈ atom_operands a -> ok y) -> exists w, reads_atom G as_read a w
  with alternative_reads alt : alternative_of G alt -> wf_alternative alt = true -> (forall y, y ∈ alternative_operands alt -> ok y) ->
    exists w, reads_alternative G as_read alt w.
  Proof using Hrules.
    - intros Ho Hw H. destruct e as [a [[k b]|]]; cbn [element_operands] in H.
      + destruct k; [exists []; constructor| |exists []; constructor].
        destruct (H (Plus, a)) as [w Hr]; [apply elem_of_app; right; apply elem_of_list_here|]. exists w. by constructor.
      + destruct (atom_reads a None Ho Hw) as [w Hr]; [|exists w; by constructor].
        intros y Hy. apply H. apply elem_of_app. by left.
    - intros s Ho Hw H. destruct a as [n|l|n|alts]; [eexists; constructor|eexists; constructor|by eapply Hrules|].
      cbn [wf_atom] in Hw. apply andb_true_iff in Hw as [Hne Hw]. destruct alts as [|alt alts]; [done|].
      cbn [forallb] in Hw. apply andb_true_iff in Hw as [Hw _].
      destruct (alternative_reads alt) as [w Hr]; [right; exists (alt :: alts), s; split; [done|apply elem_of_list_here]|done| |].
      + intros y Hy. apply H. cbn [atom_operands map concat]. apply elem_of_app. by left.
      + exists w. eapply reads_group; [apply elem_of_list_here|done].
    - intros Ha Hw H. destruct alt as [|es]; [exists []; constructor|].
      assert (forall e, e ∈ es -> occurs e G) as Ho by (intros e He; by eapply occurs_alternative). clear Ha. cbn [wf_alternative] in Hw.
      cbn [alternative_operands] in H.
      assert (exists w, reads_elements G as_read es w) as [w Hr]; [|exists w; by constructor].
      induction es as [|e es IH]; [exists []; constructor|]. cbn [forallb] in Hw. apply andb_true_iff in Hw as [Hw1 Hw2].
      destruct (element_reads e) as [w1 H1]; [apply Ho, elem_of_list_here|done|intros y Hy; apply H; cbn [map concat]; apply elem_of_app; by left|].
      destruct (IH Hw2) as [w2 H2]; [intros y Hy; apply H; cbn [map concat]; apply elem_of_app; by right|intros x Hx; by apply Ho, elem_of_list_further|].
      exists (w1 ++ w2). by constructor.
  Qed.

  (** An operand is read as one met not later than itself. *)
  Lemma first_operand_before pre k a post : operands G = pre ++ (k, a) :: post ->
    exists i a', operands G !! i = Some (k, a') /\ i <= length pre /\ as_read k a = a'.
  Proof using.
    intros E. unfold first_operand. rewrite E.
    assert (forall l, exists i a', (l ++ (k, a) :: post) !! i = Some (k, a') /\ i <= length l /\
      match List.find (fun ka => same_suffix k ka.1 && (number ka.2 =? number a)) (l ++ (k, a) :: post) with Some ka => ka.2 | None => a end = a') as K; [|apply K].
    induction l as [|[k' a'] l IH]; cbn [app List.find fst snd length].
    - exists 0, a. split; [done|]. split; [lia|]. rewrite Nat.eqb_refl. by destruct k.
    - destruct (same_suffix k k' && (number a' =? number a)) eqn:Eb.
      + apply andb_true_iff in Eb as [->%same_suffix_eq _]. exists 0, a'. split; [done|]. split; [lia|done].
      + destruct IH as (i & a'' & Hi & Hle & Ef). exists (S i), a''. split; [done|]. split; [lia|exact Ef].
  Qed.
  Lemma operands_read n : forall k a, operands G !! n = Some (k, a) -> exists w, reads_atom G as_read a w.
  Proof using Hrules Hwf.
    induction n as [n IH] using (well_founded_induction lt_wf). intros k a Hn.
    destruct (operand_occurs G k a) as [b Ho]; [by eapply elem_of_list_lookup_2|].
    apply (atom_reads a _ Ho (Hwf _ Ho)). intros [k' a'] Hy. cbn [fst snd].
    pose proof (take_drop_middle _ _ _ Hn) as E. symmetry in E.
    pose proof (operands_inner G _ _ _ _ E _ Hy) as Hin.
    apply elem_of_list_split in Hin as (l1 & l2 & El). rewrite El, <- app_assoc in E. cbn [app] in E.
    destruct (first_operand_before _ _ _ _ E) as (i & a'' & Hi & Hle & ->).
    apply (IH i) with k'; [|exact Hi]. apply (f_equal length) in El. rewrite take_length, app_length in El. simpl in El. lia.
  Qed.
  Lemma every_reads e : occurs e G -> exists w, reads_element G as_read e w.
  Proof using Hrules Hwf.
    intros Ho. apply (element_reads e Ho (Hwf _ Ho)). intros [k a] Hy. apply (occurs_operands G _ _ Ho) in Hy. cbn [fst snd].
    apply elem_of_list_split in Hy as (l1 & l2 & E). destruct (first_operand_before _ _ _ _ E) as (i & a' & Hi & _ & ->). by eapply operands_read.
  Qed.
  Lemma every_atom_reads a s : occurs (Element a s) G -> exists w, reads_atom G as_read a w.
  Proof using Hrules Hwf.
    intros Ho. apply (atom_reads a s Ho (Hwf _ Ho)). intros [k a'] Hy. cbn [fst snd].
    assert ((k, a') ∈ operands G) as Hin. { apply (occurs_operands G _ _ Ho). cbn [element_operands]. apply elem_of_app. by left. }
    apply elem_of_list_split in Hin as (l1 & l2 & E). destruct (first_operand_before _ _ _ _ E) as (i & a'' & Hi & _ & ->). by eapply operands_read.
  Qed.
End readable.
