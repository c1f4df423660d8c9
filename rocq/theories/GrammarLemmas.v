(** GrammarLemmas.v -- lemmas on derivations, and inductive characterisations of FIRST/FOLLOW. *)
From Verif Require Export SpecGrammar.

Section derivations.
  Context (P : gset production).

  Lemma rewrites_ctx α β a b : rewrites P α β -> rewrites P (a ++ α ++ b) (a ++ β ++ b).
  Proof.
    intros [α' p β' Hp].
    replace (a ++ (α' ++ NT (left p) :: β') ++ b) with ((a ++ α') ++ NT (left p) :: (β' ++ b))
      by (by rewrite <- !(assoc_L (++)), <- app_comm_cons).
    replace (a ++ (α' ++ right p ++ β') ++ b) with ((a ++ α') ++ right p ++ (β' ++ b))
      by (by rewrite <- !(assoc_L (++))).
    by constructor.
  Qed.

  Lemma derives_ctx α β a b : derives P α β -> derives P (a ++ α ++ b) (a ++ β ++ b).
  Proof.
    unfold derives. induction 1 as [α|α β γ Hs _ IH]; [apply rtc_refl|].
    eapply rtc_l; [by apply rewrites_ctx|done].
  Qed.

  Lemma derives_app α1 β1 α2 β2 :
    derives P α1 β1 -> derives P α2 β2 -> derives P (α1 ++ α2) (β1 ++ β2).
  Proof.
    intros H1 H2. etrans.
    - pose proof (derives_ctx _ _ [] α2 H1) as H. simpl in H. exact H.
    - pose proof (derives_ctx _ _ β1 [] H2) as H. rewrite !app_nil_r in H. exact H.
  Qed.

  Lemma derives_trans α β γ : derives P α β -> derives P β γ -> derives P α γ.
  Proof. unfold derives. intros ??. by etrans. Qed.

  Lemma derives_refl α : derives P α α.
  Proof. apply rtc_refl. Qed.

  Lemma derives_prod p : p ∈ P -> derives P [NT (left p)] (right p).
  Proof.
    intros Hp. apply rtc_once.
    pose proof (rewrites_intro P [] p [] Hp) as H. simpl in H. by rewrite app_nil_r in H.
  Qed.

  (** Splitting a derivation of a concatenation. *)
  Lemma rewrites_app_inv α β γ :
    rewrites P (α ++ β) γ ->
    (exists α', rewrites P α α' /\ γ = α' ++ β) \/ (exists β', rewrites P β β' /\ γ = α ++ β').
  Proof.
    intros H. inversion H as [a p b Hp Heq Hγ]; subst. symmetry in Heq.
    apply app_eq_app in Heq as (k & [[-> Hb]|[-> Hb]]).
    - destruct k as [|x k]; simplify_eq/=.
      + right. exists (right p ++ b). rewrite app_nil_r. split; [|done].
        apply (rewrites_intro P [] p b Hp).
      + left. exists (a ++ right p ++ k). split; [by constructor|]. by rewrite <-!(assoc_L (++)).
    - right. exists (k ++ right p ++ b). subst β. rewrite <-!(assoc_L (++)). split; [|done].
      by constructor.
  Qed.

  Lemma derives_app_inv α β γ :
    derives P (α ++ β) γ -> exists γ1 γ2, γ = γ1 ++ γ2 /\ derives P α γ1 /\ derives P β γ2.
  Proof.
    unfold derives. intros H. remember (α ++ β) as δ eqn:Hδ. revert α β Hδ.
    induction H as [δ|δ1 δ2 δ3 Hs _ IH]; intros α β ->.
    - exists α, β. done.
    - apply rewrites_app_inv in Hs as [(α' & Hr & ->)|(β' & Hr & ->)].
      + destruct (IH α' β eq_refl) as (γ1 & γ2 & -> & H1 & H2).
        exists γ1, γ2. split; [done|]. split; [by eapply rtc_l|done].
      + destruct (IH α β' eq_refl) as (γ1 & γ2 & -> & H1 & H2).
        exists γ1, γ2. split; [done|]. split; [done|by eapply rtc_l].
  Qed.

  Lemma derives_T_inv t γ : derives P [T t] γ -> γ = [T t].
  Proof.
    unfold derives. intros H. remember [T t] as δ eqn:Hδ. revert Hδ.
    induction H as [δ|δ1 δ2 δ3 Hs _ IH]; intros ->; [done|].
    inversion Hs as [a p b Hp Heq Hγ]. destruct a as [|? [|]]; by simplify_eq/=.
  Qed.

  Lemma derives_nil_inv γ : derives P [] γ -> γ = [].
  Proof.
    intros H. inversion H as [|? ? ? Hs]; subst; [done|].
    inversion Hs as [a p b Hp Heq Hγ]. by destruct a.
  Qed.

  (** ** Nullability, by height *)
  Inductive nul : nat -> list item -> Prop :=
  | nul_nil n : nul n []
  | nul_NT n p α : p ∈ P -> nul n (right p) -> nul (S n) α -> nul (S n) (NT (left p) :: α).

  Lemma nul_S n α : nul n α -> nul (S n) α.
  Proof. induction 1 as [n|n p α Hp H1 IH1 H2 IH2]; by constructor. Qed.
  Lemma nul_le n m α : n <= m -> nul n α -> nul m α.
  Proof. induction 1; [done|]. intros. by apply nul_S, IHle. Qed.
  Lemma nul_app n α β : nul n α -> nul n β -> nul n (α ++ β).
  Proof. induction 1 as [n|n p α Hp H1 IH1 H2 IH2]; [done|]. intros. constructor; eauto. Qed.
  Lemma nul_app_inv n α β : nul n (α ++ β) -> nul n α /\ nul n β.
  Proof.
    induction α as [|x α IH]; simpl; intros H; [split; [constructor|done]|].
    inversion H as [|n' p α' Hp H1 H2]; subst. destruct (IH H2). split; [by constructor|done].
  Qed.
  Lemma nul_T_inv n t α : ~ nul n (T t :: α).
  Proof. intros H. inversion H. Qed.

  Lemma nul_derives n α : nul n α -> nullable P α.
  Proof.
    induction 1 as [n|n p α Hp H1 IH1 H2 IH2]; [apply rtc_refl|].
    apply (derives_app [NT (left p)] [] α []); [|done]. eapply derives_trans; [by apply derives_prod|done].
  Qed.

  Lemma derives_nul α : nullable P α -> exists n, nul n α.
  Proof.
    unfold nullable, derives. intros H. remember [] as γ eqn:Hγ. revert Hγ.
    induction H as [α|α β γ Hs _ IH]; intros ->; [exists 0; constructor|].
    destruct (IH eq_refl) as [n Hn]. inversion Hs as [a p b Hp Hq1 Hq2]; subst.
    apply nul_app_inv in Hn as [Ha Hn]. apply nul_app_inv in Hn as [Hr Hb].
    exists (S n). apply nul_app; [by apply nul_S|]. constructor; [done..|]. by apply nul_S.
  Qed.

  Lemma nullable_iff α : nullable P α <-> exists n, nul n α.
  Proof. split; [apply derives_nul|]. intros [n Hn]. by eapply nul_derives. Qed.

  Lemma nullable_nil : nullable P [].
  Proof. apply rtc_refl. Qed.
  Lemma nullable_app α β : nullable P (α ++ β) <-> nullable P α /\ nullable P β.
  Proof.
    rewrite !nullable_iff. split.
    - intros [n [H1 H2]%nul_app_inv]. eauto.
    - intros [[n Hn] [m Hm]]. exists (n `max` m). apply nul_app; (eapply nul_le; [|done]); lia.
  Qed.
  Lemma nullable_T t α : ~ nullable P (T t :: α).
  Proof. rewrite nullable_iff. intros [n Hn]. by eapply nul_T_inv. Qed.
  Lemma nullable_cons x α : nullable P (x :: α) <-> nullable P [x] /\ nullable P α.
  Proof. apply (nullable_app [x] α). Qed.
  Lemma nullable_NT A : nullable P [NT A] <-> exists p, p ∈ P /\ left p = A /\ nullable P (right p).
  Proof.
    split.
    - rewrite nullable_iff. intros [n Hn]. inversion Hn as [|n' p α' Hp H1 H2]; subst.
      exists p. split; [done|]. split; [done|]. rewrite nullable_iff. eauto.
    - intros (p & Hp & <- & H). eapply derives_trans; [by apply derives_prod|done].
  Qed.

  (** ** FIRST, by height *)
  Inductive fst_ : nat -> list item -> nat -> Prop :=
  | fst_T n t β : fst_ n (T t :: β) t
  | fst_NT n p β t : p ∈ P -> fst_ n (right p) t -> fst_ (S n) (NT (left p) :: β) t
  | fst_skip n A β t : nullable P [NT A] -> fst_ n β t -> fst_ n (NT A :: β) t.

  Lemma fst_app_l n α β t : fst_ n α t -> fst_ n (α ++ β) t.
  Proof. induction 1; simpl; econstructor; eauto. Qed.
  Lemma fst_app_r n α β t : nullable P α -> fst_ n β t -> fst_ n (α ++ β) t.
  Proof.
    induction α as [|x α IH]; simpl; [done|]. intros Hn Hf.
    apply nullable_cons in Hn as [Hx Hα].
    destruct x as [A|u]; [|by apply nullable_T in Hx].
    apply fst_skip; [done|]. by apply IH.
  Qed.
  Lemma fst_app_inv n α β t :
    fst_ n (α ++ β) t -> fst_ n α t \/ (nullable P α /\ fst_ n β t).
  Proof.
    induction α as [|x α IH]; simpl; intros H; [right; split; [apply nullable_nil|done]|].
    inversion H as [n' t' β'|n' p β' t' Hp Hf|n' A β' t' Hn Hf]; subst.
    - left. constructor.
    - left. by constructor.
    - destruct (IH Hf) as [?|[??]]; [left; by constructor|].
      right. split; [|done]. by apply nullable_cons.
  Qed.
  Lemma fst_S n α t : fst_ n α t -> fst_ (S n) α t.
  Proof. induction 1; by constructor. Qed.
  Lemma fst_le n m α t : n <= m -> fst_ n α t -> fst_ m α t.
  Proof. induction 1; [done|]. intros. by apply fst_S, IHle. Qed.

  Lemma fst_starts n α t : fst_ n α t -> starts P α t.
  Proof.
    induction 1 as [n t β|n p β t Hp _ [γ IH]|n A β t Hn _ [γ IH]].
    - exists β. apply rtc_refl.
    - exists (γ ++ β). change (NT (left p) :: β) with ([NT (left p)] ++ β).
      change (T t :: γ ++ β) with ((T t :: γ) ++ β).
      apply derives_app; [|apply rtc_refl]. eapply derives_trans; [by apply derives_prod|done].
    - exists γ. change (NT A :: β) with ([NT A] ++ β). change (T t :: γ) with ([] ++ T t :: γ).
      by apply derives_app.
  Qed.

  Lemma starts_fst α t : starts P α t -> exists n, fst_ n α t.
  Proof.
    intros [β H]. unfold derives in H. remember (T t :: β) as γ eqn:Hγ. revert β Hγ.
    induction H as [α|α α' γ Hs _ IH]; intros β ->; [exists 0; constructor|].
    destruct (IH _ eq_refl) as [n Hn]. inversion Hs as [a p b Hp Hq1 Hq2]; subst.
    exists (S n). apply fst_app_inv in Hn as [Hn|[Ha Hn]].
    - apply fst_app_l. by apply fst_S.
    - apply fst_app_r; [done|]. apply fst_app_inv in Hn as [Hn|[Hr Hn]].
      + by constructor.
      + apply fst_skip; [|by apply fst_S]. apply nullable_NT. eauto.
  Qed.
  Lemma starts_iff α t : starts P α t <-> exists n, fst_ n α t.
  Proof. split; [apply starts_fst|]. intros [n Hn]. by eapply fst_starts. Qed.

  Lemma starts_nil t : ~ starts P [] t.
  Proof. intros [β H]. apply derives_nil_inv in H. done. Qed.
  Lemma starts_T u α t : starts P (T u :: α) t <-> t = u.
  Proof.
    rewrite starts_iff. split.
    - intros [n H]. by inversion H.
    - intros ->. exists 0. constructor.
  Qed.
  Lemma starts_app α β t :
    starts P (α ++ β) t <-> starts P α t \/ (nullable P α /\ starts P β t).
  Proof.
    rewrite !starts_iff. split.
    - intros [n [H|[H1 H2]]%fst_app_inv]; eauto.
    - intros [[n H]|[H1 [n H2]]]; exists n; [by apply fst_app_l|by apply fst_app_r].
  Qed.
  Lemma starts_cons x β t :
    starts P (x :: β) t <-> starts P [x] t \/ (nullable P [x] /\ starts P β t).
  Proof. apply (starts_app [x] β). Qed.
  Lemma starts_NT A t :
    starts P [NT A] t <-> exists p, p ∈ P /\ left p = A /\ starts P (right p) t.
  Proof.
    split.
    - rewrite starts_iff. intros [n Hn]. inversion Hn as [|n' p α' t' Hp H1|n' A' β' t' Hn' Hf]; subst.
      + exists p. split; [done|]. split; [done|]. rewrite starts_iff. eauto.
      + inversion Hf.
    - intros (p & Hp & <- & [γ H]). exists γ. eapply derives_trans; [by apply derives_prod|done].
  Qed.
  (** FIRST is stable under derivation steps backwards. *)
  Lemma starts_derives α β t : derives P α β -> starts P β t -> starts P α t.
  Proof. intros H [γ Hγ]. exists γ. by eapply derives_trans. Qed.
  Lemma nullable_derives α β : derives P α β -> nullable P β -> nullable P α.
  Proof. intros H Hβ. by eapply derives_trans. Qed.

  (** ** FOLLOW as a least fixpoint *)
  Inductive fol : nat -> nat -> Prop :=
  | fol_stop : fol 0 1
  | fol_first p α B β t : p ∈ P -> right p = α ++ NT B :: β -> starts P β t -> fol B t
  | fol_follow p α B β t :
      p ∈ P -> right p = α ++ NT B :: β -> nullable P β -> fol (left p) t -> fol B t.

  Lemma derives_inner p α B β X a b :
    p ∈ P -> right p = α ++ NT B :: β ->
    derives P [NT X] (a ++ NT (left p) :: b) ->
    derives P [NT X] ((a ++ α) ++ NT B :: β ++ b).
  Proof.
    intros Hp Hr H. eapply derives_trans; [done|].
    pose proof (derives_ctx _ _ a b (derives_prod p Hp)) as H'. simpl in H'.
    rewrite Hr in H'. rewrite <-!(assoc_L (++)) in *. simpl in *. exact H'.
  Qed.

  Lemma fol_follows B t : fol B t -> follows P B t.
  Proof.
    induction 1 as [|p α B β t Hp Hr [γ Hs]|p α B β t Hp Hr Hn _ IH].
    - right. split; [done|]. exists []. apply rtc_refl.
    - left. exists (left p), α, γ. eapply derives_trans; [by apply derives_prod|]. rewrite Hr.
      change (NT B :: β) with ([NT B] ++ β). change (NT B :: T t :: γ) with ([NT B] ++ T t :: γ).
      apply derives_app; [apply rtc_refl|]. apply derives_app; [apply rtc_refl|done].
    - destruct IH as [(X & a & b & Hd)|[-> [a Hd]]].
      + left. exists X, (a ++ α), b.
        eapply derives_trans; [by eapply derives_inner|].
        apply derives_app; [apply rtc_refl|].
        change (NT B :: T t :: b) with ([NT B] ++ [] ++ T t :: b).
        change (NT B :: β ++ T t :: b) with ([NT B] ++ β ++ T t :: b).
        apply derives_app; [apply rtc_refl|]. apply derives_app; [done|apply rtc_refl].
      + right. split; [done|]. exists (a ++ α).
        eapply derives_trans; [by eapply derives_inner|]. rewrite app_nil_r.
        apply derives_app; [apply rtc_refl|].
        apply (derives_app [NT B] [NT B] β []); [apply rtc_refl|done].
  Qed.

  (** Where a nonterminal of a rewritten form comes from. *)
  Lemma app_three_inv {A} (a r b α β : list A) x :
    a ++ r ++ b = α ++ x :: β ->
    (exists a2, a = α ++ x :: a2 /\ β = a2 ++ r ++ b) \/
    (exists r1 r2, r = r1 ++ x :: r2 /\ α = a ++ r1 /\ β = r2 ++ b) \/
    (exists b1, b = b1 ++ x :: β /\ α = a ++ r ++ b1).
  Proof.
    intros H. symmetry in H. apply app_eq_app in H as (k & [[-> Hk]|[-> Hk]]).
    - symmetry in Hk. apply app_eq_app in Hk as (k' & [[-> Hk]|[-> Hk]]).
      + right; right. exists k'. done.
      + destruct k' as [|y k']; simplify_eq/=.
        * right; right. exists []. rewrite !app_nil_r. done.
        * right; left. exists k, k'. done.
    - destruct k as [|y k]; simplify_eq/=.
      + destruct r as [|y r]; simplify_eq/=.
        * right; right. exists []. rewrite !app_nil_r. done.
        * right; left. exists [], r. rewrite !app_nil_r. done.
      + left. exists k. done.
  Qed.

  Lemma follows_fol_inv (γ δ : list item) t :
    derives P γ δ ->
    (forall A α β, γ = α ++ NT A :: β -> starts P β t -> fol A t) ->
    (forall A α β, δ = α ++ NT A :: β -> starts P β t -> fol A t).
  Proof.
    unfold derives. induction 1 as [γ|γ γ' δ Hs _ IH]; [done|].
    intros Hγ. apply IH. clear IH. inversion Hs as [a p b Hp Hq1 Hq2]; subst.
    intros A α β Heq Hst. apply app_three_inv in Heq as [(a2 & -> & ->)|[(r1 & r2 & Hr & -> & ->)|(b1 & -> & ->)]].
    - eapply Hγ; [rewrite <-(assoc_L (++)); simpl; reflexivity|].
      eapply starts_derives; [|done]. apply rtc_once. by constructor.
    - apply starts_app in Hst as [Hst|[Hn Hst]].
      + by eapply fol_first.
      + eapply fol_follow; [done|done|done|]. by eapply Hγ.
    - eapply (Hγ _ (a ++ NT (left p) :: b1)); [|done]. by rewrite <-(assoc_L (++)).
  Qed.

  Lemma ends_fol_inv (γ δ : list item) :
    derives P γ δ ->
    (forall A α β, γ = α ++ NT A :: β -> nullable P β -> fol A 1) ->
    (forall A α β, γ = α ++ NT A :: β -> starts P β 1 -> fol A 1) ->
    (forall A α β, δ = α ++ NT A :: β -> nullable P β -> fol A 1).
  Proof.
    unfold derives. induction 1 as [γ|γ γ' δ Hs Hrtc IH]; [done|].
    intros Hγ Hγs. apply IH; clear IH.
    - inversion Hs as [a p b Hp Hq1 Hq2]; subst.
      intros A α β Heq Hst. apply app_three_inv in Heq as [(a2 & -> & ->)|[(r1 & r2 & Hr & -> & ->)|(b1 & -> & ->)]].
      + eapply Hγ; [rewrite <-(assoc_L (++)); simpl; reflexivity|].
        eapply nullable_derives; [|done]. apply rtc_once. by constructor.
      + apply nullable_app in Hst as [Hn Hst].
        eapply fol_follow; [done|done|done|]. by eapply Hγ.
      + eapply (Hγ _ (a ++ NT (left p) :: b1)); [|done]. by rewrite <-(assoc_L (++)).
    - eapply follows_fol_inv; [by apply rtc_once|done].
  Qed.

  Lemma follows_fol A t : follows P A t -> fol A t.
  Proof.
    intros [(X & α & β & H)|[-> [α H]]].
    - eapply (follows_fol_inv _ _ _ H).
      + intros A' α' β' Heq Hs. destruct α' as [|? [|]]; simplify_eq/=. by apply starts_nil in Hs.
      + done.
      + exists β. apply rtc_refl.
    - eapply (ends_fol_inv _ _ H).
      + intros A' α' β' Heq Hs. destruct α' as [|? [|]]; simplify_eq/=. constructor.
      + intros A' α' β' Heq Hs. destruct α' as [|? [|]]; simplify_eq/=. by apply starts_nil in Hs.
      + done.
      + apply rtc_refl.
  Qed.

  Lemma follows_iff A t : follows P A t <-> fol A t.
  Proof. split; [apply follows_fol|apply fol_follows]. Qed.

  (** If everything is reachable, FOLLOW as computed is the textbook one. *)
  Lemma textbook_follow_iff A t :
    (forall X p, p ∈ P -> left p = X -> reachable P X) ->
    follows P A t <-> textbook_follow P A t.
  Proof.
    intros Hreach. split.
    - intros [(X & α & β & H)|H]; [|by right]. left.
      assert (reachable P X) as (a & b & HX).
      { inversion H as [Heq|? ? ? Hs _ Heq]; subst.
        - destruct α as [|? [|]]; simplify_eq/=.
        - inversion Hs as [a' p b' Hp Heq Hq]. destruct a' as [|? [|]]; simplify_eq/=. eauto. }
      exists (a ++ α), (β ++ b). eapply derives_trans; [done|].
      pose proof (derives_ctx _ _ a b H) as H'. simpl in H'.
      rewrite <-!(assoc_L (++)) in *. simpl in H'. exact H'.
    - intros [H|H]; [left; eauto|by right].
  Qed.
End derivations.
