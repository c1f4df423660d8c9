(** JsReadProofs.v -- the reader of SpecDrawer.v does not look behind what it reads. *)
From Verif Require Export SpecDrawer.

Lemma read_template_more s v r u : read_template s = Some (v, r) -> read_template (s ++ u) = Some (v, r ++ u).
Proof.
  revert v r. induction s as [s IH] using (induction_ltof1 _ length). unfold ltof in IH. intros v r.
  destruct s as [|c s]; [done|]. cbn [read_template app]. destruct (c =? c_backquote)%N; [by intros [= <- <-]|].
  destruct (c =? c_backslash)%N.
  { destruct s as [|e s]; [done|]. cbn [app]. destruct (_ || _); [|done]. destruct (read_template s) as [[v1 r1]|] eqn:E; [|done].
    intros [= <- <-]. by rewrite (IH s ltac:(cbn; lia) _ _ E). }
  destruct s as [|e s]; [destruct (_ && _); [done|]; destruct (c =? c_cr)%N; done|].
  destruct (read_template (e :: s)) as [[v1 r1]|] eqn:E.
  - rewrite (IH (e :: s) ltac:(cbn; lia) _ _ E). cbn [app]. destruct (_ && _); [done|]. destruct (c =? c_cr)%N; [destruct (e =? c_lf)%N|]; by intros [= <- <-].
  - destruct (_ && _); [done|]. by destruct (c =? c_cr)%N.
Qed.
Lemma skip_blanks_more s c r u : skip_blanks s = c :: r -> skip_blanks (s ++ u) = c :: r ++ u.
Proof. induction s as [|x s IH]; [done|]. cbn [skip_blanks app]. destruct (is_blank_char x); [done|]. by intros [= -> ->]. Qed.
Lemma read_word_more s w c r u : read_word s = (w, c :: r) -> read_word (s ++ u) = (w, c :: r ++ u).
Proof.
  revert w. induction s as [|x s IH]; intros w; [done|]. cbn [read_word app]. destruct (is_word_char x).
  - destruct (read_word s) as [w' r'] eqn:E. intros [= <- ->]. by rewrite (IH _ eq_refl).
  - by intros [= <- -> ->].
Qed.
Lemma three_way {A} (c : N) (a b d e : A) :
  match c with 96%N => a | 91%N => b | 123%N => d | _ => e end = if (c =? 96)%N then a else if (c =? 91)%N then b else if (c =? 123)%N then d else e.
Proof. destruct c as [|p]; [done|]. do 7 (destruct p as [p|p|]; try reflexivity). Qed.
Lemma two_way {A} (c : N) (a b e : A) :
  match c with 93%N => a | 44%N => b | _ => e end = if (c =? 93)%N then a else if (c =? 44)%N then b else e.
Proof. destruct c as [|p]; [done|]. do 7 (destruct p as [p|p|]; try reflexivity). Qed.
Lemma two_way' {A} (c : N) (a b e : A) :
  match c with 125%N => a | 44%N => b | _ => e end = if (c =? 125)%N then a else if (c =? 44)%N then b else e.
Proof. destruct c as [|p]; [done|]. do 7 (destruct p as [p|p|]; try reflexivity). Qed.
Lemma one_way {A} (c k : N) (a e : A) : k = 93%N \/ k = 125%N \/ k = 58%N ->
  (k = 93%N -> match c with 93%N => a | _ => e end = if (c =? k)%N then a else e) /\
  (k = 125%N -> match c with 125%N => a | _ => e end = if (c =? k)%N then a else e) /\
  (k = 58%N -> match c with 58%N => a | _ => e end = if (c =? k)%N then a else e).
Proof.
  intros _. split_and!; intros ->; destruct c as [|p]; try done; do 7 (destruct p as [p|p|]; try reflexivity).
Qed.

Definition read_member (f : nat) (s : str) : option (list (str * js) * str) :=
  let '(w, r) := read_word s in
  match w, skip_blanks r with
  | [], _ => None
  | _ :: _, 58%N :: r1 =>
      match read_js f r1 with
      | Some (v, r2) =>
          match skip_blanks r2 with
          | 125%N :: r3 => Some ([(w, v)], r3)
          | 44%N :: r3 => match read_fields f r3 with Some (l, r4) => Some ((w, v) :: l, r4) | None => None end
          | _ => None
          end
      | None => None
      end
  | _, _ => None
  end.
Lemma read_fields_way f s c s' : skip_blanks s = c :: s' ->
  read_fields (S f) s = if (c =? 125)%N then Some ([], s') else read_member f (c :: s').
Proof.
  intros E. cbn [read_fields]. rewrite E. clear E.
  destruct c as [|p]; [reflexivity|]. do 7 (destruct p as [p|p|]; try reflexivity).
Qed.

Lemma read_more f : (forall s v r u, read_js f s = Some (v, r) -> read_js f (s ++ u) = Some (v, r ++ u)) /\
  (forall s v r u, read_elements f s = Some (v, r) -> read_elements f (s ++ u) = Some (v, r ++ u)) /\
  (forall s v r u, read_fields f s = Some (v, r) -> read_fields f (s ++ u) = Some (v, r ++ u)).
Proof.
  induction f as [|f (IHj & IHe & IHf)]; [done|]. split_and!; intros s v r u H.
  - cbn [read_js] in H |- *. destruct (skip_blanks s) as [|c s'] eqn:Es; [done|]. rewrite (skip_blanks_more _ _ _ u Es).
    rewrite three_way in H |- *. destruct (c =? 96)%N; [|destruct (c =? 91)%N; [|destruct (c =? 123)%N; [|done]]].
    + destruct (read_template s') as [[v1 r1]|] eqn:E; [|done]. injection H as <- <-. by rewrite (read_template_more _ _ _ u E).
    + destruct (read_elements f s') as [[v1 r1]|] eqn:E; [|done]. injection H as <- <-. by rewrite (IHe _ _ _ u E).
    + destruct (read_fields f s') as [[v1 r1]|] eqn:E; [|done]. injection H as <- <-. by rewrite (IHf _ _ _ u E).
  - cbn [read_elements] in H |- *. destruct (skip_blanks s) as [|c s'] eqn:Es.
    { destruct f as [|f]; [done|]. cbn [read_js] in H. rewrite Es in H. done. }
    rewrite (skip_blanks_more _ _ _ u Es).
    assert (forall A (a e : A), match c with 93%N => a | _ => e end = if (c =? 93)%N then a else e) as K by (intros A a e; by apply one_way; auto).
    rewrite K in H |- *. destruct (c =? 93)%N; [by injection H as <- <-|].
    destruct (read_js f s) as [[v1 r1]|] eqn:E; [|done]. rewrite (IHj _ _ _ u E).
    destruct (skip_blanks r1) as [|d r2] eqn:E2; [done|]. rewrite (skip_blanks_more _ _ _ u E2). rewrite two_way in H |- *.
    destruct (d =? 93)%N; [by injection H as <- <-|]. destruct (d =? 44)%N; [|done].
    destruct (read_elements f r2) as [[l r3]|] eqn:E3; [|done]. injection H as <- <-. by rewrite (IHe _ _ _ u E3).
  - destruct (skip_blanks s) as [|c s'] eqn:Es; [cbn [read_fields] in H; by rewrite Es in H|].
    rewrite (read_fields_way _ _ _ _ Es) in H. rewrite (read_fields_way _ _ _ _ (skip_blanks_more _ _ _ u Es)).
    destruct (c =? 125)%N; [by injection H as <- <-|]. unfold read_member in H |- *.
    destruct (read_word (c :: s')) as [w r1] eqn:Ew. destruct r1 as [|d r1]; [by destruct w|].
    change (c :: s' ++ u) with ((c :: s') ++ u). rewrite (read_word_more _ _ _ _ u Ew). destruct w as [|x w]; [done|].
    destruct (skip_blanks (d :: r1)) as [|e r2] eqn:E2; [done|]. change (d :: r1 ++ u) with ((d :: r1) ++ u). rewrite (skip_blanks_more _ _ _ u E2).
    assert (forall A (a b : A), match e with 58%N => a | _ => b end = if (e =? 58)%N then a else b) as K' by (intros A a b; by apply one_way; auto).
    rewrite K' in H |- *. destruct (e =? 58)%N; [|done].
    destruct (read_js f r2) as [[v1 r3]|] eqn:E; [|done]. rewrite (IHj _ _ _ u E).
    destruct (skip_blanks r3) as [|g r4] eqn:E4; [done|]. rewrite (skip_blanks_more _ _ _ u E4). rewrite two_way' in H |- *.
    destruct (g =? 125)%N; [by injection H as <- <-|]. destruct (g =? 44)%N; [|done].
    destruct (read_fields f r4) as [[l r5]|] eqn:E5; [|done]. injection H as <- <-. by rewrite (IHf _ _ _ u E5).
Qed.
