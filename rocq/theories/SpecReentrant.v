(** SpecReentrant.v -- words for the statements about visitors that call back. *)
From Verif Require Export Reentrant SpecTree.

(** The methods of an implementation visit only nodes below their own node (and may hand their own node to
    visit_children): their behaviour does not depend on what visiting other nodes does.  The hooks do not call back. *)
Definition descending {S R} (o : open_visitor S R) : Prop :=
  (forall r f g f' g',
     (forall c s, node_of c r -> c <> r -> f c s = f' c s) -> (forall c s, node_of c r -> g c s = g' c s) ->
     (v_override (o f g) (rule_index r) = None /\ v_override (o f' g') (rule_index r) = None) \/
     exists h h', v_override (o f g) (rule_index r) = Some h /\ v_override (o f' g') (rule_index r) = Some h' /\ forall s, h r s = h' r s) /\
  (forall f g f' g' t s, v_terminal (o f g) t s = v_terminal (o f' g') t s) /\
  (forall f g f' g' t s, v_errornode (o f g) t s = v_errornode (o f' g') t s) /\
  (forall f g f' g' s, v_default_result (o f g) s = v_default_result (o f' g') s) /\
  (forall f g f' g' a b s, v_aggregate_result (o f g) a b s = v_aggregate_result (o f' g') a b s) /\
  (forall f g f' g' r a s, v_should_visit_next_child (o f g) r a s = v_should_visit_next_child (o f' g') r a s).

(** The code of the methods itself returns or panics, if the calls it makes do. *)
Definition productive {S R} (o : open_visitor S R) : Prop :=
  (forall r f g, (forall c s, node_of c r -> c <> r -> f c s <> OutOfFuel) -> (forall c s, node_of c r -> g c s <> OutOfFuel) ->
     forall h s, v_override (o f g) (rule_index r) = Some h -> h r s <> OutOfFuel) /\
  (forall f g t s, v_terminal (o f g) t s <> OutOfFuel) /\
  (forall f g t s, v_errornode (o f g) t s <> OutOfFuel) /\
  (forall f g s, v_default_result (o f g) s <> OutOfFuel) /\
  (forall f g a b s, v_aggregate_result (o f g) a b s <> OutOfFuel) /\
  (forall f g r a s, v_should_visit_next_child (o f g) r a s <> OutOfFuel).
