(** SpecView.v -- what a reader of the page expects to see, in terms of the tree that was drawn and of what was clicked on. *)
From Coq Require Export Sorting.Sorted.
From Verif Require Export View.

(** The node of a tree at a place: positions among the children, from the root down. *)
Definition below (a : ast) : list ast := match a with Rule (RuleCtx _ cs _) => cs | _ => [] end.
Fixpoint at_place (a : ast) (p : place) : option ast :=
  match p with [] => Some a | i :: p' => match below a !! i with Some c => at_place c p' | None => None end end.

Definition strictly_above (q p : place) : Prop := exists i r, p = q ++ i :: r.
(** [n q] times was the node at q folded or unfolded: a node is visible when every node above it is unfolded. *)
Definition visible (a : ast) (n : place -> nat) (p : place) : Prop :=
  is_Some (at_place a p) /\ forall q, strictly_above q p -> Nat.Even (n q).

(** Document order: a node comes before the nodes below it, and before what is to the right. *)
Inductive earlier : place -> place -> Prop :=
| earlier_above p q : strictly_above p q -> earlier p q
| earlier_left r i j p q : i < j -> earlier (r ++ i :: p) (r ++ j :: q).

(** The visible places from top to bottom. *)
Definition rows (a : ast) (n : place -> nat) (ps : list place) : Prop :=
  StronglySorted earlier ps /\ forall p, p ∈ ps <-> visible a n p.

(** How often the circle of q in the outline was clicked. *)
Definition outline_clicks (es : list event) (q : place) : nat :=
  length (filter (fun e => e = OutlineClick q) es).

(** What the events make of the tree pane: the node that is drawn, the layout and its sizes, and how often each of its nodes was pressed
    since it was drawn. *)
Record pane_state := PaneState { p_node : ast; p_kind : layout_kind; p_width : nat; p_height : nat; p_presses : place -> nat }.
Definition drawn_anew (a : ast) (k : layout_kind) (w h : nat) : pane_state := PaneState a k w h (fun _ => 0).
Definition other (k : layout_kind) : layout_kind := match k with UseTree => UseCluster | UseCluster => UseTree end.
Definition pane_step (whole : ast) (s : pane_state) (e : event) : pane_state :=
  match e with
  | OutlineSelect p => match at_place whole p with Some a => drawn_anew a (p_kind s) (p_width s) (p_height s) | None => s end
  | PressSwitch => drawn_anew (p_node s) (other (p_kind s)) (p_width s) (p_height s)
  | Slider n => drawn_anew (p_node s) (p_kind s) n (p_height s)
  | Slider2 n => drawn_anew (p_node s) (p_kind s) (p_width s) n
  | TreePress p => PaneState (p_node s) (p_kind s) (p_width s) (p_height s) (fun q => if decide (q = p) then S (p_presses s q) else p_presses s q)
  | _ => s
  end.
Definition pane_after (whole : ast) (es : list event) : pane_state := foldl (pane_step whole) (drawn_anew whole UseTree 128 96) es.

(** The texts. *)
Definition node_name (a : ast) : str :=
  match a with Rule (RuleCtx n _ _) => n | Terminal t => token_name t | Error t => token_name t end.
(** What the labels and titles in the tree pane are. *)
Definition pane_label (a : ast) : str :=
  match a with Rule (RuleCtx n (_ :: _) _) => n | Rule (RuleCtx _ [] _) => [] | Terminal t => text t | Error t => text t end.
Definition pane_title (a : ast) : str :=
  match a with Rule (RuleCtx n (_ :: _) i) => usize_to_string i | Rule (RuleCtx n [] _) => n | Terminal t => token_name t | Error t => token_name t end.
(** What they are meant to be: a rule's name, a token's text. *)
Definition meant_label (a : ast) : str := match a with Rule (RuleCtx n _ _) => n | Terminal t => text t | Error t => text t end.

(** The places of a shape. *)
Fixpoint in_shape (s : outline_shape) (p : place) : Prop :=
  match p with [] => True | i :: p' => match s with Shape ss => match ss !! i with Some s' => in_shape s' p' | None => False end end end.

(** The elements that are there to stay, and all elements. *)
Definition staying {A B} (m : gmap nat (elem A B)) : list (A * B) :=
  map (fun ke => (fixed (snd ke), moving (snd ke))) (filter (fun ke => leaving (snd ke) = false) (map_to_list m)).
Definition all_staying {A B} (m : gmap nat (elem A B)) : Prop := forall k e, m !! k = Some e -> leaving e = false.

(** ** Zoom and drag *)
(** Events that put the tree pane back: the reset button, and everything that draws the tree anew. *)
Definition puts_back (whole : ast) (e : event) : Prop :=
  match e with
  | PressReset | PressSwitch | Slider _ | Slider2 _ => True
  | OutlineSelect p => is_Some (at_place whole p)
  | _ => False
  end.
(** Events that neither press nor release the main button, nor put back. *)
Definition quiet (whole : ast) (e : event) : Prop :=
  ~ puts_back whole e /\ (forall x y, e <> PointerDown 0 x y) /\ e <> PointerUp 0.
(** Where the pointer was seen last. *)
Definition last_point (from : Z * Z) (es : list event) : Z * Z :=
  foldl (fun xy e => match e with PointerMove x y => (x, y) | _ => xy end) from es.
Definition shown_offset (s : view) : Z * Z := (v_transform s).1.
Definition shown_scale (s : view) : Q := (v_transform s).2.
