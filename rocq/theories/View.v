(** View.v -- the program in the page the drawer writes: src/tool/templates/gui/ast.html, the module script, lines 100-511.
    It runs in a browser on the object [ast] the page defines (C59 says which one that is).

    What the browser and d3 do is taken from their documentation and stated at the definitions: d3.hierarchy, descendants, links,
    eachBefore, the keyed data join, and that a transition ends some time later.  The two layouts d3.tree and d3.cluster are an
    arbitrary function of the shape of the tree ([layout]), the floating point product of the zoom factor an arbitrary
    function ([times]).  Coordinates are integers.  Not modelled: colours, fonts, opacity, the positions elements start from and
    leave to during a transition, the sizes of the svg elements other than the viewBox of the tree pane, setSize, d3.event. *)
From Verif Require Export SpecDrawer.
From Coq Require Export QArith.QArith ZArith.ZArith.
Open Scope nat_scope.

(** ** d3 *)

(** Property access on an object: the last definition of a name counts; undefined otherwise. *)
Fixpoint field (k : str) (fs : list (str * js)) : option js :=
  match fs with
  | [] => None
  | (k', v) :: fs' => match field k fs' with Some w => Some w | None => if decide (k' = k) then Some v else None end
  end.
Definition get (k : str) (v : js) : option js := match v with JSObject fs => field k fs | _ => None end.

(** selection.text(value): the empty text for undefined.  The values here are strings or undefined. *)
Definition shown_text (v : option js) : str := match v with Some (JSString s) => s | _ => [] end.

(** A node made by d3.hierarchy: its data and the nodes of data.children, an array.  An empty array, or none, leaves the node without
    children; the field [_children] of ast.html:165,298 keeps them, so they never change and are written here as [kids].
    The field [children], which the program sets to null and back, is kept apart, in [closed] below. *)
Inductive hnode := HNode (data : js) (kids : list hnode).
Definition data_of (h : hnode) : js := match h with HNode d _ => d end.
Definition kids_of (h : hnode) : list hnode := match h with HNode _ ks => ks end.
Fixpoint hierarchy (v : js) : hnode :=
  HNode v match v with
          | JSObject fs =>
              (fix go (fs : list (str * js)) (found : list hnode) : list hnode :=
                 match fs with
                 | [] => found
                 | (k, w) :: fs' =>
                     go fs' (if decide (k = lit "children") then match w with JSArray l => map hierarchy l | _ => [] end else found)
                 end) fs []
          | _ => []
          end.

(** A node object is identified by the positions that lead to it from the root. *)
Notation place := (list nat).
Fixpoint hnode_at (h : hnode) (p : place) : option hnode :=
  match p with [] => Some h | i :: p' => k ← kids_of h !! i; hnode_at k p' end.
Definition has_kids (h : hnode) : bool := match kids_of h with [] => false | _ => true end.

(** root.eachBefore and root.descendants, over the current [children]: null at the places in [closed]. *)
Fixpoint each_before (closed : gset place) (p : place) (h : hnode) : list (place * hnode) :=
  match h with
  | HNode d ks =>
      (p, h) ::
      (if decide (p ∈ closed) then []
       else (fix go (i : nat) (ks : list hnode) : list (place * hnode) :=
               match ks with [] => [] | k :: ks' => each_before closed (p ++ [i]) k ++ go (S i) ks' end) 0 ks)
  end.
Definition live_kids (closed : gset place) (n : place * hnode) : list (place * hnode) :=
  if decide (fst n ∈ closed) then [] else imap (fun i k => (fst n ++ [i], k)) (kids_of (snd n)).
(** descendants is breadth first: level by level, until a level is empty. *)
Fixpoint height (h : hnode) : nat := match h with HNode _ ks => S (foldr (fun k m => height k `max` m) 0 ks) end.
Fixpoint levels (closed : gset place) (fuel : nat) (level : list (place * hnode)) : list (place * hnode) :=
  match fuel with
  | 0 => []
  | S fuel' => match level with [] => [] | _ => level ++ levels closed fuel' (level ≫= live_kids closed) end
  end.
Definition descendants (closed : gset place) (h : hnode) : list (place * hnode) := levels closed (height h) [([], h)].
(** root.links: for every node but the root its parent and itself. *)
Definition links (closed : gset place) (h : hnode) : list (place * place) :=
  map (fun n => (removelast (fst n), fst n)) (filter (fun n => fst n <> []) (descendants closed h)).

(** The shape of the tree the layouts see. *)
Inductive outline_shape := Shape (below : list outline_shape).
Fixpoint live_shape (closed : gset place) (p : place) (h : hnode) : outline_shape :=
  match h with
  | HNode _ ks =>
      Shape (if decide (p ∈ closed) then []
             else (fix go (i : nat) (ks : list hnode) : list outline_shape :=
                     match ks with [] => [] | k :: ks' => live_shape closed (p ++ [i]) k :: go (S i) ks' end) 0 ks)
  end.

(** selection.data(data, key) with enter, merge and exit: an element whose key is among the data stays (its attributes [fixed], set when
    it was appended, are kept; those in [moving] get their new values when the transition ends), a new key gives a new element, and all other
    elements are leaving: they are removed when the transition of this update ends.  An element that is leaving is still found by selectAll,
    and its removal is cancelled when it becomes part of a later update (d3 interrupts the earlier transition of the same element). *)
Record elem (A B : Type) := Elem { fixed : A; moving : B; leaving : bool }.
Arguments Elem {A B}. Arguments fixed {A B}. Arguments moving {A B}. Arguments leaving {A B}.
Definition join {A B} (old : gmap nat (elem A B)) (data : list (nat * (A * B))) : gmap nat (elem A B) :=
  foldl (fun m kd => <[ kd.1 := Elem (match old !! kd.1 with Some e => fixed e | None => kd.2.1 end) kd.2.2 false ]> m)
        ((fun e => Elem (fixed e) (moving e) true) <$> old) data.
(** Some of the transitions that remove elements come to an end. *)
Definition settle {A B} (ks : list nat) (m : gmap nat (elem A B)) : gmap nat (elem A B) :=
  filter (fun ke => ~ (ke.1 ∈ ks /\ leaving ke.2 = true)) m.

(** The node objects in the order of root.descendants() at the start; d.id is the position (ast.html:163-165, 296-298). *)
Definition id_in (ids : list place) (p : place) : nat := match list_find (fun q => q = p) ids with Some (i, _) => i | None => 0 end.
Definition toggle (p : place) (closed : gset place) : gset place := if decide (p ∈ closed) then closed ∖ {[ p ]} else closed ∪ {[ p ]}.

(** ** The outline on the left: indentTree (ast.html:157-274) *)

(** An element of gNode: the bound place, the label, the x of its circle; the y.  An element of gLink: the target's place; the
    numbers in its path "M x,y V v h25". *)
Record outline := Outline { o_root : hnode; o_ids : list place; o_closed : gset place;
                            o_nodes : gmap nat (elem (place * str * nat) nat);
                            o_links : gmap nat (elem place (nat * nat * nat)) }.
Definition node_size : nat := 25.

(** d.y after ast.html:192-194. *)
Definition row_y (rows : list (place * hnode)) (p : place) : nat := id_in (map fst rows) p * node_size.

(** update (ast.html:189-271). *)
Definition outline_update (o : outline) : outline :=
  let rows := each_before (o_closed o) [] (o_root o) in
  let nodes := descendants (o_closed o) (o_root o) in
  let ls := links (o_closed o) (o_root o) in
  Outline (o_root o) (o_ids o) (o_closed o)
    (join (o_nodes o) (map (fun n => (id_in (o_ids o) (fst n),
        ((fst n, shown_text (get (lit "name") (data_of (snd n))), length (fst n) * node_size), row_y rows (fst n)))) nodes))
    (join (o_links o) (map (fun l => (id_in (o_ids o) (snd l),
        (snd l, (length (fst l) * node_size, row_y rows (fst l), row_y rows (snd l))))) ls)).

(** ast.html:157-187, 272-274. *)
Definition indent_tree (v : js) : outline :=
  let root := hierarchy v in
  outline_update (Outline root (map fst (descendants ∅ root)) ∅ ∅ ∅).
(** A click on the circle of a node (ast.html:219-222). *)
Definition outline_click (p : place) (o : outline) : outline :=
  outline_update (Outline (o_root o) (o_ids o) (toggle p (o_closed o)) (o_nodes o) (o_links o)).
Definition outline_settle (ks : list nat) (o : outline) : outline :=
  Outline (o_root o) (o_ids o) (o_closed o) (settle ks (o_nodes o)) (settle ks (o_links o)).

(** ** The tree pane: collapsibleTree (ast.html:276-418) *)

Inductive layout_kind := UseTree | UseCluster.

Section page.
(** The layout with its node size, applied to a tree of a shape, puts the nodes at points. *)
Context (layout : layout_kind -> nat * nat -> outline_shape -> place -> Z * Z).
(** config.scale *= 1.1, or 1 / 1.1 when the wheel is turned down. *)
Context (times : bool -> Q -> Q).

(** An element of gNode: the bound place, the title, the label; the position.  An element of gLink: the target's place; the two ends. *)
Record tree_pane := TreePane { t_root : hnode; t_ids : list place; t_closed : gset place; t_kind : layout_kind; t_size : nat * nat;
                               t_nodes : gmap nat (elem (place * str * str) (Z * Z));
                               t_links : gmap nat (elem place ((Z * Z) * (Z * Z)));
                               t_view : Z * Z * Z * Z }.

(** ast.html:327-336: the four extreme nodes, by strict comparison, starting from the root. *)
Definition extremes (at_ : place -> Z * Z) (ps : list place) : place * place * place * place :=
  foldl (fun lrtb p => let '(l, r, t, b) := lrtb in
           (if ((at_ p).1 <? (at_ l).1)%Z then p else l,
            if ((at_ r).1 <? (at_ p).1)%Z then p else r,
            if ((at_ p).2 <? (at_ t).2)%Z then p else t,
            if ((at_ b).2 <? (at_ p).2)%Z then p else b)) ([], [], [], []) ps.
(** margin of ast.html:288: top 40, right 120, bottom 10, left 40; ast.html:339-346. *)
Definition view_box (at_ : place -> Z * Z) (ps : list place) : Z * Z * Z * Z :=
  let '(l, r, t, b) := extremes at_ ps in
  (-40 + (at_ l).1, (at_ t).2 - 40, (at_ r).1 - (at_ l).1 + 40 + 120, (at_ b).2 - (at_ t).2 + 40 + 10)%Z.

(** The title (ast.html:360-361) and the text (ast.html:370) of a node; d._children is undefined for a node without children. *)
Definition tree_title (h : hnode) : str :=
  shown_text (if has_kids h then get (lit "id") (data_of h) else get (lit "name") (data_of h)).
Definition tree_label (h : hnode) : str :=
  shown_text (if has_kids h then get (lit "name") (data_of h) else get (lit "text") (data_of h)).

(** update (ast.html:318-412). *)
Definition tree_update (t : tree_pane) : tree_pane :=
  let nodes := reverse (descendants (t_closed t) (t_root t)) in
  let ls := links (t_closed t) (t_root t) in
  let at_ := layout (t_kind t) (t_size t) (live_shape (t_closed t) [] (t_root t)) in
  TreePane (t_root t) (t_ids t) (t_closed t) (t_kind t) (t_size t)
    (join (t_nodes t) (map (fun n => (id_in (t_ids t) (fst n), ((fst n, tree_title (snd n), tree_label (snd n)), at_ (fst n)))) nodes))
    (join (t_links t) (map (fun l => (id_in (t_ids t) (snd l), (snd l, (at_ (fst l), at_ (snd l))))) ls))
    (view_box at_ (map fst (each_before (t_closed t) [] (t_root t)))).

Definition collapsible_tree (v : js) (kind : layout_kind) (size : nat * nat) : tree_pane :=
  let root := hierarchy v in
  tree_update (TreePane root (map fst (descendants ∅ root)) ∅ kind size ∅ ∅ (0, 0, 0, 0)%Z).
(** A pointer pressed on the text of a node (ast.html:371-374). *)
Definition tree_press (p : place) (t : tree_pane) : tree_pane :=
  tree_update (TreePane (t_root t) (t_ids t) (toggle p (t_closed t)) (t_kind t) (t_size t) (t_nodes t) (t_links t) (t_view t)).
Definition tree_settle (ks : list nat) (t : tree_pane) : tree_pane :=
  TreePane (t_root t) (t_ids t) (t_closed t) (t_kind t) (t_size t) (settle ks (t_nodes t)) (settle ks (t_links t)) (t_view t).

(** ** The page: config (ast.html:106-116), the button, the two panes, and the transform style of the container *)
Record view := View { v_kind : layout_kind; v_current : js; v_scale : Q; v_down : bool; v_last : Z * Z; v_x : Z; v_y : Z;
                      v_width : nat; v_height : nat; v_button : str; v_transform : Z * Z * Q;
                      v_outline : outline; v_tree : tree_pane }.

(** "转换为cluster (use cluster)" (ast.html:86), "转换为 tree (use tree)" and "转换为 cluster (use cluster)" (ast.html:130,135). *)
Definition label_change : str := [36716; 25442; 20026]%N.
Definition label_first : str := label_change ++ lit "cluster (use cluster)".
Definition label_tree : str := label_change ++ lit " tree (use tree)".
Definition label_cluster : str := label_change ++ lit " cluster (use cluster)".
(** String.prototype.endsWith. *)
Definition ends_with (s w : str) : bool := bool_decide (drop (length s - length w) s = w).

(** ast.html:106-125; no transform style at first, which is the identity. *)
Definition view_init (v : js) : view :=
  View UseTree v 1 false (0, 0)%Z 0 0 128 96 label_first (0%Z, 0%Z, 1%Q) (indent_tree v) (collapsible_tree v UseTree (128, 96)).

(** reset (ast.html:489-497), render (ast.html:499-505). *)
Definition reset (s : view) : view :=
  View (v_kind s) (v_current s) 1 false (0, 0)%Z 0 0 (v_width s) (v_height s) (v_button s) (0%Z, 0%Z, 1%Q) (v_outline s) (v_tree s).
Definition render (s : view) : view :=
  reset (View (v_kind s) (v_current s) (v_scale s) (v_down s) (v_last s) (v_x s) (v_y s) (v_width s) (v_height s) (v_button s) (v_transform s)
           (v_outline s) (collapsible_tree (v_current s) (v_kind s) (v_width s, v_height s))).

(** What happens to the page.  Pressing the pointer on the text of a node in the tree pane is a TreePress and then a PointerDown: the
    event bubbles up to the element with the listeners of bindEvents. *)
Inductive event :=
| OutlineClick (p : place)               (* on the circle at that node *)
| OutlineSelect (p : place)              (* on its name *)
| OutlineSettle (ks : list nat)          (* transitions that remove these elements end *)
| TreePress (p : place)
| TreeSettle (ks : list nat)
| Wheel (down : bool)                    (* deltaY > 0 *)
| PointerDown (button : nat) (x y : Z)
| PointerUp (button : nat)
| PointerMove (x y : Z)
| PressReset
| PressSwitch
| Slider (n : nat)                       (* dx *)
| Slider2 (n : nat).                     (* dy *)

#[global] Instance event_eq : EqDecision event. Proof. solve_decision. Defined.

(** ast.html:103: minScale, maxScale; 427-443. *)
Definition clamp (q : Q) : Q := if Qle_bool q 4 then if Qle_bool (1 # 20) q then q else 1 # 20 else 4.

Definition with_outline (o : outline) (s : view) : view :=
  View (v_kind s) (v_current s) (v_scale s) (v_down s) (v_last s) (v_x s) (v_y s) (v_width s) (v_height s) (v_button s) (v_transform s) o (v_tree s).
Definition with_tree (t : tree_pane) (s : view) : view :=
  View (v_kind s) (v_current s) (v_scale s) (v_down s) (v_last s) (v_x s) (v_y s) (v_width s) (v_height s) (v_button s) (v_transform s) (v_outline s) t.
Definition with_config (kind : layout_kind) (current : js) (width height : nat) (button : str) (s : view) : view :=
  View kind current (v_scale s) (v_down s) (v_last s) (v_x s) (v_y s) width height button (v_transform s) (v_outline s) (v_tree s).
Definition with_pointer (scale : Q) (down : bool) (last : Z * Z) (x y : Z) (transform : Z * Z * Q) (s : view) : view :=
  View (v_kind s) (v_current s) scale down last x y (v_width s) (v_height s) (v_button s) transform (v_outline s) (v_tree s).

Definition step (s : view) (e : event) : view :=
  match e with
  | OutlineClick p => with_outline (outline_click p (v_outline s)) s
  | OutlineSelect p =>                                                            (* ast.html:229-232 *)
      match hnode_at (o_root (v_outline s)) p with
      | Some h => render (with_config (v_kind s) (data_of h) (v_width s) (v_height s) (v_button s) s)
      | None => s
      end
  | OutlineSettle ks => with_outline (outline_settle ks (v_outline s)) s
  | TreePress p => with_tree (tree_press p (v_tree s)) s
  | TreeSettle ks => with_tree (tree_settle ks (v_tree s)) s
  | Wheel down =>                                                                 (* ast.html:427-443 *)
      let scale := clamp (times down (v_scale s)) in
      with_pointer scale (v_down s) (v_last s) (v_x s) (v_y s) (v_x s, v_y s, scale) s
  | PointerDown b x y =>                                                          (* ast.html:446-453 *)
      if b =? 0 then with_pointer (v_scale s) true (x, y) (v_x s) (v_y s) (v_transform s) s else s
  | PointerUp b =>                                                                (* ast.html:455-461 *)
      if b =? 0 then with_pointer (v_scale s) false (v_last s) (v_x s) (v_y s) (v_transform s) s else s
  | PointerMove x y =>                                                            (* ast.html:463-477 *)
      if v_down s then
        let dx := (x - (v_last s).1)%Z in
        let dy := (y - (v_last s).2)%Z in
        with_pointer (v_scale s) true (x, y) (v_x s + dx)%Z (v_y s + dy)%Z ((v_x s + dx)%Z, (v_y s + dy)%Z, v_scale s) s
      else s
  | PressReset => reset s                                                         (* ast.html:125 *)
  | PressSwitch =>                                                                (* ast.html:126-138 *)
      if ends_with (v_button s) (lit "(use cluster)")
      then render (with_config UseCluster (v_current s) (v_width s) (v_height s) label_tree s)
      else render (with_config UseTree (v_current s) (v_width s) (v_height s) label_cluster s)
  | Slider n => render (with_config (v_kind s) (v_current s) n (v_height s) (v_button s) s)       (* ast.html:140-143 *)
  | Slider2 n => render (with_config (v_kind s) (v_current s) (v_width s) n (v_button s) s)       (* ast.html:144-147 *)
  end.
Definition view_run (v : js) (es : list event) : view := foldl step (view_init v) es.
End page.
