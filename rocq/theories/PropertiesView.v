(** PropertiesView.v -- C71-C73: what the program in the drawn page shows, for any layout, any rounding of the zoom factor, and any
    sequence of clicks, wheel turns, pointer movements and ends of transitions.  The vocabulary of the statements is in SpecView.v; that
    the page's program is run on [tree_js r] is C59. *)
From Verif Require Import ViewLabels.

(** C71: the elements of the outline that are there to stay are one for each visible node, in its row, with its name, and one link from each
    visible node but the root to the circle of its parent. *)
Theorem C71_outline layout times r es : exists ps, rows (Rule r) (outline_clicks es) ps /\
  let o := v_outline (view_run layout times (tree_js r) es) in
  NoDup (map (fun e => fst (fst (fst e))) (staying (o_nodes o))) /\
  (forall p label x y, (p, label, x, y) ∈ staying (o_nodes o) <->
     exists i a, ps !! i = Some p /\ at_place (Rule r) p = Some a /\ label = node_name a /\ x = 25 * length p /\ y = 25 * i) /\
  NoDup (map fst (staying (o_links o))) /\
  (forall p x y v, (p, (x, y, v)) ∈ staying (o_links o) <->
     exists i j q k, ps !! i = Some p /\ p = q ++ [k] /\ ps !! j = Some q /\ x = 25 * length q /\ y = 25 * j /\ v = 25 * i).
Proof. exact (c71_outline layout times r es). Qed.
Print Assumptions C71_outline.

Example C71_example : visible (Rule ex_view_tree) (outline_clicks []) [1; 0] /\ ~ visible (Rule ex_view_tree) (outline_clicks [OutlineClick [1]]) [1; 0] /\
  length (staying (o_nodes (v_outline (ex_run [])))) = 5 /\ length (staying (o_nodes (v_outline (ex_run [OutlineClick [1]])))) = 3 /\
  size (o_nodes (v_outline (ex_run [OutlineClick [1]]))) = 5 /\ size (o_nodes (v_outline (ex_run [OutlineClick [1]; OutlineSettle [3; 4]]))) = 3.
Proof. exact ex_outline. Qed.

(** C71: when the transitions have ended, there are no other elements. *)
Theorem C71_settles layout times r es : exists ks, let o := v_outline (view_run layout times (tree_js r) (es ++ [OutlineSettle ks])) in
  all_staying (o_nodes o) /\ all_staying (o_links o).
Proof. exact (c71_settles layout times r es). Qed.
Print Assumptions C71_settles.

(** C71: two clicks at a node leave the outline as it was, wherever the transitions have got to. *)
Theorem C71_twice layout times r es p gs : (forall q, OutlineClick q ∉ gs) ->
  forall e, e ∈ staying (o_nodes (v_outline (view_run layout times (tree_js r) (es ++ OutlineClick p :: gs ++ [OutlineClick p])))) <->
            e ∈ staying (o_nodes (v_outline (view_run layout times (tree_js r) es))).
Proof. exact (c71_twice layout times r es p gs). Qed.
Print Assumptions C71_twice.

(** C72: the tree pane shows the node selected last, laid out as chosen, with what was pressed since it was drawn folded: one element for
    each visible node at its point with its label and title, one link from each to its parent, and a view box with margins 40, 40, 120 and 10
    around the nodes. *)
Theorem C72_pane layout times r es : let s := pane_after (Rule r) es in
  exists ps shape, rows (p_node s) (p_presses s) ps /\ (forall p, in_shape shape p <-> p ∈ ps) /\
  let at_ := layout (p_kind s) (p_width s, p_height s) shape in
  let t := v_tree (view_run layout times (tree_js r) es) in
  NoDup (map (fun e => fst (fst (fst e))) (staying (t_nodes t))) /\
  (forall p title label xy, (p, title, label, xy) ∈ staying (t_nodes t) <->
     exists a, p ∈ ps /\ at_place (p_node s) p = Some a /\ title = pane_title a /\ label = pane_label a /\ xy = at_ p) /\
  NoDup (map fst (staying (t_links t))) /\
  (forall p from to, (p, (from, to)) ∈ staying (t_links t) <-> exists q k, p = q ++ [k] /\ p ∈ ps /\ from = at_ q /\ to = at_ p) /\
  exists l r u b, l ∈ ps /\ r ∈ ps /\ u ∈ ps /\ b ∈ ps /\
    t_view t = ((at_ l).1 - 40, (at_ u).2 - 40, (at_ r).1 - (at_ l).1 + 160, (at_ b).2 - (at_ u).2 + 50)%Z /\
    forall p, p ∈ ps -> ((at_ l).1 <= (at_ p).1 <= (at_ r).1 /\ (at_ u).2 <= (at_ p).2 <= (at_ b).2)%Z.
Proof. exact (c72_pane layout times r es). Qed.
Print Assumptions C72_pane.

Example C72_example : let es := [OutlineSelect [1]; PressSwitch; TreePress []] in
  p_node (pane_after (Rule ex_view_tree) es) = Rule (RuleCtx (lit "more") [ex_view_token (lit "PLUS") (lit "+"); ex_view_token (lit "NUM") (lit "2")] 1) /\
  staying (t_nodes (v_tree (ex_run es))) = [([], lit "1", lit "more", (0, 0)%Z)] /\
  staying (t_nodes (v_tree (ex_run [OutlineSelect [1]; PressSwitch]))) ≡ₚ
    [([], lit "1", lit "more", (0, 0)%Z); ([0], lit "PLUS", lit "+", (0, 96)%Z); ([1], lit "NUM", lit "2", (128, 96)%Z)].
Proof. exact ex_pane. Qed.

(** C72: when the transitions have ended, there are no other elements. *)
Theorem C72_settles layout times r es : exists ks, let t := v_tree (view_run layout times (tree_js r) (es ++ [TreeSettle ks])) in
  all_staying (t_nodes t) /\ all_staying (t_links t).
Proof. exact (c72_settles layout times r es). Qed.
Print Assumptions C72_settles.

(** C72: the button offers the layout that is not in use. *)
Theorem C72_switch layout times r es : exists before, v_button (view_run layout times (tree_js r) es) =
  before ++ match p_kind (pane_after (Rule r) es) with UseTree => lit "(use cluster)" | UseCluster => lit "(use tree)" end.
Proof. exact (c72_switch layout times r es). Qed.
Print Assumptions C72_switch.

(** C72: in the words that are in the source of the page. *)
Theorem C72_button layout times r es name : exists pre post, page name r = pre ++ v_button (view_run layout times (tree_js r) es) ++ post.
Proof. exact (c72_in_page layout times r es name). Qed.
Print Assumptions C72_button.

(** C72 for the labels, "a rule is labelled with its name and a token with its text", is false: a rule without children is drawn without a
    label, for instance all of the page that main writes for the empty text. *)
Theorem C72_labels_refuted : exists nd g d order fuel r,
  digits_ok nd /\ load_ast syntaxis2_json = Ret (g, d) /\ iteration_order g order /\
  main_run nd order fuel syntaxis2_json [] = Ret (r, [], None, []) /\
  forall layout times, exists p title label xy a,
    (p, title, label, xy) ∈ staying (t_nodes (v_tree (view_run layout times (tree_js r) []))) /\ at_place (Rule r) p = Some a /\ label <> meant_label a.
Proof. exact (c72_labels_refuted). Qed.
Print Assumptions C72_labels_refuted.

(** C72 for the labels, what is true: for every token and every rule that has children. *)
Theorem C72_labels_partial layout times r es p title label xy a :
  (p, title, label, xy) ∈ staying (t_nodes (v_tree (view_run layout times (tree_js r) es))) ->
  at_place (p_node (pane_after (Rule r) es)) p = Some a -> (forall n i, a <> Rule (RuleCtx n [] i)) -> label = meant_label a.
Proof. exact (c72_labels layout times r es p title label xy a). Qed.
Print Assumptions C72_labels_partial.

Example C72_labels_example : exists title xy, ([1; 0], title, lit "+", xy) ∈ staying (t_nodes (v_tree (ex_run []))).
Proof. exact ex_label. Qed.

(** C73: the scale starts at 1 and stays between 1/20 and 4; the wheel multiplies it, up to these limits; only the wheel and what puts back
    change it. *)
Theorem C73_zoom layout times r es : let s := view_run layout times (tree_js r) es in
  shown_scale (view_run layout times (tree_js r) []) = 1%Q /\ (1 # 20 <= shown_scale s)%Q /\ (shown_scale s <= 4)%Q /\
  (forall down, let q := times down (shown_scale s) in let q' := shown_scale (view_run layout times (tree_js r) (es ++ [Wheel down])) in
     ((1 # 20 <= q)%Q -> (q <= 4)%Q -> q' = q) /\ ((4 < q)%Q -> q' = 4%Q) /\ ((q < 1 # 20)%Q -> q' = 1 # 20)) /\
  (forall e, (forall down, e <> Wheel down) -> ~ puts_back (Rule r) e -> shown_scale (view_run layout times (tree_js r) (es ++ [e])) = shown_scale s).
Proof. exact (c73_shows layout times r es). Qed.
Print Assumptions C73_zoom.

(** C73: while the main button is pressed the tree follows the pointer, whatever else happens on the way, *)
Theorem C73_drag layout times r es x y gs : Forall (quiet (Rule r)) gs ->
  let before := shown_offset (view_run layout times (tree_js r) es) in
  shown_offset (view_run layout times (tree_js r) (es ++ PointerDown 0 x y :: gs)) =
    (before.1 + ((last_point (x, y) gs).1 - x), before.2 + ((last_point (x, y) gs).2 - y))%Z.
Proof. exact (c73_drag layout times r es x y gs). Qed.
Print Assumptions C73_drag.

Example C73_example : let gs := [PointerMove 5 7; Wheel false; PointerMove 12 3; PointerUp 2] in
  Forall (quiet (Rule ex_view_tree)) gs /\
  v_transform (ex_run (PointerDown 0 2 2 :: gs ++ [PointerUp 0; PointerMove 100 100])) = (10%Z, 1%Z, 11 # 10).
Proof. exact ex_drag. Qed.

(** C73: after it is released the tree stays where it is, *)
Theorem C73_released layout times r es gs : Forall (quiet (Rule r)) gs ->
  shown_offset (view_run layout times (tree_js r) (es ++ PointerUp 0 :: gs)) = shown_offset (view_run layout times (tree_js r) es).
Proof. exact (c73_released layout times r es gs). Qed.
Print Assumptions C73_released.

(** C73: reset, and everything that draws the tree anew, put the tree back at scale 1 and at its origin, where it stays until it is dragged again, *)
Theorem C73_reset layout times r es e gs : puts_back (Rule r) e -> Forall (quiet (Rule r)) gs ->
  shown_scale (view_run layout times (tree_js r) (es ++ [e])) = 1%Q /\ shown_offset (view_run layout times (tree_js r) (es ++ e :: gs)) = (0, 0)%Z.
Proof. exact (c73_reset layout times r es e gs). Qed.
Print Assumptions C73_reset.

(** C73: as it does at the start. *)
Theorem C73_start layout times r gs : Forall (quiet (Rule r)) gs -> shown_offset (view_run layout times (tree_js r) gs) = (0, 0)%Z.
Proof. exact (c73_start layout times r gs). Qed.
Print Assumptions C73_start.
