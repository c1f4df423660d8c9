(** PropertiesJson.v -- C62, C63: syntax trees read from JSON texts.  Statement vocabulary: SpecJson.v (document: the
    grammar of RFC 8259; huge: which numbers are out of range), SpecSerde.v (describes, tree_json, forget). *)
From Verif Require Import JsonTrees.

(** C62: from_str returns a tree exactly for the texts that are JSON documents, nested at most 127 deep, whose value
    describes the tree. *)
Theorem C62_accepts huge s r : from_str huge s = Ret (Some r) <-> exists j, document huge 127 j s /\ describes j r.
Proof. exact (c62_accepts huge s r). Qed.
Print Assumptions C62_accepts.

Example C62_example : exists j, document (fun _ => false) 127 j (lit " { ""rule_index"" : 9, ""rule_index"":7, ""rule_name"":""a\n"", ""x"":[-1.5e3,null] ,""children"":[ ]}") /\
  describes j (RuleCtx [97; 10]%N [] 7).
Proof. exact ex_document. Qed.

(** C62: and Err for all other texts. *)
Theorem C62_rejects huge s : from_str huge s = Ret None <-> forall j r, document huge 127 j s -> ~ describes j r.
Proof. exact (c62_rejects huge s). Qed.
Print Assumptions C62_rejects.

Example C62_example_rejected huge : from_str huge (lit "{""rule_index"":07,""rule_name"":""a"",""children"":[]}") = Ret None /\
  from_str huge (lit "{""rule_index"":7,""rule_name"":""a"",""children"":[],}") = Ret None.
Proof. exact (ex_rejected huge). Qed.

(** C62: it never panics and always returns. *)
Theorem C62_total huge s : from_str huge s = Ret None \/ exists r, from_str huge s = Ret (Some r).
Proof. exact (c62_total huge s). Qed.
Print Assumptions C62_total.

(** C62: a text is the document of at most one value. *)
Theorem C62_unambiguous huge d d' j j' s : document huge d j s -> document huge d' j' s -> j = j'.
Proof. exact (document_unique huge d d' j j' s). Qed.
Print Assumptions C62_unambiguous.

(** C62: the committed syntaxis2.json, as a text, reads as the value the other theorems start from. *)
Theorem C62_shipped_text huge : json_from_str huge syntaxis2_text = JOk syntaxis2_json.
Proof. exact (c62_shipped huge). Qed.
Print Assumptions C62_shipped_text.

(** C62: and loads as the grammar the other theorems start from. *)
Theorem C62_shipped_loads huge : exists r, from_str huge syntaxis2_text = Ret (Some r) /\ exists g d, load_tree r = Ret (g, d) /\ load_ast syntaxis2_json = Ret (g, d).
Proof. exact (c62_load huge). Qed.
Print Assumptions C62_shipped_loads.

(** C63 full statement: every tree's JSON description, written as a text, reads back.  False: deeply nested trees are
    rejected. *)
Theorem C63_deep_refuted : exists r, usize_tree (Rule r) /\ forall huge, exists d s, document huge d (tree_json r) s /\ from_str huge s = Ret None.
Proof. exact (c63_refuted). Qed.
Print Assumptions C63_deep_refuted.

(** C63: every text of every tree with 64 or more nested rules is rejected. *)
Theorem C63_deep_rejected huge r d s : 64 <= levels r -> document huge d (tree_json r) s -> from_str huge s = Ret None.
Proof. exact (c63_deep huge r d s). Qed.
Print Assumptions C63_deep_rejected.

(** C63, what is true: every text, nested at most 127 deep, of a tree's description reads as the tree. *)
Theorem C63_reads_partial huge r s : document huge 127 (tree_json r) s -> from_str huge s = Ret (Some (forget r)).
Proof. exact (c63_reads huge r s). Qed.
Print Assumptions C63_reads_partial.

(** C63: and every tree with at most 63 nested rules has such a text. *)
Theorem C63_written_partial huge r : levels r <= 63 -> usize_tree (Rule r) -> exists s, document huge 127 (tree_json r) s.
Proof. exact (c63_written huge r). Qed.
Print Assumptions C63_written_partial.

Example C63_example : levels (tower 62) = 63 /\ usize_tree (Rule (tower 62)) /\ levels (tower 63) = 64.
Proof. exact ex_tower. Qed.
