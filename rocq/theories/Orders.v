(** Orders.v -- ll1_table with arbitrary iteration orders of the FIRST and FOLLOW sets: src/tool/grammar/mod.rs:194-218.  Grammar.v goes through
    these sets in the order of [elements]; a HashSet promises only that every element comes once. *)
From Verif Require Export Grammar.

(** Body of the loop -- grammar/mod.rs:197-216 *)
Inductive any_step (first : gmap production coll) (follow : gmap nat (gset nat)) (st : table_st) (p : production) : table_st -> Prop :=
| any_step_first f l : first !! p = Some f -> allow_epsilon f = false -> l ≡ₚ elements (cset f) ->
    any_step first follow st p (fold_left (table_insert p) l st)
| any_step_follow f l fo l' : first !! p = Some f -> allow_epsilon f = true -> l ≡ₚ elements (cset f) ->
    follow !! left p = Some fo -> l' ≡ₚ elements fo ->
    any_step first follow st p (fold_left (table_insert p) l' (fold_left (table_insert p) l st)).
(** The loop; [any_table .. order st] holds of every table and list of conflicts that some iteration orders of the sets lead to. *)
Inductive any_table (first : gmap production coll) (follow : gmap nat (gset nat)) : list production -> table_st -> table_st -> Prop :=
| any_table_nil st : any_table first follow [] st st
| any_table_cons p order st st1 st2 : any_step first follow st p st1 -> any_table first follow order st1 st2 ->
    any_table first follow (p :: order) st st2.
