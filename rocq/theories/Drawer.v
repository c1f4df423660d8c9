(** Drawer.v -- model of src/tool/gui/ast_drawer.rs (the script text; the page around it is Tera's). *)
From Verif Require Export Base Ast.

(** escape -- ast_drawer.rs:27-29 *)
Definition escape (s : str) : str := replace (lit "`") (lit "\`") (replace (lit "\") (lit "\\") s).

(** dump of a leaf -- ast_drawer.rs:36-37, 39-40 *)
Definition dump_leaf (t : token) : str :=
  lit "{ name:`" ++ escape (token_name t) ++ lit "`, text: `" ++ escape (text t) ++ lit "`}".

(** dump -- ast_drawer.rs:31-47 *)
Fixpoint dump (ast : rule_ctx) : str :=
  match ast with
  | RuleCtx name cs i =>
      let children :=
        lit "[" ++
        (fix go (cs : list Ast.ast) : str :=
           match cs with
           | [] => []
           | child :: cs' =>
               (match child with
                | Terminal t => dump_leaf t
                | Rule c => dump c
                | Error t => dump_leaf t
                end) ++ lit "," ++ go cs'
           end) cs ++ lit "]" in
      lit "{ name:`" ++ escape name ++ lit "`,id: `" ++ usize_to_string i ++ lit "`, children:" ++ children ++ lit ",}"
  end.

(** the script -- ast_drawer.rs:51 *)
Definition script (ast : rule_ctx) : str := lit "const ast = " ++ dump ast ++ lit ";".
