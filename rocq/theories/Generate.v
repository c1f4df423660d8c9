(** Generate.v -- what a lexer generated from src/tool/templates/target/rust/lexer.tera consists of. *)
From Verif Require Export Visitors Lexer.

(** The constants -- lexer.tera:21-27 *)
Definition generated_constants (tokens : list lexer_rule_data) : list (str * nat) :=
  (lit "_START", 0) :: (lit "_STOP", 1) :: map (fun t => (ld_name t, ld_type t)) tokens.

(** The constructor -- lexer.tera:30-46.  [compile] is Regex::new(..).unwrap() followed by find_at(_, 0),
    see Lexer.matcher; that the regex text survives being put into a raw string literal is not modelled
    here. *)
Definition generated_lexer (compile : str -> matcher) (tokens : list lexer_rule_data) (input : str) : lexer_cfg :=
  {| input := input;
     regex_list := map (fun t => compile (ld_regex t)) tokens;
     token_names := lit "_START" :: lit "_STOP" :: map ld_name tokens |}.
