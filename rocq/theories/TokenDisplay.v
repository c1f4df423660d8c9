(** TokenDisplay.v -- model of the Display implementations of src/runtime/token.rs. *)
From Verif Require Export Ast.

(** Display for Position -- token.rs:9-13 *)
Definition position_display (p : position) : str :=
  lit "line: " ++ usize_to_string (line p) ++ lit ", position: " ++ usize_to_string (char_position p).
(** Display for Token -- token.rs:39-52 *)
Definition token_display (t : token) : str :=
  lit "[@" ++ usize_to_string (token_index t) ++ lit ", " ++ usize_to_string (char_start_index t) ++ lit ":" ++
  usize_to_string (char_stop_index t) ++ lit "='" ++ text t ++ lit "', <" ++ token_name t ++ lit ">, <" ++
  usize_to_string (token_type t) ++ lit ">, start: <" ++ position_display (start t) ++ lit ">, stop: <" ++
  position_display (stop t) ++ lit ">]".
