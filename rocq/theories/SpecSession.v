(** SpecSession.v -- what a sequence of calls on a lexer should give. *)
From Verif Require Export Session SpecLexer.

(** The tokens of the text are handed out once, in order: scan takes the next one and fails when there is none left,
    scan_all_on_channel_tokens takes all that are left, returns those of its channel that are not skipped and prints [left]. *)
Fixpoint handed_out (skip : nat -> bool) (left : option str) (ts : list token) (ks : list call) : list answer :=
  match ks with
  | [] => []
  | Scan :: ks' =>
      match ts with
      | [] => Scanned SErr :: handed_out skip left [] ks'
      | t :: ts' => Scanned (STok t) :: handed_out skip left ts' ks'
      end
  | ScanAll chan :: ks' =>
      ScannedAll (filter (fun t => channel t = chan /\ skip (token_type t) = false) ts) left :: handed_out skip left [] ks'
  end.
