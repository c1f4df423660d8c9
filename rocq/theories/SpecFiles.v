(** SpecFiles.v -- vocabulary for the files read and written (C79, C80). *)
From Verif Require Export SpecUtf8 Files.

(** A Unicode scalar value, i.e. a char of Rust; bs is the UTF-8 form of the text s. *)
Definition scalar (c : N) : Prop := (c < 0xD800 \/ 0xE000 <= c <= 0x10FFFF)%N.
Definition text_bytes (s : str) (bs : list N) : Prop := utf8_text s bs /\ Forall scalar s.

(** The contract of [write]: it takes at most as many bytes as it is given.  It may take fewer. *)
Definition write_contract (o : os) : Prop := forall n k, os_write o n = Some k -> k <= n.
(** Nothing goes wrong. *)
Definition healthy (o : os) : Prop := os_template o = true /\ os_read o = true /\ os_create o = true /\ forall n, os_write o n = Some n.

(** The two disks differ at most in one file. *)
Definition only_changed (path : str) (d d' : disk) : Prop := forall p, p <> path -> d' !! p = d !! p.
