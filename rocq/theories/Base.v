(** Base.v -- shared vocabulary of the model: outcomes, strings, byte slicing.

    This file models no function of /repo; it models the parts of the Rust language and
    standard library that the code of /repo relies on. *)
From Coq Require Export String Ascii.
From stdpp Require Export prelude gmap.

Global Open Scope list_scope.
Global Close Scope string_scope.
Global Open Scope nat_scope.

(** Outcome of a Rust computation.  [Panic]: a Rust panic ([unwrap] on [None], index out of
    range, slice off a char boundary, [todo!()]).  [OutOfFuel]: the model's fuel was exhausted --
    never a normal outcome; divergence is "OutOfFuel for every fuel". *)
Inductive res (A : Type) : Type :=
| Ret (a : A)
| Panic
| OutOfFuel.
Arguments Ret {A} a.
Arguments Panic {A}.
Arguments OutOfFuel {A}.

Definition rbind {A B} (m : res A) (f : A -> res B) : res B :=
  match m with Ret a => f a | Panic => Panic | OutOfFuel => OutOfFuel end.
Notation "'let!' x ':=' m 'in' k" := (rbind m (fun x => k))
  (at level 200, x pattern, m at level 100, k at level 200, right associativity).

(** [Option::unwrap] *)
Definition unwrap {A} (o : option A) : res A :=
  match o with Some a => Ret a | None => Panic end.

(** A [for] loop over a slice whose body may panic. *)
Fixpoint rfold {A S} (f : S -> A -> res S) (l : list A) (s : S) : res S :=
  match l with
  | [] => Ret s
  | x :: l' => let! s' := f s x in rfold f l' s'
  end.

(** Rust [char] = Unicode scalar value, [str] = sequence of chars. *)
Definition str := list N.

(** [char::len_utf8] *)
Definition utf8_len (c : N) : nat :=
  if (c <? 128)%N then 1
  else if (c <? 2048)%N then 2
  else if (c <? 65536)%N then 3
  else 4.

(** [str::len]: length in bytes. *)
Fixpoint blen (s : str) : nat :=
  match s with [] => 0 | c :: s' => utf8_len c + blen s' end.

(** [&s[n..]] by byte offset; [None] = panic (out of range or not on a char boundary). *)
Fixpoint drop_bytes (n : nat) (s : str) {struct s} : option str :=
  match n with
  | 0 => Some s
  | _ => match s with
         | [] => None
         | c :: s' => if n <? utf8_len c then None else drop_bytes (n - utf8_len c) s'
         end
  end.

(** [&s[..n]] by byte offset; [None] = panic. *)
Fixpoint take_bytes (n : nat) (s : str) {struct s} : option str :=
  match n with
  | 0 => Some []
  | _ => match s with
         | [] => None
         | c :: s' => if n <? utf8_len c then None
                      else cons c <$> take_bytes (n - utf8_len c) s'
         end
  end.

(** [&s[a..b]] by byte offsets; [None] = panic (also when a > b). *)
Definition slice_bytes (a b : nat) (s : str) : option str :=
  if b <? a then None
  else match drop_bytes a s with
       | None => None
       | Some s' => take_bytes (b - a) s'
       end.

(** ASCII literals of the source as model strings. *)
Definition lit (x : String.string) : str := map N_of_ascii (list_ascii_of_string x).

Arguments lit x%string_scope.

(** Decimal rendering of a [usize] ([usize::to_string], [{}] formatting). *)
Fixpoint uint_str (u : Decimal.uint) : str :=
  match u with
  | Decimal.Nil => []
  | Decimal.D0 u => 48%N :: uint_str u
  | Decimal.D1 u => 49%N :: uint_str u
  | Decimal.D2 u => 50%N :: uint_str u
  | Decimal.D3 u => 51%N :: uint_str u
  | Decimal.D4 u => 52%N :: uint_str u
  | Decimal.D5 u => 53%N :: uint_str u
  | Decimal.D6 u => 54%N :: uint_str u
  | Decimal.D7 u => 55%N :: uint_str u
  | Decimal.D8 u => 56%N :: uint_str u
  | Decimal.D9 u => 57%N :: uint_str u
  end.
Definition usize_to_string (n : nat) : str := uint_str (Nat.to_uint n).

(** [str::split("\n")]: always at least one piece. *)
Fixpoint split_lines (s : str) : list str :=
  match s with
  | [] => [[]]
  | c :: s' =>
      if (c =? 10)%N then [] :: split_lines s'
      else match split_lines s' with
           | [] => [[c]]
           | l :: ls => (c :: l) :: ls
           end
  end.

(** [str::starts_with] / strip a prefix. *)
Fixpoint strip_prefix (p s : str) : option str :=
  match p, s with
  | [], _ => Some s
  | _ :: _, [] => None
  | a :: p', c :: s' => if (a =? c)%N then strip_prefix p' s' else None
  end.

(** [str::replace(pat, rep)] for a non-empty pattern: leftmost, non-overlapping.
    [skip] counts characters of an occurrence that are still to be swallowed. *)
Fixpoint replace_go (pat rep s : str) (skip : nat) : str :=
  match s with
  | [] => []
  | c :: s' =>
      match skip with
      | S k => replace_go pat rep s' k
      | 0 => match strip_prefix pat s with
             | Some _ => rep ++ replace_go pat rep s' (length pat - 1)
             | None => c :: replace_go pat rep s' 0
             end
      end
  end.
Definition replace (pat rep s : str) : str := replace_go pat rep s 0.
