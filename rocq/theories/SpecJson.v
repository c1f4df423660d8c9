(** SpecJson.v -- the texts of JSON values: the grammar of RFC 8259, sections 2-7. *)
From Verif Require Export SpecSerde.

Definition blanks (w : str) : Prop := Forall (fun c => c ∈ [32; 9; 10; 13]%N) w.

(** Numbers.  Texts of numbers that are not whole or have more than 64 bits may be out of range, in which case they
    have no value; [huge] says which are. *)
Definition is_digit (c : N) : Prop := (48 <= c <= 57)%N.
Definition some_digits (s : str) : Prop := Forall is_digit s /\ s <> [].
Definition int_text (s : str) : Prop := some_digits s /\ forall r, s = 48%N :: r -> r = [].
Definition fraction_text (s : str) : Prop := s = [] \/ exists ds, s = 46%N :: ds /\ some_digits ds.
Definition exponent_text (s : str) : Prop :=
  s = [] \/ exists e sign ds, s = e :: sign ++ ds /\ (e = 101 \/ e = 69)%N /\ (sign = [] \/ sign = [43%N] \/ sign = [45%N]) /\ some_digits ds.
Fixpoint decimal (ds : str) : N := match ds with [] => 0 | d :: ds' => (d - 48) * 10 ^ N.of_nat (length ds') + decimal ds' end.
Inductive number_text (huge : str -> bool) : json -> str -> Prop :=
| number_u64 i : int_text i -> (decimal i < 2 ^ 64)%N -> number_text huge (JU64 (N.to_nat (decimal i))) i
| number_negative i : int_text i -> (decimal i < 2 ^ 64)%N -> number_text huge JOtherNumber (45%N :: i)
| number_other sign i f e : sign = [] \/ sign = [45%N] -> int_text i -> fraction_text f -> exponent_text e ->
    (f <> [] \/ e <> [] \/ 2 ^ 64 <= decimal i)%N -> huge (sign ++ i ++ f ++ e) = false ->
    number_text huge JOtherNumber (sign ++ i ++ f ++ e).

(** Strings: the characters, and the text between the quotes. *)
Definition short_escapes : list (N * N) :=
  [(34, 34); (92, 92); (47, 47); (98, 8); (102, 12); (110, 10); (114, 13); (116, 9)]%N.
Definition hex_digit (v : nat) (c : N) : Prop := lit "0123456789abcdef" !! v = Some c \/ lit "0123456789ABCDEF" !! v = Some c.
Definition hex_text (n : N) (h : str) : Prop :=
  exists a b c d x y z w, h = [x; y; z; w] /\ hex_digit a x /\ hex_digit b y /\ hex_digit c z /\ hex_digit d w /\
    n = N.of_nat (a * 16 ^ 3 + b * 16 ^ 2 + c * 16 + d).
Definition high_surrogate (n : N) : Prop := (0xD800 <= n < 0xDC00)%N.
Definition low_surrogate (n : N) : Prop := (0xDC00 <= n < 0xE000)%N.
Inductive string_text : str -> str -> Prop :=
| string_nil : string_text [] []
| string_plain c s t : (32 <= c)%N -> c <> 34%N -> c <> 92%N -> string_text s t -> string_text (c :: s) (c :: t)
| string_short c e s t : (e, c) ∈ short_escapes -> string_text s t -> string_text (c :: s) (92%N :: e :: t)
| string_hex c h s t : hex_text c h -> ~ high_surrogate c -> ~ low_surrogate c -> string_text s t ->
    string_text (c :: s) (92%N :: 117%N :: h ++ t)
| string_pair c hi lo h l s t : hex_text hi h -> hex_text lo l -> high_surrogate hi -> low_surrogate lo ->
    c = (0x10000 + (hi - 0xD800) * 0x400 + (lo - 0xDC00))%N -> string_text s t ->
    string_text (c :: s) (92%N :: 117%N :: h ++ 92%N :: 117%N :: l ++ t).

(** Values nested at most [d] deep.  An object keeps the last of the members with the same key. *)
Fixpoint keep_last (ms : list (str * json)) : list (str * json) :=
  match ms with
  | [] => []
  | (k, v) :: ms' => if bool_decide (k ∈ map fst ms') then keep_last ms' else (k, v) :: keep_last ms'
  end.
Inductive value_text (huge : str -> bool) : nat -> json -> str -> Prop :=
| text_null d : value_text huge d JNull (lit "null")
| text_true d : value_text huge d (JBool true) (lit "true")
| text_false d : value_text huge d (JBool false) (lit "false")
| text_number d j t : number_text huge j t -> value_text huge d j t
| text_string d s t : string_text s t -> value_text huge d (JString s) (34%N :: t ++ [34%N])
| text_array d js t : items_text huge d js t -> value_text huge (S d) (JArray js) (91%N :: t ++ [93%N])
| text_object d ms t : members_text huge d ms t -> value_text huge (S d) (JObject (keep_last ms)) (123%N :: t ++ [125%N])
with items_text (huge : str -> bool) : nat -> list json -> str -> Prop :=
| items_none d w : blanks w -> items_text huge d [] w
| items_one d w1 j t w2 : blanks w1 -> value_text huge d j t -> blanks w2 -> items_text huge d [j] (w1 ++ t ++ w2)
| items_more d w1 j t w2 js u : blanks w1 -> value_text huge d j t -> blanks w2 -> items_text huge d js u -> js <> [] ->
    items_text huge d (j :: js) (w1 ++ t ++ w2 ++ 44%N :: u)
with members_text (huge : str -> bool) : nat -> list (str * json) -> str -> Prop :=
| members_none d w : blanks w -> members_text huge d [] w
| members_one d w1 m t w2 : blanks w1 -> member_text huge d m t -> blanks w2 -> members_text huge d [m] (w1 ++ t ++ w2)
| members_more d w1 m t w2 ms u : blanks w1 -> member_text huge d m t -> blanks w2 -> members_text huge d ms u -> ms <> [] ->
    members_text huge d (m :: ms) (w1 ++ t ++ w2 ++ 44%N :: u)
with member_text (huge : str -> bool) : nat -> str * json -> str -> Prop :=
| member_text_intro d k j kt w1 w2 t : string_text k kt -> blanks w1 -> blanks w2 -> value_text huge d j t ->
    member_text huge d (k, j) (34%N :: kt ++ 34%N :: w1 ++ 58%N :: w2 ++ t).

(** A document: a value between blanks. *)
Definition document (huge : str -> bool) (d : nat) (j : json) (s : str) : Prop :=
  exists w1 t w2, blanks w1 /\ value_text huge d j t /\ blanks w2 /\ s = w1 ++ t ++ w2.

(** How many rule nodes are nested in a tree, and whether its numbers are 64-bit numbers (as every usize is). *)
Fixpoint levels (r : rule_ctx) : nat :=
  match r with
  | RuleCtx _ cs _ =>
      S ((fix go (cs : list ast) : nat := match cs with [] => 0 | Rule c :: cs' => levels c `max` go cs' | _ :: cs' => go cs' end) cs)
  end.
Definition is_usize (n : nat) : Prop := (N.of_nat n < 2 ^ 64)%N.
Inductive usize_tree : ast -> Prop :=
| usize_terminal t : is_usize (token_type t) -> usize_tree (Terminal t)
| usize_error t : is_usize (token_type t) -> usize_tree (Error t)
| usize_rule n cs i : is_usize i -> Forall usize_tree cs -> usize_tree (Rule (RuleCtx n cs i)).
