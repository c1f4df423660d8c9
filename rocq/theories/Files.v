(** Files.v -- model of the reading and writing of files: serde_ast::from_reader on bytes, ASTDrawer::draw, main and the tests
    load_ast_and_draw, parser_test and gen_lexer with the files they read and write.
    Strings are UTF-8 in memory; File, Read and Write are those of std. *)
From Verif Require Export JsonText Page LexerTera Main.

(** str::as_bytes: UTF-8. *)
Definition encode_char (c : N) : list N :=
  if (c <? 128)%N then [c]
  else if (c <? 2048)%N then [192 + c / 64; 128 + c mod 64]%N
  else if (c <? 65536)%N then [224 + c / 4096; 128 + (c / 64) mod 64; 128 + c mod 64]%N
  else [240 + c / 262144; 128 + (c / 4096) mod 64; 128 + (c / 64) mod 64; 128 + c mod 64]%N.
Definition as_bytes (s : str) : list N := concat (map encode_char s).

(** std::str::from_utf8: no overlong forms, no surrogates, nothing above U+10FFFF. *)
Definition continuation (b : N) : bool := ((128 <=? b) && (b <? 192))%N.
Definition dcons (c : N) (r : option str) : option str := match r with Some s => Some (c :: s) | None => None end.
Fixpoint from_utf8 (bs : list N) : option str :=
  match bs with
  | [] => Some []
  | b0 :: r0 =>
      if (b0 <? 128)%N then dcons b0 (from_utf8 r0)
      else if (b0 <? 192)%N then None
      else if (b0 <? 224)%N then
        match r0 with
        | b1 :: r1 =>
            let c := ((b0 - 192) * 64 + (b1 - 128))%N in
            if continuation b1 && (128 <=? c)%N then dcons c (from_utf8 r1) else None
        | _ => None
        end
      else if (b0 <? 240)%N then
        match r0 with
        | b1 :: b2 :: r2 =>
            let c := (((b0 - 224) * 64 + (b1 - 128)) * 64 + (b2 - 128))%N in
            if continuation b1 && continuation b2 && (2048 <=? c)%N && negb ((0xD800 <=? c) && (c <? 0xE000))%N
            then dcons c (from_utf8 r2) else None
        | _ => None
        end
      else if (b0 <? 248)%N then
        match r0 with
        | b1 :: b2 :: b3 :: r3 =>
            let c := ((((b0 - 240) * 64 + (b1 - 128)) * 64 + (b2 - 128)) * 64 + (b3 - 128))%N in
            if continuation b1 && continuation b2 && continuation b3 && (65536 <=? c)%N && (c <=? 0x10FFFF)%N
            then dcons c (from_utf8 r3) else None
        | _ => None
        end
      else None
  end.

(** serde_ast::from_reader -- serde_ast/mod.rs:73-80.  serde_json reads the bytes one by one and checks the UTF-8 of each
    string; outside of strings every byte above 127 is an error.  Modelled as decoding first: what is accepted is the same. *)
Definition from_reader (huge : str -> bool) (bytes : list N) : res (option rule_ctx) :=
  match from_utf8 bytes with Some s => from_str huge s | None => Ret None end.

(** The files, by path; no links and no concurrent writers. *)
Notation disk := (gmap str (list N)).
(** What the operating system answers: whether the template directory is there (Tera::new, render), whether a file can be read, whether the file
    can be created, and how many of the bytes handed to [write] it takes; None is an error. *)
Record os := Os { os_template : bool; os_read : bool; os_create : bool; os_write : nat -> option nat }.

(** File::create(path).unwrap() then file.write(text.as_bytes()).unwrap(): one call of write, its count is dropped --
    ast_drawer.rs:57-58, tests/lexer_gen.rs:25-26.  Create empties an existing file. *)
Definition create_and_write (o : os) (d : disk) (path text : str) : res unit * disk :=
  if os_create o then
    let d1 := <[path := []]> d in
    match os_write o (length (as_bytes text)) with
    | Some n => (Ret tt, <[path := take n (as_bytes text)]> d1)
    | None => (Panic, d1)
    end
  else (Panic, d).

(** ASTDrawer::new().draw(ast, name, filename) -- ast_drawer.rs:19-25, 49-59 *)
Definition draw (o : os) (d : disk) (ast : rule_ctx) (name filename : str) : res unit * disk :=
  if os_template o then create_and_write o d filename (page name ast) else (Panic, d).

(** File::open(path).unwrap() and from_reader(file).unwrap() -- main.rs:93-94 *)
Definition read_tree (huge : str -> bool) (o : os) (d : disk) (path : str) : res rule_ctx :=
  match d !! path with
  | Some bytes => if os_read o then let! t := from_reader huge bytes in unwrap t else Panic
  | None => Panic
  end.

(** main with its files -- main.rs:32-123; tests/parser_test.rs:26-86 is the same with the lexer of tests/lexer_generate
    (which is v1/syntaxis_lexer.rs), LL1Parser (also [parse]) and the file parser.html. *)
Definition run_files (nd : N -> bool) (huge : str -> bool) (order : list production) (fuel : nat) (o : os) (d : disk) (input filename : str)
    : res unit * disk :=
  match
    (let! ast := read_tree huge o d (lit "src/tool/syntaxis/syntaxis2.json") in
    let! (g, _) := load_tree ast in
    let! (tab, _) := build_table fuel order g in
    let! c := v1_lexer nd input in
    let! (toks, _) := scan_all c 15 0 fuel lexer_init in
    let! (r, _) := parse (g_vocabulary g) tab toks fuel in
    Ret r)
  with
  | Ret r => draw o d r (lit "parser") filename
  | Panic => (Panic, d)
  | OutOfFuel => (OutOfFuel, d)
  end.
Definition main_files nd huge order fuel o d input := run_files nd huge order fuel o d input (lit "parser2.html").
Definition parser_test_files nd huge order fuel o d := run_files nd huge order fuel o d main_input (lit "parser.html").

(** load_ast_and_draw -- tests/load_ast_and_draw_test.rs:8-13 *)
Definition load_ast_and_draw (huge : str -> bool) (o : os) (d : disk) : res unit * disk :=
  match read_tree huge o d (lit "src/tool/syntaxis/syntaxis2.json") with
  | Ret r => draw o d r (lit "syntaxis") (lit "syntaxis.html")
  | Panic => (Panic, d)
  | OutOfFuel => (OutOfFuel, d)
  end.

(** gen_lexer -- tests/lexer_gen.rs:11-27 *)
Definition gen_lexer (huge : str -> bool) (o : os) (d : disk) : res unit * disk :=
  match (let! ast := read_tree huge o d (lit "src/tool/syntaxis/syntaxis2.json") in load_tree ast) with
  | Ret (_, data) =>
      if os_template o then create_and_write o d (lit "tests/lexer_generate/lexer.rs") (render lexer_tera (lit "Syntaxis") data) else (Panic, d)
  | Panic => (Panic, d)
  | OutOfFuel => (OutOfFuel, d)
  end.
