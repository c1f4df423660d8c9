(** LexerRs.v -- the file tests/lexer_generate/lexer.rs of /repo, which the template was rendered to.  Generated by
    tools/mkgen.py. *)
From Verif Require Export Base.

Definition lexer_rs : str := concat [
([10%N]);
([10%N]);
([10%N]);
(lit "use regex::Regex;" ++ [10%N]);
([10%N]);
(lit "use syntaxis::runtime::{lexer::{Lexer, Error}, token::{Token, Position}};" ++ [10%N]);
([10%N]);
([10%N]);
([10%N]);
(lit "pub struct SyntaxisLexer {" ++ [10%N]);
(lit "  pub input: String," ++ [10%N]);
(lit "  pub cursor: usize, // " ++ [27599%N; 27425%N; 37117%N; 21305%N; 37197%N] ++ lit " input[cursor..]" ++ [10%N]);
(lit "  pub regex_list: Vec<regex::Regex>," ++ [10%N]);
(lit "  pub token_names: Vec<&'static str>," ++ [10%N]);
(lit "  pub token_index: usize," ++ [10%N]);
(lit "  pub position: Position," ++ [10%N]);
(lit "}" ++ [10%N]);
([10%N]);
(lit "#[allow(dead_code)]" ++ [10%N]);
(lit "impl SyntaxisLexer {" ++ [10%N]);
(lit "  // " ++ [21069%N; 20004%N; 20010%N; 26159%N; 24320%N; 22987%N; 31526%N; 21495%N; 21644%N; 32467%N; 26463%N; 31526%N; 21495%N; 10%N]);
(lit "  pub const _START: usize = 0;" ++ [10%N]);
(lit "  pub const _STOP: usize = 1;" ++ [10%N]);
([10%N]);
(lit "  // " ++ [20174%N; 36825%N; 37324%N; 24320%N; 22987%N; 20351%N; 29992%N; 27169%N; 26495%N; 10%N]);
(lit "  " ++ [10%N]);
(lit "  pub const RULE_REF: usize = 2;" ++ [10%N]);
(lit "  pub const TOKEN_REF: usize = 3;" ++ [10%N]);
(lit "  pub const COLON: usize = 4;" ++ [10%N]);
(lit "  pub const SEMI: usize = 5;" ++ [10%N]);
(lit "  pub const OR: usize = 6;" ++ [10%N]);
(lit "  pub const EPSILON: usize = 7;" ++ [10%N]);
(lit "  pub const STAR: usize = 8;" ++ [10%N]);
(lit "  pub const PLUS: usize = 9;" ++ [10%N]);
(lit "  pub const QUESTION: usize = 10;" ++ [10%N]);
(lit "  pub const LPAREN: usize = 11;" ++ [10%N]);
(lit "  pub const RPAREN: usize = 12;" ++ [10%N]);
(lit "  pub const STRING_LITERAL: usize = 13;" ++ [10%N]);
(lit "  pub const REGULAR_LITERAL: usize = 14;" ++ [10%N]);
(lit "  pub const WHITE_SPACE: usize = 15;" ++ [10%N]);
([10%N]);
([10%N]);
(lit "  pub fn new(input: &str) -> Self {" ++ [10%N]);
(lit "    let regex_list = vec![" ++ [10%N]);
([10%N]);
(lit "      // " ++ [36825%N; 37324%N; 20063%N; 38656%N; 35201%N; 20351%N; 29992%N; 27169%N; 26495%N; 10%N]);
(lit "      " ++ [10%N]);
(lit "      Regex::new(r####""^([a-z][a-zA-Z0-9_]+)""####).unwrap(), // RULE_REF" ++ [10%N]);
(lit "      Regex::new(r####""^([A-Z][a-zA-Z0-9_]+)""####).unwrap(), // TOKEN_REF" ++ [10%N]);
(lit "      Regex::new(r####""^(::=|:=|->|=>|:|=)""####).unwrap(), // COLON" ++ [10%N]);
(lit "      Regex::new(r####""^(;)""####).unwrap(), // SEMI" ++ [10%N]);
(lit "      Regex::new(r####""^(\|)""####).unwrap(), // OR" ++ [10%N]);
(lit "      Regex::new(r####""^(" ++ [949%N] ++ lit "|epsilon)""####).unwrap(), // EPSILON" ++ [10%N]);
(lit "      Regex::new(r####""^(\*)""####).unwrap(), // STAR" ++ [10%N]);
(lit "      Regex::new(r####""^(\+)""####).unwrap(), // PLUS" ++ [10%N]);
(lit "      Regex::new(r####""^(\?)""####).unwrap(), // QUESTION" ++ [10%N]);
(lit "      Regex::new(r####""^(\()""####).unwrap(), // LPAREN" ++ [10%N]);
(lit "      Regex::new(r####""^(\))""####).unwrap(), // RPAREN" ++ [10%N]);
(lit "      Regex::new(r####""^('([^\a\d\n\r\t\f\v\\']|(\\\\|\\'|\\a|\\d|\\n|\\r|\\t|\\f|\\v|\\u\{(0x|0)?[a-f0-9]+\})|\d)*')""####).unwrap(), // STRING_LITERAL" ++ [10%N]);
(lit "      Regex::new(r####""^(/(\\/|[^/])+/)""####).unwrap(), // REGULAR_LITERAL" ++ [10%N]);
(lit "      Regex::new(r####""^([ \r\n\t\f]+)""####).unwrap(), // WHITE_SPACE" ++ [10%N]);
(lit "    " ++ [10%N]);
(lit "    ];" ++ [10%N]);
(lit "    " ++ [10%N]);
(lit "    // " ++ [21516%N; 26679%N; 20351%N; 29992%N; 27169%N; 26495%N; 10%N]);
(lit "    let token_names = vec![" ++ [10%N]);
(lit "      ""_START"", ""_STOP"", " ++ [10%N]);
(lit "      ""RULE_REF"", ""TOKEN_REF"", ""COLON"", ""SEMI"", ""OR"", ""EPSILON"", ""STAR"", ""PLUS"", ""QUESTION"", ""LPAREN"", ""RPAREN"", ""STRING_LITERAL"", ""REGULAR_LITERAL"", ""WHITE_SPACE"", " ++ [10%N]);
(lit "    ];" ++ [10%N]);
([10%N]);
(lit "    SyntaxisLexer { input: input.to_owned(), cursor: 0, regex_list, token_names, token_index: 0, position: Position { line: 0, char_position: 0 } }" ++ [10%N]);
(lit "  }" ++ [10%N]);
([10%N]);
([10%N]);
([10%N]);
(lit "}" ++ [10%N]);
([10%N]);
([10%N]);
(lit "impl Lexer for SyntaxisLexer {" ++ [10%N]);
([10%N]);
([10%N]);
(lit "  fn scan(&mut self) -> Result<Token, Error> {" ++ [10%N]);
(lit "    if self.cursor > self.input.len() { return Err(Error {}) }" ++ [10%N]);
(lit "    else if self.cursor >= self.input.len() {" ++ [10%N]);
(lit "      self.cursor += 10;" ++ [10%N]);
(lit "      return Ok(Token {" ++ [10%N]);
(lit "        token_type: 1," ++ [10%N]);
(lit "        token_name: ""_STOP"".to_owned()," ++ [10%N]);
(lit "  " ++ [10%N]);
(lit "        start: self.position.clone()," ++ [10%N]);
(lit "        stop: self.position.clone()," ++ [10%N]);
(lit "        " ++ [10%N]);
(lit "        channel: 0," ++ [10%N]);
(lit "        text: ""_STOP"".to_owned()," ++ [10%N]);
(lit "        token_index: self.token_index," ++ [10%N]);
(lit "        char_start_index: self.cursor," ++ [10%N]);
(lit "        char_stop_index: self.cursor," ++ [10%N]);
(lit "      });" ++ [10%N]);
(lit "    }" ++ [10%N]);
(lit "    let mut len = 0;" ++ [10%N]);
(lit "    let mut token_type = 0;" ++ [10%N]);
([10%N]);
(lit "    for i in 0..self.regex_list.len() {" ++ [10%N]);
(lit "      let result = self.regex_list[i].find_at(&self.input[self.cursor..], 0) ;" ++ [10%N]);
(lit "      if let Some(result) = result {" ++ [10%N]);
(lit "        if result.end() > len {" ++ [10%N]);
(lit "          len = result.end();" ++ [10%N]);
(lit "          token_type = i+2;" ++ [10%N]);
(lit "        }" ++ [10%N]);
(lit "      }" ++ [10%N]);
(lit "    }" ++ [10%N]);
([10%N]);
(lit "    if token_type <= 0 { return Err(Error {}) }" ++ [10%N]);
(lit "    let text = String::from(&self.input[self.cursor..self.cursor+len]);" ++ [10%N]);
(lit "    let lines: Vec<_> = text.split(""\n"").collect();" ++ [10%N]);
(lit "    let new_pos;" ++ [10%N]);
(lit "    if lines.len() <= 1 {" ++ [10%N]);
(lit "      // " ++ [27809%N; 26377%N; 36328%N; 34892%N; 10%N]);
(lit "      new_pos = Position {" ++ [10%N]);
(lit "        line: self.position.line," ++ [10%N]);
(lit "        char_position: self.position.char_position + len" ++ [10%N]);
(lit "      }" ++ [10%N]);
(lit "    }" ++ [10%N]);
(lit "    else {" ++ [10%N]);
(lit "      // " ++ [36328%N; 34892%N; 10%N]);
(lit "      new_pos = Position {" ++ [10%N]);
(lit "        line: self.position.line + lines.len()-1," ++ [10%N]);
(lit "        char_position: lines.last().unwrap().len()," ++ [10%N]);
(lit "      }" ++ [10%N]);
(lit "    }" ++ [10%N]);
([10%N]);
([10%N]);
([10%N]);
(lit "    let token = Token {" ++ [10%N]);
(lit "      token_type," ++ [10%N]);
(lit "      token_name: String::from(self.token_names[token_type])," ++ [10%N]);
([10%N]);
(lit "      start: self.position.clone()," ++ [10%N]);
(lit "      stop: new_pos.clone()," ++ [10%N]);
(lit "      " ++ [10%N]);
(lit "      channel: 0," ++ [10%N]);
(lit "      text," ++ [10%N]);
(lit "      token_index: self.token_index," ++ [10%N]);
(lit "      char_start_index: self.cursor," ++ [10%N]);
(lit "      char_stop_index: self.cursor + len," ++ [10%N]);
(lit "    };" ++ [10%N]);
([10%N]);
(lit "    self.cursor += len;" ++ [10%N]);
(lit "    self.token_index += 1;" ++ [10%N]);
(lit "    self.position = new_pos;" ++ [10%N]);
(lit "    return Ok(token);" ++ [10%N]);
([10%N]);
(lit "  }" ++ [10%N]);
([10%N]);
(lit "  fn scan_all_on_channel_tokens(&mut self, channel: usize) -> Vec<Token> {" ++ [10%N]);
(lit "    let mut result = Vec::new();" ++ [10%N]);
(lit "    while let Ok(token) = self.scan() {" ++ [10%N]);
(lit "      if token.token_type == SyntaxisLexer::WHITE_SPACE { continue; }" ++ [10%N]);
(lit "      if token.channel == channel {" ++ [10%N]);
(lit "        result.push(token);" ++ [10%N]);
(lit "      }" ++ [10%N]);
(lit "    }" ++ [10%N]);
(lit "    if self.cursor < self.input.len() {" ++ [10%N]);
(lit "      println!(""{}"", &self.input[self.cursor..]);" ++ [10%N]);
(lit "    }" ++ [10%N]);
(lit "    result" ++ [10%N]);
(lit "  }" ++ [10%N]);
(lit "}" ++ [10%N]);
([10%N]);
([10%N])].
