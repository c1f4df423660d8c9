(** RecordedJson.v -- src/tool/syntaxis/syntaxis.json, as a value and as a text, generated by tools/mkrecorded.py. *)
From Verif Require Export SerdeAst.

Definition syntaxis_json : json :=
JObject [
 (lit "rule_index", JU64 0);
 (lit "rule_name", JString (lit "rule_list"));
 (lit "children", JArray [
  JObject [
   (lit "rule_index", JU64 1);
   (lit "rule_name", JString (lit "parser_rule"));
   (lit "children", JArray [
    JObject [
     (lit "token_type", JU64 7);
     (lit "token_name", JString (lit "RULE_REF"));
     (lit "text", JString (lit "rule_list"))];
    JObject [
     (lit "token_type", JU64 8);
     (lit "token_name", JString (lit "COLON"));
     (lit "text", JString (lit ":"))];
    JObject [
     (lit "rule_index", JU64 2);
     (lit "rule_name", JString (lit "block"));
     (lit "children", JArray [
      JObject [
       (lit "rule_index", JU64 3);
       (lit "rule_name", JString (lit "alternative"));
       (lit "children", JArray [
        JObject [
         (lit "rule_index", JU64 5);
         (lit "rule_name", JString (lit "element"));
         (lit "children", JArray [
          JObject [
           (lit "token_type", JU64 16);
           (lit "token_name", JString (lit "LPAREN"));
           (lit "text", JString (lit "("))];
          JObject [
           (lit "rule_index", JU64 2);
           (lit "rule_name", JString (lit "block"));
           (lit "children", JArray [
            JObject [
             (lit "rule_index", JU64 3);
             (lit "rule_name", JString (lit "alternative"));
             (lit "children", JArray [
              JObject [
               (lit "rule_index", JU64 5);
               (lit "rule_name", JString (lit "element"));
               (lit "children", JArray [
                JObject [
                 (lit "token_type", JU64 7);
                 (lit "token_name", JString (lit "RULE_REF"));
                 (lit "text", JString (lit "parser_rule"))]])]])];
            JObject [
             (lit "token_type", JU64 9);
             (lit "token_name", JString (lit "OR"));
             (lit "text", JString (lit "|"))];
            JObject [
             (lit "rule_index", JU64 3);
             (lit "rule_name", JString (lit "alternative"));
             (lit "children", JArray [
              JObject [
               (lit "rule_index", JU64 5);
               (lit "rule_name", JString (lit "element"));
               (lit "children", JArray [
                JObject [
                 (lit "token_type", JU64 7);
                 (lit "token_name", JString (lit "RULE_REF"));
                 (lit "text", JString (lit "lexer_rule"))]])]])]])];
          JObject [
           (lit "token_type", JU64 17);
           (lit "token_name", JString (lit "RPAREN"));
           (lit "text", JString (lit ")"))];
          JObject [
           (lit "rule_index", JU64 6);
           (lit "rule_name", JString (lit "ebnf_suffix"));
           (lit "children", JArray [
            JObject [
             (lit "token_type", JU64 11);
             (lit "token_name", JString (lit "STAR"));
             (lit "text", JString (lit "*"))]])]])]])]])];
    JObject [
     (lit "token_type", JU64 10);
     (lit "token_name", JString (lit "SEMI"));
     (lit "text", JString (lit ";"))]])];
  JObject [
   (lit "rule_index", JU64 1);
   (lit "rule_name", JString (lit "parser_rule"));
   (lit "children", JArray [
    JObject [
     (lit "token_type", JU64 7);
     (lit "token_name", JString (lit "RULE_REF"));
     (lit "text", JString (lit "parser_rule"))];
    JObject [
     (lit "token_type", JU64 8);
     (lit "token_name", JString (lit "COLON"));
     (lit "text", JString (lit ":"))];
    JObject [
     (lit "rule_index", JU64 2);
     (lit "rule_name", JString (lit "block"));
     (lit "children", JArray [
      JObject [
       (lit "rule_index", JU64 3);
       (lit "rule_name", JString (lit "alternative"));
       (lit "children", JArray [
        JObject [
         (lit "rule_index", JU64 5);
         (lit "rule_name", JString (lit "element"));
         (lit "children", JArray [
          JObject [
           (lit "token_type", JU64 6);
           (lit "token_name", JString (lit "TOKEN_REF"));
           (lit "text", JString (lit "RULE_REF"))]])];
        JObject [
         (lit "rule_index", JU64 5);
         (lit "rule_name", JString (lit "element"));
         (lit "children", JArray [
          JObject [
           (lit "token_type", JU64 6);
           (lit "token_name", JString (lit "TOKEN_REF"));
           (lit "text", JString (lit "COLON"))]])];
        JObject [
         (lit "rule_index", JU64 5);
         (lit "rule_name", JString (lit "element"));
         (lit "children", JArray [
          JObject [
           (lit "token_type", JU64 7);
           (lit "token_name", JString (lit "RULE_REF"));
           (lit "text", JString (lit "block"))]])];
        JObject [
         (lit "rule_index", JU64 5);
         (lit "rule_name", JString (lit "element"));
         (lit "children", JArray [
          JObject [
           (lit "token_type", JU64 6);
           (lit "token_name", JString (lit "TOKEN_REF"));
           (lit "text", JString (lit "SEMI"))]])]])]])];
    JObject [
     (lit "token_type", JU64 10);
     (lit "token_name", JString (lit "SEMI"));
     (lit "text", JString (lit ";"))]])];
  JObject [
   (lit "rule_index", JU64 1);
   (lit "rule_name", JString (lit "parser_rule"));
   (lit "children", JArray [
    JObject [
     (lit "token_type", JU64 7);
     (lit "token_name", JString (lit "RULE_REF"));
     (lit "text", JString (lit "block"))];
    JObject [
     (lit "token_type", JU64 8);
     (lit "token_name", JString (lit "COLON"));
     (lit "text", JString (lit ":"))];
    JObject [
     (lit "rule_index", JU64 2);
     (lit "rule_name", JString (lit "block"));
     (lit "children", JArray [
      JObject [
       (lit "rule_index", JU64 3);
       (lit "rule_name", JString (lit "alternative"));
       (lit "children", JArray [
        JObject [
         (lit "rule_index", JU64 5);
         (lit "rule_name", JString (lit "element"));
         (lit "children", JArray [
          JObject [
           (lit "token_type", JU64 7);
           (lit "token_name", JString (lit "RULE_REF"));
           (lit "text", JString (lit "alternative"))]])];
        JObject [
         (lit "rule_index", JU64 5);
         (lit "rule_name", JString (lit "element"));
         (lit "children", JArray [
          JObject [
           (lit "token_type", JU64 16);
           (lit "token_name", JString (lit "LPAREN"));
           (lit "text", JString (lit "("))];
          JObject [
           (lit "rule_index", JU64 2);
           (lit "rule_name", JString (lit "block"));
           (lit "children", JArray [
            JObject [
             (lit "rule_index", JU64 3);
             (lit "rule_name", JString (lit "alternative"));
             (lit "children", JArray [
              JObject [
               (lit "rule_index", JU64 5);
               (lit "rule_name", JString (lit "element"));
               (lit "children", JArray [
                JObject [
                 (lit "token_type", JU64 6);
                 (lit "token_name", JString (lit "TOKEN_REF"));
                 (lit "text", JString (lit "OR"))]])];
              JObject [
               (lit "rule_index", JU64 5);
               (lit "rule_name", JString (lit "element"));
               (lit "children", JArray [
                JObject [
                 (lit "token_type", JU64 7);
                 (lit "token_name", JString (lit "RULE_REF"));
                 (lit "text", JString (lit "alternative"))]])]])]])];
          JObject [
           (lit "token_type", JU64 17);
           (lit "token_name", JString (lit "RPAREN"));
           (lit "text", JString (lit ")"))];
          JObject [
           (lit "rule_index", JU64 6);
           (lit "rule_name", JString (lit "ebnf_suffix"));
           (lit "children", JArray [
            JObject [
             (lit "token_type", JU64 11);
             (lit "token_name", JString (lit "STAR"));
             (lit "text", JString (lit "*"))]])]])]])]])];
    JObject [
     (lit "token_type", JU64 10);
     (lit "token_name", JString (lit "SEMI"));
     (lit "text", JString (lit ";"))]])];
  JObject [
   (lit "rule_index", JU64 1);
   (lit "rule_name", JString (lit "parser_rule"));
   (lit "children", JArray [
    JObject [
     (lit "token_type", JU64 7);
     (lit "token_name", JString (lit "RULE_REF"));
     (lit "text", JString (lit "alternative"))];
    JObject [
     (lit "token_type", JU64 8);
     (lit "token_name", JString (lit "COLON"));
     (lit "text", JString (lit ":"))];
    JObject [
     (lit "rule_index", JU64 2);
     (lit "rule_name", JString (lit "block"));
     (lit "children", JArray [
      JObject [
       (lit "rule_index", JU64 3);
       (lit "rule_name", JString (lit "alternative"));
       (lit "children", JArray [
        JObject [
         (lit "rule_index", JU64 5);
         (lit "rule_name", JString (lit "element"));
         (lit "children", JArray [
          JObject [
           (lit "token_type", JU64 7);
           (lit "token_name", JString (lit "RULE_REF"));
           (lit "text", JString (lit "element"))];
          JObject [
           (lit "rule_index", JU64 6);
           (lit "rule_name", JString (lit "ebnf_suffix"));
           (lit "children", JArray [
            JObject [
             (lit "token_type", JU64 12);
             (lit "token_name", JString (lit "PLUS"));
             (lit "text", JString (lit "+"))]])]])]])];
      JObject [
       (lit "token_type", JU64 9);
       (lit "token_name", JString (lit "OR"));
       (lit "text", JString (lit "|"))];
      JObject [
       (lit "rule_index", JU64 3);
       (lit "rule_name", JString (lit "alternative"));
       (lit "children", JArray [
        JObject [
         (lit "rule_index", JU64 5);
         (lit "rule_name", JString (lit "element"));
         (lit "children", JArray [
          JObject [
           (lit "token_type", JU64 7);
           (lit "token_name", JString (lit "RULE_REF"));
           (lit "text", JString (lit "epsilon"))]])]])]])];
    JObject [
     (lit "token_type", JU64 10);
     (lit "token_name", JString (lit "SEMI"));
     (lit "text", JString (lit ";"))]])];
  JObject [
   (lit "rule_index", JU64 1);
   (lit "rule_name", JString (lit "parser_rule"));
   (lit "children", JArray [
    JObject [
     (lit "token_type", JU64 7);
     (lit "token_name", JString (lit "RULE_REF"));
     (lit "text", JString (lit "epsilon"))];
    JObject [
     (lit "token_type", JU64 8);
     (lit "token_name", JString (lit "COLON"));
     (lit "text", JString (lit ":"))];
    JObject [
     (lit "rule_index", JU64 2);
     (lit "rule_name", JString (lit "block"));
     (lit "children", JArray [
      JObject [
       (lit "rule_index", JU64 3);
       (lit "rule_name", JString (lit "alternative"));
       (lit "children", JArray [
        JObject [
         (lit "rule_index", JU64 5);
         (lit "rule_name", JString (lit "element"));
         (lit "children", JArray [
          JObject [
           (lit "token_type", JU64 6);
           (lit "token_name", JString (lit "TOKEN_REF"));
           (lit "text", JString (lit "EPSILON"))]])]])]])];
    JObject [
     (lit "token_type", JU64 10);
     (lit "token_name", JString (lit "SEMI"));
     (lit "text", JString (lit ";"))]])];
  JObject [
   (lit "rule_index", JU64 1);
   (lit "rule_name", JString (lit "parser_rule"));
   (lit "children", JArray [
    JObject [
     (lit "token_type", JU64 7);
     (lit "token_name", JString (lit "RULE_REF"));
     (lit "text", JString (lit "element"))];
    JObject [
     (lit "token_type", JU64 8);
     (lit "token_name", JString (lit "COLON"));
     (lit "text", JString (lit ":"))];
    JObject [
     (lit "rule_index", JU64 2);
     (lit "rule_name", JString (lit "block"));
     (lit "children", JArray [
      JObject [
       (lit "rule_index", JU64 3);
       (lit "rule_name", JString (lit "alternative"));
       (lit "children", JArray [
        JObject [
         (lit "rule_index", JU64 5);
         (lit "rule_name", JString (lit "element"));
         (lit "children", JArray [
          JObject [
           (lit "token_type", JU64 16);
           (lit "token_name", JString (lit "LPAREN"));
           (lit "text", JString (lit "("))];
          JObject [
           (lit "rule_index", JU64 2);
           (lit "rule_name", JString (lit "block"));
           (lit "children", JArray [
            JObject [
             (lit "rule_index", JU64 3);
             (lit "rule_name", JString (lit "alternative"));
             (lit "children", JArray [
              JObject [
               (lit "rule_index", JU64 5);
               (lit "rule_name", JString (lit "element"));
               (lit "children", JArray [
                JObject [
                 (lit "token_type", JU64 6);
                 (lit "token_name", JString (lit "TOKEN_REF"));
                 (lit "text", JString (lit "TOKEN_REF"))]])]])];
            JObject [
             (lit "token_type", JU64 9);
             (lit "token_name", JString (lit "OR"));
             (lit "text", JString (lit "|"))];
            JObject [
             (lit "rule_index", JU64 3);
             (lit "rule_name", JString (lit "alternative"));
             (lit "children", JArray [
              JObject [
               (lit "rule_index", JU64 5);
               (lit "rule_name", JString (lit "element"));
               (lit "children", JArray [
                JObject [
                 (lit "token_type", JU64 6);
                 (lit "token_name", JString (lit "TOKEN_REF"));
                 (lit "text", JString (lit "STRING_LITERAL"))]])]])];
            JObject [
             (lit "token_type", JU64 9);
             (lit "token_name", JString (lit "OR"));
             (lit "text", JString (lit "|"))];
            JObject [
             (lit "rule_index", JU64 3);
             (lit "rule_name", JString (lit "alternative"));
             (lit "children", JArray [
              JObject [
               (lit "rule_index", JU64 5);
               (lit "rule_name", JString (lit "element"));
               (lit "children", JArray [
                JObject [
                 (lit "token_type", JU64 6);
                 (lit "token_name", JString (lit "TOKEN_REF"));
                 (lit "text", JString (lit "RULE_REF"))]])]])];
            JObject [
             (lit "token_type", JU64 9);
             (lit "token_name", JString (lit "OR"));
             (lit "text", JString (lit "|"))];
            JObject [
             (lit "rule_index", JU64 3);
             (lit "rule_name", JString (lit "alternative"));
             (lit "children", JArray [
              JObject [
               (lit "rule_index", JU64 5);
               (lit "rule_name", JString (lit "element"));
               (lit "children", JArray [
                JObject [
                 (lit "token_type", JU64 6);
                 (lit "token_name", JString (lit "TOKEN_REF"));
                 (lit "text", JString (lit "LPAREN"))]])];
              JObject [
               (lit "rule_index", JU64 5);
               (lit "rule_name", JString (lit "element"));
               (lit "children", JArray [
                JObject [
                 (lit "token_type", JU64 7);
                 (lit "token_name", JString (lit "RULE_REF"));
                 (lit "text", JString (lit "block"))]])];
              JObject [
               (lit "rule_index", JU64 5);
               (lit "rule_name", JString (lit "element"));
               (lit "children", JArray [
                JObject [
                 (lit "token_type", JU64 6);
                 (lit "token_name", JString (lit "TOKEN_REF"));
                 (lit "text", JString (lit "RPAREN"))]])]])]])];
          JObject [
           (lit "token_type", JU64 17);
           (lit "token_name", JString (lit "RPAREN"));
           (lit "text", JString (lit ")"))]])];
        JObject [
         (lit "rule_index", JU64 5);
         (lit "rule_name", JString (lit "element"));
         (lit "children", JArray [
          JObject [
           (lit "token_type", JU64 7);
           (lit "token_name", JString (lit "RULE_REF"));
           (lit "text", JString (lit "ebnf_suffix"))];
          JObject [
           (lit "rule_index", JU64 6);
           (lit "rule_name", JString (lit "ebnf_suffix"));
           (lit "children", JArray [
            JObject [
             (lit "token_type", JU64 13);
             (lit "token_name", JString (lit "QUESTION"));
             (lit "text", JString (lit "?"))]])]])]])]])];
    JObject [
     (lit "token_type", JU64 10);
     (lit "token_name", JString (lit "SEMI"));
     (lit "text", JString (lit ";"))]])];
  JObject [
   (lit "rule_index", JU64 1);
   (lit "rule_name", JString (lit "parser_rule"));
   (lit "children", JArray [
    JObject [
     (lit "token_type", JU64 7);
     (lit "token_name", JString (lit "RULE_REF"));
     (lit "text", JString (lit "ebnf_suffix"))];
    JObject [
     (lit "token_type", JU64 8);
     (lit "token_name", JString (lit "COLON"));
     (lit "text", JString (lit ":"))];
    JObject [
     (lit "rule_index", JU64 2);
     (lit "rule_name", JString (lit "block"));
     (lit "children", JArray [
      JObject [
       (lit "rule_index", JU64 3);
       (lit "rule_name", JString (lit "alternative"));
       (lit "children", JArray [
        JObject [
         (lit "rule_index", JU64 5);
         (lit "rule_name", JString (lit "element"));
         (lit "children", JArray [
          JObject [
           (lit "token_type", JU64 16);
           (lit "token_name", JString (lit "LPAREN"));
           (lit "text", JString (lit "("))];
          JObject [
           (lit "rule_index", JU64 2);
           (lit "rule_name", JString (lit "block"));
           (lit "children", JArray [
            JObject [
             (lit "rule_index", JU64 3);
             (lit "rule_name", JString (lit "alternative"));
             (lit "children", JArray [
              JObject [
               (lit "rule_index", JU64 5);
               (lit "rule_name", JString (lit "element"));
               (lit "children", JArray [
                JObject [
                 (lit "token_type", JU64 6);
                 (lit "token_name", JString (lit "TOKEN_REF"));
                 (lit "text", JString (lit "STAR"))]])]])];
            JObject [
             (lit "token_type", JU64 9);
             (lit "token_name", JString (lit "OR"));
             (lit "text", JString (lit "|"))];
            JObject [
             (lit "rule_index", JU64 3);
             (lit "rule_name", JString (lit "alternative"));
             (lit "children", JArray [
              JObject [
               (lit "rule_index", JU64 5);
               (lit "rule_name", JString (lit "element"));
               (lit "children", JArray [
                JObject [
                 (lit "token_type", JU64 6);
                 (lit "token_name", JString (lit "TOKEN_REF"));
                 (lit "text", JString (lit "PLUS"))]])]])];
            JObject [
             (lit "token_type", JU64 9);
             (lit "token_name", JString (lit "OR"));
             (lit "text", JString (lit "|"))];
            JObject [
             (lit "rule_index", JU64 3);
             (lit "rule_name", JString (lit "alternative"));
             (lit "children", JArray [
              JObject [
               (lit "rule_index", JU64 5);
               (lit "rule_name", JString (lit "element"));
               (lit "children", JArray [
                JObject [
                 (lit "token_type", JU64 6);
                 (lit "token_name", JString (lit "TOKEN_REF"));
                 (lit "text", JString (lit "QUESTION"))]])]])]])];
          JObject [
           (lit "token_type", JU64 17);
           (lit "token_name", JString (lit "RPAREN"));
           (lit "text", JString (lit ")"))]])];
        JObject [
         (lit "rule_index", JU64 5);
         (lit "rule_name", JString (lit "element"));
         (lit "children", JArray [
          JObject [
           (lit "token_type", JU64 6);
           (lit "token_name", JString (lit "TOKEN_REF"));
           (lit "text", JString (lit "QUESTION"))];
          JObject [
           (lit "rule_index", JU64 6);
           (lit "rule_name", JString (lit "ebnf_suffix"));
           (lit "children", JArray [
            JObject [
             (lit "token_type", JU64 13);
             (lit "token_name", JString (lit "QUESTION"));
             (lit "text", JString (lit "?"))]])]])]])]])];
    JObject [
     (lit "token_type", JU64 10);
     (lit "token_name", JString (lit "SEMI"));
     (lit "text", JString (lit ";"))]])];
  JObject [
   (lit "rule_index", JU64 1);
   (lit "rule_name", JString (lit "parser_rule"));
   (lit "children", JArray [
    JObject [
     (lit "token_type", JU64 7);
     (lit "token_name", JString (lit "RULE_REF"));
     (lit "text", JString (lit "lexer_rule"))];
    JObject [
     (lit "token_type", JU64 8);
     (lit "token_name", JString (lit "COLON"));
     (lit "text", JString (lit ":"))];
    JObject [
     (lit "rule_index", JU64 2);
     (lit "rule_name", JString (lit "block"));
     (lit "children", JArray [
      JObject [
       (lit "rule_index", JU64 3);
       (lit "rule_name", JString (lit "alternative"));
       (lit "children", JArray [
        JObject [
         (lit "rule_index", JU64 5);
         (lit "rule_name", JString (lit "element"));
         (lit "children", JArray [
          JObject [
           (lit "token_type", JU64 6);
           (lit "token_name", JString (lit "TOKEN_REF"));
           (lit "text", JString (lit "TOKEN_REF"))]])];
        JObject [
         (lit "rule_index", JU64 5);
         (lit "rule_name", JString (lit "element"));
         (lit "children", JArray [
          JObject [
           (lit "token_type", JU64 6);
           (lit "token_name", JString (lit "TOKEN_REF"));
           (lit "text", JString (lit "COLON"))]])];
        JObject [
         (lit "rule_index", JU64 5);
         (lit "rule_name", JString (lit "element"));
         (lit "children", JArray [
          JObject [
           (lit "token_type", JU64 7);
           (lit "token_name", JString (lit "RULE_REF"));
           (lit "text", JString (lit "regular"))]])];
        JObject [
         (lit "rule_index", JU64 5);
         (lit "rule_name", JString (lit "element"));
         (lit "children", JArray [
          JObject [
           (lit "token_type", JU64 6);
           (lit "token_name", JString (lit "TOKEN_REF"));
           (lit "text", JString (lit "SEMI"))]])]])]])];
    JObject [
     (lit "token_type", JU64 10);
     (lit "token_name", JString (lit "SEMI"));
     (lit "text", JString (lit ";"))]])];
  JObject [
   (lit "rule_index", JU64 1);
   (lit "rule_name", JString (lit "parser_rule"));
   (lit "children", JArray [
    JObject [
     (lit "token_type", JU64 7);
     (lit "token_name", JString (lit "RULE_REF"));
     (lit "text", JString (lit "regular"))];
    JObject [
     (lit "token_type", JU64 8);
     (lit "token_name", JString (lit "COLON"));
     (lit "text", JString (lit ":"))];
    JObject [
     (lit "rule_index", JU64 2);
     (lit "rule_name", JString (lit "block"));
     (lit "children", JArray [
      JObject [
       (lit "rule_index", JU64 3);
       (lit "rule_name", JString (lit "alternative"));
       (lit "children", JArray [
        JObject [
         (lit "rule_index", JU64 5);
         (lit "rule_name", JString (lit "element"));
         (lit "children", JArray [
          JObject [
           (lit "token_type", JU64 6);
           (lit "token_name", JString (lit "TOKEN_REF"));
           (lit "text", JString (lit "REGULAR_LITERAL"))]])]])]])];
    JObject [
     (lit "token_type", JU64 10);
     (lit "token_name", JString (lit "SEMI"));
     (lit "text", JString (lit ";"))]])];
  JObject [
   (lit "rule_index", JU64 7);
   (lit "rule_name", JString (lit "lexer_rule"));
   (lit "children", JArray [
    JObject [
     (lit "token_type", JU64 6);
     (lit "token_name", JString (lit "TOKEN_REF"));
     (lit "text", JString (lit "RULE_REF"))];
    JObject [
     (lit "token_type", JU64 8);
     (lit "token_name", JString (lit "COLON"));
     (lit "text", JString (lit ":"))];
    JObject [
     (lit "rule_index", JU64 8);
     (lit "rule_name", JString (lit "regular"));
     (lit "children", JArray [
      JObject [
       (lit "token_type", JU64 21);
       (lit "token_name", JString (lit "REGULAR_LITERAL"));
       (lit "text", JString (lit "/[a-z][a-zA-Z0-9_]+/"))]])];
    JObject [
     (lit "token_type", JU64 10);
     (lit "token_name", JString (lit "SEMI"));
     (lit "text", JString (lit ";"))]])];
  JObject [
   (lit "rule_index", JU64 7);
   (lit "rule_name", JString (lit "lexer_rule"));
   (lit "children", JArray [
    JObject [
     (lit "token_type", JU64 6);
     (lit "token_name", JString (lit "TOKEN_REF"));
     (lit "text", JString (lit "TOKEN_REF"))];
    JObject [
     (lit "token_type", JU64 8);
     (lit "token_name", JString (lit "COLON"));
     (lit "text", JString (lit ":"))];
    JObject [
     (lit "rule_index", JU64 8);
     (lit "rule_name", JString (lit "regular"));
     (lit "children", JArray [
      JObject [
       (lit "token_type", JU64 21);
       (lit "token_name", JString (lit "REGULAR_LITERAL"));
       (lit "text", JString (lit "/[A-Z][a-zA-Z0-9_]+/"))]])];
    JObject [
     (lit "token_type", JU64 10);
     (lit "token_name", JString (lit "SEMI"));
     (lit "text", JString (lit ";"))]])];
  JObject [
   (lit "rule_index", JU64 7);
   (lit "rule_name", JString (lit "lexer_rule"));
   (lit "children", JArray [
    JObject [
     (lit "token_type", JU64 6);
     (lit "token_name", JString (lit "TOKEN_REF"));
     (lit "text", JString (lit "COLON"))];
    JObject [
     (lit "token_type", JU64 8);
     (lit "token_name", JString (lit "COLON"));
     (lit "text", JString (lit ":"))];
    JObject [
     (lit "rule_index", JU64 8);
     (lit "rule_name", JString (lit "regular"));
     (lit "children", JArray [
      JObject [
       (lit "token_type", JU64 21);
       (lit "token_name", JString (lit "REGULAR_LITERAL"));
       (lit "text", JString (lit "/::=|:=|->|=>|:|=/"))]])];
    JObject [
     (lit "token_type", JU64 10);
     (lit "token_name", JString (lit "SEMI"));
     (lit "text", JString (lit ";"))]])];
  JObject [
   (lit "rule_index", JU64 7);
   (lit "rule_name", JString (lit "lexer_rule"));
   (lit "children", JArray [
    JObject [
     (lit "token_type", JU64 6);
     (lit "token_name", JString (lit "TOKEN_REF"));
     (lit "text", JString (lit "SEMI"))];
    JObject [
     (lit "token_type", JU64 8);
     (lit "token_name", JString (lit "COLON"));
     (lit "text", JString (lit ":"))];
    JObject [
     (lit "rule_index", JU64 8);
     (lit "rule_name", JString (lit "regular"));
     (lit "children", JArray [
      JObject [
       (lit "token_type", JU64 21);
       (lit "token_name", JString (lit "REGULAR_LITERAL"));
       (lit "text", JString (lit "/;/"))]])];
    JObject [
     (lit "token_type", JU64 10);
     (lit "token_name", JString (lit "SEMI"));
     (lit "text", JString (lit ";"))]])];
  JObject [
   (lit "rule_index", JU64 7);
   (lit "rule_name", JString (lit "lexer_rule"));
   (lit "children", JArray [
    JObject [
     (lit "token_type", JU64 6);
     (lit "token_name", JString (lit "TOKEN_REF"));
     (lit "text", JString (lit "OR"))];
    JObject [
     (lit "token_type", JU64 8);
     (lit "token_name", JString (lit "COLON"));
     (lit "text", JString (lit ":"))];
    JObject [
     (lit "rule_index", JU64 8);
     (lit "rule_name", JString (lit "regular"));
     (lit "children", JArray [
      JObject [
       (lit "token_type", JU64 21);
       (lit "token_name", JString (lit "REGULAR_LITERAL"));
       (lit "text", JString (lit "/\|/"))]])];
    JObject [
     (lit "token_type", JU64 10);
     (lit "token_name", JString (lit "SEMI"));
     (lit "text", JString (lit ";"))]])];
  JObject [
   (lit "rule_index", JU64 7);
   (lit "rule_name", JString (lit "lexer_rule"));
   (lit "children", JArray [
    JObject [
     (lit "token_type", JU64 6);
     (lit "token_name", JString (lit "TOKEN_REF"));
     (lit "text", JString (lit "EPSILON"))];
    JObject [
     (lit "token_type", JU64 8);
     (lit "token_name", JString (lit "COLON"));
     (lit "text", JString (lit ":"))];
    JObject [
     (lit "rule_index", JU64 8);
     (lit "rule_name", JString (lit "regular"));
     (lit "children", JArray [
      JObject [
       (lit "token_type", JU64 21);
       (lit "token_name", JString (lit "REGULAR_LITERAL"));
       (lit "text", JString ((lit "/" ++ [949%N] ++ lit "|epsilon/")))]])];
    JObject [
     (lit "token_type", JU64 10);
     (lit "token_name", JString (lit "SEMI"));
     (lit "text", JString (lit ";"))]])];
  JObject [
   (lit "rule_index", JU64 7);
   (lit "rule_name", JString (lit "lexer_rule"));
   (lit "children", JArray [
    JObject [
     (lit "token_type", JU64 6);
     (lit "token_name", JString (lit "TOKEN_REF"));
     (lit "text", JString (lit "STAR"))];
    JObject [
     (lit "token_type", JU64 8);
     (lit "token_name", JString (lit "COLON"));
     (lit "text", JString (lit ":"))];
    JObject [
     (lit "rule_index", JU64 8);
     (lit "rule_name", JString (lit "regular"));
     (lit "children", JArray [
      JObject [
       (lit "token_type", JU64 21);
       (lit "token_name", JString (lit "REGULAR_LITERAL"));
       (lit "text", JString (lit "/\*/"))]])];
    JObject [
     (lit "token_type", JU64 10);
     (lit "token_name", JString (lit "SEMI"));
     (lit "text", JString (lit ";"))]])];
  JObject [
   (lit "rule_index", JU64 7);
   (lit "rule_name", JString (lit "lexer_rule"));
   (lit "children", JArray [
    JObject [
     (lit "token_type", JU64 6);
     (lit "token_name", JString (lit "TOKEN_REF"));
     (lit "text", JString (lit "PLUS"))];
    JObject [
     (lit "token_type", JU64 8);
     (lit "token_name", JString (lit "COLON"));
     (lit "text", JString (lit ":"))];
    JObject [
     (lit "rule_index", JU64 8);
     (lit "rule_name", JString (lit "regular"));
     (lit "children", JArray [
      JObject [
       (lit "token_type", JU64 21);
       (lit "token_name", JString (lit "REGULAR_LITERAL"));
       (lit "text", JString (lit "/\+/"))]])];
    JObject [
     (lit "token_type", JU64 10);
     (lit "token_name", JString (lit "SEMI"));
     (lit "text", JString (lit ";"))]])];
  JObject [
   (lit "rule_index", JU64 7);
   (lit "rule_name", JString (lit "lexer_rule"));
   (lit "children", JArray [
    JObject [
     (lit "token_type", JU64 6);
     (lit "token_name", JString (lit "TOKEN_REF"));
     (lit "text", JString (lit "QUESTION"))];
    JObject [
     (lit "token_type", JU64 8);
     (lit "token_name", JString (lit "COLON"));
     (lit "text", JString (lit ":"))];
    JObject [
     (lit "rule_index", JU64 8);
     (lit "rule_name", JString (lit "regular"));
     (lit "children", JArray [
      JObject [
       (lit "token_type", JU64 21);
       (lit "token_name", JString (lit "REGULAR_LITERAL"));
       (lit "text", JString (lit "/\?/"))]])];
    JObject [
     (lit "token_type", JU64 10);
     (lit "token_name", JString (lit "SEMI"));
     (lit "text", JString (lit ";"))]])];
  JObject [
   (lit "rule_index", JU64 7);
   (lit "rule_name", JString (lit "lexer_rule"));
   (lit "children", JArray [
    JObject [
     (lit "token_type", JU64 6);
     (lit "token_name", JString (lit "TOKEN_REF"));
     (lit "text", JString (lit "LPAREN"))];
    JObject [
     (lit "token_type", JU64 8);
     (lit "token_name", JString (lit "COLON"));
     (lit "text", JString (lit ":"))];
    JObject [
     (lit "rule_index", JU64 8);
     (lit "rule_name", JString (lit "regular"));
     (lit "children", JArray [
      JObject [
       (lit "token_type", JU64 21);
       (lit "token_name", JString (lit "REGULAR_LITERAL"));
       (lit "text", JString (lit "/\(/"))]])];
    JObject [
     (lit "token_type", JU64 10);
     (lit "token_name", JString (lit "SEMI"));
     (lit "text", JString (lit ";"))]])];
  JObject [
   (lit "rule_index", JU64 7);
   (lit "rule_name", JString (lit "lexer_rule"));
   (lit "children", JArray [
    JObject [
     (lit "token_type", JU64 6);
     (lit "token_name", JString (lit "TOKEN_REF"));
     (lit "text", JString (lit "RPAREN"))];
    JObject [
     (lit "token_type", JU64 8);
     (lit "token_name", JString (lit "COLON"));
     (lit "text", JString (lit ":"))];
    JObject [
     (lit "rule_index", JU64 8);
     (lit "rule_name", JString (lit "regular"));
     (lit "children", JArray [
      JObject [
       (lit "token_type", JU64 21);
       (lit "token_name", JString (lit "REGULAR_LITERAL"));
       (lit "text", JString (lit "/\)/"))]])];
    JObject [
     (lit "token_type", JU64 10);
     (lit "token_name", JString (lit "SEMI"));
     (lit "text", JString (lit ";"))]])];
  JObject [
   (lit "rule_index", JU64 7);
   (lit "rule_name", JString (lit "lexer_rule"));
   (lit "children", JArray [
    JObject [
     (lit "token_type", JU64 6);
     (lit "token_name", JString (lit "TOKEN_REF"));
     (lit "text", JString (lit "STRING_LITERAL"))];
    JObject [
     (lit "token_type", JU64 8);
     (lit "token_name", JString (lit "COLON"));
     (lit "text", JString (lit ":"))];
    JObject [
     (lit "rule_index", JU64 8);
     (lit "rule_name", JString (lit "regular"));
     (lit "children", JArray [
      JObject [
       (lit "token_type", JU64 21);
       (lit "token_name", JString (lit "REGULAR_LITERAL"));
       (lit "text", JString (lit "/'([^\a\d\n\r\t\f\v\\']|(\\\\|\\'|\\a|\\d|\\n|\\r|\\t|\\f|\\v|\\u\{(0x|0)?[a-f0-9]+\})|\d)*'/"))]])];
    JObject [
     (lit "token_type", JU64 10);
     (lit "token_name", JString (lit "SEMI"));
     (lit "text", JString (lit ";"))]])];
  JObject [
   (lit "rule_index", JU64 7);
   (lit "rule_name", JString (lit "lexer_rule"));
   (lit "children", JArray [
    JObject [
     (lit "token_type", JU64 6);
     (lit "token_name", JString (lit "TOKEN_REF"));
     (lit "text", JString (lit "REGULAR_LITERAL"))];
    JObject [
     (lit "token_type", JU64 8);
     (lit "token_name", JString (lit "COLON"));
     (lit "text", JString (lit ":"))];
    JObject [
     (lit "rule_index", JU64 8);
     (lit "rule_name", JString (lit "regular"));
     (lit "children", JArray [
      JObject [
       (lit "token_type", JU64 21);
       (lit "token_name", JString (lit "REGULAR_LITERAL"));
       (lit "text", JString (lit "/\/([^/]|\\\/)+\//"))]])];
    JObject [
     (lit "token_type", JU64 10);
     (lit "token_name", JString (lit "SEMI"));
     (lit "text", JString (lit ";"))]])]])].

Definition syntaxis_text : str :=
concat [
(lit "{" ++ [10%N]);
(lit "  ""rule_index"": 0," ++ [10%N]);
(lit "  ""rule_name"": ""rule_list""," ++ [10%N]);
(lit "  ""children"": [" ++ [10%N]);
(lit "    {" ++ [10%N]);
(lit "      ""rule_index"": 1," ++ [10%N]);
(lit "      ""rule_name"": ""parser_rule""," ++ [10%N]);
(lit "      ""children"": [" ++ [10%N]);
(lit "        {" ++ [10%N]);
(lit "          ""token_type"": 7," ++ [10%N]);
(lit "          ""token_name"": ""RULE_REF""," ++ [10%N]);
(lit "          ""text"": ""rule_list""" ++ [10%N]);
(lit "        }," ++ [10%N]);
(lit "        {" ++ [10%N]);
(lit "          ""token_type"": 8," ++ [10%N]);
(lit "          ""token_name"": ""COLON""," ++ [10%N]);
(lit "          ""text"": "":""" ++ [10%N]);
(lit "        }," ++ [10%N]);
(lit "        {" ++ [10%N]);
(lit "          ""rule_index"": 2," ++ [10%N]);
(lit "          ""rule_name"": ""block""," ++ [10%N]);
(lit "          ""children"": [" ++ [10%N]);
(lit "            {" ++ [10%N]);
(lit "              ""rule_index"": 3," ++ [10%N]);
(lit "              ""rule_name"": ""alternative""," ++ [10%N]);
(lit "              ""children"": [" ++ [10%N]);
(lit "                {" ++ [10%N]);
(lit "                  ""rule_index"": 5," ++ [10%N]);
(lit "                  ""rule_name"": ""element""," ++ [10%N]);
(lit "                  ""children"": [" ++ [10%N]);
(lit "                    {" ++ [10%N]);
(lit "                      ""token_type"": 16," ++ [10%N]);
(lit "                      ""token_name"": ""LPAREN""," ++ [10%N]);
(lit "                      ""text"": ""(""" ++ [10%N]);
(lit "                    }," ++ [10%N]);
(lit "                    {" ++ [10%N]);
(lit "                      ""rule_index"": 2," ++ [10%N]);
(lit "                      ""rule_name"": ""block""," ++ [10%N]);
(lit "                      ""children"": [" ++ [10%N]);
(lit "                        {" ++ [10%N]);
(lit "                          ""rule_index"": 3," ++ [10%N]);
(lit "                          ""rule_name"": ""alternative""," ++ [10%N]);
(lit "                          ""children"": [" ++ [10%N]);
(lit "                            {" ++ [10%N]);
(lit "                              ""rule_index"": 5," ++ [10%N]);
(lit "                              ""rule_name"": ""element""," ++ [10%N]);
(lit "                              ""children"": [" ++ [10%N]);
(lit "                                {" ++ [10%N]);
(lit "                                  ""token_type"": 7," ++ [10%N]);
(lit "                                  ""token_name"": ""RULE_REF""," ++ [10%N]);
(lit "                                  ""text"": ""parser_rule""" ++ [10%N]);
(lit "                                }" ++ [10%N]);
(lit "                              ]" ++ [10%N]);
(lit "                            }" ++ [10%N]);
(lit "                          ]" ++ [10%N]);
(lit "                        }," ++ [10%N]);
(lit "                        {" ++ [10%N]);
(lit "                          ""token_type"": 9," ++ [10%N]);
(lit "                          ""token_name"": ""OR""," ++ [10%N]);
(lit "                          ""text"": ""|""" ++ [10%N]);
(lit "                        }," ++ [10%N]);
(lit "                        {" ++ [10%N]);
(lit "                          ""rule_index"": 3," ++ [10%N]);
(lit "                          ""rule_name"": ""alternative""," ++ [10%N]);
(lit "                          ""children"": [" ++ [10%N]);
(lit "                            {" ++ [10%N]);
(lit "                              ""rule_index"": 5," ++ [10%N]);
(lit "                              ""rule_name"": ""element""," ++ [10%N]);
(lit "                              ""children"": [" ++ [10%N]);
(lit "                                {" ++ [10%N]);
(lit "                                  ""token_type"": 7," ++ [10%N]);
(lit "                                  ""token_name"": ""RULE_REF""," ++ [10%N]);
(lit "                                  ""text"": ""lexer_rule""" ++ [10%N]);
(lit "                                }" ++ [10%N]);
(lit "                              ]" ++ [10%N]);
(lit "                            }" ++ [10%N]);
(lit "                          ]" ++ [10%N]);
(lit "                        }" ++ [10%N]);
(lit "                      ]" ++ [10%N]);
(lit "                    }," ++ [10%N]);
(lit "                    {" ++ [10%N]);
(lit "                      ""token_type"": 17," ++ [10%N]);
(lit "                      ""token_name"": ""RPAREN""," ++ [10%N]);
(lit "                      ""text"": "")""" ++ [10%N]);
(lit "                    }," ++ [10%N]);
(lit "                    {" ++ [10%N]);
(lit "                      ""rule_index"": 6," ++ [10%N]);
(lit "                      ""rule_name"": ""ebnf_suffix""," ++ [10%N]);
(lit "                      ""children"": [" ++ [10%N]);
(lit "                        {" ++ [10%N]);
(lit "                          ""token_type"": 11," ++ [10%N]);
(lit "                          ""token_name"": ""STAR""," ++ [10%N]);
(lit "                          ""text"": ""*""" ++ [10%N]);
(lit "                        }" ++ [10%N]);
(lit "                      ]" ++ [10%N]);
(lit "                    }" ++ [10%N]);
(lit "                  ]" ++ [10%N]);
(lit "                }" ++ [10%N]);
(lit "              ]" ++ [10%N]);
(lit "            }" ++ [10%N]);
(lit "          ]" ++ [10%N]);
(lit "        }," ++ [10%N]);
(lit "        {" ++ [10%N]);
(lit "          ""token_type"": 10," ++ [10%N]);
(lit "          ""token_name"": ""SEMI""," ++ [10%N]);
(lit "          ""text"": "";""" ++ [10%N]);
(lit "        }" ++ [10%N]);
(lit "      ]" ++ [10%N]);
(lit "    }," ++ [10%N]);
(lit "    {" ++ [10%N]);
(lit "      ""rule_index"": 1," ++ [10%N]);
(lit "      ""rule_name"": ""parser_rule""," ++ [10%N]);
(lit "      ""children"": [" ++ [10%N]);
(lit "        {" ++ [10%N]);
(lit "          ""token_type"": 7," ++ [10%N]);
(lit "          ""token_name"": ""RULE_REF""," ++ [10%N]);
(lit "          ""text"": ""parser_rule""" ++ [10%N]);
(lit "        }," ++ [10%N]);
(lit "        {" ++ [10%N]);
(lit "          ""token_type"": 8," ++ [10%N]);
(lit "          ""token_name"": ""COLON""," ++ [10%N]);
(lit "          ""text"": "":""" ++ [10%N]);
(lit "        }," ++ [10%N]);
(lit "        {" ++ [10%N]);
(lit "          ""rule_index"": 2," ++ [10%N]);
(lit "          ""rule_name"": ""block""," ++ [10%N]);
(lit "          ""children"": [" ++ [10%N]);
(lit "            {" ++ [10%N]);
(lit "              ""rule_index"": 3," ++ [10%N]);
(lit "              ""rule_name"": ""alternative""," ++ [10%N]);
(lit "              ""children"": [" ++ [10%N]);
(lit "                {" ++ [10%N]);
(lit "                  ""rule_index"": 5," ++ [10%N]);
(lit "                  ""rule_name"": ""element""," ++ [10%N]);
(lit "                  ""children"": [" ++ [10%N]);
(lit "                    {" ++ [10%N]);
(lit "                      ""token_type"": 6," ++ [10%N]);
(lit "                      ""token_name"": ""TOKEN_REF""," ++ [10%N]);
(lit "                      ""text"": ""RULE_REF""" ++ [10%N]);
(lit "                    }" ++ [10%N]);
(lit "                  ]" ++ [10%N]);
(lit "                }," ++ [10%N]);
(lit "                {" ++ [10%N]);
(lit "                  ""rule_index"": 5," ++ [10%N]);
(lit "                  ""rule_name"": ""element""," ++ [10%N]);
(lit "                  ""children"": [" ++ [10%N]);
(lit "                    {" ++ [10%N]);
(lit "                      ""token_type"": 6," ++ [10%N]);
(lit "                      ""token_name"": ""TOKEN_REF""," ++ [10%N]);
(lit "                      ""text"": ""COLON""" ++ [10%N]);
(lit "                    }" ++ [10%N]);
(lit "                  ]" ++ [10%N]);
(lit "                }," ++ [10%N]);
(lit "                {" ++ [10%N]);
(lit "                  ""rule_index"": 5," ++ [10%N]);
(lit "                  ""rule_name"": ""element""," ++ [10%N]);
(lit "                  ""children"": [" ++ [10%N]);
(lit "                    {" ++ [10%N]);
(lit "                      ""token_type"": 7," ++ [10%N]);
(lit "                      ""token_name"": ""RULE_REF""," ++ [10%N]);
(lit "                      ""text"": ""block""" ++ [10%N]);
(lit "                    }" ++ [10%N]);
(lit "                  ]" ++ [10%N]);
(lit "                }," ++ [10%N]);
(lit "                {" ++ [10%N]);
(lit "                  ""rule_index"": 5," ++ [10%N]);
(lit "                  ""rule_name"": ""element""," ++ [10%N]);
(lit "                  ""children"": [" ++ [10%N]);
(lit "                    {" ++ [10%N]);
(lit "                      ""token_type"": 6," ++ [10%N]);
(lit "                      ""token_name"": ""TOKEN_REF""," ++ [10%N]);
(lit "                      ""text"": ""SEMI""" ++ [10%N]);
(lit "                    }" ++ [10%N]);
(lit "                  ]" ++ [10%N]);
(lit "                }" ++ [10%N]);
(lit "              ]" ++ [10%N]);
(lit "            }" ++ [10%N]);
(lit "          ]" ++ [10%N]);
(lit "        }," ++ [10%N]);
(lit "        {" ++ [10%N]);
(lit "          ""token_type"": 10," ++ [10%N]);
(lit "          ""token_name"": ""SEMI""," ++ [10%N]);
(lit "          ""text"": "";""" ++ [10%N]);
(lit "        }" ++ [10%N]);
(lit "      ]" ++ [10%N]);
(lit "    }," ++ [10%N]);
(lit "    {" ++ [10%N]);
(lit "      ""rule_index"": 1," ++ [10%N]);
(lit "      ""rule_name"": ""parser_rule""," ++ [10%N]);
(lit "      ""children"": [" ++ [10%N]);
(lit "        {" ++ [10%N]);
(lit "          ""token_type"": 7," ++ [10%N]);
(lit "          ""token_name"": ""RULE_REF""," ++ [10%N]);
(lit "          ""text"": ""block""" ++ [10%N]);
(lit "        }," ++ [10%N]);
(lit "        {" ++ [10%N]);
(lit "          ""token_type"": 8," ++ [10%N]);
(lit "          ""token_name"": ""COLON""," ++ [10%N]);
(lit "          ""text"": "":""" ++ [10%N]);
(lit "        }," ++ [10%N]);
(lit "        {" ++ [10%N]);
(lit "          ""rule_index"": 2," ++ [10%N]);
(lit "          ""rule_name"": ""block""," ++ [10%N]);
(lit "          ""children"": [" ++ [10%N]);
(lit "            {" ++ [10%N]);
(lit "              ""rule_index"": 3," ++ [10%N]);
(lit "              ""rule_name"": ""alternative""," ++ [10%N]);
(lit "              ""children"": [" ++ [10%N]);
(lit "                {" ++ [10%N]);
(lit "                  ""rule_index"": 5," ++ [10%N]);
(lit "                  ""rule_name"": ""element""," ++ [10%N]);
(lit "                  ""children"": [" ++ [10%N]);
(lit "                    {" ++ [10%N]);
(lit "                      ""token_type"": 7," ++ [10%N]);
(lit "                      ""token_name"": ""RULE_REF""," ++ [10%N]);
(lit "                      ""text"": ""alternative""" ++ [10%N]);
(lit "                    }" ++ [10%N]);
(lit "                  ]" ++ [10%N]);
(lit "                }," ++ [10%N]);
(lit "                {" ++ [10%N]);
(lit "                  ""rule_index"": 5," ++ [10%N]);
(lit "                  ""rule_name"": ""element""," ++ [10%N]);
(lit "                  ""children"": [" ++ [10%N]);
(lit "                    {" ++ [10%N]);
(lit "                      ""token_type"": 16," ++ [10%N]);
(lit "                      ""token_name"": ""LPAREN""," ++ [10%N]);
(lit "                      ""text"": ""(""" ++ [10%N]);
(lit "                    }," ++ [10%N]);
(lit "                    {" ++ [10%N]);
(lit "                      ""rule_index"": 2," ++ [10%N]);
(lit "                      ""rule_name"": ""block""," ++ [10%N]);
(lit "                      ""children"": [" ++ [10%N]);
(lit "                        {" ++ [10%N]);
(lit "                          ""rule_index"": 3," ++ [10%N]);
(lit "                          ""rule_name"": ""alternative""," ++ [10%N]);
(lit "                          ""children"": [" ++ [10%N]);
(lit "                            {" ++ [10%N]);
(lit "                              ""rule_index"": 5," ++ [10%N]);
(lit "                              ""rule_name"": ""element""," ++ [10%N]);
(lit "                              ""children"": [" ++ [10%N]);
(lit "                                {" ++ [10%N]);
(lit "                                  ""token_type"": 6," ++ [10%N]);
(lit "                                  ""token_name"": ""TOKEN_REF""," ++ [10%N]);
(lit "                                  ""text"": ""OR""" ++ [10%N]);
(lit "                                }" ++ [10%N]);
(lit "                              ]" ++ [10%N]);
(lit "                            }," ++ [10%N]);
(lit "                            {" ++ [10%N]);
(lit "                              ""rule_index"": 5," ++ [10%N]);
(lit "                              ""rule_name"": ""element""," ++ [10%N]);
(lit "                              ""children"": [" ++ [10%N]);
(lit "                                {" ++ [10%N]);
(lit "                                  ""token_type"": 7," ++ [10%N]);
(lit "                                  ""token_name"": ""RULE_REF""," ++ [10%N]);
(lit "                                  ""text"": ""alternative""" ++ [10%N]);
(lit "                                }" ++ [10%N]);
(lit "                              ]" ++ [10%N]);
(lit "                            }" ++ [10%N]);
(lit "                          ]" ++ [10%N]);
(lit "                        }" ++ [10%N]);
(lit "                      ]" ++ [10%N]);
(lit "                    }," ++ [10%N]);
(lit "                    {" ++ [10%N]);
(lit "                      ""token_type"": 17," ++ [10%N]);
(lit "                      ""token_name"": ""RPAREN""," ++ [10%N]);
(lit "                      ""text"": "")""" ++ [10%N]);
(lit "                    }," ++ [10%N]);
(lit "                    {" ++ [10%N]);
(lit "                      ""rule_index"": 6," ++ [10%N]);
(lit "                      ""rule_name"": ""ebnf_suffix""," ++ [10%N]);
(lit "                      ""children"": [" ++ [10%N]);
(lit "                        {" ++ [10%N]);
(lit "                          ""token_type"": 11," ++ [10%N]);
(lit "                          ""token_name"": ""STAR""," ++ [10%N]);
(lit "                          ""text"": ""*""" ++ [10%N]);
(lit "                        }" ++ [10%N]);
(lit "                      ]" ++ [10%N]);
(lit "                    }" ++ [10%N]);
(lit "                  ]" ++ [10%N]);
(lit "                }" ++ [10%N]);
(lit "              ]" ++ [10%N]);
(lit "            }" ++ [10%N]);
(lit "          ]" ++ [10%N]);
(lit "        }," ++ [10%N]);
(lit "        {" ++ [10%N]);
(lit "          ""token_type"": 10," ++ [10%N]);
(lit "          ""token_name"": ""SEMI""," ++ [10%N]);
(lit "          ""text"": "";""" ++ [10%N]);
(lit "        }" ++ [10%N]);
(lit "      ]" ++ [10%N]);
(lit "    }," ++ [10%N]);
(lit "    {" ++ [10%N]);
(lit "      ""rule_index"": 1," ++ [10%N]);
(lit "      ""rule_name"": ""parser_rule""," ++ [10%N]);
(lit "      ""children"": [" ++ [10%N]);
(lit "        {" ++ [10%N]);
(lit "          ""token_type"": 7," ++ [10%N]);
(lit "          ""token_name"": ""RULE_REF""," ++ [10%N]);
(lit "          ""text"": ""alternative""" ++ [10%N]);
(lit "        }," ++ [10%N]);
(lit "        {" ++ [10%N]);
(lit "          ""token_type"": 8," ++ [10%N]);
(lit "          ""token_name"": ""COLON""," ++ [10%N]);
(lit "          ""text"": "":""" ++ [10%N]);
(lit "        }," ++ [10%N]);
(lit "        {" ++ [10%N]);
(lit "          ""rule_index"": 2," ++ [10%N]);
(lit "          ""rule_name"": ""block""," ++ [10%N]);
(lit "          ""children"": [" ++ [10%N]);
(lit "            {" ++ [10%N]);
(lit "              ""rule_index"": 3," ++ [10%N]);
(lit "              ""rule_name"": ""alternative""," ++ [10%N]);
(lit "              ""children"": [" ++ [10%N]);
(lit "                {" ++ [10%N]);
(lit "                  ""rule_index"": 5," ++ [10%N]);
(lit "                  ""rule_name"": ""element""," ++ [10%N]);
(lit "                  ""children"": [" ++ [10%N]);
(lit "                    {" ++ [10%N]);
(lit "                      ""token_type"": 7," ++ [10%N]);
(lit "                      ""token_name"": ""RULE_REF""," ++ [10%N]);
(lit "                      ""text"": ""element""" ++ [10%N]);
(lit "                    }," ++ [10%N]);
(lit "                    {" ++ [10%N]);
(lit "                      ""rule_index"": 6," ++ [10%N]);
(lit "                      ""rule_name"": ""ebnf_suffix""," ++ [10%N]);
(lit "                      ""children"": [" ++ [10%N]);
(lit "                        {" ++ [10%N]);
(lit "                          ""token_type"": 12," ++ [10%N]);
(lit "                          ""token_name"": ""PLUS""," ++ [10%N]);
(lit "                          ""text"": ""+""" ++ [10%N]);
(lit "                        }" ++ [10%N]);
(lit "                      ]" ++ [10%N]);
(lit "                    }" ++ [10%N]);
(lit "                  ]" ++ [10%N]);
(lit "                }" ++ [10%N]);
(lit "              ]" ++ [10%N]);
(lit "            }," ++ [10%N]);
(lit "            {" ++ [10%N]);
(lit "              ""token_type"": 9," ++ [10%N]);
(lit "              ""token_name"": ""OR""," ++ [10%N]);
(lit "              ""text"": ""|""" ++ [10%N]);
(lit "            }," ++ [10%N]);
(lit "            {" ++ [10%N]);
(lit "              ""rule_index"": 3," ++ [10%N]);
(lit "              ""rule_name"": ""alternative""," ++ [10%N]);
(lit "              ""children"": [" ++ [10%N]);
(lit "                {" ++ [10%N]);
(lit "                  ""rule_index"": 5," ++ [10%N]);
(lit "                  ""rule_name"": ""element""," ++ [10%N]);
(lit "                  ""children"": [" ++ [10%N]);
(lit "                    {" ++ [10%N]);
(lit "                      ""token_type"": 7," ++ [10%N]);
(lit "                      ""token_name"": ""RULE_REF""," ++ [10%N]);
(lit "                      ""text"": ""epsilon""" ++ [10%N]);
(lit "                    }" ++ [10%N]);
(lit "                  ]" ++ [10%N]);
(lit "                }" ++ [10%N]);
(lit "              ]" ++ [10%N]);
(lit "            }" ++ [10%N]);
(lit "          ]" ++ [10%N]);
(lit "        }," ++ [10%N]);
(lit "        {" ++ [10%N]);
(lit "          ""token_type"": 10," ++ [10%N]);
(lit "          ""token_name"": ""SEMI""," ++ [10%N]);
(lit "          ""text"": "";""" ++ [10%N]);
(lit "        }" ++ [10%N]);
(lit "      ]" ++ [10%N]);
(lit "    }," ++ [10%N]);
(lit "    {" ++ [10%N]);
(lit "      ""rule_index"": 1," ++ [10%N]);
(lit "      ""rule_name"": ""parser_rule""," ++ [10%N]);
(lit "      ""children"": [" ++ [10%N]);
(lit "        {" ++ [10%N]);
(lit "          ""token_type"": 7," ++ [10%N]);
(lit "          ""token_name"": ""RULE_REF""," ++ [10%N]);
(lit "          ""text"": ""epsilon""" ++ [10%N]);
(lit "        }," ++ [10%N]);
(lit "        {" ++ [10%N]);
(lit "          ""token_type"": 8," ++ [10%N]);
(lit "          ""token_name"": ""COLON""," ++ [10%N]);
(lit "          ""text"": "":""" ++ [10%N]);
(lit "        }," ++ [10%N]);
(lit "        {" ++ [10%N]);
(lit "          ""rule_index"": 2," ++ [10%N]);
(lit "          ""rule_name"": ""block""," ++ [10%N]);
(lit "          ""children"": [" ++ [10%N]);
(lit "            {" ++ [10%N]);
(lit "              ""rule_index"": 3," ++ [10%N]);
(lit "              ""rule_name"": ""alternative""," ++ [10%N]);
(lit "              ""children"": [" ++ [10%N]);
(lit "                {" ++ [10%N]);
(lit "                  ""rule_index"": 5," ++ [10%N]);
(lit "                  ""rule_name"": ""element""," ++ [10%N]);
(lit "                  ""children"": [" ++ [10%N]);
(lit "                    {" ++ [10%N]);
(lit "                      ""token_type"": 6," ++ [10%N]);
(lit "                      ""token_name"": ""TOKEN_REF""," ++ [10%N]);
(lit "                      ""text"": ""EPSILON""" ++ [10%N]);
(lit "                    }" ++ [10%N]);
(lit "                  ]" ++ [10%N]);
(lit "                }" ++ [10%N]);
(lit "              ]" ++ [10%N]);
(lit "            }" ++ [10%N]);
(lit "          ]" ++ [10%N]);
(lit "        }," ++ [10%N]);
(lit "        {" ++ [10%N]);
(lit "          ""token_type"": 10," ++ [10%N]);
(lit "          ""token_name"": ""SEMI""," ++ [10%N]);
(lit "          ""text"": "";""" ++ [10%N]);
(lit "        }" ++ [10%N]);
(lit "      ]" ++ [10%N]);
(lit "    }," ++ [10%N]);
(lit "    {" ++ [10%N]);
(lit "      ""rule_index"": 1," ++ [10%N]);
(lit "      ""rule_name"": ""parser_rule""," ++ [10%N]);
(lit "      ""children"": [" ++ [10%N]);
(lit "        {" ++ [10%N]);
(lit "          ""token_type"": 7," ++ [10%N]);
(lit "          ""token_name"": ""RULE_REF""," ++ [10%N]);
(lit "          ""text"": ""element""" ++ [10%N]);
(lit "        }," ++ [10%N]);
(lit "        {" ++ [10%N]);
(lit "          ""token_type"": 8," ++ [10%N]);
(lit "          ""token_name"": ""COLON""," ++ [10%N]);
(lit "          ""text"": "":""" ++ [10%N]);
(lit "        }," ++ [10%N]);
(lit "        {" ++ [10%N]);
(lit "          ""rule_index"": 2," ++ [10%N]);
(lit "          ""rule_name"": ""block""," ++ [10%N]);
(lit "          ""children"": [" ++ [10%N]);
(lit "            {" ++ [10%N]);
(lit "              ""rule_index"": 3," ++ [10%N]);
(lit "              ""rule_name"": ""alternative""," ++ [10%N]);
(lit "              ""children"": [" ++ [10%N]);
(lit "                {" ++ [10%N]);
(lit "                  ""rule_index"": 5," ++ [10%N]);
(lit "                  ""rule_name"": ""element""," ++ [10%N]);
(lit "                  ""children"": [" ++ [10%N]);
(lit "                    {" ++ [10%N]);
(lit "                      ""token_type"": 16," ++ [10%N]);
(lit "                      ""token_name"": ""LPAREN""," ++ [10%N]);
(lit "                      ""text"": ""(""" ++ [10%N]);
(lit "                    }," ++ [10%N]);
(lit "                    {" ++ [10%N]);
(lit "                      ""rule_index"": 2," ++ [10%N]);
(lit "                      ""rule_name"": ""block""," ++ [10%N]);
(lit "                      ""children"": [" ++ [10%N]);
(lit "                        {" ++ [10%N]);
(lit "                          ""rule_index"": 3," ++ [10%N]);
(lit "                          ""rule_name"": ""alternative""," ++ [10%N]);
(lit "                          ""children"": [" ++ [10%N]);
(lit "                            {" ++ [10%N]);
(lit "                              ""rule_index"": 5," ++ [10%N]);
(lit "                              ""rule_name"": ""element""," ++ [10%N]);
(lit "                              ""children"": [" ++ [10%N]);
(lit "                                {" ++ [10%N]);
(lit "                                  ""token_type"": 6," ++ [10%N]);
(lit "                                  ""token_name"": ""TOKEN_REF""," ++ [10%N]);
(lit "                                  ""text"": ""TOKEN_REF""" ++ [10%N]);
(lit "                                }" ++ [10%N]);
(lit "                              ]" ++ [10%N]);
(lit "                            }" ++ [10%N]);
(lit "                          ]" ++ [10%N]);
(lit "                        }," ++ [10%N]);
(lit "                        {" ++ [10%N]);
(lit "                          ""token_type"": 9," ++ [10%N]);
(lit "                          ""token_name"": ""OR""," ++ [10%N]);
(lit "                          ""text"": ""|""" ++ [10%N]);
(lit "                        }," ++ [10%N]);
(lit "                        {" ++ [10%N]);
(lit "                          ""rule_index"": 3," ++ [10%N]);
(lit "                          ""rule_name"": ""alternative""," ++ [10%N]);
(lit "                          ""children"": [" ++ [10%N]);
(lit "                            {" ++ [10%N]);
(lit "                              ""rule_index"": 5," ++ [10%N]);
(lit "                              ""rule_name"": ""element""," ++ [10%N]);
(lit "                              ""children"": [" ++ [10%N]);
(lit "                                {" ++ [10%N]);
(lit "                                  ""token_type"": 6," ++ [10%N]);
(lit "                                  ""token_name"": ""TOKEN_REF""," ++ [10%N]);
(lit "                                  ""text"": ""STRING_LITERAL""" ++ [10%N]);
(lit "                                }" ++ [10%N]);
(lit "                              ]" ++ [10%N]);
(lit "                            }" ++ [10%N]);
(lit "                          ]" ++ [10%N]);
(lit "                        }," ++ [10%N]);
(lit "                        {" ++ [10%N]);
(lit "                          ""token_type"": 9," ++ [10%N]);
(lit "                          ""token_name"": ""OR""," ++ [10%N]);
(lit "                          ""text"": ""|""" ++ [10%N]);
(lit "                        }," ++ [10%N]);
(lit "                        {" ++ [10%N]);
(lit "                          ""rule_index"": 3," ++ [10%N]);
(lit "                          ""rule_name"": ""alternative""," ++ [10%N]);
(lit "                          ""children"": [" ++ [10%N]);
(lit "                            {" ++ [10%N]);
(lit "                              ""rule_index"": 5," ++ [10%N]);
(lit "                              ""rule_name"": ""element""," ++ [10%N]);
(lit "                              ""children"": [" ++ [10%N]);
(lit "                                {" ++ [10%N]);
(lit "                                  ""token_type"": 6," ++ [10%N]);
(lit "                                  ""token_name"": ""TOKEN_REF""," ++ [10%N]);
(lit "                                  ""text"": ""RULE_REF""" ++ [10%N]);
(lit "                                }" ++ [10%N]);
(lit "                              ]" ++ [10%N]);
(lit "                            }" ++ [10%N]);
(lit "                          ]" ++ [10%N]);
(lit "                        }," ++ [10%N]);
(lit "                        {" ++ [10%N]);
(lit "                          ""token_type"": 9," ++ [10%N]);
(lit "                          ""token_name"": ""OR""," ++ [10%N]);
(lit "                          ""text"": ""|""" ++ [10%N]);
(lit "                        }," ++ [10%N]);
(lit "                        {" ++ [10%N]);
(lit "                          ""rule_index"": 3," ++ [10%N]);
(lit "                          ""rule_name"": ""alternative""," ++ [10%N]);
(lit "                          ""children"": [" ++ [10%N]);
(lit "                            {" ++ [10%N]);
(lit "                              ""rule_index"": 5," ++ [10%N]);
(lit "                              ""rule_name"": ""element""," ++ [10%N]);
(lit "                              ""children"": [" ++ [10%N]);
(lit "                                {" ++ [10%N]);
(lit "                                  ""token_type"": 6," ++ [10%N]);
(lit "                                  ""token_name"": ""TOKEN_REF""," ++ [10%N]);
(lit "                                  ""text"": ""LPAREN""" ++ [10%N]);
(lit "                                }" ++ [10%N]);
(lit "                              ]" ++ [10%N]);
(lit "                            }," ++ [10%N]);
(lit "                            {" ++ [10%N]);
(lit "                              ""rule_index"": 5," ++ [10%N]);
(lit "                              ""rule_name"": ""element""," ++ [10%N]);
(lit "                              ""children"": [" ++ [10%N]);
(lit "                                {" ++ [10%N]);
(lit "                                  ""token_type"": 7," ++ [10%N]);
(lit "                                  ""token_name"": ""RULE_REF""," ++ [10%N]);
(lit "                                  ""text"": ""block""" ++ [10%N]);
(lit "                                }" ++ [10%N]);
(lit "                              ]" ++ [10%N]);
(lit "                            }," ++ [10%N]);
(lit "                            {" ++ [10%N]);
(lit "                              ""rule_index"": 5," ++ [10%N]);
(lit "                              ""rule_name"": ""element""," ++ [10%N]);
(lit "                              ""children"": [" ++ [10%N]);
(lit "                                {" ++ [10%N]);
(lit "                                  ""token_type"": 6," ++ [10%N]);
(lit "                                  ""token_name"": ""TOKEN_REF""," ++ [10%N]);
(lit "                                  ""text"": ""RPAREN""" ++ [10%N]);
(lit "                                }" ++ [10%N]);
(lit "                              ]" ++ [10%N]);
(lit "                            }" ++ [10%N]);
(lit "                          ]" ++ [10%N]);
(lit "                        }" ++ [10%N]);
(lit "                      ]" ++ [10%N]);
(lit "                    }," ++ [10%N]);
(lit "                    {" ++ [10%N]);
(lit "                      ""token_type"": 17," ++ [10%N]);
(lit "                      ""token_name"": ""RPAREN""," ++ [10%N]);
(lit "                      ""text"": "")""" ++ [10%N]);
(lit "                    }" ++ [10%N]);
(lit "                  ]" ++ [10%N]);
(lit "                }," ++ [10%N]);
(lit "                {" ++ [10%N]);
(lit "                  ""rule_index"": 5," ++ [10%N]);
(lit "                  ""rule_name"": ""element""," ++ [10%N]);
(lit "                  ""children"": [" ++ [10%N]);
(lit "                    {" ++ [10%N]);
(lit "                      ""token_type"": 7," ++ [10%N]);
(lit "                      ""token_name"": ""RULE_REF""," ++ [10%N]);
(lit "                      ""text"": ""ebnf_suffix""" ++ [10%N]);
(lit "                    }," ++ [10%N]);
(lit "                    {" ++ [10%N]);
(lit "                      ""rule_index"": 6," ++ [10%N]);
(lit "                      ""rule_name"": ""ebnf_suffix""," ++ [10%N]);
(lit "                      ""children"": [" ++ [10%N]);
(lit "                        {" ++ [10%N]);
(lit "                          ""token_type"": 13," ++ [10%N]);
(lit "                          ""token_name"": ""QUESTION""," ++ [10%N]);
(lit "                          ""text"": ""?""" ++ [10%N]);
(lit "                        }" ++ [10%N]);
(lit "                      ]" ++ [10%N]);
(lit "                    }" ++ [10%N]);
(lit "                  ]" ++ [10%N]);
(lit "                }" ++ [10%N]);
(lit "              ]" ++ [10%N]);
(lit "            }" ++ [10%N]);
(lit "          ]" ++ [10%N]);
(lit "        }," ++ [10%N]);
(lit "        {" ++ [10%N]);
(lit "          ""token_type"": 10," ++ [10%N]);
(lit "          ""token_name"": ""SEMI""," ++ [10%N]);
(lit "          ""text"": "";""" ++ [10%N]);
(lit "        }" ++ [10%N]);
(lit "      ]" ++ [10%N]);
(lit "    }," ++ [10%N]);
(lit "    {" ++ [10%N]);
(lit "      ""rule_index"": 1," ++ [10%N]);
(lit "      ""rule_name"": ""parser_rule""," ++ [10%N]);
(lit "      ""children"": [" ++ [10%N]);
(lit "        {" ++ [10%N]);
(lit "          ""token_type"": 7," ++ [10%N]);
(lit "          ""token_name"": ""RULE_REF""," ++ [10%N]);
(lit "          ""text"": ""ebnf_suffix""" ++ [10%N]);
(lit "        }," ++ [10%N]);
(lit "        {" ++ [10%N]);
(lit "          ""token_type"": 8," ++ [10%N]);
(lit "          ""token_name"": ""COLON""," ++ [10%N]);
(lit "          ""text"": "":""" ++ [10%N]);
(lit "        }," ++ [10%N]);
(lit "        {" ++ [10%N]);
(lit "          ""rule_index"": 2," ++ [10%N]);
(lit "          ""rule_name"": ""block""," ++ [10%N]);
(lit "          ""children"": [" ++ [10%N]);
(lit "            {" ++ [10%N]);
(lit "              ""rule_index"": 3," ++ [10%N]);
(lit "              ""rule_name"": ""alternative""," ++ [10%N]);
(lit "              ""children"": [" ++ [10%N]);
(lit "                {" ++ [10%N]);
(lit "                  ""rule_index"": 5," ++ [10%N]);
(lit "                  ""rule_name"": ""element""," ++ [10%N]);
(lit "                  ""children"": [" ++ [10%N]);
(lit "                    {" ++ [10%N]);
(lit "                      ""token_type"": 16," ++ [10%N]);
(lit "                      ""token_name"": ""LPAREN""," ++ [10%N]);
(lit "                      ""text"": ""(""" ++ [10%N]);
(lit "                    }," ++ [10%N]);
(lit "                    {" ++ [10%N]);
(lit "                      ""rule_index"": 2," ++ [10%N]);
(lit "                      ""rule_name"": ""block""," ++ [10%N]);
(lit "                      ""children"": [" ++ [10%N]);
(lit "                        {" ++ [10%N]);
(lit "                          ""rule_index"": 3," ++ [10%N]);
(lit "                          ""rule_name"": ""alternative""," ++ [10%N]);
(lit "                          ""children"": [" ++ [10%N]);
(lit "                            {" ++ [10%N]);
(lit "                              ""rule_index"": 5," ++ [10%N]);
(lit "                              ""rule_name"": ""element""," ++ [10%N]);
(lit "                              ""children"": [" ++ [10%N]);
(lit "                                {" ++ [10%N]);
(lit "                                  ""token_type"": 6," ++ [10%N]);
(lit "                                  ""token_name"": ""TOKEN_REF""," ++ [10%N]);
(lit "                                  ""text"": ""STAR""" ++ [10%N]);
(lit "                                }" ++ [10%N]);
(lit "                              ]" ++ [10%N]);
(lit "                            }" ++ [10%N]);
(lit "                          ]" ++ [10%N]);
(lit "                        }," ++ [10%N]);
(lit "                        {" ++ [10%N]);
(lit "                          ""token_type"": 9," ++ [10%N]);
(lit "                          ""token_name"": ""OR""," ++ [10%N]);
(lit "                          ""text"": ""|""" ++ [10%N]);
(lit "                        }," ++ [10%N]);
(lit "                        {" ++ [10%N]);
(lit "                          ""rule_index"": 3," ++ [10%N]);
(lit "                          ""rule_name"": ""alternative""," ++ [10%N]);
(lit "                          ""children"": [" ++ [10%N]);
(lit "                            {" ++ [10%N]);
(lit "                              ""rule_index"": 5," ++ [10%N]);
(lit "                              ""rule_name"": ""element""," ++ [10%N]);
(lit "                              ""children"": [" ++ [10%N]);
(lit "                                {" ++ [10%N]);
(lit "                                  ""token_type"": 6," ++ [10%N]);
(lit "                                  ""token_name"": ""TOKEN_REF""," ++ [10%N]);
(lit "                                  ""text"": ""PLUS""" ++ [10%N]);
(lit "                                }" ++ [10%N]);
(lit "                              ]" ++ [10%N]);
(lit "                            }" ++ [10%N]);
(lit "                          ]" ++ [10%N]);
(lit "                        }," ++ [10%N]);
(lit "                        {" ++ [10%N]);
(lit "                          ""token_type"": 9," ++ [10%N]);
(lit "                          ""token_name"": ""OR""," ++ [10%N]);
(lit "                          ""text"": ""|""" ++ [10%N]);
(lit "                        }," ++ [10%N]);
(lit "                        {" ++ [10%N]);
(lit "                          ""rule_index"": 3," ++ [10%N]);
(lit "                          ""rule_name"": ""alternative""," ++ [10%N]);
(lit "                          ""children"": [" ++ [10%N]);
(lit "                            {" ++ [10%N]);
(lit "                              ""rule_index"": 5," ++ [10%N]);
(lit "                              ""rule_name"": ""element""," ++ [10%N]);
(lit "                              ""children"": [" ++ [10%N]);
(lit "                                {" ++ [10%N]);
(lit "                                  ""token_type"": 6," ++ [10%N]);
(lit "                                  ""token_name"": ""TOKEN_REF""," ++ [10%N]);
(lit "                                  ""text"": ""QUESTION""" ++ [10%N]);
(lit "                                }" ++ [10%N]);
(lit "                              ]" ++ [10%N]);
(lit "                            }" ++ [10%N]);
(lit "                          ]" ++ [10%N]);
(lit "                        }" ++ [10%N]);
(lit "                      ]" ++ [10%N]);
(lit "                    }," ++ [10%N]);
(lit "                    {" ++ [10%N]);
(lit "                      ""token_type"": 17," ++ [10%N]);
(lit "                      ""token_name"": ""RPAREN""," ++ [10%N]);
(lit "                      ""text"": "")""" ++ [10%N]);
(lit "                    }" ++ [10%N]);
(lit "                  ]" ++ [10%N]);
(lit "                }," ++ [10%N]);
(lit "                {" ++ [10%N]);
(lit "                  ""rule_index"": 5," ++ [10%N]);
(lit "                  ""rule_name"": ""element""," ++ [10%N]);
(lit "                  ""children"": [" ++ [10%N]);
(lit "                    {" ++ [10%N]);
(lit "                      ""token_type"": 6," ++ [10%N]);
(lit "                      ""token_name"": ""TOKEN_REF""," ++ [10%N]);
(lit "                      ""text"": ""QUESTION""" ++ [10%N]);
(lit "                    }," ++ [10%N]);
(lit "                    {" ++ [10%N]);
(lit "                      ""rule_index"": 6," ++ [10%N]);
(lit "                      ""rule_name"": ""ebnf_suffix""," ++ [10%N]);
(lit "                      ""children"": [" ++ [10%N]);
(lit "                        {" ++ [10%N]);
(lit "                          ""token_type"": 13," ++ [10%N]);
(lit "                          ""token_name"": ""QUESTION""," ++ [10%N]);
(lit "                          ""text"": ""?""" ++ [10%N]);
(lit "                        }" ++ [10%N]);
(lit "                      ]" ++ [10%N]);
(lit "                    }" ++ [10%N]);
(lit "                  ]" ++ [10%N]);
(lit "                }" ++ [10%N]);
(lit "              ]" ++ [10%N]);
(lit "            }" ++ [10%N]);
(lit "          ]" ++ [10%N]);
(lit "        }," ++ [10%N]);
(lit "        {" ++ [10%N]);
(lit "          ""token_type"": 10," ++ [10%N]);
(lit "          ""token_name"": ""SEMI""," ++ [10%N]);
(lit "          ""text"": "";""" ++ [10%N]);
(lit "        }" ++ [10%N]);
(lit "      ]" ++ [10%N]);
(lit "    }," ++ [10%N]);
(lit "    {" ++ [10%N]);
(lit "      ""rule_index"": 1," ++ [10%N]);
(lit "      ""rule_name"": ""parser_rule""," ++ [10%N]);
(lit "      ""children"": [" ++ [10%N]);
(lit "        {" ++ [10%N]);
(lit "          ""token_type"": 7," ++ [10%N]);
(lit "          ""token_name"": ""RULE_REF""," ++ [10%N]);
(lit "          ""text"": ""lexer_rule""" ++ [10%N]);
(lit "        }," ++ [10%N]);
(lit "        {" ++ [10%N]);
(lit "          ""token_type"": 8," ++ [10%N]);
(lit "          ""token_name"": ""COLON""," ++ [10%N]);
(lit "          ""text"": "":""" ++ [10%N]);
(lit "        }," ++ [10%N]);
(lit "        {" ++ [10%N]);
(lit "          ""rule_index"": 2," ++ [10%N]);
(lit "          ""rule_name"": ""block""," ++ [10%N]);
(lit "          ""children"": [" ++ [10%N]);
(lit "            {" ++ [10%N]);
(lit "              ""rule_index"": 3," ++ [10%N]);
(lit "              ""rule_name"": ""alternative""," ++ [10%N]);
(lit "              ""children"": [" ++ [10%N]);
(lit "                {" ++ [10%N]);
(lit "                  ""rule_index"": 5," ++ [10%N]);
(lit "                  ""rule_name"": ""element""," ++ [10%N]);
(lit "                  ""children"": [" ++ [10%N]);
(lit "                    {" ++ [10%N]);
(lit "                      ""token_type"": 6," ++ [10%N]);
(lit "                      ""token_name"": ""TOKEN_REF""," ++ [10%N]);
(lit "                      ""text"": ""TOKEN_REF""" ++ [10%N]);
(lit "                    }" ++ [10%N]);
(lit "                  ]" ++ [10%N]);
(lit "                }," ++ [10%N]);
(lit "                {" ++ [10%N]);
(lit "                  ""rule_index"": 5," ++ [10%N]);
(lit "                  ""rule_name"": ""element""," ++ [10%N]);
(lit "                  ""children"": [" ++ [10%N]);
(lit "                    {" ++ [10%N]);
(lit "                      ""token_type"": 6," ++ [10%N]);
(lit "                      ""token_name"": ""TOKEN_REF""," ++ [10%N]);
(lit "                      ""text"": ""COLON""" ++ [10%N]);
(lit "                    }" ++ [10%N]);
(lit "                  ]" ++ [10%N]);
(lit "                }," ++ [10%N]);
(lit "                {" ++ [10%N]);
(lit "                  ""rule_index"": 5," ++ [10%N]);
(lit "                  ""rule_name"": ""element""," ++ [10%N]);
(lit "                  ""children"": [" ++ [10%N]);
(lit "                    {" ++ [10%N]);
(lit "                      ""token_type"": 7," ++ [10%N]);
(lit "                      ""token_name"": ""RULE_REF""," ++ [10%N]);
(lit "                      ""text"": ""regular""" ++ [10%N]);
(lit "                    }" ++ [10%N]);
(lit "                  ]" ++ [10%N]);
(lit "                }," ++ [10%N]);
(lit "                {" ++ [10%N]);
(lit "                  ""rule_index"": 5," ++ [10%N]);
(lit "                  ""rule_name"": ""element""," ++ [10%N]);
(lit "                  ""children"": [" ++ [10%N]);
(lit "                    {" ++ [10%N]);
(lit "                      ""token_type"": 6," ++ [10%N]);
(lit "                      ""token_name"": ""TOKEN_REF""," ++ [10%N]);
(lit "                      ""text"": ""SEMI""" ++ [10%N]);
(lit "                    }" ++ [10%N]);
(lit "                  ]" ++ [10%N]);
(lit "                }" ++ [10%N]);
(lit "              ]" ++ [10%N]);
(lit "            }" ++ [10%N]);
(lit "          ]" ++ [10%N]);
(lit "        }," ++ [10%N]);
(lit "        {" ++ [10%N]);
(lit "          ""token_type"": 10," ++ [10%N]);
(lit "          ""token_name"": ""SEMI""," ++ [10%N]);
(lit "          ""text"": "";""" ++ [10%N]);
(lit "        }" ++ [10%N]);
(lit "      ]" ++ [10%N]);
(lit "    }," ++ [10%N]);
(lit "    {" ++ [10%N]);
(lit "      ""rule_index"": 1," ++ [10%N]);
(lit "      ""rule_name"": ""parser_rule""," ++ [10%N]);
(lit "      ""children"": [" ++ [10%N]);
(lit "        {" ++ [10%N]);
(lit "          ""token_type"": 7," ++ [10%N]);
(lit "          ""token_name"": ""RULE_REF""," ++ [10%N]);
(lit "          ""text"": ""regular""" ++ [10%N]);
(lit "        }," ++ [10%N]);
(lit "        {" ++ [10%N]);
(lit "          ""token_type"": 8," ++ [10%N]);
(lit "          ""token_name"": ""COLON""," ++ [10%N]);
(lit "          ""text"": "":""" ++ [10%N]);
(lit "        }," ++ [10%N]);
(lit "        {" ++ [10%N]);
(lit "          ""rule_index"": 2," ++ [10%N]);
(lit "          ""rule_name"": ""block""," ++ [10%N]);
(lit "          ""children"": [" ++ [10%N]);
(lit "            {" ++ [10%N]);
(lit "              ""rule_index"": 3," ++ [10%N]);
(lit "              ""rule_name"": ""alternative""," ++ [10%N]);
(lit "              ""children"": [" ++ [10%N]);
(lit "                {" ++ [10%N]);
(lit "                  ""rule_index"": 5," ++ [10%N]);
(lit "                  ""rule_name"": ""element""," ++ [10%N]);
(lit "                  ""children"": [" ++ [10%N]);
(lit "                    {" ++ [10%N]);
(lit "                      ""token_type"": 6," ++ [10%N]);
(lit "                      ""token_name"": ""TOKEN_REF""," ++ [10%N]);
(lit "                      ""text"": ""REGULAR_LITERAL""" ++ [10%N]);
(lit "                    }" ++ [10%N]);
(lit "                  ]" ++ [10%N]);
(lit "                }" ++ [10%N]);
(lit "              ]" ++ [10%N]);
(lit "            }" ++ [10%N]);
(lit "          ]" ++ [10%N]);
(lit "        }," ++ [10%N]);
(lit "        {" ++ [10%N]);
(lit "          ""token_type"": 10," ++ [10%N]);
(lit "          ""token_name"": ""SEMI""," ++ [10%N]);
(lit "          ""text"": "";""" ++ [10%N]);
(lit "        }" ++ [10%N]);
(lit "      ]" ++ [10%N]);
(lit "    }," ++ [10%N]);
(lit "    {" ++ [10%N]);
(lit "      ""rule_index"": 7," ++ [10%N]);
(lit "      ""rule_name"": ""lexer_rule""," ++ [10%N]);
(lit "      ""children"": [" ++ [10%N]);
(lit "        {" ++ [10%N]);
(lit "          ""token_type"": 6," ++ [10%N]);
(lit "          ""token_name"": ""TOKEN_REF""," ++ [10%N]);
(lit "          ""text"": ""RULE_REF""" ++ [10%N]);
(lit "        }," ++ [10%N]);
(lit "        {" ++ [10%N]);
(lit "          ""token_type"": 8," ++ [10%N]);
(lit "          ""token_name"": ""COLON""," ++ [10%N]);
(lit "          ""text"": "":""" ++ [10%N]);
(lit "        }," ++ [10%N]);
(lit "        {" ++ [10%N]);
(lit "          ""rule_index"": 8," ++ [10%N]);
(lit "          ""rule_name"": ""regular""," ++ [10%N]);
(lit "          ""children"": [" ++ [10%N]);
(lit "            {" ++ [10%N]);
(lit "              ""token_type"": 21," ++ [10%N]);
(lit "              ""token_name"": ""REGULAR_LITERAL""," ++ [10%N]);
(lit "              ""text"": ""/[a-z][a-zA-Z0-9_]+/""" ++ [10%N]);
(lit "            }" ++ [10%N]);
(lit "          ]" ++ [10%N]);
(lit "        }," ++ [10%N]);
(lit "        {" ++ [10%N]);
(lit "          ""token_type"": 10," ++ [10%N]);
(lit "          ""token_name"": ""SEMI""," ++ [10%N]);
(lit "          ""text"": "";""" ++ [10%N]);
(lit "        }" ++ [10%N]);
(lit "      ]" ++ [10%N]);
(lit "    }," ++ [10%N]);
(lit "    {" ++ [10%N]);
(lit "      ""rule_index"": 7," ++ [10%N]);
(lit "      ""rule_name"": ""lexer_rule""," ++ [10%N]);
(lit "      ""children"": [" ++ [10%N]);
(lit "        {" ++ [10%N]);
(lit "          ""token_type"": 6," ++ [10%N]);
(lit "          ""token_name"": ""TOKEN_REF""," ++ [10%N]);
(lit "          ""text"": ""TOKEN_REF""" ++ [10%N]);
(lit "        }," ++ [10%N]);
(lit "        {" ++ [10%N]);
(lit "          ""token_type"": 8," ++ [10%N]);
(lit "          ""token_name"": ""COLON""," ++ [10%N]);
(lit "          ""text"": "":""" ++ [10%N]);
(lit "        }," ++ [10%N]);
(lit "        {" ++ [10%N]);
(lit "          ""rule_index"": 8," ++ [10%N]);
(lit "          ""rule_name"": ""regular""," ++ [10%N]);
(lit "          ""children"": [" ++ [10%N]);
(lit "            {" ++ [10%N]);
(lit "              ""token_type"": 21," ++ [10%N]);
(lit "              ""token_name"": ""REGULAR_LITERAL""," ++ [10%N]);
(lit "              ""text"": ""/[A-Z][a-zA-Z0-9_]+/""" ++ [10%N]);
(lit "            }" ++ [10%N]);
(lit "          ]" ++ [10%N]);
(lit "        }," ++ [10%N]);
(lit "        {" ++ [10%N]);
(lit "          ""token_type"": 10," ++ [10%N]);
(lit "          ""token_name"": ""SEMI""," ++ [10%N]);
(lit "          ""text"": "";""" ++ [10%N]);
(lit "        }" ++ [10%N]);
(lit "      ]" ++ [10%N]);
(lit "    }," ++ [10%N]);
(lit "    {" ++ [10%N]);
(lit "      ""rule_index"": 7," ++ [10%N]);
(lit "      ""rule_name"": ""lexer_rule""," ++ [10%N]);
(lit "      ""children"": [" ++ [10%N]);
(lit "        {" ++ [10%N]);
(lit "          ""token_type"": 6," ++ [10%N]);
(lit "          ""token_name"": ""TOKEN_REF""," ++ [10%N]);
(lit "          ""text"": ""COLON""" ++ [10%N]);
(lit "        }," ++ [10%N]);
(lit "        {" ++ [10%N]);
(lit "          ""token_type"": 8," ++ [10%N]);
(lit "          ""token_name"": ""COLON""," ++ [10%N]);
(lit "          ""text"": "":""" ++ [10%N]);
(lit "        }," ++ [10%N]);
(lit "        {" ++ [10%N]);
(lit "          ""rule_index"": 8," ++ [10%N]);
(lit "          ""rule_name"": ""regular""," ++ [10%N]);
(lit "          ""children"": [" ++ [10%N]);
(lit "            {" ++ [10%N]);
(lit "              ""token_type"": 21," ++ [10%N]);
(lit "              ""token_name"": ""REGULAR_LITERAL""," ++ [10%N]);
(lit "              ""text"": ""/::=|:=|->|=>|:|=/""" ++ [10%N]);
(lit "            }" ++ [10%N]);
(lit "          ]" ++ [10%N]);
(lit "        }," ++ [10%N]);
(lit "        {" ++ [10%N]);
(lit "          ""token_type"": 10," ++ [10%N]);
(lit "          ""token_name"": ""SEMI""," ++ [10%N]);
(lit "          ""text"": "";""" ++ [10%N]);
(lit "        }" ++ [10%N]);
(lit "      ]" ++ [10%N]);
(lit "    }," ++ [10%N]);
(lit "    {" ++ [10%N]);
(lit "      ""rule_index"": 7," ++ [10%N]);
(lit "      ""rule_name"": ""lexer_rule""," ++ [10%N]);
(lit "      ""children"": [" ++ [10%N]);
(lit "        {" ++ [10%N]);
(lit "          ""token_type"": 6," ++ [10%N]);
(lit "          ""token_name"": ""TOKEN_REF""," ++ [10%N]);
(lit "          ""text"": ""SEMI""" ++ [10%N]);
(lit "        }," ++ [10%N]);
(lit "        {" ++ [10%N]);
(lit "          ""token_type"": 8," ++ [10%N]);
(lit "          ""token_name"": ""COLON""," ++ [10%N]);
(lit "          ""text"": "":""" ++ [10%N]);
(lit "        }," ++ [10%N]);
(lit "        {" ++ [10%N]);
(lit "          ""rule_index"": 8," ++ [10%N]);
(lit "          ""rule_name"": ""regular""," ++ [10%N]);
(lit "          ""children"": [" ++ [10%N]);
(lit "            {" ++ [10%N]);
(lit "              ""token_type"": 21," ++ [10%N]);
(lit "              ""token_name"": ""REGULAR_LITERAL""," ++ [10%N]);
(lit "              ""text"": ""/;/""" ++ [10%N]);
(lit "            }" ++ [10%N]);
(lit "          ]" ++ [10%N]);
(lit "        }," ++ [10%N]);
(lit "        {" ++ [10%N]);
(lit "          ""token_type"": 10," ++ [10%N]);
(lit "          ""token_name"": ""SEMI""," ++ [10%N]);
(lit "          ""text"": "";""" ++ [10%N]);
(lit "        }" ++ [10%N]);
(lit "      ]" ++ [10%N]);
(lit "    }," ++ [10%N]);
(lit "    {" ++ [10%N]);
(lit "      ""rule_index"": 7," ++ [10%N]);
(lit "      ""rule_name"": ""lexer_rule""," ++ [10%N]);
(lit "      ""children"": [" ++ [10%N]);
(lit "        {" ++ [10%N]);
(lit "          ""token_type"": 6," ++ [10%N]);
(lit "          ""token_name"": ""TOKEN_REF""," ++ [10%N]);
(lit "          ""text"": ""OR""" ++ [10%N]);
(lit "        }," ++ [10%N]);
(lit "        {" ++ [10%N]);
(lit "          ""token_type"": 8," ++ [10%N]);
(lit "          ""token_name"": ""COLON""," ++ [10%N]);
(lit "          ""text"": "":""" ++ [10%N]);
(lit "        }," ++ [10%N]);
(lit "        {" ++ [10%N]);
(lit "          ""rule_index"": 8," ++ [10%N]);
(lit "          ""rule_name"": ""regular""," ++ [10%N]);
(lit "          ""children"": [" ++ [10%N]);
(lit "            {" ++ [10%N]);
(lit "              ""token_type"": 21," ++ [10%N]);
(lit "              ""token_name"": ""REGULAR_LITERAL""," ++ [10%N]);
(lit "              ""text"": ""/\\|/""" ++ [10%N]);
(lit "            }" ++ [10%N]);
(lit "          ]" ++ [10%N]);
(lit "        }," ++ [10%N]);
(lit "        {" ++ [10%N]);
(lit "          ""token_type"": 10," ++ [10%N]);
(lit "          ""token_name"": ""SEMI""," ++ [10%N]);
(lit "          ""text"": "";""" ++ [10%N]);
(lit "        }" ++ [10%N]);
(lit "      ]" ++ [10%N]);
(lit "    }," ++ [10%N]);
(lit "    {" ++ [10%N]);
(lit "      ""rule_index"": 7," ++ [10%N]);
(lit "      ""rule_name"": ""lexer_rule""," ++ [10%N]);
(lit "      ""children"": [" ++ [10%N]);
(lit "        {" ++ [10%N]);
(lit "          ""token_type"": 6," ++ [10%N]);
(lit "          ""token_name"": ""TOKEN_REF""," ++ [10%N]);
(lit "          ""text"": ""EPSILON""" ++ [10%N]);
(lit "        }," ++ [10%N]);
(lit "        {" ++ [10%N]);
(lit "          ""token_type"": 8," ++ [10%N]);
(lit "          ""token_name"": ""COLON""," ++ [10%N]);
(lit "          ""text"": "":""" ++ [10%N]);
(lit "        }," ++ [10%N]);
(lit "        {" ++ [10%N]);
(lit "          ""rule_index"": 8," ++ [10%N]);
(lit "          ""rule_name"": ""regular""," ++ [10%N]);
(lit "          ""children"": [" ++ [10%N]);
(lit "            {" ++ [10%N]);
(lit "              ""token_type"": 21," ++ [10%N]);
(lit "              ""token_name"": ""REGULAR_LITERAL""," ++ [10%N]);
(lit "              ""text"": ""/" ++ [949%N] ++ lit "|epsilon/""" ++ [10%N]);
(lit "            }" ++ [10%N]);
(lit "          ]" ++ [10%N]);
(lit "        }," ++ [10%N]);
(lit "        {" ++ [10%N]);
(lit "          ""token_type"": 10," ++ [10%N]);
(lit "          ""token_name"": ""SEMI""," ++ [10%N]);
(lit "          ""text"": "";""" ++ [10%N]);
(lit "        }" ++ [10%N]);
(lit "      ]" ++ [10%N]);
(lit "    }," ++ [10%N]);
(lit "    {" ++ [10%N]);
(lit "      ""rule_index"": 7," ++ [10%N]);
(lit "      ""rule_name"": ""lexer_rule""," ++ [10%N]);
(lit "      ""children"": [" ++ [10%N]);
(lit "        {" ++ [10%N]);
(lit "          ""token_type"": 6," ++ [10%N]);
(lit "          ""token_name"": ""TOKEN_REF""," ++ [10%N]);
(lit "          ""text"": ""STAR""" ++ [10%N]);
(lit "        }," ++ [10%N]);
(lit "        {" ++ [10%N]);
(lit "          ""token_type"": 8," ++ [10%N]);
(lit "          ""token_name"": ""COLON""," ++ [10%N]);
(lit "          ""text"": "":""" ++ [10%N]);
(lit "        }," ++ [10%N]);
(lit "        {" ++ [10%N]);
(lit "          ""rule_index"": 8," ++ [10%N]);
(lit "          ""rule_name"": ""regular""," ++ [10%N]);
(lit "          ""children"": [" ++ [10%N]);
(lit "            {" ++ [10%N]);
(lit "              ""token_type"": 21," ++ [10%N]);
(lit "              ""token_name"": ""REGULAR_LITERAL""," ++ [10%N]);
(lit "              ""text"": ""/\\*/""" ++ [10%N]);
(lit "            }" ++ [10%N]);
(lit "          ]" ++ [10%N]);
(lit "        }," ++ [10%N]);
(lit "        {" ++ [10%N]);
(lit "          ""token_type"": 10," ++ [10%N]);
(lit "          ""token_name"": ""SEMI""," ++ [10%N]);
(lit "          ""text"": "";""" ++ [10%N]);
(lit "        }" ++ [10%N]);
(lit "      ]" ++ [10%N]);
(lit "    }," ++ [10%N]);
(lit "    {" ++ [10%N]);
(lit "      ""rule_index"": 7," ++ [10%N]);
(lit "      ""rule_name"": ""lexer_rule""," ++ [10%N]);
(lit "      ""children"": [" ++ [10%N]);
(lit "        {" ++ [10%N]);
(lit "          ""token_type"": 6," ++ [10%N]);
(lit "          ""token_name"": ""TOKEN_REF""," ++ [10%N]);
(lit "          ""text"": ""PLUS""" ++ [10%N]);
(lit "        }," ++ [10%N]);
(lit "        {" ++ [10%N]);
(lit "          ""token_type"": 8," ++ [10%N]);
(lit "          ""token_name"": ""COLON""," ++ [10%N]);
(lit "          ""text"": "":""" ++ [10%N]);
(lit "        }," ++ [10%N]);
(lit "        {" ++ [10%N]);
(lit "          ""rule_index"": 8," ++ [10%N]);
(lit "          ""rule_name"": ""regular""," ++ [10%N]);
(lit "          ""children"": [" ++ [10%N]);
(lit "            {" ++ [10%N]);
(lit "              ""token_type"": 21," ++ [10%N]);
(lit "              ""token_name"": ""REGULAR_LITERAL""," ++ [10%N]);
(lit "              ""text"": ""/\\+/""" ++ [10%N]);
(lit "            }" ++ [10%N]);
(lit "          ]" ++ [10%N]);
(lit "        }," ++ [10%N]);
(lit "        {" ++ [10%N]);
(lit "          ""token_type"": 10," ++ [10%N]);
(lit "          ""token_name"": ""SEMI""," ++ [10%N]);
(lit "          ""text"": "";""" ++ [10%N]);
(lit "        }" ++ [10%N]);
(lit "      ]" ++ [10%N]);
(lit "    }," ++ [10%N]);
(lit "    {" ++ [10%N]);
(lit "      ""rule_index"": 7," ++ [10%N]);
(lit "      ""rule_name"": ""lexer_rule""," ++ [10%N]);
(lit "      ""children"": [" ++ [10%N]);
(lit "        {" ++ [10%N]);
(lit "          ""token_type"": 6," ++ [10%N]);
(lit "          ""token_name"": ""TOKEN_REF""," ++ [10%N]);
(lit "          ""text"": ""QUESTION""" ++ [10%N]);
(lit "        }," ++ [10%N]);
(lit "        {" ++ [10%N]);
(lit "          ""token_type"": 8," ++ [10%N]);
(lit "          ""token_name"": ""COLON""," ++ [10%N]);
(lit "          ""text"": "":""" ++ [10%N]);
(lit "        }," ++ [10%N]);
(lit "        {" ++ [10%N]);
(lit "          ""rule_index"": 8," ++ [10%N]);
(lit "          ""rule_name"": ""regular""," ++ [10%N]);
(lit "          ""children"": [" ++ [10%N]);
(lit "            {" ++ [10%N]);
(lit "              ""token_type"": 21," ++ [10%N]);
(lit "              ""token_name"": ""REGULAR_LITERAL""," ++ [10%N]);
(lit "              ""text"": ""/\\?/""" ++ [10%N]);
(lit "            }" ++ [10%N]);
(lit "          ]" ++ [10%N]);
(lit "        }," ++ [10%N]);
(lit "        {" ++ [10%N]);
(lit "          ""token_type"": 10," ++ [10%N]);
(lit "          ""token_name"": ""SEMI""," ++ [10%N]);
(lit "          ""text"": "";""" ++ [10%N]);
(lit "        }" ++ [10%N]);
(lit "      ]" ++ [10%N]);
(lit "    }," ++ [10%N]);
(lit "    {" ++ [10%N]);
(lit "      ""rule_index"": 7," ++ [10%N]);
(lit "      ""rule_name"": ""lexer_rule""," ++ [10%N]);
(lit "      ""children"": [" ++ [10%N]);
(lit "        {" ++ [10%N]);
(lit "          ""token_type"": 6," ++ [10%N]);
(lit "          ""token_name"": ""TOKEN_REF""," ++ [10%N]);
(lit "          ""text"": ""LPAREN""" ++ [10%N]);
(lit "        }," ++ [10%N]);
(lit "        {" ++ [10%N]);
(lit "          ""token_type"": 8," ++ [10%N]);
(lit "          ""token_name"": ""COLON""," ++ [10%N]);
(lit "          ""text"": "":""" ++ [10%N]);
(lit "        }," ++ [10%N]);
(lit "        {" ++ [10%N]);
(lit "          ""rule_index"": 8," ++ [10%N]);
(lit "          ""rule_name"": ""regular""," ++ [10%N]);
(lit "          ""children"": [" ++ [10%N]);
(lit "            {" ++ [10%N]);
(lit "              ""token_type"": 21," ++ [10%N]);
(lit "              ""token_name"": ""REGULAR_LITERAL""," ++ [10%N]);
(lit "              ""text"": ""/\\(/""" ++ [10%N]);
(lit "            }" ++ [10%N]);
(lit "          ]" ++ [10%N]);
(lit "        }," ++ [10%N]);
(lit "        {" ++ [10%N]);
(lit "          ""token_type"": 10," ++ [10%N]);
(lit "          ""token_name"": ""SEMI""," ++ [10%N]);
(lit "          ""text"": "";""" ++ [10%N]);
(lit "        }" ++ [10%N]);
(lit "      ]" ++ [10%N]);
(lit "    }," ++ [10%N]);
(lit "    {" ++ [10%N]);
(lit "      ""rule_index"": 7," ++ [10%N]);
(lit "      ""rule_name"": ""lexer_rule""," ++ [10%N]);
(lit "      ""children"": [" ++ [10%N]);
(lit "        {" ++ [10%N]);
(lit "          ""token_type"": 6," ++ [10%N]);
(lit "          ""token_name"": ""TOKEN_REF""," ++ [10%N]);
(lit "          ""text"": ""RPAREN""" ++ [10%N]);
(lit "        }," ++ [10%N]);
(lit "        {" ++ [10%N]);
(lit "          ""token_type"": 8," ++ [10%N]);
(lit "          ""token_name"": ""COLON""," ++ [10%N]);
(lit "          ""text"": "":""" ++ [10%N]);
(lit "        }," ++ [10%N]);
(lit "        {" ++ [10%N]);
(lit "          ""rule_index"": 8," ++ [10%N]);
(lit "          ""rule_name"": ""regular""," ++ [10%N]);
(lit "          ""children"": [" ++ [10%N]);
(lit "            {" ++ [10%N]);
(lit "              ""token_type"": 21," ++ [10%N]);
(lit "              ""token_name"": ""REGULAR_LITERAL""," ++ [10%N]);
(lit "              ""text"": ""/\\)/""" ++ [10%N]);
(lit "            }" ++ [10%N]);
(lit "          ]" ++ [10%N]);
(lit "        }," ++ [10%N]);
(lit "        {" ++ [10%N]);
(lit "          ""token_type"": 10," ++ [10%N]);
(lit "          ""token_name"": ""SEMI""," ++ [10%N]);
(lit "          ""text"": "";""" ++ [10%N]);
(lit "        }" ++ [10%N]);
(lit "      ]" ++ [10%N]);
(lit "    }," ++ [10%N]);
(lit "    {" ++ [10%N]);
(lit "      ""rule_index"": 7," ++ [10%N]);
(lit "      ""rule_name"": ""lexer_rule""," ++ [10%N]);
(lit "      ""children"": [" ++ [10%N]);
(lit "        {" ++ [10%N]);
(lit "          ""token_type"": 6," ++ [10%N]);
(lit "          ""token_name"": ""TOKEN_REF""," ++ [10%N]);
(lit "          ""text"": ""STRING_LITERAL""" ++ [10%N]);
(lit "        }," ++ [10%N]);
(lit "        {" ++ [10%N]);
(lit "          ""token_type"": 8," ++ [10%N]);
(lit "          ""token_name"": ""COLON""," ++ [10%N]);
(lit "          ""text"": "":""" ++ [10%N]);
(lit "        }," ++ [10%N]);
(lit "        {" ++ [10%N]);
(lit "          ""rule_index"": 8," ++ [10%N]);
(lit "          ""rule_name"": ""regular""," ++ [10%N]);
(lit "          ""children"": [" ++ [10%N]);
(lit "            {" ++ [10%N]);
(lit "              ""token_type"": 21," ++ [10%N]);
(lit "              ""token_name"": ""REGULAR_LITERAL""," ++ [10%N]);
(lit "              ""text"": ""/'([^\\a\\d\\n\\r\\t\\f\\v\\\\']|(\\\\\\\\|\\\\'|\\\\a|\\\\d|\\\\n|\\\\r|\\\\t|\\\\f|\\\\v|\\\\u\\{(0x|0)?[a-f0-9]+\\})|\\d)*'/""" ++ [10%N]);
(lit "            }" ++ [10%N]);
(lit "          ]" ++ [10%N]);
(lit "        }," ++ [10%N]);
(lit "        {" ++ [10%N]);
(lit "          ""token_type"": 10," ++ [10%N]);
(lit "          ""token_name"": ""SEMI""," ++ [10%N]);
(lit "          ""text"": "";""" ++ [10%N]);
(lit "        }" ++ [10%N]);
(lit "      ]" ++ [10%N]);
(lit "    }," ++ [10%N]);
(lit "    {" ++ [10%N]);
(lit "      ""rule_index"": 7," ++ [10%N]);
(lit "      ""rule_name"": ""lexer_rule""," ++ [10%N]);
(lit "      ""children"": [" ++ [10%N]);
(lit "        {" ++ [10%N]);
(lit "          ""token_type"": 6," ++ [10%N]);
(lit "          ""token_name"": ""TOKEN_REF""," ++ [10%N]);
(lit "          ""text"": ""REGULAR_LITERAL""" ++ [10%N]);
(lit "        }," ++ [10%N]);
(lit "        {" ++ [10%N]);
(lit "          ""token_type"": 8," ++ [10%N]);
(lit "          ""token_name"": ""COLON""," ++ [10%N]);
(lit "          ""text"": "":""" ++ [10%N]);
(lit "        }," ++ [10%N]);
(lit "        {" ++ [10%N]);
(lit "          ""rule_index"": 8," ++ [10%N]);
(lit "          ""rule_name"": ""regular""," ++ [10%N]);
(lit "          ""children"": [" ++ [10%N]);
(lit "            {" ++ [10%N]);
(lit "              ""token_type"": 21," ++ [10%N]);
(lit "              ""token_name"": ""REGULAR_LITERAL""," ++ [10%N]);
(lit "              ""text"": ""/\\/([^/]|\\\\\\/)+\\//""" ++ [10%N]);
(lit "            }" ++ [10%N]);
(lit "          ]" ++ [10%N]);
(lit "        }," ++ [10%N]);
(lit "        {" ++ [10%N]);
(lit "          ""token_type"": 10," ++ [10%N]);
(lit "          ""token_name"": ""SEMI""," ++ [10%N]);
(lit "          ""text"": "";""" ++ [10%N]);
(lit "        }" ++ [10%N]);
(lit "      ]" ++ [10%N]);
(lit "    }" ++ [10%N]);
(lit "  ]" ++ [10%N]);
(lit "}")].
