(** ShippedJson.v -- src/tool/syntaxis/syntaxis2.json and the text parsed by src/main.rs, generated by tools/mkshipped.py. *)
From Verif Require Export SerdeAst.

Definition syntaxis2_json : json :=
JObject [
 (lit "rule_index", JU64 0);
 (lit "rule_name", JString (lit "rule_list"));
 (lit "children", JArray [
  JObject [
   (lit "rule_index", JU64 1);
   (lit "rule_name", JString (lit "parser_rule"));
   (lit "children", JArray [
    JObject [
     (lit "token_type", JU64 7);
     (lit "token_name", JString (lit "RULE_REF"));
     (lit "text", JString (lit "rule_list"))];
    JObject [
     (lit "token_type", JU64 8);
     (lit "token_name", JString (lit "COLON"));
     (lit "text", JString (lit ":"))];
    JObject [
     (lit "rule_index", JU64 2);
     (lit "rule_name", JString (lit "block"));
     (lit "children", JArray [
      JObject [
       (lit "rule_index", JU64 3);
       (lit "rule_name", JString (lit "alternative"));
       (lit "children", JArray [
        JObject [
         (lit "rule_index", JU64 5);
         (lit "rule_name", JString (lit "element"));
         (lit "children", JArray [
          JObject [
           (lit "token_type", JU64 16);
           (lit "token_name", JString (lit "LPAREN"));
           (lit "text", JString (lit "("))];
          JObject [
           (lit "rule_index", JU64 2);
           (lit "rule_name", JString (lit "block"));
           (lit "children", JArray [
            JObject [
             (lit "rule_index", JU64 3);
             (lit "rule_name", JString (lit "alternative"));
             (lit "children", JArray [
              JObject [
               (lit "rule_index", JU64 5);
               (lit "rule_name", JString (lit "element"));
               (lit "children", JArray [
                JObject [
                 (lit "token_type", JU64 7);
                 (lit "token_name", JString (lit "RULE_REF"));
                 (lit "text", JString (lit "parser_rule"))]])]])];
            JObject [
             (lit "token_type", JU64 9);
             (lit "token_name", JString (lit "OR"));
             (lit "text", JString (lit "|"))];
            JObject [
             (lit "rule_index", JU64 3);
             (lit "rule_name", JString (lit "alternative"));
             (lit "children", JArray [
              JObject [
               (lit "rule_index", JU64 5);
               (lit "rule_name", JString (lit "element"));
               (lit "children", JArray [
                JObject [
                 (lit "token_type", JU64 7);
                 (lit "token_name", JString (lit "RULE_REF"));
                 (lit "text", JString (lit "lexer_rule"))]])]])]])];
          JObject [
           (lit "token_type", JU64 17);
           (lit "token_name", JString (lit "RPAREN"));
           (lit "text", JString (lit ")"))];
          JObject [
           (lit "rule_index", JU64 6);
           (lit "rule_name", JString (lit "ebnf_suffix"));
           (lit "children", JArray [
            JObject [
             (lit "token_type", JU64 11);
             (lit "token_name", JString (lit "STAR"));
             (lit "text", JString (lit "*"))]])]])]])]])];
    JObject [
     (lit "token_type", JU64 10);
     (lit "token_name", JString (lit "SEMI"));
     (lit "text", JString (lit ";"))]])];
  JObject [
   (lit "rule_index", JU64 1);
   (lit "rule_name", JString (lit "parser_rule"));
   (lit "children", JArray [
    JObject [
     (lit "token_type", JU64 7);
     (lit "token_name", JString (lit "RULE_REF"));
     (lit "text", JString (lit "parser_rule"))];
    JObject [
     (lit "token_type", JU64 8);
     (lit "token_name", JString (lit "COLON"));
     (lit "text", JString (lit ":"))];
    JObject [
     (lit "rule_index", JU64 2);
     (lit "rule_name", JString (lit "block"));
     (lit "children", JArray [
      JObject [
       (lit "rule_index", JU64 3);
       (lit "rule_name", JString (lit "alternative"));
       (lit "children", JArray [
        JObject [
         (lit "rule_index", JU64 5);
         (lit "rule_name", JString (lit "element"));
         (lit "children", JArray [
          JObject [
           (lit "token_type", JU64 6);
           (lit "token_name", JString (lit "TOKEN_REF"));
           (lit "text", JString (lit "RULE_REF"))]])];
        JObject [
         (lit "rule_index", JU64 5);
         (lit "rule_name", JString (lit "element"));
         (lit "children", JArray [
          JObject [
           (lit "token_type", JU64 6);
           (lit "token_name", JString (lit "TOKEN_REF"));
           (lit "text", JString (lit "COLON"))]])];
        JObject [
         (lit "rule_index", JU64 5);
         (lit "rule_name", JString (lit "element"));
         (lit "children", JArray [
          JObject [
           (lit "token_type", JU64 7);
           (lit "token_name", JString (lit "RULE_REF"));
           (lit "text", JString (lit "block"))]])];
        JObject [
         (lit "rule_index", JU64 5);
         (lit "rule_name", JString (lit "element"));
         (lit "children", JArray [
          JObject [
           (lit "token_type", JU64 6);
           (lit "token_name", JString (lit "TOKEN_REF"));
           (lit "text", JString (lit "SEMI"))]])]])]])];
    JObject [
     (lit "token_type", JU64 10);
     (lit "token_name", JString (lit "SEMI"));
     (lit "text", JString (lit ";"))]])];
  JObject [
   (lit "rule_index", JU64 1);
   (lit "rule_name", JString (lit "parser_rule"));
   (lit "children", JArray [
    JObject [
     (lit "token_type", JU64 7);
     (lit "token_name", JString (lit "RULE_REF"));
     (lit "text", JString (lit "block"))];
    JObject [
     (lit "token_type", JU64 8);
     (lit "token_name", JString (lit "COLON"));
     (lit "text", JString (lit ":"))];
    JObject [
     (lit "rule_index", JU64 2);
     (lit "rule_name", JString (lit "block"));
     (lit "children", JArray [
      JObject [
       (lit "rule_index", JU64 3);
       (lit "rule_name", JString (lit "alternative"));
       (lit "children", JArray [
        JObject [
         (lit "rule_index", JU64 5);
         (lit "rule_name", JString (lit "element"));
         (lit "children", JArray [
          JObject [
           (lit "token_type", JU64 7);
           (lit "token_name", JString (lit "RULE_REF"));
           (lit "text", JString (lit "alternative"))]])];
        JObject [
         (lit "rule_index", JU64 5);
         (lit "rule_name", JString (lit "element"));
         (lit "children", JArray [
          JObject [
           (lit "token_type", JU64 16);
           (lit "token_name", JString (lit "LPAREN"));
           (lit "text", JString (lit "("))];
          JObject [
           (lit "rule_index", JU64 2);
           (lit "rule_name", JString (lit "block"));
           (lit "children", JArray [
            JObject [
             (lit "rule_index", JU64 3);
             (lit "rule_name", JString (lit "alternative"));
             (lit "children", JArray [
              JObject [
               (lit "rule_index", JU64 5);
               (lit "rule_name", JString (lit "element"));
               (lit "children", JArray [
                JObject [
                 (lit "token_type", JU64 6);
                 (lit "token_name", JString (lit "TOKEN_REF"));
                 (lit "text", JString (lit "OR"))]])];
              JObject [
               (lit "rule_index", JU64 5);
               (lit "rule_name", JString (lit "element"));
               (lit "children", JArray [
                JObject [
                 (lit "token_type", JU64 7);
                 (lit "token_name", JString (lit "RULE_REF"));
                 (lit "text", JString (lit "alternative"))]])]])]])];
          JObject [
           (lit "token_type", JU64 17);
           (lit "token_name", JString (lit "RPAREN"));
           (lit "text", JString (lit ")"))];
          JObject [
           (lit "rule_index", JU64 6);
           (lit "rule_name", JString (lit "ebnf_suffix"));
           (lit "children", JArray [
            JObject [
             (lit "token_type", JU64 11);
             (lit "token_name", JString (lit "STAR"));
             (lit "text", JString (lit "*"))]])]])]])]])];
    JObject [
     (lit "token_type", JU64 10);
     (lit "token_name", JString (lit "SEMI"));
     (lit "text", JString (lit ";"))]])];
  JObject [
   (lit "rule_index", JU64 1);
   (lit "rule_name", JString (lit "parser_rule"));
   (lit "children", JArray [
    JObject [
     (lit "token_type", JU64 7);
     (lit "token_name", JString (lit "RULE_REF"));
     (lit "text", JString (lit "alternative"))];
    JObject [
     (lit "token_type", JU64 8);
     (lit "token_name", JString (lit "COLON"));
     (lit "text", JString (lit ":"))];
    JObject [
     (lit "rule_index", JU64 2);
     (lit "rule_name", JString (lit "block"));
     (lit "children", JArray [
      JObject [
       (lit "rule_index", JU64 3);
       (lit "rule_name", JString (lit "alternative"));
       (lit "children", JArray [
        JObject [
         (lit "rule_index", JU64 5);
         (lit "rule_name", JString (lit "element"));
         (lit "children", JArray [
          JObject [
           (lit "token_type", JU64 7);
           (lit "token_name", JString (lit "RULE_REF"));
           (lit "text", JString (lit "element"))]])];
        JObject [
         (lit "rule_index", JU64 5);
         (lit "rule_name", JString (lit "element"));
         (lit "children", JArray [
          JObject [
           (lit "token_type", JU64 7);
           (lit "token_name", JString (lit "RULE_REF"));
           (lit "text", JString (lit "element"))];
          JObject [
           (lit "rule_index", JU64 6);
           (lit "rule_name", JString (lit "ebnf_suffix"));
           (lit "children", JArray [
            JObject [
             (lit "token_type", JU64 11);
             (lit "token_name", JString (lit "STAR"));
             (lit "text", JString (lit "*"))]])]])]])];
      JObject [
       (lit "token_type", JU64 9);
       (lit "token_name", JString (lit "OR"));
       (lit "text", JString (lit "|"))];
      JObject [
       (lit "rule_index", JU64 3);
       (lit "rule_name", JString (lit "alternative"));
       (lit "children", JArray [
        JObject [
         (lit "rule_index", JU64 5);
         (lit "rule_name", JString (lit "element"));
         (lit "children", JArray [
          JObject [
           (lit "token_type", JU64 7);
           (lit "token_name", JString (lit "RULE_REF"));
           (lit "text", JString (lit "epsilon"))]])]])]])];
    JObject [
     (lit "token_type", JU64 10);
     (lit "token_name", JString (lit "SEMI"));
     (lit "text", JString (lit ";"))]])];
  JObject [
   (lit "rule_index", JU64 1);
   (lit "rule_name", JString (lit "parser_rule"));
   (lit "children", JArray [
    JObject [
     (lit "token_type", JU64 7);
     (lit "token_name", JString (lit "RULE_REF"));
     (lit "text", JString (lit "epsilon"))];
    JObject [
     (lit "token_type", JU64 8);
     (lit "token_name", JString (lit "COLON"));
     (lit "text", JString (lit ":"))];
    JObject [
     (lit "rule_index", JU64 2);
     (lit "rule_name", JString (lit "block"));
     (lit "children", JArray [
      JObject [
       (lit "rule_index", JU64 3);
       (lit "rule_name", JString (lit "alternative"));
       (lit "children", JArray [
        JObject [
         (lit "rule_index", JU64 5);
         (lit "rule_name", JString (lit "element"));
         (lit "children", JArray [
          JObject [
           (lit "token_type", JU64 6);
           (lit "token_name", JString (lit "TOKEN_REF"));
           (lit "text", JString (lit "EPSILON"))]])]])]])];
    JObject [
     (lit "token_type", JU64 10);
     (lit "token_name", JString (lit "SEMI"));
     (lit "text", JString (lit ";"))]])];
  JObject [
   (lit "rule_index", JU64 1);
   (lit "rule_name", JString (lit "parser_rule"));
   (lit "children", JArray [
    JObject [
     (lit "token_type", JU64 7);
     (lit "token_name", JString (lit "RULE_REF"));
     (lit "text", JString (lit "element"))];
    JObject [
     (lit "token_type", JU64 8);
     (lit "token_name", JString (lit "COLON"));
     (lit "text", JString (lit ":"))];
    JObject [
     (lit "rule_index", JU64 2);
     (lit "rule_name", JString (lit "block"));
     (lit "children", JArray [
      JObject [
       (lit "rule_index", JU64 3);
       (lit "rule_name", JString (lit "alternative"));
       (lit "children", JArray [
        JObject [
         (lit "rule_index", JU64 5);
         (lit "rule_name", JString (lit "element"));
         (lit "children", JArray [
          JObject [
           (lit "token_type", JU64 16);
           (lit "token_name", JString (lit "LPAREN"));
           (lit "text", JString (lit "("))];
          JObject [
           (lit "rule_index", JU64 2);
           (lit "rule_name", JString (lit "block"));
           (lit "children", JArray [
            JObject [
             (lit "rule_index", JU64 3);
             (lit "rule_name", JString (lit "alternative"));
             (lit "children", JArray [
              JObject [
               (lit "rule_index", JU64 5);
               (lit "rule_name", JString (lit "element"));
               (lit "children", JArray [
                JObject [
                 (lit "token_type", JU64 6);
                 (lit "token_name", JString (lit "TOKEN_REF"));
                 (lit "text", JString (lit "TOKEN_REF"))]])]])];
            JObject [
             (lit "token_type", JU64 9);
             (lit "token_name", JString (lit "OR"));
             (lit "text", JString (lit "|"))];
            JObject [
             (lit "rule_index", JU64 3);
             (lit "rule_name", JString (lit "alternative"));
             (lit "children", JArray [
              JObject [
               (lit "rule_index", JU64 5);
               (lit "rule_name", JString (lit "element"));
               (lit "children", JArray [
                JObject [
                 (lit "token_type", JU64 6);
                 (lit "token_name", JString (lit "TOKEN_REF"));
                 (lit "text", JString (lit "STRING_LITERAL"))]])]])];
            JObject [
             (lit "token_type", JU64 9);
             (lit "token_name", JString (lit "OR"));
             (lit "text", JString (lit "|"))];
            JObject [
             (lit "rule_index", JU64 3);
             (lit "rule_name", JString (lit "alternative"));
             (lit "children", JArray [
              JObject [
               (lit "rule_index", JU64 5);
               (lit "rule_name", JString (lit "element"));
               (lit "children", JArray [
                JObject [
                 (lit "token_type", JU64 6);
                 (lit "token_name", JString (lit "TOKEN_REF"));
                 (lit "text", JString (lit "RULE_REF"))]])]])];
            JObject [
             (lit "token_type", JU64 9);
             (lit "token_name", JString (lit "OR"));
             (lit "text", JString (lit "|"))];
            JObject [
             (lit "rule_index", JU64 3);
             (lit "rule_name", JString (lit "alternative"));
             (lit "children", JArray [
              JObject [
               (lit "rule_index", JU64 5);
               (lit "rule_name", JString (lit "element"));
               (lit "children", JArray [
                JObject [
                 (lit "token_type", JU64 6);
                 (lit "token_name", JString (lit "TOKEN_REF"));
                 (lit "text", JString (lit "LPAREN"))]])];
              JObject [
               (lit "rule_index", JU64 5);
               (lit "rule_name", JString (lit "element"));
               (lit "children", JArray [
                JObject [
                 (lit "token_type", JU64 7);
                 (lit "token_name", JString (lit "RULE_REF"));
                 (lit "text", JString (lit "block"))]])];
              JObject [
               (lit "rule_index", JU64 5);
               (lit "rule_name", JString (lit "element"));
               (lit "children", JArray [
                JObject [
                 (lit "token_type", JU64 6);
                 (lit "token_name", JString (lit "TOKEN_REF"));
                 (lit "text", JString (lit "RPAREN"))]])]])]])];
          JObject [
           (lit "token_type", JU64 17);
           (lit "token_name", JString (lit "RPAREN"));
           (lit "text", JString (lit ")"))]])];
        JObject [
         (lit "rule_index", JU64 5);
         (lit "rule_name", JString (lit "element"));
         (lit "children", JArray [
          JObject [
           (lit "token_type", JU64 7);
           (lit "token_name", JString (lit "RULE_REF"));
           (lit "text", JString (lit "ebnf_suffix"))];
          JObject [
           (lit "rule_index", JU64 6);
           (lit "rule_name", JString (lit "ebnf_suffix"));
           (lit "children", JArray [
            JObject [
             (lit "token_type", JU64 13);
             (lit "token_name", JString (lit "QUESTION"));
             (lit "text", JString (lit "?"))]])]])]])]])];
    JObject [
     (lit "token_type", JU64 10);
     (lit "token_name", JString (lit "SEMI"));
     (lit "text", JString (lit ";"))]])];
  JObject [
   (lit "rule_index", JU64 1);
   (lit "rule_name", JString (lit "parser_rule"));
   (lit "children", JArray [
    JObject [
     (lit "token_type", JU64 7);
     (lit "token_name", JString (lit "RULE_REF"));
     (lit "text", JString (lit "ebnf_suffix"))];
    JObject [
     (lit "token_type", JU64 8);
     (lit "token_name", JString (lit "COLON"));
     (lit "text", JString (lit ":"))];
    JObject [
     (lit "rule_index", JU64 2);
     (lit "rule_name", JString (lit "block"));
     (lit "children", JArray [
      JObject [
       (lit "rule_index", JU64 3);
       (lit "rule_name", JString (lit "alternative"));
       (lit "children", JArray [
        JObject [
         (lit "rule_index", JU64 5);
         (lit "rule_name", JString (lit "element"));
         (lit "children", JArray [
          JObject [
           (lit "token_type", JU64 16);
           (lit "token_name", JString (lit "LPAREN"));
           (lit "text", JString (lit "("))];
          JObject [
           (lit "rule_index", JU64 2);
           (lit "rule_name", JString (lit "block"));
           (lit "children", JArray [
            JObject [
             (lit "rule_index", JU64 3);
             (lit "rule_name", JString (lit "alternative"));
             (lit "children", JArray [
              JObject [
               (lit "rule_index", JU64 5);
               (lit "rule_name", JString (lit "element"));
               (lit "children", JArray [
                JObject [
                 (lit "token_type", JU64 6);
                 (lit "token_name", JString (lit "TOKEN_REF"));
                 (lit "text", JString (lit "STAR"))]])]])];
            JObject [
             (lit "token_type", JU64 9);
             (lit "token_name", JString (lit "OR"));
             (lit "text", JString (lit "|"))];
            JObject [
             (lit "rule_index", JU64 3);
             (lit "rule_name", JString (lit "alternative"));
             (lit "children", JArray [
              JObject [
               (lit "rule_index", JU64 5);
               (lit "rule_name", JString (lit "element"));
               (lit "children", JArray [
                JObject [
                 (lit "token_type", JU64 6);
                 (lit "token_name", JString (lit "TOKEN_REF"));
                 (lit "text", JString (lit "PLUS"))]])]])];
            JObject [
             (lit "token_type", JU64 9);
             (lit "token_name", JString (lit "OR"));
             (lit "text", JString (lit "|"))];
            JObject [
             (lit "rule_index", JU64 3);
             (lit "rule_name", JString (lit "alternative"));
             (lit "children", JArray [
              JObject [
               (lit "rule_index", JU64 5);
               (lit "rule_name", JString (lit "element"));
               (lit "children", JArray [
                JObject [
                 (lit "token_type", JU64 6);
                 (lit "token_name", JString (lit "TOKEN_REF"));
                 (lit "text", JString (lit "QUESTION"))]])]])]])];
          JObject [
           (lit "token_type", JU64 17);
           (lit "token_name", JString (lit "RPAREN"));
           (lit "text", JString (lit ")"))]])];
        JObject [
         (lit "rule_index", JU64 5);
         (lit "rule_name", JString (lit "element"));
         (lit "children", JArray [
          JObject [
           (lit "token_type", JU64 6);
           (lit "token_name", JString (lit "TOKEN_REF"));
           (lit "text", JString (lit "QUESTION"))];
          JObject [
           (lit "rule_index", JU64 6);
           (lit "rule_name", JString (lit "ebnf_suffix"));
           (lit "children", JArray [
            JObject [
             (lit "token_type", JU64 13);
             (lit "token_name", JString (lit "QUESTION"));
             (lit "text", JString (lit "?"))]])]])]])]])];
    JObject [
     (lit "token_type", JU64 10);
     (lit "token_name", JString (lit "SEMI"));
     (lit "text", JString (lit ";"))]])];
  JObject [
   (lit "rule_index", JU64 1);
   (lit "rule_name", JString (lit "parser_rule"));
   (lit "children", JArray [
    JObject [
     (lit "token_type", JU64 7);
     (lit "token_name", JString (lit "RULE_REF"));
     (lit "text", JString (lit "lexer_rule"))];
    JObject [
     (lit "token_type", JU64 8);
     (lit "token_name", JString (lit "COLON"));
     (lit "text", JString (lit ":"))];
    JObject [
     (lit "rule_index", JU64 2);
     (lit "rule_name", JString (lit "block"));
     (lit "children", JArray [
      JObject [
       (lit "rule_index", JU64 3);
       (lit "rule_name", JString (lit "alternative"));
       (lit "children", JArray [
        JObject [
         (lit "rule_index", JU64 5);
         (lit "rule_name", JString (lit "element"));
         (lit "children", JArray [
          JObject [
           (lit "token_type", JU64 6);
           (lit "token_name", JString (lit "TOKEN_REF"));
           (lit "text", JString (lit "TOKEN_REF"))]])];
        JObject [
         (lit "rule_index", JU64 5);
         (lit "rule_name", JString (lit "element"));
         (lit "children", JArray [
          JObject [
           (lit "token_type", JU64 6);
           (lit "token_name", JString (lit "TOKEN_REF"));
           (lit "text", JString (lit "COLON"))]])];
        JObject [
         (lit "rule_index", JU64 5);
         (lit "rule_name", JString (lit "element"));
         (lit "children", JArray [
          JObject [
           (lit "token_type", JU64 7);
           (lit "token_name", JString (lit "RULE_REF"));
           (lit "text", JString (lit "regular"))]])];
        JObject [
         (lit "rule_index", JU64 5);
         (lit "rule_name", JString (lit "element"));
         (lit "children", JArray [
          JObject [
           (lit "token_type", JU64 6);
           (lit "token_name", JString (lit "TOKEN_REF"));
           (lit "text", JString (lit "SEMI"))]])]])]])];
    JObject [
     (lit "token_type", JU64 10);
     (lit "token_name", JString (lit "SEMI"));
     (lit "text", JString (lit ";"))]])];
  JObject [
   (lit "rule_index", JU64 1);
   (lit "rule_name", JString (lit "parser_rule"));
   (lit "children", JArray [
    JObject [
     (lit "token_type", JU64 7);
     (lit "token_name", JString (lit "RULE_REF"));
     (lit "text", JString (lit "regular"))];
    JObject [
     (lit "token_type", JU64 8);
     (lit "token_name", JString (lit "COLON"));
     (lit "text", JString (lit ":"))];
    JObject [
     (lit "rule_index", JU64 2);
     (lit "rule_name", JString (lit "block"));
     (lit "children", JArray [
      JObject [
       (lit "rule_index", JU64 3);
       (lit "rule_name", JString (lit "alternative"));
       (lit "children", JArray [
        JObject [
         (lit "rule_index", JU64 5);
         (lit "rule_name", JString (lit "element"));
         (lit "children", JArray [
          JObject [
           (lit "token_type", JU64 6);
           (lit "token_name", JString (lit "TOKEN_REF"));
           (lit "text", JString (lit "REGULAR_LITERAL"))]])]])]])];
    JObject [
     (lit "token_type", JU64 10);
     (lit "token_name", JString (lit "SEMI"));
     (lit "text", JString (lit ";"))]])];
  JObject [
   (lit "rule_index", JU64 7);
   (lit "rule_name", JString (lit "lexer_rule"));
   (lit "children", JArray [
    JObject [
     (lit "token_type", JU64 6);
     (lit "token_name", JString (lit "TOKEN_REF"));
     (lit "text", JString (lit "RULE_REF"))];
    JObject [
     (lit "token_type", JU64 8);
     (lit "token_name", JString (lit "COLON"));
     (lit "text", JString (lit ":"))];
    JObject [
     (lit "rule_index", JU64 8);
     (lit "rule_name", JString (lit "regular"));
     (lit "children", JArray [
      JObject [
       (lit "token_type", JU64 21);
       (lit "token_name", JString (lit "REGULAR_LITERAL"));
       (lit "text", JString (lit "/[a-z][a-zA-Z0-9_]+/"))]])];
    JObject [
     (lit "token_type", JU64 10);
     (lit "token_name", JString (lit "SEMI"));
     (lit "text", JString (lit ";"))]])];
  JObject [
   (lit "rule_index", JU64 7);
   (lit "rule_name", JString (lit "lexer_rule"));
   (lit "children", JArray [
    JObject [
     (lit "token_type", JU64 6);
     (lit "token_name", JString (lit "TOKEN_REF"));
     (lit "text", JString (lit "TOKEN_REF"))];
    JObject [
     (lit "token_type", JU64 8);
     (lit "token_name", JString (lit "COLON"));
     (lit "text", JString (lit ":"))];
    JObject [
     (lit "rule_index", JU64 8);
     (lit "rule_name", JString (lit "regular"));
     (lit "children", JArray [
      JObject [
       (lit "token_type", JU64 21);
       (lit "token_name", JString (lit "REGULAR_LITERAL"));
       (lit "text", JString (lit "/[A-Z][a-zA-Z0-9_]+/"))]])];
    JObject [
     (lit "token_type", JU64 10);
     (lit "token_name", JString (lit "SEMI"));
     (lit "text", JString (lit ";"))]])];
  JObject [
   (lit "rule_index", JU64 7);
   (lit "rule_name", JString (lit "lexer_rule"));
   (lit "children", JArray [
    JObject [
     (lit "token_type", JU64 6);
     (lit "token_name", JString (lit "TOKEN_REF"));
     (lit "text", JString (lit "COLON"))];
    JObject [
     (lit "token_type", JU64 8);
     (lit "token_name", JString (lit "COLON"));
     (lit "text", JString (lit ":"))];
    JObject [
     (lit "rule_index", JU64 8);
     (lit "rule_name", JString (lit "regular"));
     (lit "children", JArray [
      JObject [
       (lit "token_type", JU64 21);
       (lit "token_name", JString (lit "REGULAR_LITERAL"));
       (lit "text", JString (lit "/::=|:=|->|=>|:|=/"))]])];
    JObject [
     (lit "token_type", JU64 10);
     (lit "token_name", JString (lit "SEMI"));
     (lit "text", JString (lit ";"))]])];
  JObject [
   (lit "rule_index", JU64 7);
   (lit "rule_name", JString (lit "lexer_rule"));
   (lit "children", JArray [
    JObject [
     (lit "token_type", JU64 6);
     (lit "token_name", JString (lit "TOKEN_REF"));
     (lit "text", JString (lit "SEMI"))];
    JObject [
     (lit "token_type", JU64 8);
     (lit "token_name", JString (lit "COLON"));
     (lit "text", JString (lit ":"))];
    JObject [
     (lit "rule_index", JU64 8);
     (lit "rule_name", JString (lit "regular"));
     (lit "children", JArray [
      JObject [
       (lit "token_type", JU64 21);
       (lit "token_name", JString (lit "REGULAR_LITERAL"));
       (lit "text", JString (lit "/;/"))]])];
    JObject [
     (lit "token_type", JU64 10);
     (lit "token_name", JString (lit "SEMI"));
     (lit "text", JString (lit ";"))]])];
  JObject [
   (lit "rule_index", JU64 7);
   (lit "rule_name", JString (lit "lexer_rule"));
   (lit "children", JArray [
    JObject [
     (lit "token_type", JU64 6);
     (lit "token_name", JString (lit "TOKEN_REF"));
     (lit "text", JString (lit "OR"))];
    JObject [
     (lit "token_type", JU64 8);
     (lit "token_name", JString (lit "COLON"));
     (lit "text", JString (lit ":"))];
    JObject [
     (lit "rule_index", JU64 8);
     (lit "rule_name", JString (lit "regular"));
     (lit "children", JArray [
      JObject [
       (lit "token_type", JU64 21);
       (lit "token_name", JString (lit "REGULAR_LITERAL"));
       (lit "text", JString (lit "/\|/"))]])];
    JObject [
     (lit "token_type", JU64 10);
     (lit "token_name", JString (lit "SEMI"));
     (lit "text", JString (lit ";"))]])];
  JObject [
   (lit "rule_index", JU64 7);
   (lit "rule_name", JString (lit "lexer_rule"));
   (lit "children", JArray [
    JObject [
     (lit "token_type", JU64 6);
     (lit "token_name", JString (lit "TOKEN_REF"));
     (lit "text", JString (lit "EPSILON"))];
    JObject [
     (lit "token_type", JU64 8);
     (lit "token_name", JString (lit "COLON"));
     (lit "text", JString (lit ":"))];
    JObject [
     (lit "rule_index", JU64 8);
     (lit "rule_name", JString (lit "regular"));
     (lit "children", JArray [
      JObject [
       (lit "token_type", JU64 21);
       (lit "token_name", JString (lit "REGULAR_LITERAL"));
       (lit "text", JString ((lit "/" ++ [949%N] ++ lit "|epsilon/")))]])];
    JObject [
     (lit "token_type", JU64 10);
     (lit "token_name", JString (lit "SEMI"));
     (lit "text", JString (lit ";"))]])];
  JObject [
   (lit "rule_index", JU64 7);
   (lit "rule_name", JString (lit "lexer_rule"));
   (lit "children", JArray [
    JObject [
     (lit "token_type", JU64 6);
     (lit "token_name", JString (lit "TOKEN_REF"));
     (lit "text", JString (lit "STAR"))];
    JObject [
     (lit "token_type", JU64 8);
     (lit "token_name", JString (lit "COLON"));
     (lit "text", JString (lit ":"))];
    JObject [
     (lit "rule_index", JU64 8);
     (lit "rule_name", JString (lit "regular"));
     (lit "children", JArray [
      JObject [
       (lit "token_type", JU64 21);
       (lit "token_name", JString (lit "REGULAR_LITERAL"));
       (lit "text", JString (lit "/\*/"))]])];
    JObject [
     (lit "token_type", JU64 10);
     (lit "token_name", JString (lit "SEMI"));
     (lit "text", JString (lit ";"))]])];
  JObject [
   (lit "rule_index", JU64 7);
   (lit "rule_name", JString (lit "lexer_rule"));
   (lit "children", JArray [
    JObject [
     (lit "token_type", JU64 6);
     (lit "token_name", JString (lit "TOKEN_REF"));
     (lit "text", JString (lit "PLUS"))];
    JObject [
     (lit "token_type", JU64 8);
     (lit "token_name", JString (lit "COLON"));
     (lit "text", JString (lit ":"))];
    JObject [
     (lit "rule_index", JU64 8);
     (lit "rule_name", JString (lit "regular"));
     (lit "children", JArray [
      JObject [
       (lit "token_type", JU64 21);
       (lit "token_name", JString (lit "REGULAR_LITERAL"));
       (lit "text", JString (lit "/\+/"))]])];
    JObject [
     (lit "token_type", JU64 10);
     (lit "token_name", JString (lit "SEMI"));
     (lit "text", JString (lit ";"))]])];
  JObject [
   (lit "rule_index", JU64 7);
   (lit "rule_name", JString (lit "lexer_rule"));
   (lit "children", JArray [
    JObject [
     (lit "token_type", JU64 6);
     (lit "token_name", JString (lit "TOKEN_REF"));
     (lit "text", JString (lit "QUESTION"))];
    JObject [
     (lit "token_type", JU64 8);
     (lit "token_name", JString (lit "COLON"));
     (lit "text", JString (lit ":"))];
    JObject [
     (lit "rule_index", JU64 8);
     (lit "rule_name", JString (lit "regular"));
     (lit "children", JArray [
      JObject [
       (lit "token_type", JU64 21);
       (lit "token_name", JString (lit "REGULAR_LITERAL"));
       (lit "text", JString (lit "/\?/"))]])];
    JObject [
     (lit "token_type", JU64 10);
     (lit "token_name", JString (lit "SEMI"));
     (lit "text", JString (lit ";"))]])];
  JObject [
   (lit "rule_index", JU64 7);
   (lit "rule_name", JString (lit "lexer_rule"));
   (lit "children", JArray [
    JObject [
     (lit "token_type", JU64 6);
     (lit "token_name", JString (lit "TOKEN_REF"));
     (lit "text", JString (lit "LPAREN"))];
    JObject [
     (lit "token_type", JU64 8);
     (lit "token_name", JString (lit "COLON"));
     (lit "text", JString (lit ":"))];
    JObject [
     (lit "rule_index", JU64 8);
     (lit "rule_name", JString (lit "regular"));
     (lit "children", JArray [
      JObject [
       (lit "token_type", JU64 21);
       (lit "token_name", JString (lit "REGULAR_LITERAL"));
       (lit "text", JString (lit "/\(/"))]])];
    JObject [
     (lit "token_type", JU64 10);
     (lit "token_name", JString (lit "SEMI"));
     (lit "text", JString (lit ";"))]])];
  JObject [
   (lit "rule_index", JU64 7);
   (lit "rule_name", JString (lit "lexer_rule"));
   (lit "children", JArray [
    JObject [
     (lit "token_type", JU64 6);
     (lit "token_name", JString (lit "TOKEN_REF"));
     (lit "text", JString (lit "RPAREN"))];
    JObject [
     (lit "token_type", JU64 8);
     (lit "token_name", JString (lit "COLON"));
     (lit "text", JString (lit ":"))];
    JObject [
     (lit "rule_index", JU64 8);
     (lit "rule_name", JString (lit "regular"));
     (lit "children", JArray [
      JObject [
       (lit "token_type", JU64 21);
       (lit "token_name", JString (lit "REGULAR_LITERAL"));
       (lit "text", JString (lit "/\)/"))]])];
    JObject [
     (lit "token_type", JU64 10);
     (lit "token_name", JString (lit "SEMI"));
     (lit "text", JString (lit ";"))]])];
  JObject [
   (lit "rule_index", JU64 7);
   (lit "rule_name", JString (lit "lexer_rule"));
   (lit "children", JArray [
    JObject [
     (lit "token_type", JU64 6);
     (lit "token_name", JString (lit "TOKEN_REF"));
     (lit "text", JString (lit "STRING_LITERAL"))];
    JObject [
     (lit "token_type", JU64 8);
     (lit "token_name", JString (lit "COLON"));
     (lit "text", JString (lit ":"))];
    JObject [
     (lit "rule_index", JU64 8);
     (lit "rule_name", JString (lit "regular"));
     (lit "children", JArray [
      JObject [
       (lit "token_type", JU64 21);
       (lit "token_name", JString (lit "REGULAR_LITERAL"));
       (lit "text", JString (lit "/'([^\a\d\n\r\t\f\v\\']|(\\\\|\\'|\\a|\\d|\\n|\\r|\\t|\\f|\\v|\\u\{(0x|0)?[a-f0-9]+\})|\d)*'/"))]])];
    JObject [
     (lit "token_type", JU64 10);
     (lit "token_name", JString (lit "SEMI"));
     (lit "text", JString (lit ";"))]])];
  JObject [
   (lit "rule_index", JU64 7);
   (lit "rule_name", JString (lit "lexer_rule"));
   (lit "children", JArray [
    JObject [
     (lit "token_type", JU64 6);
     (lit "token_name", JString (lit "TOKEN_REF"));
     (lit "text", JString (lit "REGULAR_LITERAL"))];
    JObject [
     (lit "token_type", JU64 8);
     (lit "token_name", JString (lit "COLON"));
     (lit "text", JString (lit ":"))];
    JObject [
     (lit "rule_index", JU64 8);
     (lit "rule_name", JString (lit "regular"));
     (lit "children", JArray [
      JObject [
       (lit "token_type", JU64 21);
       (lit "token_name", JString (lit "REGULAR_LITERAL"));
       (lit "text", JString (lit "/\/(\\\/|[^\/])+\//"))]])];
    JObject [
     (lit "token_type", JU64 10);
     (lit "token_name", JString (lit "SEMI"));
     (lit "text", JString (lit ";"))]])];
  JObject [
   (lit "rule_index", JU64 7);
   (lit "rule_name", JString (lit "lexer_rule"));
   (lit "children", JArray [
    JObject [
     (lit "token_type", JU64 6);
     (lit "token_name", JString (lit "TOKEN_REF"));
     (lit "text", JString (lit "WHITE_SPACE"))];
    JObject [
     (lit "token_type", JU64 8);
     (lit "token_name", JString (lit "COLON"));
     (lit "text", JString (lit ":"))];
    JObject [
     (lit "rule_index", JU64 8);
     (lit "rule_name", JString (lit "regular"));
     (lit "children", JArray [
      JObject [
       (lit "token_type", JU64 21);
       (lit "token_name", JString (lit "REGULAR_LITERAL"));
       (lit "text", JString (lit "/[ \r\n\t\f]+/"))]])];
    JObject [
     (lit "token_type", JU64 10);
     (lit "token_name", JString (lit "SEMI"));
     (lit "text", JString (lit ";"))]])]])].

(** The text that main parses -- main.rs:43-78 *)
Definition main_input : str :=
concat [
[10%N];
(lit "  rule_list: (parser_rule | lexer_rule)*;" ++ [10%N]);
[10%N];
(lit "  parser_rule: RULE_REF COLON block SEMI;" ++ [10%N]);
(lit "  block: alternative (OR alternative)*;" ++ [10%N]);
[10%N];
(lit "  alternative: element+ | epsilon;" ++ [10%N]);
(lit "  epsilon: EPSILON;" ++ [10%N]);
(lit "  element: (" ++ [10%N]);
(lit "      TOKEN_REF" ++ [10%N]);
(lit "      | STRING_LITERAL" ++ [10%N]);
(lit "      | RULE_REF" ++ [10%N]);
(lit "      | LPAREN block RPAREN" ++ [10%N]);
(lit "    ) ebnf_suffix?;" ++ [10%N]);
[10%N];
(lit "  ebnf_suffix: (STAR | PLUS | QUESTION) QUESTION?;" ++ [10%N]);
[10%N];
[10%N];
(lit "  lexer_rule: TOKEN_REF COLON regular SEMI;" ++ [10%N]);
(lit "  regular: REGULAR_LITERAL;" ++ [10%N]);
[10%N];
(lit "  RULE_REF: /[a-z][a-zA-Z0-9_]+/;" ++ [10%N]);
(lit "  TOKEN_REF: /[A-Z][a-zA-Z0-9_]+/;" ++ [10%N]);
(lit "  COLON: /::=|:=|->|=>|:|=/;" ++ [10%N]);
(lit "  SEMI: /;/;" ++ [10%N]);
(lit "  OR: /\|/;" ++ [10%N]);
(lit "  EPSILON: /" ++ [949%N] ++ lit "|epsilon/;" ++ [10%N]);
(lit "  STAR: /\* /;" ++ [10%N]);
(lit "  PLUS: /\+/;" ++ [10%N]);
(lit "  QUESTION: /\?/;" ++ [10%N]);
(lit "  LPAREN: /\(/;" ++ [10%N]);
(lit "  RPAREN: /\)/;" ++ [10%N]);
(lit "  STRING_LITERAL: /""((\\\\|\\""|\\a|\\d|\\n|\\r|\\t|\\f|\\v|\\u\{(0x|0)?[a-f0-9]+\})|\d|[^\a\d\n\r\t\f\v\\""])*""/;" ++ [10%N]);
(lit "  REGULAR_LITERAL: /\/(\\\/|[^\/])+\//;" ++ [10%N]);
(lit "  WHITE_SPACE: /[ \r\n\t\f]+/;" ++ [10%N]);
(lit "  " ++ [10%N]);
lit "  "].
