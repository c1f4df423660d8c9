(** Parser2Html.v -- the file parser2.html of /repo, which main writes.  Generated by tools/mkpage.py. *)
From Verif Require Export Base.

Definition parser2_html : str := concat [
(lit "<!DOCTYPE html>" ++ [10%N]);
(lit "<html lang=""en"">" ++ [10%N]);
([10%N]);
(lit "<head>" ++ [10%N]);
(lit "  <meta charset=""UTF-8"">" ++ [10%N]);
(lit "  <meta http-equiv=""X-UA-Compatible"" content=""IE=edge"">" ++ [10%N]);
(lit "  <meta name=""viewport"" content=""width=device-width, initial-scale=1.0"">" ++ [10%N]);
(lit "  <title>parser</title>" ++ [10%N]);
(lit "  <style>" ++ [10%N]);
(lit "    * {" ++ [10%N]);
(lit "      margin: 0 0;" ++ [10%N]);
(lit "    }" ++ [10%N]);
([10%N]);
(lit "    *::-webkit-scrollbar {" ++ [10%N]);
(lit "      width: 5px;" ++ [10%N]);
(lit "      height: 5px;" ++ [10%N]);
(lit "    }" ++ [10%N]);
([10%N]);
(lit "    /* " ++ [20004%N; 20010%N; 28378%N; 21160%N; 26465%N; 20132%N; 25509%N; 22788%N] ++ lit " -- x" ++ [36724%N; 21644%N] ++ lit "y" ++ [36724%N] ++ lit " */" ++ [10%N]);
(lit "    *::-webkit-scrollbar-corner {" ++ [10%N]);
(lit "      background-color: transparent;" ++ [10%N]);
(lit "    }" ++ [10%N]);
([10%N]);
(lit "    /* " ++ [28378%N; 21160%N; 26465%N; 28369%N; 22359%N] ++ lit " */" ++ [10%N]);
(lit "    *::-webkit-scrollbar-thumb {" ++ [10%N]);
(lit "      border-radius: 10px;" ++ [10%N]);
(lit "      -webkit-box-shadow: inset 0 0 5px rgba(0, 0, 0, 0.2);" ++ [10%N]);
(lit "      background: #49b1f5;" ++ [10%N]);
(lit "    }" ++ [10%N]);
([10%N]);
(lit "    /* " ++ [28378%N; 21160%N; 26465%N; 36712%N; 36947%N] ++ lit " */" ++ [10%N]);
(lit "    *::-webkit-scrollbar-track {" ++ [10%N]);
(lit "      -webkit-box-shadow: inset 0 0 5px rgba(0, 0, 0, 0.2);" ++ [10%N]);
(lit "      border-radius: 10px;" ++ [10%N]);
(lit "      background: #ededed;" ++ [10%N]);
(lit "    }" ++ [10%N]);
([10%N]);
(lit "    *::-webkit-slider-container {" ++ [10%N]);
(lit "      /*" ++ [21487%N; 20197%N; 20462%N; 25913%N; 23481%N; 22120%N; 30340%N; 33509%N; 24178%N; 26679%N; 24335%N] ++ lit "*/" ++ [10%N]);
(lit "      width: 5px;" ++ [10%N]);
(lit "      height: 5px;" ++ [10%N]);
(lit "    }" ++ [10%N]);
([10%N]);
(lit "    input {" ++ [10%N]);
(lit "      width: 300px;" ++ [10%N]);
(lit "    }" ++ [10%N]);
([10%N]);
([10%N]);
(lit "    button {" ++ [10%N]);
(lit "      background-color: #49b1f5;" ++ [10%N]);
(lit "      border: none;" ++ [10%N]);
(lit "      color: white;" ++ [10%N]);
(lit "      text-align: center;" ++ [10%N]);
(lit "      text-decoration: none;" ++ [10%N]);
(lit "      display: inline-block;" ++ [10%N]);
(lit "      border-radius: 4px;" ++ [10%N]);
(lit "    }" ++ [10%N]);
(lit "    " ++ [10%N]);
(lit "    button:hover {" ++ [10%N]);
(lit "      box-shadow: 0 6px 8px 0 rgba(0,0,0,0.24), 0 17px 50px 0 rgba(0,0,0,0.19);" ++ [10%N]);
(lit "    }" ++ [10%N]);
(lit "  </style>" ++ [10%N]);
(lit "</head>" ++ [10%N]);
([10%N]);
(lit "<body>" ++ [10%N]);
(lit "  <div style=""overflow: hidden;"">" ++ [10%N]);
(lit "    <div id=""content""" ++ [10%N]);
(lit "      style=""overflow-x: hidden; position: fixed; height: 100vh; overflow-y: auto;  background-color: rgb(244, 237, 237); width: 255px; z-index: 100;"">" ++ [10%N]);
(lit "    </div>" ++ [10%N]);
(lit "    <div id=""super"" style=""position: relative; overflow-y: visible; overflow-x: visible; margin-left: 255px; min-height: 100vh;"">" ++ [10%N]);
([10%N]);
(lit "      <div id=""container""" ++ [10%N]);
(lit "        style=""overflow: visible; height: 100%; background-color: transparent; display: flex;justify-content: center; z-index: 1;"">" ++ [10%N]);
(lit "        <div id=""tree"" style=""overflow: visible;""></div>" ++ [10%N]);
(lit "      </div>" ++ [10%N]);
([10%N]);
(lit "      <!-- <div style=""position: absolute; left: 0; top: 0;"">" ++ [10%N]);
(lit "        <button id=""reset"">" ++ [22797%N; 20301%N] ++ lit "</button>" ++ [10%N]);
(lit "        <button id=""switch"">" ++ [36716%N; 25442%N; 20026%N] ++ lit " cluster</button>" ++ [10%N]);
(lit "        <input id=""slider"" type=""range"" min=""0"" max=""550"" step=""1""  /> " ++ [10%N]);
(lit "      </div> -->" ++ [10%N]);
([10%N]);
([10%N]);
(lit "    </div>" ++ [10%N]);
(lit "    <div style=""position: absolute; left: 260px; top: 5px;"">" ++ [10%N]);
(lit "      <button id=""reset"">" ++ [22797%N; 20301%N] ++ lit "(reset)</button>" ++ [10%N]);
(lit "      <button id=""switch"">" ++ [36716%N; 25442%N; 20026%N] ++ lit "cluster (use cluster)</button>" ++ [10%N]);
(lit "      <span>" ++ [10%N]);
(lit "        dx" ++ [10%N]);
(lit "        <input id=""slider"" type=""range"" min=""32"" max=""512"" step=""1"" value=""128"" /> " ++ [10%N]);
(lit "      </span>" ++ [10%N]);
(lit "      <span>" ++ [10%N]);
(lit "        dy" ++ [10%N]);
(lit "        <input id=""slider2"" type=""range"" min=""32"" max=""512"" step=""1"" value=""96"" /> " ++ [10%N]);
(lit "      </span>" ++ [10%N]);
(lit "    </div>" ++ [10%N]);
([10%N]);
(lit "  </div>" ++ [10%N]);
([10%N]);
(lit "  <script type=""module"">" ++ [10%N]);
(lit "    const ast = { name:`rule_list`,id: `0`, children:[{ name:`parser_rule`,id: `1`, children:[{ name:`RULE_REF`, text: `rule_list`},{ name:`COLON`, text: `:`},{ name:`block`,id: `2`, children:[{ name:`alternative`,id: `3`, children:[{ name:`element`,id: `5`, children:[{ name:`LPAREN`, text: `(`},{ name:`block`,id: `2`, children:[{ name:`alternative`,id: `3`, children:[{ name:`element`,id: `5`, children:[{ name:`RULE_REF`, text: `parser_rule`},],},],},{ name:`OR`, text: `|`},{ name:`alternative`,id: `3`, children:[{ name:`element`,id: `5`, children:[{ name:`RULE_REF`, text: `lexer_rule`},],},],},],},{ name:`RPAREN`, text: `)`},{ name:`ebnf_suffix`,id: `6`, children:[{ name:`STAR`, text: `*`},],},],},],},],},{ name:`SEMI`, text: `;`},],},{ name:`parser_rule`,id: `1`, children:[{ name:`RULE_REF`, text: `parser_rule`},{ name:`COLON`, text: `:`},{ name:`block`,id: `2`, children:[{ name:`alter");
(lit "native`,id: `3`, children:[{ name:`element`,id: `5`, children:[{ name:`TOKEN_REF`, text: `RULE_REF`},],},{ name:`element`,id: `5`, children:[{ name:`TOKEN_REF`, text: `COLON`},],},{ name:`element`,id: `5`, children:[{ name:`RULE_REF`, text: `block`},],},{ name:`element`,id: `5`, children:[{ name:`TOKEN_REF`, text: `SEMI`},],},],},],},{ name:`SEMI`, text: `;`},],},{ name:`parser_rule`,id: `1`, children:[{ name:`RULE_REF`, text: `block`},{ name:`COLON`, text: `:`},{ name:`block`,id: `2`, children:[{ name:`alternative`,id: `3`, children:[{ name:`element`,id: `5`, children:[{ name:`RULE_REF`, text: `alternative`},],},{ name:`element`,id: `5`, children:[{ name:`LPAREN`, text: `(`},{ name:`block`,id: `2`, children:[{ name:`alternative`,id: `3`, children:[{ name:`element`,id: `5`, children:[{ name:`TOKEN_REF`, text: `OR`},],},{ name:`element`,id: `5`, children:[{ name:`RULE_REF`, text: `alterna");
(lit "tive`},],},],},],},{ name:`RPAREN`, text: `)`},{ name:`ebnf_suffix`,id: `6`, children:[{ name:`STAR`, text: `*`},],},],},],},],},{ name:`SEMI`, text: `;`},],},{ name:`parser_rule`,id: `1`, children:[{ name:`RULE_REF`, text: `alternative`},{ name:`COLON`, text: `:`},{ name:`block`,id: `2`, children:[{ name:`alternative`,id: `3`, children:[{ name:`element`,id: `5`, children:[{ name:`RULE_REF`, text: `element`},{ name:`ebnf_suffix`,id: `6`, children:[{ name:`PLUS`, text: `+`},],},],},],},{ name:`OR`, text: `|`},{ name:`alternative`,id: `3`, children:[{ name:`element`,id: `5`, children:[{ name:`RULE_REF`, text: `epsilon`},],},],},],},{ name:`SEMI`, text: `;`},],},{ name:`parser_rule`,id: `1`, children:[{ name:`RULE_REF`, text: `epsilon`},{ name:`COLON`, text: `:`},{ name:`block`,id: `2`, children:[{ name:`alternative`,id: `3`, children:[{ name:`element`,id: `5`, children:[{ name:`TOKEN_REF`,");
(lit " text: `EPSILON`},],},],},],},{ name:`SEMI`, text: `;`},],},{ name:`parser_rule`,id: `1`, children:[{ name:`RULE_REF`, text: `element`},{ name:`COLON`, text: `:`},{ name:`block`,id: `2`, children:[{ name:`alternative`,id: `3`, children:[{ name:`element`,id: `5`, children:[{ name:`LPAREN`, text: `(`},{ name:`block`,id: `2`, children:[{ name:`alternative`,id: `3`, children:[{ name:`element`,id: `5`, children:[{ name:`TOKEN_REF`, text: `TOKEN_REF`},],},],},{ name:`OR`, text: `|`},{ name:`alternative`,id: `3`, children:[{ name:`element`,id: `5`, children:[{ name:`TOKEN_REF`, text: `STRING_LITERAL`},],},],},{ name:`OR`, text: `|`},{ name:`alternative`,id: `3`, children:[{ name:`element`,id: `5`, children:[{ name:`TOKEN_REF`, text: `RULE_REF`},],},],},{ name:`OR`, text: `|`},{ name:`alternative`,id: `3`, children:[{ name:`element`,id: `5`, children:[{ name:`TOKEN_REF`, text: `LPAREN`},],},{ na");
(lit "me:`element`,id: `5`, children:[{ name:`RULE_REF`, text: `block`},],},{ name:`element`,id: `5`, children:[{ name:`TOKEN_REF`, text: `RPAREN`},],},],},],},{ name:`RPAREN`, text: `)`},],},{ name:`element`,id: `5`, children:[{ name:`RULE_REF`, text: `ebnf_suffix`},{ name:`ebnf_suffix`,id: `6`, children:[{ name:`QUESTION`, text: `?`},],},],},],},],},{ name:`SEMI`, text: `;`},],},{ name:`parser_rule`,id: `1`, children:[{ name:`RULE_REF`, text: `ebnf_suffix`},{ name:`COLON`, text: `:`},{ name:`block`,id: `2`, children:[{ name:`alternative`,id: `3`, children:[{ name:`element`,id: `5`, children:[{ name:`LPAREN`, text: `(`},{ name:`block`,id: `2`, children:[{ name:`alternative`,id: `3`, children:[{ name:`element`,id: `5`, children:[{ name:`TOKEN_REF`, text: `STAR`},],},],},{ name:`OR`, text: `|`},{ name:`alternative`,id: `3`, children:[{ name:`element`,id: `5`, children:[{ name:`TOKEN_REF`, text:");
(lit " `PLUS`},],},],},{ name:`OR`, text: `|`},{ name:`alternative`,id: `3`, children:[{ name:`element`,id: `5`, children:[{ name:`TOKEN_REF`, text: `QUESTION`},],},],},],},{ name:`RPAREN`, text: `)`},],},{ name:`element`,id: `5`, children:[{ name:`TOKEN_REF`, text: `QUESTION`},{ name:`ebnf_suffix`,id: `6`, children:[{ name:`QUESTION`, text: `?`},],},],},],},],},{ name:`SEMI`, text: `;`},],},{ name:`parser_rule`,id: `1`, children:[{ name:`RULE_REF`, text: `lexer_rule`},{ name:`COLON`, text: `:`},{ name:`block`,id: `2`, children:[{ name:`alternative`,id: `3`, children:[{ name:`element`,id: `5`, children:[{ name:`TOKEN_REF`, text: `TOKEN_REF`},],},{ name:`element`,id: `5`, children:[{ name:`TOKEN_REF`, text: `COLON`},],},{ name:`element`,id: `5`, children:[{ name:`RULE_REF`, text: `regular`},],},{ name:`element`,id: `5`, children:[{ name:`TOKEN_REF`, text: `SEMI`},],},],},],},{ name:`SEMI`, text");
(lit ": `;`},],},{ name:`parser_rule`,id: `1`, children:[{ name:`RULE_REF`, text: `regular`},{ name:`COLON`, text: `:`},{ name:`block`,id: `2`, children:[{ name:`alternative`,id: `3`, children:[{ name:`element`,id: `5`, children:[{ name:`TOKEN_REF`, text: `REGULAR_LITERAL`},],},],},],},{ name:`SEMI`, text: `;`},],},{ name:`lexer_rule`,id: `7`, children:[{ name:`TOKEN_REF`, text: `RULE_REF`},{ name:`COLON`, text: `:`},{ name:`regular`,id: `8`, children:[{ name:`REGULAR_LITERAL`, text: `/[a-z][a-zA-Z0-9_]+/`},],},{ name:`SEMI`, text: `;`},],},{ name:`lexer_rule`,id: `7`, children:[{ name:`TOKEN_REF`, text: `TOKEN_REF`},{ name:`COLON`, text: `:`},{ name:`regular`,id: `8`, children:[{ name:`REGULAR_LITERAL`, text: `/[A-Z][a-zA-Z0-9_]+/`},],},{ name:`SEMI`, text: `;`},],},{ name:`lexer_rule`,id: `7`, children:[{ name:`TOKEN_REF`, text: `COLON`},{ name:`COLON`, text: `:`},{ name:`regular`,id: `8`, c");
(lit "hildren:[{ name:`REGULAR_LITERAL`, text: `/::=|:=|->|=>|:|=/`},],},{ name:`SEMI`, text: `;`},],},{ name:`lexer_rule`,id: `7`, children:[{ name:`TOKEN_REF`, text: `SEMI`},{ name:`COLON`, text: `:`},{ name:`regular`,id: `8`, children:[{ name:`REGULAR_LITERAL`, text: `/;/`},],},{ name:`SEMI`, text: `;`},],},{ name:`lexer_rule`,id: `7`, children:[{ name:`TOKEN_REF`, text: `OR`},{ name:`COLON`, text: `:`},{ name:`regular`,id: `8`, children:[{ name:`REGULAR_LITERAL`, text: `/\\|/`},],},{ name:`SEMI`, text: `;`},],},{ name:`lexer_rule`,id: `7`, children:[{ name:`TOKEN_REF`, text: `EPSILON`},{ name:`COLON`, text: `:`},{ name:`regular`,id: `8`, children:[{ name:`REGULAR_LITERAL`, text: `/" ++ [949%N] ++ lit "|epsilon/`},],},{ name:`SEMI`, text: `;`},],},{ name:`lexer_rule`,id: `7`, children:[{ name:`TOKEN_REF`, text: `STAR`},{ name:`COLON`, text: `:`},{ name:`regular`,id: `8`, children:[{ name:`REGULAR_LITERAL`, tex");
(lit "t: `/\\* /`},],},{ name:`SEMI`, text: `;`},],},{ name:`lexer_rule`,id: `7`, children:[{ name:`TOKEN_REF`, text: `PLUS`},{ name:`COLON`, text: `:`},{ name:`regular`,id: `8`, children:[{ name:`REGULAR_LITERAL`, text: `/\\+/`},],},{ name:`SEMI`, text: `;`},],},{ name:`lexer_rule`,id: `7`, children:[{ name:`TOKEN_REF`, text: `QUESTION`},{ name:`COLON`, text: `:`},{ name:`regular`,id: `8`, children:[{ name:`REGULAR_LITERAL`, text: `/\\?/`},],},{ name:`SEMI`, text: `;`},],},{ name:`lexer_rule`,id: `7`, children:[{ name:`TOKEN_REF`, text: `LPAREN`},{ name:`COLON`, text: `:`},{ name:`regular`,id: `8`, children:[{ name:`REGULAR_LITERAL`, text: `/\\(/`},],},{ name:`SEMI`, text: `;`},],},{ name:`lexer_rule`,id: `7`, children:[{ name:`TOKEN_REF`, text: `RPAREN`},{ name:`COLON`, text: `:`},{ name:`regular`,id: `8`, children:[{ name:`REGULAR_LITERAL`, text: `/\\)/`},],},{ name:`SEMI`, text: `;`},],},{");
(lit " name:`lexer_rule`,id: `7`, children:[{ name:`TOKEN_REF`, text: `STRING_LITERAL`},{ name:`COLON`, text: `:`},{ name:`regular`,id: `8`, children:[{ name:`REGULAR_LITERAL`, text: `/""((\\\\\\\\|\\\\""|\\\\a|\\\\d|\\\\n|\\\\r|\\\\t|\\\\f|\\\\v|\\\\u\\{(0x|0)?[a-f0-9]+\\})|\\d|[^\\a\\d\\n\\r\\t\\f\\v\\\\""])*""/`},],},{ name:`SEMI`, text: `;`},],},{ name:`lexer_rule`,id: `7`, children:[{ name:`TOKEN_REF`, text: `REGULAR_LITERAL`},{ name:`COLON`, text: `:`},{ name:`regular`,id: `8`, children:[{ name:`REGULAR_LITERAL`, text: `/\\/(\\\\\\/|[^\\/])+\\//`},],},{ name:`SEMI`, text: `;`},],},{ name:`lexer_rule`,id: `7`, children:[{ name:`TOKEN_REF`, text: `WHITE_SPACE`},{ name:`COLON`, text: `:`},{ name:`regular`,id: `8`, children:[{ name:`REGULAR_LITERAL`, text: `/[ \\r\\n\\t\\f]+/`},],},{ name:`SEMI`, text: `;`},],},],};" ++ [10%N]);
([10%N]);
(lit "    import * as d3 from ""https://cdn.jsdelivr.net/npm/d3@7/+esm"";" ++ [10%N]);
(lit "    const maxScale = 4, minScale = 0.05;" ++ [10%N]);
([10%N]);
(lit "    let config = {" ++ [10%N]);
(lit "      tree_or_cluster: d3.tree," ++ [10%N]);
(lit "      current: ast, " ++ [10%N]);
(lit "      scale: 1.0," ++ [10%N]);
(lit "      isPointerdown: false," ++ [10%N]);
(lit "      lastPointermove: { x: 0, y: 0 }," ++ [10%N]);
(lit "      x: 0, " ++ [10%N]);
(lit "      y: 0," ++ [10%N]);
(lit "      ast_width: 128," ++ [10%N]);
(lit "      ast_height: 96," ++ [10%N]);
(lit "    };" ++ [10%N]);
([10%N]);
(lit "    const content = indentTree(ast);" ++ [10%N]);
(lit "    document.getElementById('content').appendChild(content);" ++ [10%N]);
(lit "    const tree = collapsibleTree(ast, { tree: config.tree_or_cluster, dx: config.ast_width, dy: config.ast_height });" ++ [10%N]);
(lit "    document.getElementById('tree').appendChild(tree);" ++ [10%N]);
([10%N]);
(lit "    // " ++ [22686%N; 21152%N; 19968%N; 20123%N; 25302%N; 25341%N; 21644%N; 32553%N; 25918%N; 21151%N; 33021%N; 12290%N; 10%N]);
(lit "    bindEvents(document.getElementById('super'), document.getElementById('container'));" ++ [10%N]);
(lit "    document.getElementById('reset').addEventListener('click', e => reset());" ++ [10%N]);
(lit "    document.getElementById('switch').addEventListener('click', e => {" ++ [10%N]);
(lit "      // console.log(e.target.innerHTML, typeof e.target.innerHTML);" ++ [10%N]);
(lit "      if (e.target.innerHTML.endsWith('(use cluster)')) {" ++ [10%N]);
(lit "        config.tree_or_cluster = d3.cluster;" ++ [10%N]);
(lit "        e.target.innerHTML = '" ++ [36716%N; 25442%N; 20026%N] ++ lit " tree (use tree)';" ++ [10%N]);
(lit "        render();" ++ [10%N]);
(lit "      }" ++ [10%N]);
(lit "      else {" ++ [10%N]);
(lit "        config.tree_or_cluster = d3.tree;" ++ [10%N]);
(lit "        e.target.innerHTML = '" ++ [36716%N; 25442%N; 20026%N] ++ lit " cluster (use cluster)';" ++ [10%N]);
(lit "        render();" ++ [10%N]);
(lit "      }" ++ [10%N]);
(lit "    });" ++ [10%N]);
([10%N]);
(lit "    document.getElementById('slider').onchange = (e) => {" ++ [10%N]);
(lit "      config.ast_width = e.target.value;" ++ [10%N]);
(lit "      render();" ++ [10%N]);
(lit "    };" ++ [10%N]);
(lit "    document.getElementById('slider2').onchange = (e) => {" ++ [10%N]);
(lit "      config.ast_height = e.target.value;" ++ [10%N]);
(lit "      render();" ++ [10%N]);
(lit "    };" ++ [10%N]);
([10%N]);
([10%N]);
([10%N]);
([10%N]);
([10%N]);
([10%N]);
([10%N]);
([10%N]);
([10%N]);
(lit "    function indentTree(data, { nodeSize = 25, minWidth = 255 } = {}) {" ++ [10%N]);
(lit "      let width = minWidth;" ++ [10%N]);
([10%N]);
(lit "      // " ++ [21069%N; 24207%N; 36941%N; 21382%N] ++ lit "? d.index" ++ [29992%N; 20110%N; 35745%N; 31639%N; 24067%N; 23616%N; 65292%N] ++ lit "d.id" ++ [29992%N; 20110%N; 26356%N; 26032%N; 10%N]);
(lit "      const root = d3.hierarchy(data);" ++ [10%N]);
([10%N]);
(lit "      root.descendants().forEach((d, i) => {" ++ [10%N]);
(lit "        d.id = i;" ++ [10%N]);
(lit "        d._children = d.children;" ++ [10%N]);
(lit "        d.y = i * nodeSize;" ++ [10%N]);
([10%N]);
(lit "        // " ++ [22914%N; 26524%N; 38656%N; 35201%N; 22312%N; 21551%N; 21160%N; 30340%N; 26102%N; 20505%N; 23601%N; 22788%N; 20110%N; 25240%N; 21472%N; 29366%N; 24577%N; 65292%N; 21017%N; 23558%N; 19979%N; 38754%N; 36825%N; 34892%N; 21462%N; 28040%N; 27880%N; 37322%N; 10%N]);
(lit "        // d.children = null;" ++ [10%N]);
([10%N]);
(lit "        // " ++ [35745%N; 31639%N; 26368%N; 23567%N; 23610%N; 23544%N] ++ lit ", " ++ [20551%N; 35774%N; 19968%N; 20010%N; 23383%N; 31526%N; 21344%N] ++ lit "12" ++ [20010%N; 20687%N; 32032%N; 10%N]);
(lit "        const tmp = d.depth * nodeSize + d.data.name.length * 13 + 6;" ++ [10%N]);
(lit "        width = tmp > width ? tmp : width;" ++ [10%N]);
(lit "      });" ++ [10%N]);
([10%N]);
(lit "      const svg = d3.create(""svg"")" ++ [10%N]);
(lit "        .attr(""viewBox"", [-nodeSize / 2, -nodeSize * 3 / 2, width, 2 * nodeSize])" ++ [10%N]);
(lit "        .attr(""font-family"", ""sans-serif"")" ++ [10%N]);
(lit "        .attr(""font-size"", 18)" ++ [10%N]);
(lit "        .style(""overflow"", ""visible"");" ++ [10%N]);
([10%N]);
(lit "      const gLink = svg.append(""g"")" ++ [10%N]);
(lit "        .attr(""fill"", ""none"")" ++ [10%N]);
(lit "        .attr(""stroke"", ""#999"");" ++ [10%N]);
([10%N]);
(lit "      const gNode = svg.append(""g"");" ++ [10%N]);
([10%N]);
(lit "      // bias_y " ++ [29238%N; 33410%N; 28857%N; 30340%N; 32437%N; 21521%N; 20559%N; 31227%N; 10%N]);
(lit "      function update(source, bias_y) {" ++ [10%N]);
([10%N]);
(lit "        // " ++ [21069%N; 24207%N; 36941%N; 21382%N] ++ lit ", " ++ [26356%N; 26032%N; 20301%N; 32622%N; 10%N]);
(lit "        root.eachBefore((d, i) => {" ++ [10%N]);
(lit "          d.y = i * nodeSize;" ++ [10%N]);
(lit "        });" ++ [10%N]);
([10%N]);
(lit "        const duration = 800;" ++ [10%N]);
(lit "        const nodes = root.descendants();" ++ [10%N]);
(lit "        const links = root.links();" ++ [10%N]);
([10%N]);
([10%N]);
(lit "        const transition = svg.transition()" ++ [10%N]);
(lit "          .duration(duration)" ++ [10%N]);
(lit "          .attr(""viewBox"", [-nodeSize / 2, -nodeSize * 3 / 2, width, (nodes.length + 1) * nodeSize])" ++ [10%N]);
(lit "          .tween(""resize"", window.ResizeObserver ? null : () => () => svg.dispatch(""toggle""));" ++ [10%N]);
([10%N]);
([10%N]);
(lit "        const node = gNode.selectAll(""g"").data(nodes, d => d.id);" ++ [10%N]);
([10%N]);
([10%N]);
(lit "        const nodeEnter = node.enter().append(""g"")" ++ [10%N]);
(lit "          .attr(""transform"", d => `translate(0, ${bias_y})`)" ++ [10%N]);
(lit "          .attr(""fill-opacity"", 0)" ++ [10%N]);
(lit "          .attr(""stroke-opacity"", 0);" ++ [10%N]);
([10%N]);
(lit "        nodeEnter.append(""circle"")" ++ [10%N]);
(lit "          .attr(""cx"", d => d.depth * nodeSize)" ++ [10%N]);
(lit "          .attr(""r"", 5)" ++ [10%N]);
(lit "          .attr(""fill"", d => d._children ? null : ""#999"")" ++ [10%N]);
(lit "          .on(""click"", (event, d) => {" ++ [10%N]);
(lit "            d.children = d.children ? null : d._children;" ++ [10%N]);
(lit "            update(d, d.y);" ++ [10%N]);
(lit "          });" ++ [10%N]);
([10%N]);
(lit "        nodeEnter.append(""text"")" ++ [10%N]);
(lit "          .attr(""dy"", ""0.32em"")" ++ [10%N]);
(lit "          .attr(""x"", d => d.depth * nodeSize + 8)" ++ [10%N]);
(lit "          .text(d => d.data.name)" ++ [10%N]);
(lit "          .attr(""cursor"", ""pointer"")" ++ [10%N]);
(lit "          .on(""click"", (event, d) => {" ++ [10%N]);
(lit "            config.current = d.data;" ++ [10%N]);
(lit "            render();" ++ [10%N]);
(lit "          })" ++ [10%N]);
(lit "          .clone(true).lower()" ++ [10%N]);
(lit "          .attr(""stroke-linejoin"", ""round"")" ++ [10%N]);
(lit "          .attr(""stroke-width"", 3)" ++ [10%N]);
(lit "          .attr(""stroke"", ""white"");" ++ [10%N]);
([10%N]);
(lit "        node.merge(nodeEnter).transition(transition)" ++ [10%N]);
(lit "          .attr(""transform"", d => `translate(0, ${d.y})`)" ++ [10%N]);
(lit "          .attr(""fill-opacity"", 1)" ++ [10%N]);
(lit "          .attr(""stroke-opacity"", 1);" ++ [10%N]);
([10%N]);
(lit "        node.exit().transition(transition).remove()" ++ [10%N]);
(lit "          .attr(""transform"", d => `translate(0, ${bias_y})`)" ++ [10%N]);
(lit "          .attr(""fill-opacity"", 0)" ++ [10%N]);
(lit "          .attr(""stroke-opacity"", 0);" ++ [10%N]);
([10%N]);
(lit "        const link = gLink.selectAll(""path"")" ++ [10%N]);
(lit "          .data(links, d => d.target.id);" ++ [10%N]);
([10%N]);
(lit "        const linkEnter = link.enter().append(""path"")" ++ [10%N]);
(lit "          .attr(""d"", d => `" ++ [10%N]);
(lit "          M${d.source.depth * nodeSize},${bias_y}" ++ [10%N]);
(lit "          V${bias_y}" ++ [10%N]);
(lit "          h${nodeSize}" ++ [10%N]);
(lit "        `);" ++ [10%N]);
([10%N]);
(lit "        link.merge(linkEnter).transition(transition)" ++ [10%N]);
(lit "          .attr(""d"", d => `" ++ [10%N]);
(lit "          M${d.source.depth * nodeSize},${d.source.y}" ++ [10%N]);
(lit "          V${d.target.y}" ++ [10%N]);
(lit "          h${nodeSize}" ++ [10%N]);
(lit "        `);" ++ [10%N]);
([10%N]);
(lit "        link.exit().transition(transition).remove()" ++ [10%N]);
(lit "          .attr(""d"", d => `" ++ [10%N]);
(lit "          M${d.source.depth * nodeSize},${bias_y}" ++ [10%N]);
(lit "          V${bias_y}" ++ [10%N]);
(lit "          h${nodeSize}`)" ++ [10%N]);
(lit "      }" ++ [10%N]);
([10%N]);
(lit "      update(root, 0);" ++ [10%N]);
(lit "      return svg.node();" ++ [10%N]);
(lit "    }" ++ [10%N]);
([10%N]);
(lit "    function collapsibleTree(data, {" ++ [10%N]);
(lit "      id = Array.isArray(data) ? d => d.id : null," ++ [10%N]);
(lit "      parentId = Array.isArray(data) ? d => d.parentId : null," ++ [10%N]);
(lit "      tree = d3.tree," ++ [10%N]);
(lit "      r = 5," ++ [10%N]);
(lit "      padding = 1," ++ [10%N]);
(lit "      stroke = ""#555""," ++ [10%N]);
(lit "      strokeWidth = 1.5," ++ [10%N]);
(lit "      strokeOpacity = 0.4," ++ [10%N]);
(lit "      curve = d3.curveBumpX," ++ [10%N]);
(lit "      dx = 128," ++ [10%N]);
(lit "      dy = 128," ++ [10%N]);
(lit "      margin = { top: 40, right: 120, bottom: 10, left: 40 }" ++ [10%N]);
(lit "    } = {}) {" ++ [10%N]);
([10%N]);
(lit "      const root = d3.hierarchy(data);" ++ [10%N]);
(lit "      const diagonal = d3.linkVertical(curve).x(d => d.x).y(d => d.y);" ++ [10%N]);
(lit "      const tree_func = tree().nodeSize([dx, dy]);" ++ [10%N]);
([10%N]);
([10%N]);
(lit "      root.descendants().forEach((d, i) => {" ++ [10%N]);
(lit "        d.id = i;" ++ [10%N]);
(lit "        d._children = d.children;" ++ [10%N]);
(lit "        // d.children = null;" ++ [10%N]);
(lit "      });" ++ [10%N]);
([10%N]);
(lit "      const svg = d3.create(""svg"")" ++ [10%N]);
(lit "        // .attr(""viewBox"", [-margin.left, -margin.top, width, dx])" ++ [10%N]);
(lit "        .attr(""font-size"", 14)" ++ [10%N]);
(lit "        .style(""overflow"", ""visible"")" ++ [10%N]);
(lit "        .style(""user-select"", ""none"");" ++ [10%N]);
([10%N]);
(lit "      const gLink = svg.append(""g"")" ++ [10%N]);
(lit "        .attr(""fill"", ""none"")" ++ [10%N]);
(lit "        .attr(""stroke"", ""#555"")" ++ [10%N]);
(lit "        .attr(""stroke-opacity"", 0.4)" ++ [10%N]);
(lit "        .attr(""stroke-width"", 1.5);" ++ [10%N]);
([10%N]);
(lit "      const gNode = svg.append(""g"")" ++ [10%N]);
(lit "        // .attr(""cursor"", ""pointer"")" ++ [10%N]);
(lit "        .attr(""pointer-events"", ""all"");" ++ [10%N]);
([10%N]);
(lit "      function update(source, from_x, from_y) {" ++ [10%N]);
(lit "        const duration = d3.event && d3.event.altKey ? 2500 : 300;" ++ [10%N]);
([10%N]);
(lit "        const nodes = root.descendants().reverse();" ++ [10%N]);
(lit "        const links = root.links();" ++ [10%N]);
([10%N]);
(lit "        // Compute the new tree layout." ++ [10%N]);
(lit "        tree_func(root);" ++ [10%N]);
([10%N]);
(lit "        let left = root;" ++ [10%N]);
(lit "        let right = root;" ++ [10%N]);
(lit "        let top = root;" ++ [10%N]);
(lit "        let bottom = root;" ++ [10%N]);
(lit "        root.eachBefore(node => {" ++ [10%N]);
(lit "          if (node.x < left.x) left = node;" ++ [10%N]);
(lit "          if (node.x > right.x) right = node;" ++ [10%N]);
(lit "          if (node.y < top.y) top = node;" ++ [10%N]);
(lit "          if (node.y > bottom.y) bottom = node;" ++ [10%N]);
(lit "        });" ++ [10%N]);
([10%N]);
(lit "        // const height = right.x - left.x + margin.top + margin.bottom;" ++ [10%N]);
(lit "        const width = right.x - left.x + margin.left + margin.right;" ++ [10%N]);
(lit "        const height = bottom.y - top.y + margin.top + margin.bottom;" ++ [10%N]);
([10%N]);
(lit "        const transition = svg.transition()" ++ [10%N]);
(lit "          .duration(duration)" ++ [10%N]);
(lit "          .attr('height', height)" ++ [10%N]);
(lit "          .attr('width', width)" ++ [10%N]);
(lit "          .attr(""viewBox"", [-margin.left + left.x, top.y - margin.top, width, height])" ++ [10%N]);
(lit "          .tween(""resize"", window.ResizeObserver ? null : () => () => svg.dispatch(""toggle""));" ++ [10%N]);
([10%N]);
(lit "        // Update the nodes" ++ [8230%N; 10%N]);
(lit "        const node = gNode.selectAll(""g"")" ++ [10%N]);
(lit "          .data(nodes, d => d.id);" ++ [10%N]);
([10%N]);
([10%N]);
(lit "        // Enter any new nodes at the parent's previous position." ++ [10%N]);
(lit "        const nodeEnter = node.enter().append(""g"")" ++ [10%N]);
(lit "          .attr(""transform"", d => `translate(${from_x},${from_y})`)" ++ [10%N]);
(lit "          .attr(""fill-opacity"", 0)" ++ [10%N]);
(lit "          .attr(""stroke-opacity"", 0);" ++ [10%N]);
([10%N]);
(lit "        nodeEnter.append(""title"")" ++ [10%N]);
(lit "        .text(d => d._children ? d.data.id: d.data.name);" ++ [10%N]);
([10%N]);
(lit "        nodeEnter.append(""text"")" ++ [10%N]);
(lit "          .attr(""y"", 0)" ++ [10%N]);
(lit "          .attr('font-weight', 'bold')" ++ [10%N]);
(lit "          // .attr('font-style', d => d._children ? 'italic': 'normal')" ++ [10%N]);
(lit "          .attr(""cursor"", d => d._children ? ""pointer"" : ""default"")" ++ [10%N]);
(lit "          .attr('fill', d => d._children ? ""#333"" : ""#999"")" ++ [10%N]);
(lit "          .attr(""text-anchor"", ""middle"")" ++ [10%N]);
(lit "          .text(d => d._children ? d.data.name: d.data.text)" ++ [10%N]);
(lit "          .on(""pointerdown"", (event, d) => {" ++ [10%N]);
(lit "            d.children = d.children ? null : d._children;" ++ [10%N]);
(lit "            update(d, d.x, d.y);" ++ [10%N]);
(lit "          })" ++ [10%N]);
(lit "          .clone(true).lower()" ++ [10%N]);
(lit "          .attr(""stroke-linejoin"", ""round"")" ++ [10%N]);
(lit "          .attr(""stroke-width"", 3)" ++ [10%N]);
(lit "          .attr(""stroke"", ""white"");" ++ [10%N]);
([10%N]);
(lit "        // Transition nodes to their new position." ++ [10%N]);
(lit "        const nodeUpdate = node.merge(nodeEnter).transition(transition)" ++ [10%N]);
(lit "          .attr(""transform"", d => `translate(${d.x},${d.y})`)" ++ [10%N]);
(lit "          .attr(""fill-opacity"", 1)" ++ [10%N]);
(lit "          .attr(""stroke-opacity"", 1);" ++ [10%N]);
([10%N]);
(lit "        // Transition exiting nodes to the parent's new position." ++ [10%N]);
(lit "        const nodeExit = node.exit().transition(transition).remove()" ++ [10%N]);
(lit "          .attr(""transform"", d => `translate(${source.x},${source.y})`)" ++ [10%N]);
(lit "          .attr(""fill-opacity"", 0)" ++ [10%N]);
(lit "          .attr(""stroke-opacity"", 0);" ++ [10%N]);
([10%N]);
(lit "        // Update the links" ++ [8230%N; 10%N]);
(lit "        const link = gLink.selectAll(""path"")" ++ [10%N]);
(lit "          .data(links, d => d.target.id);" ++ [10%N]);
([10%N]);
(lit "        // Enter any new links at the parent's previous position." ++ [10%N]);
(lit "        const linkEnter = link.enter().append(""path"")" ++ [10%N]);
(lit "          .attr(""d"", d => {" ++ [10%N]);
(lit "            const o = { x: from_x, y: from_y };" ++ [10%N]);
(lit "            return diagonal({ source: o, target: o });" ++ [10%N]);
(lit "          });" ++ [10%N]);
([10%N]);
(lit "        // Transition links to their new position." ++ [10%N]);
(lit "        link.merge(linkEnter).transition(transition)" ++ [10%N]);
(lit "          .attr(""d"", diagonal);" ++ [10%N]);
([10%N]);
(lit "        // Transition exiting nodes to the parent's new position." ++ [10%N]);
(lit "        link.exit().transition(transition).remove()" ++ [10%N]);
(lit "          .attr(""d"", d => {" ++ [10%N]);
(lit "            const o = { x: source.x, y: source.y };" ++ [10%N]);
(lit "            return diagonal({ source: o, target: o });" ++ [10%N]);
(lit "          });" ++ [10%N]);
(lit "      }" ++ [10%N]);
([10%N]);
(lit "      update(root, 0, 0);" ++ [10%N]);
([10%N]);
(lit "      return svg.node();" ++ [10%N]);
(lit "    }" ++ [10%N]);
([10%N]);
(lit "    function bindEvents(parent, element) {" ++ [10%N]);
(lit "      document.body.onresize = () => {" ++ [10%N]);
(lit "        // console.log('body resized!');" ++ [10%N]);
(lit "        setSize(element);" ++ [10%N]);
(lit "      }" ++ [10%N]);
(lit "      " ++ [10%N]);
(lit "      // " ++ [32465%N; 23450%N; 28378%N; 36718%N; 32553%N; 25918%N; 10%N]);
(lit "      parent.addEventListener('wheel', (e) => {" ++ [10%N]);
(lit "        let ratio = 1.1;" ++ [10%N]);
(lit "        // " ++ [32553%N; 23567%N; 10%N]);
(lit "        if (e.deltaY > 0) {" ++ [10%N]);
(lit "          ratio = 1 / 1.1;" ++ [10%N]);
(lit "        }" ++ [10%N]);
(lit "        config.scale *= ratio;" ++ [10%N]);
(lit "        if (config.scale > maxScale) config.scale = maxScale;" ++ [10%N]);
(lit "        else if (config.scale < minScale) config.scale = minScale;" ++ [10%N]);
([10%N]);
(lit "        // scale " ++ [21518%N; 38754%N; 19981%N; 35201%N; 26377%N; 31354%N; 26684%N] ++ lit " translateX " ++ [37324%N; 38754%N; 19968%N; 23450%N; 35201%N; 26377%N; 21333%N; 20301%N; 10%N]);
(lit "        const transform = `translateX(${config.x}px) translateY(${config.y}px) scale(${config.scale})`;" ++ [10%N]);
(lit "        element.style.transform = transform;" ++ [10%N]);
([10%N]);
(lit "        // " ++ [39044%N; 38450%N; 25191%N; 34892%N; 40664%N; 35748%N; 30340%N; 34892%N; 20026%N; 10%N]);
(lit "        e.preventDefault();" ++ [10%N]);
(lit "      });" ++ [10%N]);
([10%N]);
(lit "      // " ++ [32465%N; 23450%N; 25302%N; 25341%N; 21151%N; 33021%N; 10%N]);
(lit "      parent.addEventListener('pointerdown', (e) => {" ++ [10%N]);
(lit "        if (e.button == 0) {" ++ [10%N]);
(lit "          config.isPointerdown = true;" ++ [10%N]);
(lit "          element.setPointerCapture(e.pointerId);" ++ [10%N]);
(lit "          config.lastPointermove = { x: e.clientX, y: e.clientY };" ++ [10%N]);
(lit "          // e.preventDefault();" ++ [10%N]);
(lit "        }" ++ [10%N]);
(lit "      });" ++ [10%N]);
([10%N]);
(lit "      parent.addEventListener('pointerup', (e) => {" ++ [10%N]);
(lit "        if (e.button == 0) {" ++ [10%N]);
(lit "          config.isPointerdown = false;" ++ [10%N]);
(lit "          e.preventDefault();" ++ [10%N]);
(lit "        }" ++ [10%N]);
([10%N]);
(lit "      });" ++ [10%N]);
([10%N]);
(lit "      parent.addEventListener('pointermove', (e) => {" ++ [10%N]);
(lit "        if (config.isPointerdown) {" ++ [10%N]);
(lit "          const current = { x: e.clientX, y: e.clientY };" ++ [10%N]);
(lit "          const dx = current.x - config.lastPointermove.x;" ++ [10%N]);
(lit "          const dy = current.y - config.lastPointermove.y;" ++ [10%N]);
(lit "          config.lastPointermove = { x: current.x, y: current.y };" ++ [10%N]);
(lit "          config.x += dx; config.y += dy;" ++ [10%N]);
([10%N]);
(lit "          const transform = `translateX(${config.x}px) translateY(${config.y}px) scale(${config.scale})`;" ++ [10%N]);
(lit "          element.style.transform = transform;" ++ [10%N]);
([10%N]);
(lit "          e.preventDefault();" ++ [10%N]);
(lit "        }" ++ [10%N]);
([10%N]);
(lit "      });" ++ [10%N]);
([10%N]);
(lit "      setSize(element);" ++ [10%N]);
(lit "    }" ++ [10%N]);
([10%N]);
(lit "    function setSize(element) {" ++ [10%N]);
(lit "      if (element.scrollWidth > window.innerWidth || element.scrollHeight > window.innerHeight) {" ++ [10%N]);
(lit "        element.style.width = window.innerWidth + 'px';" ++ [10%N]);
(lit "        element.style.height = window.innerHeight + 'px';" ++ [10%N]);
(lit "      }" ++ [10%N]);
(lit "    }" ++ [10%N]);
([10%N]);
(lit "    function reset() {" ++ [10%N]);
(lit "      config.scale = 1.0;" ++ [10%N]);
(lit "      config.isPointerdown = false, config.lastPointermove = { x: 0, y: 0 };" ++ [10%N]);
(lit "      config.x = 0, config.y = 0;" ++ [10%N]);
(lit "      // element.style.transform = 'translateX(0px) translateY(0px) scale(1)';" ++ [10%N]);
(lit "      const element = document.getElementById('container');" ++ [10%N]);
(lit "      element.style.transform = 'translateX(0px) translateY(0px) scale(1)';" ++ [10%N]);
(lit "      // console.log(element.style.transform);" ++ [10%N]);
(lit "    }" ++ [10%N]);
([10%N]);
(lit "    function render() {" ++ [10%N]);
(lit "      const tree = collapsibleTree(config.current, { tree: config.tree_or_cluster, dx: config.ast_width, dy: config.ast_height });" ++ [10%N]);
(lit "      const dom = document.getElementById('tree');" ++ [10%N]);
(lit "      dom.innerHTML = '';" ++ [10%N]);
(lit "      dom.appendChild(tree);" ++ [10%N]);
(lit "      reset();" ++ [10%N]);
(lit "    }" ++ [10%N]);
([10%N]);
([10%N]);
(lit "  </script>" ++ [10%N]);
([10%N]);
(lit "</body>" ++ [10%N]);
([10%N]);
(lit "</html>")].
