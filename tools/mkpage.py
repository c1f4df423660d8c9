"""Transcribes src/tool/templates/gui/ast.html and parser2.html of /repo into Coq strings."""
import re
def coq(s):
    parts=[]
    for run in re.findall(r'[ -~]+|[^ -~]+', s):
        if ' ' <= run[0] <= '~': parts.append('lit "%s"' % run.replace('"','""'))
        else: parts.append('[' + '; '.join('%d%%N' % ord(c) for c in run) + ']')
    return '(' + ' ++ '.join(parts) + ')'
def text(s):
    # line by line; very long lines in pieces
    ls=[]
    for l in s.splitlines(keepends=True):
        while len(l)>900: ls.append(l[:900]); l=l[900:]
        ls.append(l)
    return 'concat [\n' + ';\n'.join(coq(l) for l in ls) + '].\n'
t=open('/repo/src/tool/templates/gui/ast.html',encoding='utf-8',newline='').read()
i=t.index('{{ name }}'); j=t.index('{{ ast }}')
assert t.count('{{')==2 and t.count('{%')==0 and t.count('{#')==0
out='''(** Page.v -- model of ASTDrawer::draw (src/tool/gui/ast_drawer.rs:49-60) and of what main writes.
    Generated by tools/mkpage.py from src/tool/templates/gui/ast.html. *)
From Verif Require Export Main Drawer.

(** ast.html:1-8, up to the name *)
Definition page_head : str := %s
(** ast.html:8-101, between the name and the tree *)
Definition page_mid : str := %s
(** ast.html:101-511, behind the tree *)
Definition page_tail : str := %s
(** The rendered template -- ast_drawer.rs:50-55; autoescaping is off (ast_drawer.rs:22), so Tera inserts both texts as
    they are. *)
Definition page (name : str) (ast : rule_ctx) : str := page_head ++ name ++ page_mid ++ script ast ++ page_tail.

(** main with the content of the file it writes (main.rs:32-88, the last line calls draw with the name "parser");
    creating and writing the file are not modelled. *)
Definition main_page (nd : N -> bool) (order : list production) (fuel : nat) (file : json) (input : str) : res str :=
  let! (r, _, _, _) := main_run nd order fuel file input in
  Ret (page (lit "parser") r).
''' % (text(t[:i]), text(t[i+10:j]), text(t[j+9:]))
open('/verif/rocq/theories/Page.v','w',encoding='utf-8').write(out)
h=open('/repo/parser2.html',encoding='utf-8',newline='').read()
open('/verif/rocq/theories/Parser2Html.v','w',encoding='utf-8').write('''(** Parser2Html.v -- the file parser2.html of /repo, which main writes.  Generated by tools/mkpage.py. *)
From Verif Require Export Base.

Definition parser2_html : str := %s''' % text(h))
