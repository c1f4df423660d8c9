"""Transcribes src/tool/templates/target/rust/lexer.tera and tests/lexer_generate/lexer.rs of /repo into Coq."""
import re,sys
sys.path.insert(0,'/verif/tools')
def coq(s):
    parts=[]
    for run in re.findall(r'[ -~]+|[^ -~]+', s):
        if ' ' <= run[0] <= '~': parts.append('lit "%s"' % run.replace('"','""'))
        else: parts.append('[' + '; '.join('%d%%N' % ord(c) for c in run) + ']')
    return '(' + ' ++ '.join(parts) + ')'
def text(s): return 'concat [\n' + ';\n'.join(coq(l) for l in s.splitlines(keepends=True)) + ']'
t=open('/repo/src/tool/templates/target/rust/lexer.tera',encoding='utf-8',newline='').read()
toks=re.split(r'(\{\{.*?\}\}|\{%.*?%\})',t)
top=[];cur=top
for x in toks:
    if x=='': continue
    m=re.fullmatch(r'\{\{\s*(.*?)\s*\}\}',x)
    if m:
        v=m.group(1)
        if cur is top: assert v=='name'; cur.append('Name')
        else: cur.append({'token.token_name':'TokenName','token.token_type':'TokenType','token.regex':'TokenRegex'}[v])
    elif re.fullmatch(r'\{%\s*for token in tokens\s*%\}',x):
        assert cur is top; body=[]; cur=body
    elif re.fullmatch(r'\{%\s*endfor\s*%\}',x):
        top.append('ForTokens [' + ';\n  '.join(body) + ']'); cur=top
    else:
        cur.append(('Text (%s)' if cur is top else 'TokenText (%s)') % text(x))
out='''(** LexerTera.v -- model of rendering src/tool/templates/target/rust/lexer.tera (tests/lexer_gen.rs:10-24: the context
    has "tokens", a list of LexerRuleData, and "name"; autoescaping is off).  The template is transcribed by tools/mkgen.py. *)
From Verif Require Export Visitors.

(** The parts of the Tera language the template uses: text, [{{name}}], and [{%% for token in tokens %%}...{%% endfor %%}] over
    text, [{{token.token_name}}], [{{token.token_type}}] and [{{token.regex}}]. *)
Inductive token_part := TokenText (s : str) | TokenName | TokenType | TokenRegex.
Inductive part := Text (s : str) | Name | ForTokens (body : list token_part).

Definition render_token_part (t : lexer_rule_data) (p : token_part) : str :=
  match p with
  | TokenText s => s
  | TokenName => ld_name t
  | TokenType => usize_to_string (ld_type t)
  | TokenRegex => ld_regex t
  end.
Definition render_part (name : str) (tokens : list lexer_rule_data) (p : part) : str :=
  match p with
  | Text s => s
  | Name => name
  | ForTokens body => concat (map (fun t => concat (map (render_token_part t) body)) tokens)
  end.
(** [tera.render(..)] *)
Definition render (template : list part) (name : str) (tokens : list lexer_rule_data) : str :=
  concat (map (render_part name tokens) template).

(** lexer.tera *)
Definition lexer_tera : list part := [
%s].
''' % ';\n'.join(top)
open('/verif/rocq/theories/LexerTera.v','w',encoding='utf-8').write(out)
h=open('/repo/tests/lexer_generate/lexer.rs',encoding='utf-8',newline='').read()
open('/verif/rocq/theories/LexerRs.v','w',encoding='utf-8').write('''(** LexerRs.v -- the file tests/lexer_generate/lexer.rs of /repo, which the template was rendered to.  Generated by
    tools/mkgen.py. *)
From Verif Require Export Base.

Definition lexer_rs : str := %s.
''' % text(h))
