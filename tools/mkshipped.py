#!/usr/bin/env python3
"""Write rocq/theories/ShippedJson.v: src/tool/syntaxis/syntaxis2.json and the text in main.rs as Coq terms."""
import json, os, sys
root = os.path.dirname(os.path.dirname(os.path.abspath(__file__)))
src = sys.argv[1] if len(sys.argv) > 1 else '/repo/src/tool/syntaxis/syntaxis2.json'
def pairs(l): return ('object', l)
d = json.load(open(src), object_pairs_hook=pairs)
def s(x):
    parts, cur = [], ''
    for c in x:
        if 32 <= ord(c) < 127: cur += c
        else:
            if cur: parts.append('lit "%s"' % cur.replace('"', '""')); cur = ''
            parts.append('[%d%%N]' % ord(c))
    if cur or not parts: parts.append('lit "%s"' % cur.replace('"', '""'))
    return parts[0] if len(parts) == 1 else '(' + ' ++ '.join(parts) + ')'
main = open('/repo/src/main.rs').read()
text = main[main.index('let input = r####"') + len('let input = r####"'):main.index('"####;')]
def j(v, ind):
    p = ' ' * ind
    if isinstance(v, tuple):
        return 'JObject [' + ';'.join('\n%s(%s, %s)' % (p, s(k), j(x, ind + 1)) for k, x in v[1]) + ']'
    if isinstance(v, list):
        return 'JArray [' + ';'.join('\n%s%s' % (p, j(x, ind + 1)) for x in v) + ']'
    if isinstance(v, bool): return 'JBool ' + str(v).lower()
    if isinstance(v, int): return 'JU64 %d' % v if v >= 0 else 'JOtherNumber'
    if isinstance(v, float): return 'JOtherNumber'
    if v is None: return 'JNull'
    return 'JString (%s)' % s(v)
open(os.path.join(root, 'rocq/theories/ShippedJson.v'), 'w').write('''(** ShippedJson.v -- src/tool/syntaxis/syntaxis2.json and the text parsed by src/main.rs, generated by tools/mkshipped.py. *)
From Verif Require Export SerdeAst.

Definition syntaxis2_json : json :=
''' + j(d, 1) + '''.

(** The text that main parses -- main.rs:43-78 *)
Definition main_input : str :=
concat [
''' + ';\n'.join(s(l + '\n') for l in text.split('\n')[:-1]) + ';\n' + s(text.split('\n')[-1]) + '].\n')

# The text of the file itself.
import re
def coq(x):
    parts = ['lit "%s"' % r.replace('"', '""') if ' ' <= r[0] <= '~' else '[' + '; '.join('%d%%N' % ord(c) for c in r) + ']'
             for r in re.findall(r'[ -~]+|[^ -~]+', x)]
    return '(' + ' ++ '.join(parts) + ')'
raw = open(src, encoding='utf-8', newline='').read()
open(os.path.join(root, 'rocq/theories/ShippedText.v'), 'w').write('''(** ShippedText.v -- the text of src/tool/syntaxis/syntaxis2.json, generated by tools/mkshipped.py. *)
From Verif Require Export Base.

Definition syntaxis2_text : str :=
concat [
''' + ';\n'.join(coq(l) for l in raw.splitlines(keepends=True)) + '].\n')
