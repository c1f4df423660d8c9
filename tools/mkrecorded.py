#!/usr/bin/env python3
"""Write rocq/theories/RecordedJson.v and Recorded.v: src/tool/syntaxis/syntaxis.json, and the outputs recorded in the comments of
tests/grammar_test.rs, tests/first_set_test.rs and tests/follow_set_test.rs."""
import json, os, re
root = os.path.dirname(os.path.dirname(os.path.abspath(__file__)))
repo = '/repo/'
def s(x):
    parts = ['lit "%s"' % r.replace('"', '""') if ' ' <= r[0] <= '~' else '[' + '; '.join('%d%%N' % ord(c) for c in r) + ']'
             for r in re.findall(r'[ -~]+|[^ -~]+', x)]
    return parts[0] if len(parts) == 1 else '(' + ' ++ '.join(parts) + ')'
def j(v, ind):
    p = ' ' * ind
    if isinstance(v, tuple):
        return 'JObject [' + ';'.join('\n%s(%s, %s)' % (p, s(k), j(x, ind + 1)) for k, x in v[1]) + ']'
    if isinstance(v, list):
        return 'JArray [' + ';'.join('\n%s%s' % (p, j(x, ind + 1)) for x in v) + ']'
    if isinstance(v, int): return 'JU64 %d' % v
    return 'JString (%s)' % s(v)
d = json.load(open(repo + 'src/tool/syntaxis/syntaxis.json'), object_pairs_hook=lambda l: ('object', l))
raw = open(repo + 'src/tool/syntaxis/syntaxis.json', encoding='utf-8', newline='').read()
open(root + '/rocq/theories/RecordedJson.v', 'w').write('''(** RecordedJson.v -- src/tool/syntaxis/syntaxis.json, as a value and as a text, generated by tools/mkrecorded.py. *)
From Verif Require Export SerdeAst.

Definition syntaxis_json : json :=
''' + j(d, 1) + '''.

Definition syntaxis_text : str :=
concat [
''' + ';\n'.join(s(l) if len(s(l)) and s(l)[0] == '(' else '(' + s(l) + ')' for l in raw.splitlines(keepends=True)) + '].\n')

def comments(f):
    return re.findall(r'/\*\*(.*?)\*/', open(repo + 'tests/' + f).read(), re.S)
def lines(c): return [l.strip() for l in c.split('\n') if l.strip()]
def sets(c):
    l = lines(c); out = []
    for name, st in zip(l[::2], l[1::2]):
        assert name.endswith(':') and st[0] == '{' and st[-1] == '}'
        items = [x.strip() for x in st[1:-1].split(',') if x.strip()]
        eps = 'ε' in items
        out.append((name[:-1], [x for x in items if x != 'ε'], eps))
    return out
g = comments('grammar_test.rs'); f = comments('first_set_test.rs'); w = comments('follow_set_test.rs')
assert len(g) == 1 and len(f) == 2 and len(w) == 2
assert sorted(lines(g[0])) == sorted(lines(f[0])) == sorted(lines(w[0]))
def setlist(l): return ';\n   '.join('(%s, [%s], %s)' % (s(n), '; '.join(s(x) for x in ts), str(e).lower()) for n, ts, e in l)
assert not any(e for _, _, e in sets(w[1]))
open(root + '/rocq/theories/Recorded.v', 'w').write('''(** Recorded.v -- the outputs recorded in the comments of the tests, generated by tools/mkrecorded.py. *)
From Verif Require Export Base.

(** tests/grammar_test.rs:4-36 (tests/first_set_test.rs and tests/follow_set_test.rs have the same lines in other orders) *)
Definition recorded_productions : list str :=
  [''' + ';\n   '.join(s(l) for l in lines(g[0])) + '''].

(** tests/first_set_test.rs:47-84: the name of a rule, its tokens, whether it can be empty *)
Definition recorded_first : list (str * list str * bool) :=
  [''' + setlist(sets(f[1])) + '''].

(** tests/follow_set_test.rs:43-95 *)
Definition recorded_follow : list (str * list str) :=
  [''' + ';\n   '.join('(%s, [%s])' % (s(n), '; '.join(s(x) for x in ts)) for n, ts, e in sets(w[1])) + '''].
''')
