#!/usr/bin/env python3
"""Checks the citations of /repo in the theories and in properties.jsonl.

A citation is `file.rs:a-b [name]`, possibly followed by `, c-d [name]` in the same file.
Checked: the lines exist, and an item called `name` starts within them and ends with them,
or with the `impl` block around it
(for a plain name with a definition in that file).  Prints what does not fit."""
import glob, json, os, re, sys
here = os.path.dirname(os.path.dirname(os.path.abspath(__file__)))
repo = sys.argv[1] if len(sys.argv) > 1 else '/repo'
src = {}
for f in glob.glob(repo + '/**/*.rs', recursive=True):
    src[os.path.relpath(f, repo)] = open(f).read().split('\n')
def find(name):
    c = [f for f in src if f == name or f == 'src/' + name or f == 'tests/' + name or '/repo/' + f == name]
    return c[0] if c else None
bad = n = items = 0
def say(*a):
    global bad; bad += 1; print(*a)
def check(where, f, a, b, name):
    global n, items
    n += 1
    L = src[f]
    if not (1 <= a <= b <= len(L)): return say(where, f, a, b, 'out of range')
    if not name: return
    m = re.match(r'^(?:\w+::)*(\w+)$', name)
    if not m: return
    x = m.group(1)
    pat = re.compile(r'\b(fn|struct|enum|const|type|static|macro_rules!|mod|trait|union)\s+%s\b' % x)
    defs = [i for i, l in enumerate(L, 1) if pat.search(l)]
    if not defs: return
    items += 1
    ins = [i for i in defs if a <= i <= b]
    if not ins: return say(where, f, '%d-%d' % (a, b), name, 'defined at', defs)
    # the item's own end: matching brace from its first line, or a semicolon
    i = ins[0]; depth = 0; seen = False
    for j in range(i, len(L) + 1):
        t = re.sub(r'//.*', '', L[j-1]); t = re.sub(r'b?"(\\.|[^"])*"|b?\'(\\.|[^\'\\])\'', '', t)
        for ch in t:
            if ch in '{[(': depth += 1; seen = seen or ch == '{'
            elif ch in '}])': depth -= 1
        if depth == 0 and (seen or t.rstrip().endswith(';')): break
    if len(ins) == 1 and b != j and not (b == j + 1 and L[j].strip() == '}'): say(where, f, '%d-%d' % (a, b), name, 'ends at', j)
for v in sorted(glob.glob(here + '/rocq/theories/*.v')):
    t = re.sub(r'\s+', ' ', open(v).read())
    for m in re.finditer(r'([\w/]+\.rs):(\d+)(?:-(\d+))?((?:,? (?:and )?\(?(?:\d+-)?\d*-?\d* ?\[[^\]]*\])*)', t):
        f = find(m.group(1))
        where = os.path.basename(v)
        if not f: say(where, m.group(0), 'no such file'); continue
        a = int(m.group(2)); b = int(m.group(3) or a)
        rest = m.group(4)
        first = re.match(r' \[([^\]]*)\]', rest)
        check(where, f, a, b, first and first.group(1))
        for q in re.finditer(r'(\d+)(?:-(\d+))? \[([^\]]*)\]', rest):
            check(where, f, int(q.group(1)), int(q.group(2) or q.group(1)), q.group(3))
for l in open(here + '/properties.jsonl'):
    d = json.loads(l)
    for an in d['anchors']:
        s = an if isinstance(an, str) else json.dumps(an)
        ok = False
        for m in re.finditer(r'([\w/]+\.rs)(?::(\d+)(?:-(\d+))?)?', s):
            f = find(m.group(1))
            if not f: say(d['id'], s, 'no such file'); continue
            ok = True
            if m.group(2): check(d['id'], f, int(m.group(2)), int(m.group(3) or m.group(2)), None)
        if not ok and not re.search(r'(README|Cargo|\.json|\.c:)', s): say(d['id'], s, 'no anchor')
print(n, 'citations,', items, 'with an item;', bad, 'to look at')
