#!/usr/bin/env python3
"""One-off transcription helper: turns the straight-line bodies of sse41.rs
(compress, round_4) and avx2.rs (blake2s_round_8x) into Gallina lets, line by
line, so that no lane index or immediate is retyped by hand."""
import re, sys
sse = open('/repo/src/sse41.rs').read().split('\n')
avx = open('/repo/src/avx2.rs').read().split('\n')

def conv_expr(e):
    e = e.strip()
    e = re.sub(r'_mm_castsi128_ps\((\w+)\)', r'\1', e)
    m = re.match(r'^_mm_castps_si128\((.*)\)$', e)
    if m: e = m.group(1).strip()
    e = e.rstrip(',')
    def call(s):
        s = s.strip()
        m = re.match(r'^(\w+!?)\((.*)\)$', s, re.S)
        if not m: 
            return s
        f, args = m.group(1), m.group(2)
        parts, depth, cur = [], 0, ''
        for ch in args:
            if ch == '(' : depth += 1
            if ch == ')' : depth -= 1
            if ch == ',' and depth == 0:
                parts.append(cur); cur = ''
            else: cur += ch
        if cur.strip(): parts.append(cur)
        f = f.replace('_MM_SHUFFLE!', '_MM_SHUFFLE')
        return '(' + f + ' ' + ' '.join(call(p) for p in parts) + ')'
    r = call(e)
    if r.startswith('('): r = r[1:-1]
    return r

def sse_rounds():
    out = []
    # lines 142..367 (1-based)
    text = sse[141:367]
    rounds, cur, start = [], None, None
    for i, l in enumerate(text, 142):
        m = re.match(r'\s*// round (\d+)', l)
        if m:
            cur = [int(m.group(1)), i, []]; rounds.append(cur); continue
        if l.strip(): cur[2].append(l.strip())
    for n, line, ls in rounds:
        end = rounds[n][1]-2 if n < len(rounds) else 367
        out.append('(** sse41.rs:%d-%d, "round %d" of [compress] (inline code there, a function here). *)' % (line, end, n))
        out.append('Definition compress_round%d (row1 row2 row3 row4 m0 m1 m2 m3 : m128) : rows :=' % n)
        stmts = ' '.join(ls).split(';')
        for s in stmts:
            s = s.strip()
            if not s: continue
            m = re.match(r'^let (\w+) = (.*)$', s, re.S)
            if m:
                out.append('  let %s := %s in' % (m.group(1), conv_expr(m.group(2)))); continue
            m = re.match(r'^(g1|g2)\((.*)\)$', s)
            if m:
                out.append("  let '(row1, row2, row3, row4) := %s row1 row2 row3 row4 buf in" % m.group(1))
                assert m.group(2) == 'row1, row2, row3, row4, buf'; continue
            m = re.match(r'^(diagonalize|undiagonalize)\(row2, row3, row4\)$', s)
            if m:
                out.append("  let '(row2, row3, row4) := %s row2 row3 row4 in" % m.group(1)); continue
            raise Exception(s)
        out.append('  (row1, row2, row3, row4).')
        out.append('')
    return '\n'.join(out)

def vround(lines):
    out = []
    for l in lines:
        l = l.strip()
        if not l: continue
        m = re.match(r'^v\[(\d+)\] = (add|xor)\(v\[(\d+)\], v\[(\d+)\]\);$', l)
        if m:
            out.append('  let v := set_%s v %s %s %s in' % (m.group(2), m.group(1), m.group(3), m.group(4))); continue
        m = re.match(r'^v\[(\d+)\] = add\(v\[(\d+)\], m\[SIGMA\[r\]\[(\d+)\] as usize\]\);$', l)
        if m:
            out.append('  let v := set_addm v m %s %s (sigma r %s) in' % m.groups()); continue
        m = re.match(r'^v\[(\d+)\] = (rot\d+)\(v\[(\d+)\]\);$', l)
        if m:
            out.append('  let v := set_%s v %s %s in' % (m.group(2), m.group(1), m.group(3))); continue
        raise Exception(l)
    out.append('  v.')
    return '\n'.join(out)

if sys.argv[1] == 'sse_rounds': print(sse_rounds())
if sys.argv[1] == 'round_4': print(vround(sse[479:592]))
if sys.argv[1] == 'round_8x': print(vround(avx[92:205]))
