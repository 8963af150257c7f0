#!/usr/bin/env python3
"""Compares the straight-line code and the tables of /repo with the model, as text.
Nothing is proved here; it guards against slips of the hand in the transcription.

1. The tables IV and SIGMA, the size constants.
2. portable.rs g, round, compress; the rounds of sse41.rs and avx2.rs, in the models
   on values (Portable, Sse41, Avx2) and with checked indexing (Inside).
3. Lines that repeat for each lane or leaf differ only by the lane number, so that a
   model that treats the lanes alike is faithful.
Exit status 0 if everything agrees."""
import re, sys, subprocess
R, T = '/repo/src/', __file__.rsplit('/', 2)[0] + '/rocq/theories/'
src = {f: open(R + f).read().split('\n') for f in ('lib.rs', 'blake2sp.rs', 'portable.rs', 'sse41.rs', 'avx2.rs')}
coq = {f: open(T + f + '.v').read() for f in ('Consts', 'Portable', 'Sse41', 'Avx2', 'Inside')}
bad = 0
def check(what, a, b):
    global bad
    ok = a == b and len(a) > 0
    if not ok: bad += 1
    print('ok ' if ok else 'BAD', what, '' if ok else '\n  source %r\n  model  %r' % (a, b))
def fn(f, name):
    """the body of a Rust function"""
    L = src[f]
    i = next(k for k, l in enumerate(L) if re.match(r'\s*(pub )?(pub\(crate\) )?(unsafe )?fn %s\(' % name, l))
    j = next(k for k in range(i, len(L)) if L[k] == '}')
    k = next(k for k in range(i, len(L)) if L[k].rstrip().endswith('{'))
    return [l.strip() for l in L[k + 1:j] if l.strip() and not l.strip().startswith('//')]
def dfn(f, name):
    """the text of a definition"""
    m = re.search(r'Definition %s\b.*?\.\n(?=\Z|\n|\(\*|Definition|Notation|Fixpoint|Ltac)' % name, coq[f], re.S)
    return re.sub(r'\(\*.*?\*\)', '', m.group(0), flags=re.S)
nums = lambda s: [int(x, 0) for x in re.findall(r'0x[0-9A-Fa-f]+|\d+', s)]

# 1. tables and constants
L = '\n'.join(src['lib.rs'])
iv = re.search(r'const IV.*?= \[(.*?)\];', L, re.S).group(1)
check('IV', nums(iv.replace('_', '')), [x for x in nums(dfn('Consts', 'IV').split(':=')[1]) if x > 1000])
sg = re.search(r'const SIGMA.*?= \[(.*?)\n\];', L, re.S).group(1)
check('SIGMA', nums(sg), nums(re.sub('%nat', '', dfn('Consts', 'SIGMA').split(':=')[1])))
for c in ('OUTBYTES', 'KEYBYTES', 'SALTBYTES', 'PERSONALBYTES', 'BLOCKBYTES'):
    s = re.search(r'pub const %s: usize = (.*?);' % c, L).group(1)
    check(c, nums(s)[:1], nums(dfn('Consts', c).split(':=')[1])[:1])

# 2. straight-line code
g = []
for l in fn('portable.rs', 'g'):
    m = re.match(r'v\[(\w)\] = v\[(\w)\]\.wrapping_add\(v\[(\w)\]\)(?:\.wrapping_add\((\w)\))?;', l)
    if m: g.append(('add',) + m.groups()); continue
    m = re.match(r'v\[(\w)\] = \(v\[(\w)\] \^ v\[(\w)\]\)\.rotate_right\((\d+)\);', l)
    g.append(('xor',) + m.groups())
h = []
for l in re.findall(r'let v := (.*?) in', dfn('Portable', 'g')):
    m = re.match(r'upd v (\w) \(wrapping_add \(wrapping_add \(wget v (\w)\) \(wget v (\w)\)\) (\w)\)', l)
    if m: h.append(('add',) + m.groups()); continue
    m = re.match(r'upd v (\w) \(wrapping_add \(wget v (\w)\) \(wget v (\w)\)\)', l)
    if m: h.append(('add',) + m.groups() + (None,)); continue
    m = re.match(r'upd v (\w) \(rotate_right \(uxor \(wget v (\w)\) \(wget v (\w)\)\) (\d+)\)', l)
    h.append(('xor',) + m.groups())
check('portable g', g, h)
h = []
for l in re.findall(r'v <~ (.*?) ;;', dfn('Inside', 'g_i')):
    m = re.match(r'(add3_i|add2_i|xor_rot_i) v (\w) (\w)(?: (\w+))?', l)
    h.append(('xor' if 'xor' in m[1] else 'add', m[2], m[2], m[3], m[4]))
check('portable g, Inside', g, h)
r = [nums(l) for l in fn('portable.rs', 'round') if l.startswith('g(')]
check('portable round', r, [nums(re.sub('%nat|32', '', l)) for l in re.findall(r'let v := g v (.*?) in', dfn('Portable', 'round'))])
check('portable round, Inside', r, [nums(l) for l in re.findall(r'g_m_i s m v (.*?) ;;', dfn('Inside', 'round_i'))])
c = fn('portable.rs', 'compress')
check('portable rounds', [nums(l) for l in c if l.startswith('round(')], [nums(l) for l in re.findall(r'let v := round (.*?) in', dfn('Portable', 'compress'))])
check('portable rounds, Inside', [nums(l) for l in c if l.startswith('round(')], [nums(l) for l in re.findall(r'round_i (\d+)', dfn('Inside', 'compress_i'))])
f = [nums(l) for l in c if re.match(r'h\[\d\] \^=', l)]
check('portable feed-forward', f, [nums(re.sub(r'o(\d) h', r'h \1', l)) for l in re.findall(r'uxor \(o\d h\) \(uxor \(wget v \d+\) \(wget v \d+\)\)', dfn('Portable', 'compress'))])
for k in ('round_4', 'round_8x'):
    o = subprocess.run([sys.executable, __file__.rsplit('/', 1)[0] + '/gen_simd.py', k], capture_output=True, text=True).stdout
    want = re.findall(r'let v := (.*?) in', o)
    m, d = ('Sse41', 'round_4') if k == 'round_4' else ('Avx2', 'blake2s_round_8x')
    check(k, want, re.findall(r'let v := (.*?) in', dfn(m, d)))
    n = '4' if k == 'round_4' else '8'
    got = []
    for l in re.findall(r'v <~ v%s_(.*?) ;;' % n, dfn('Inside', k + '_i')):
        q = l.split()
        if q[0] == 'addm_i': got.append('set_addm v m %s %s (sigma r %s)' % tuple(q[4:]))
        else: got.append('set_%s v %s' % (q[0][:-2], ' '.join(q[2:])))
    check(k + ', Inside', want, got)
o = subprocess.run([sys.executable, __file__.rsplit('/', 1)[0] + '/gen_simd.py', 'sse_rounds'], capture_output=True, text=True).stdout
for n in range(1, 11):
    w = re.search(r'Definition compress_round%d .*?:= *\n(.*?)\.\n' % n, o + '\n', re.S) or re.search(r'Definition compress_round%d .*?:=\n(.*?)\.\n' % n, o, re.S)
    m = re.search(r'Definition compress_round%d .*?:=\n(.*?)\.\n' % n, coq['Sse41'], re.S)
    check('sse41 compress round %d' % n, w.group(1).split('\n'), m.group(1).split('\n'))
for f, name, m, d, di in (('sse41.rs', 'compress4_transposed_inline', 'Sse41', 'compress4_transposed', 'compress4_i'),
                          ('avx2.rs', 'compress8_transposed_inline', 'Avx2', 'compress8_transposed', 'compress8_i')):
    c = fn(f, name)
    rs = [nums(l.replace('round_4', '').replace('round_8x', '').replace('blake2s_', ''))[-1] for l in c if 'round_' in l]
    pat = 'round_4 v msg_vecs' if m == 'Sse41' else 'blake2s_round_8x v msg_vecs'
    check(d + ' rounds', rs, [int(x) for x in re.findall(pat + r' (\d+)', dfn(m, d))])
    check(d + ' rounds, Inside', rs, [int(x) for x in re.findall(r'round_\w+_i v msg_vecs (\d+)', dfn('Inside', di))])
    ff = [nums(l)[1:] for l in c if re.match(r'h_vecs\[\d\] =', l)]
    check(d + ' feed-forward', ff, [[int(x) for x in q] for q in re.findall(r'\(o(\d) h_vecs\) ?\(?(?:xor )?\(vget v (\d+)\)\)? \(vget v (\d+)\)', dfn(m, d))])

# 3. lanes
key = lambda l: re.sub(r'\d+', '#', l.strip())
# the groups of lines whose numbers are not in arithmetic progression: tables, and the
# diagonal half of a round, which 2. compares number by number
known = ['[#, #,', 'g(v, #', 'transposed#[#]', 'v[#] = ']
n = 0
for f, L in src.items():
    i = 0
    while i < len(L):
        j = i
        while '#' in key(L[i]) and j + 1 < len(L) and key(L[j + 1]) == key(L[i]): j += 1
        if j - i >= 3:
            n += 1
            cols = zip(*[map(int, re.findall(r'\d+', l)) for l in L[i:j + 1]])
            if any(len({b - a for a, b in zip(c, c[1:])}) > 1 for c in map(list, cols)) and not any(key(L[i]).startswith(k) for k in known):
                bad += 1; print('BAD %s:%d-%d %s' % (f, i + 1, j + 1, key(L[i])))
        i = j + 1
print('%d groups of repeated lines' % n)
sys.exit(1 if bad else 0)
