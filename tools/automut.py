#!/usr/bin/env python3
"""Random seeded bugs for mutate.py.

usage: automut.py [--more] SEED COUNT FILE... > MUTATIONS.json     (FILE relative to rocq/theories)

Each mutation changes one definition of the model in one of the ways a slip of the pen would:
off-by-one constants and comparisons, wrong endianness, swapped fields, a dropped part of a
message, swapped branches, negated flags.  With --more: a dropped call, another variable, another
error, concatenations swapped or cut, a value instead of nothing and the other way round.
"""
import json, random, re, sys, os
root = os.path.dirname(os.path.dirname(os.path.abspath(__file__))) + '/rocq/theories/'
more = '--more' in sys.argv
if more: sys.argv.remove('--more')
random.seed(int(sys.argv[1]))
count = int(sys.argv[2])

def strip_comments(s):
    out, depth, i = [], 0, 0
    while i < len(s):
        if s.startswith('(*', i): depth += 1; out.append('  '); i += 2; continue
        if s.startswith('*)', i) and depth: depth -= 1; out.append('  '); i += 2; continue
        out.append(s[i] if depth == 0 or s[i] == '\n' else ' '); i += 1
    return ''.join(out)

def definitions(s):
    heads = [(m.start(), m.group(1)) for m in re.finditer(r'^ *(?:Definition|Fixpoint)\s+(\w+)', s, re.M)]
    ends = [m.start() for m in re.finditer(r'^ *(?:Definition|Fixpoint|Record|Inductive|Section|End|Open|Notation|Lemma|Variant)\b', s, re.M)] + [len(s)]
    for st, name in heads:
        en = min(e for e in ends if e > st)
        body = s[st:en].rstrip()
        if ':=' in body: yield name, st, st + len(body)

def candidates(full, code, st, en):
    """(start, end, replacement, operator)"""
    body = code[st:en]
    b0 = body.index(':=') + 2
    res = []
    def add(m, new, op, g=0): res.append((st + m.start(g), st + m.end(g), new, op))
    for m in re.finditer(r'<=\?', body): add(m, '<?', 'comparison')
    for m in re.finditer(r'(?<!<)(?<!=)<\?', body): add(m, '<=?', 'comparison')
    for m in re.finditer(r'(?<![\w.%])(0x[0-9a-f]+|\d+)(?![\w.%\'])', body[b0:]):
        t = m.group(1)
        n = int(t, 16) if t.startswith('0x') else int(t)
        new = str(n + 1) if not t.startswith('0x') else hex(n + 1)
        res.append((st + b0 + m.start(), st + b0 + m.end(), new, 'constant'))
    for m in re.finditer(r'\b(read|write)_(le|be)_', body[b0:]):
        o = 'be' if m.group(2) == 'le' else 'le'
        res.append((st + b0 + m.start(), st + b0 + m.end(), '%s_%s_' % (m.group(1), o), 'endianness'))
    for m in re.finditer(r'_u(8|16|24|32|48|64)\b', body[b0:]):
        o = {'8': '16', '16': '8', '24': '16', '32': '16', '48': '32', '64': '32'}[m.group(1)]
        res.append((st + b0 + m.start(), st + b0 + m.end(), '_u' + o, 'width'))
    for m in re.finditer(r'\b_i(8|16|24|32|48|64)\b|_i(16|32|64)\b', body[b0:]):
        res.append((st + b0 + m.start(), st + b0 + m.end(), m.group(0).replace('i', 'u'), 'signedness'))
    for a, b in [('firstn', 'skipn'), ('skipn', 'firstn'), ('&&', '||'), ('||', '&&'), ('true', 'false'), ('false', 'true'),
                 ('N.shiftr', 'N.shiftl'), ('N.land', 'N.lor'), ('insert', 'remove'), ('N.lor', 'N.land')]:
        for m in re.finditer(r'(?<!\w)' + re.escape(a) + r'(?!\w)', body[b0:]):
            res.append((st + b0 + m.start(), st + b0 + m.end(), b, 'operator'))
    for m in re.finditer(r'\bnegb ', body[b0:]): res.append((st + b0 + m.start(), st + b0 + m.end(), '', 'negation'))
    for m in re.finditer(r'\bcontains ', body[b0:]): res.append((st + b0 + m.start(), st + b0 + m.end(), 'negb @@ contains ', 'negation'))
    lines = [(m.start(), m.end()) for m in re.finditer(r'[^\n]*\n', full[st:en] + '\n')]
    txt = full[st:en] + '\n'
    for (a, b), (c, d) in zip(lines, lines[1:]):
        x, y = txt[a:b], txt[c:d]
        mx, my = re.match(r'\s*(\w+) <- (.*?) ;;\s*$', x), re.match(r'\s*(\w+) <- (.*?) ;;\s*$', y)
        if mx and my and mx.group(2) not in ('',) and mx.group(1) not in my.group(2):
            res.append((st + a, st + d, y + x, 'order of fields'))
        if mx and my and mx.group(2) == my.group(2) == '': pass
        mx, my = re.match(r'(\s*\| [^=]*? => )(.*)\n', x), re.match(r'(\s*\| [^=]*? => )(.*)\n', y)
        if mx and my and mx.group(2) != my.group(2) and 'with' not in x + y:
            res.append((st + a, st + d, mx.group(1) + my.group(2) + '\n' + my.group(1) + mx.group(2) + '\n', 'swapped branches'))
        if re.match(r'\s*write_.* \+\+\s*$', x) and a > b0:
            res.append((st + a, st + b, '', 'dropped field'))
    for m in re.finditer(r'\b(mk_\w+)((?: \w+){2,})', body[b0:]):
        args = m.group(2).split()
        i = random.randrange(len(args) - 1)
        args[i], args[i + 1] = args[i + 1], args[i]
        res.append((st + b0 + m.start(), st + b0 + m.end(), m.group(1) + ' ' + ' '.join(args), 'swapped arguments'))
    for m in re.finditer(r' \+ 1\b| - 1\b', body[b0:]): res.append((st + b0 + m.start(), st + b0 + m.end(), '', 'off by one'))
    for m in re.finditer(r'\bif (.+?) then ([^\n]+?) else ([^\n]+?)(?=$|\)| end|;;)', body[b0:]):
        res.append((st + b0 + m.start(2), st + b0 + m.end(3), m.group(3) + ' else ' + m.group(2), 'swapped alternatives'))
    return further(full, code, st, en) if more else res

ERRORS = ['EIO', 'EPacket', 'EConstraint', 'EUtf8', 'ECustom', 'EColType', 'ENull', 'EEmptyResultSet', 'EColIndex', 'EColName', 'EParseValue']
def further(full, code, st, en):
    body = code[st:en]
    b0 = body.index(':=') + 2
    res = []
    def add(a, b, new, op): res.append((st + b0 + a, st + b0 + b, new, op))
    rest = body[b0:]
    for m in re.finditer(r'\n *_ <[~-] [^\n]*;;(?=\n)', rest): add(m.start(), m.end(), '', 'dropped call')
    for m in re.finditer(r'_ <[~-] [^;\n]*;; ', rest): add(m.start(), m.end(), '', 'dropped call')
    for m in re.finditer(r'\bErr (\w+)', rest):
        o = random.choice([e for e in ERRORS if e != m.group(1)]); add(m.start(1), m.end(1), o, 'error')
    for m in re.finditer(r'\bPanic \w+', rest): add(m.start(), m.end(), 'Err EPacket', 'panic')
    for m in re.finditer(r'(\([^()\n]*\)|[\w]+) \+\+ (\([^()\n]*\)|[\w]+)', rest):
        add(m.start(), m.end(), m.group(2) + ' ++ ' + m.group(1), 'order'); add(m.start(), m.end(), m.group(1), 'cut'); add(m.start(), m.end(), m.group(2), 'cut')
    for m in re.finditer(r'\bSome (\([^()\n]*\)|[\w]+)', rest): add(m.start(), m.end(), 'None', 'nothing')
    for m in re.finditer(r'\bfst\b', rest): add(m.start(), m.end(), 'snd', 'projection')
    for m in re.finditer(r'\bsnd\b', rest): add(m.start(), m.end(), 'fst', 'projection')
    for m in re.finditer(r' \+ ', rest): add(m.start(), m.end(), ' - ', 'arithmetic')
    for m in re.finditer(r' - ', rest): add(m.start(), m.end(), ' + ', 'arithmetic')
    for m in re.finditer(r' / ', rest): add(m.start(), m.end(), ' mod ', 'arithmetic')
    for m in re.finditer(r' mod ', rest): add(m.start(), m.end(), ' / ', 'arithmetic')
    names = set(re.findall(r'\b(\w+) <[~-] ', body)) | set(re.findall(r'\((\w+(?: \w+)*) : ', body[:b0]))
    names = {x for n in names for x in n.split() if len(x) > 0 and x != '_'}
    names |= set(re.findall(r'\bfun (\w+) =>', body)) | set(re.findall(r'\blet (\w+) :=', body))
    names.discard('_')
    for m in re.finditer(r'\b[a-z]\w*\b', rest):
        if m.group(0) in names and not re.match(r'\s*(<[~-]|:=|=>)', rest[m.end():]) and len(names) > 1:
            add(m.start(), m.end(), random.choice(sorted(names - {m.group(0)})), 'variable')
    return res

allc = []
for f in sys.argv[3:]:
    full = open(root + f).read()
    code = strip_comments(full)
    per = []
    for name, st, en in definitions(code):
        c = candidates(full, code, st, en)
        if c: per.append((name, st, en, c))
    allc.append((f, full, per))
out, seen = [], set()
tries = 0
while len(out) < count and tries < 50 * count:
    tries += 1
    f, full, per = random.choice(allc)
    name, st, en, c = random.choice(per)
    a, b, new, op = random.choice(c)
    if (f, a, b, new) in seen or full[a:b] == new: continue
    seen.add((f, a, b, new))
    if '@@' in new:
        # negate the whole application: contains x y
        m = re.match(r'contains (\([^()]*\)|[\w]+) (\([^()]*\)|[\w]+)', full[a:])
        if not m: continue
        b = a + m.end(); new = 'negb (' + m.group(0) + ')'
    # widen to lines until the text is unique
    la, lb = full.rfind('\n', 0, a) + 1, full.find('\n', b)
    if full[b - 1:b] == '\n': lb = b
    while full.count(full[la:lb]) != 1:
        la = full.rfind('\n', 0, la - 1) + 1
    out.append({'name': name, 'file': f, 'old': full[la:lb], 'new': full[la:a] + new + full[b:lb], 'claim': '', 'op': op})
json.dump(out, sys.stdout, indent=1)
