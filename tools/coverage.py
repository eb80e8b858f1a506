#!/usr/bin/env python3
"""Functions of /repo (outside tests) whose lines no comment of the model cites.  Citations are matched by
file name, so files of the same name share them."""
import re, glob, os
cites = {}
for f in glob.glob(os.path.dirname(os.path.abspath(__file__)) + '/../rocq/theories/Model/*.v'):
    s = open(f).read()
    for m in re.finditer(r'([\w/{},]+)\.rs:([0-9][0-9, \-]*)', s):
        for r in re.findall(r'(\d+)(?:-(\d+))?', m.group(2)):
            a, b = int(r[0]), int(r[1] or r[0])
            cites.setdefault(m.group(1).split('/')[-1], []).append((a, b))
        # "and 204-213" / "also 226-238" after a citation
        tail = s[m.end():m.end() + 60].split('*)')[0]
        for r in re.findall(r'(?:and|also|,)\s+(\d+)-(\d+)', tail):
            cites.setdefault(m.group(1).split('/')[-1], []).append((int(r[0]), int(r[1])))
for root, _, fs in os.walk('/repo'):
    for f in sorted(fs):
        if not f.endswith('.rs'): continue
        p = os.path.join(root, f)
        lines = open(p).read().split('\n')
        end = next((i for i, l in enumerate(lines) if '#[cfg(test)]' in l), len(lines))
        miss = []
        for i, l in enumerate(lines[:end]):
            m = re.search(r'\bfn (\w+)', l)
            if m and not any(a - 2 <= i + 1 <= b for a, b in cites.get(f[:-3], [])):
                miss.append('%d:%s' % (i + 1, m.group(1)))
        if miss: print(p, ' '.join(miss))
