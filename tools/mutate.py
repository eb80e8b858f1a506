#!/usr/bin/env python3
"""Seeded-bug runner.

usage: mutate.py MUTATIONS.json [SLOT] [--early]

With --early only as much is rebuilt as is needed to see one file of Properties/ fail (files that
need the fewest rebuilt modules come first).

MUTATIONS.json: list of {"name", "file", "old", "new", "claim"}; "file" is relative to
rocq/theories.  With "props", a list of files of Properties/, only these are rebuilt.
For each one the development is copied to a scratch directory, the edit is applied to the
model, and everything that depends on the file is rebuilt.  A lemma whose
proof fails is replaced by Admitted and the build goes on; the theorems in Properties/
whose `Print Assumptions` then mentions an admitted lemma (or that fail themselves) are
the ones that notice the bug.  Prints one JSON object per mutation.
"""
import json, os, re, subprocess, sys, shutil

SRC = os.environ.get('MUT_SRC', '/verif/rocq')

def sh(cmd, cwd, timeout):
    try:
        p = subprocess.run(cmd, cwd=cwd, stdout=subprocess.PIPE, stderr=subprocess.STDOUT, timeout=timeout, text=True, errors='replace')
        return p.returncode, p.stdout
    except subprocess.TimeoutExpired as e:
        out = e.stdout or b''
        return 124, out.decode(errors='replace') if isinstance(out, bytes) else out

HEAD = re.compile(r'^[ \t]*(?:Local |Global |#\[[a-z]+\] )*(Lemma|Theorem|Corollary|Example|Fact|Remark|Instance|Definition)\s+([A-Za-z0-9_\']+)', re.M)

def admit_at(path, pos):
    raw = open(path, 'rb').read()
    s = raw.decode()
    # pos is a byte offset
    cpos = len(raw[:pos].decode(errors='ignore'))
    best = None
    for m in HEAD.finditer(s):
        if m.start() <= cpos: best = m
        else: break
    if best is None: return None
    pm = re.compile(r'\bProof\.').search(s, best.end())
    if pm is None: return None
    em = re.compile(r'\b(Qed|Defined)\.').search(s, pm.end())
    if em is None or em.end() < cpos or pm.start() > cpos: return None
    s = s[:pm.start()] + 'Admitted.' + s[em.end():]
    open(path, 'w').write(s)
    return best.group(2), best.group(1)

def deps(root):
    files = [l.strip() for l in open(root + '/_CoqProject') if l.strip().endswith('.v')]
    _, out = sh(['coqdep', '-Q', 'theories', 'Verif'] + files, root, 120)
    d = {f: set() for f in files}
    for l in out.splitlines():
        m = re.match(r'(\S+)\.vo .*?: (.*)', l)
        if m:
            f = m.group(1) + '.v'
            if f in d:
                d[f] = {x[:-1] for x in m.group(2).split() if x.endswith('.vo')}
    return files, d

def topo(files, d):
    seen, order = set(), []
    def go(f):
        if f in seen: return
        seen.add(f)
        for x in sorted(d.get(f, ())):
            if x in d: go(x)
        order.append(f)
    for f in files: go(f)
    return order

def cone(f, d):
    seen = set()
    def go(x):
        if x in seen or x not in d: return
        seen.add(x)
        for y in d[x]: go(y)
    go(f)
    return seen

def early_order(order, d, target):
    """the files to rebuild, those needed by the cheapest property file first"""
    users = {f for f in order if target in cone(f, d)}
    props = [f for f in order if f.startswith('theories/Properties') and f in users]
    done, res = set(), []
    while props:
        props.sort(key=lambda f: sum(os.path.getsize(SRC + '/' + x) for x in (cone(f, d) & users) - done))
        f = props.pop(0)
        new = (cone(f, d) & users) - done
        res += [x for x in order if x in new]
        done |= new
    return res

def run(mut, slot, early=False):
    root = '/tmp/mut/' + slot
    shutil.rmtree(root, ignore_errors=True)
    os.makedirs('/tmp/mut', exist_ok=True)
    shutil.copytree(SRC, root)
    files, d = deps(root)
    target = 'theories/' + mut['file']
    p = root + '/' + target
    s = open(p).read()
    n = s.count(mut['old'])
    if n != 1: return {'name': mut['name'], 'error': 'old text found %d times' % n}
    open(p, 'w').write(s.replace(mut['old'], mut['new']))
    dirty, admitted, failed_props, notes = {target}, [], [], []
    order = topo(files, d)
    if mut.get('props'):
        need = set().union(*(cone('theories/Properties/' + x, d) for x in mut['props']))
        order = [f for f in order if f in need]
    elif early: order = early_order(order, d, target)
    for f in order:
        if f != target and not (d[f] & dirty): continue
        dirty.add(f)
        tries = 0
        while True:
            rc, out = sh(['timeout', '400', 'coqc', '-time', '-Q', 'theories', 'Verif', f], root, 420)
            if rc == 0: break
            tries += 1
            m = re.search(r'File "[^"]*", line (\d+), characters (\d+)-(\d+):\s*\nError', out)
            raw = open(root + '/' + f, 'rb').read()
            if m:
                lines = raw.split(b'\n')
                pos = sum(len(x) + 1 for x in lines[:int(m.group(1)) - 1]) + int(m.group(2))
            else:
                cs = re.findall(r'^Chars (\d+) - (\d+)', out, re.M)
                pos = int(cs[-1][1]) + 2 if cs else 0
                notes.append('timeout in ' + f)
            if f.startswith('theories/Model') or f.startswith('theories/Spec'):
                return {'name': mut['name'], 'error': 'model does not compile: ' + out[-400:]}
            name = admit_at(root + '/' + f, pos)
            if name is None or tries > 60:
                if failed_props: break
                return {'name': mut['name'], 'error': 'stuck in %s: %s' % (f, out[-500:]), 'admitted': admitted}
            name, kind = name
            if not f.startswith('theories/Properties') or kind == 'Example': admitted.append(name)
            else: failed_props.append(name)
        if f.startswith('theories/Properties'):
            names = re.findall(r'^Print Assumptions ([A-Za-z0-9_\']+)\.', open(root + '/' + f).read(), re.M)
            body = re.sub(r'^Chars .*\n?', '', out, flags=re.M)
            blocks = re.split(r'(?m)^(?=Closed under the global context|Axioms:)', body)
            blocks = [b for b in blocks if b.startswith('Closed') or b.startswith('Axioms')]
            for nme, b in zip(names, blocks):
                if b.startswith('Axioms') and any(re.search(r'\b' + re.escape(a) + r'\b', b) for a in admitted + failed_props):
                    failed_props.append(nme)
            if early and failed_props: break
    return {'name': mut['name'], 'definition': mut['file'] + ': ' + mut['name'], 'edit': mut['old'] + '  ==>  ' + mut['new'],
            'claim': mut['claim'], 'failed_lemmas': admitted, 'failed_theorems': sorted(set(failed_props)), 'notes': notes}

if __name__ == '__main__':
    args = [a for a in sys.argv[1:] if a != '--early']
    slot = args[1] if len(args) > 1 else 'a'
    for mut in json.load(open(args[0])):
        r = run(mut, slot, '--early' in sys.argv)
        print(json.dumps(r), flush=True)
