#!/usr/bin/env python3
"""Mutation testing of the theorems, in a scratch copy (default /tmp/mut).

usage: mutate.py mutants.json out.jsonl [scratch]

Every mutant is one textual edit of a model definition.  The development is
rebuilt; a proof that fails is recorded and replaced by Admitted (in the scratch
copy only) so that later failures are seen as well.  The theorems reported are
those of the Prop*.v files that fail themselves or use a failed lemma, according
to the .glob files of the unmodified build.
"""
import json, os, re, shutil, subprocess, sys

SRC = os.environ.get('MUTSRC', '/verif/rocq')
STMT = re.compile(r'^\s*(Theorem|Lemma|Example|Corollary|Fact|Definition|Fixpoint|Inductive|Record|Instance|Ltac|Class|Section|Notation)\s+(\w[\w\']*)?')
ROUNDS = int(os.environ.get("MUTROUNDS", "2"))

def graph(d):
    """lemma -> set of global names it mentions, as File.name"""
    g = {}
    for f in os.listdir(d):
        if not f.endswith('.glob'): continue
        mod = f[:-5]; defs = []; refs = []
        for line in open(os.path.join(d, f)):
            m = re.match(r'^(prf|def|thm|ind|inst|constr|rec|class|proj|var) (\d+):\d+ \S+ (\S+)', line)
            if m and m.group(1) in ('prf', 'def', 'thm', 'inst', 'ind', 'rec', 'class'):
                defs.append((int(m.group(2)), m.group(3))); continue
            m = re.match(r'^R(\d+):\d+ (\S+) (\S+) (\S+) (\w+)', line)
            if m and m.group(2).startswith('Verif.'):
                refs.append((int(m.group(1)), m.group(2)[6:] + '.' + m.group(4)))
        defs.sort()
        import bisect
        starts = [x[0] for x in defs]
        for _, n in defs: g.setdefault(mod + '.' + n, set())
        for pos, r in refs:
            i = bisect.bisect_right(starts, pos) - 1
            if i >= 0: g[mod + '.' + defs[i][1]].add(r)
    # hints and tactics are not in the .glob files: a lemma they name counts as used
    # by the lemmas of that file and of the files that need it
    need = {}; hinted = {}
    for f in os.listdir(d):
        if not f.endswith('.v'): continue
        s = open(os.path.join(d, f)).read(); mod = f[:-2]
        need[mod] = {x for m in re.finditer(r'From Verif Require Import ([^.]*)\.', s) for x in m.group(1).split()}
        text = ' '.join(re.findall(r'Hint Resolve ([^:]*):', s) + re.findall(r'^Ltac (.*?)\.\s*$', s, re.M | re.S))
        hinted[mod] = set(re.findall(r"\w[\w']*", text))
    def needs(a, seen):
        for b in need.get(a, ()):
            if b not in seen: seen.add(b); needs(b, seen)
        return seen
    for a in list(g):
        mod = a.split('.')[0]
        for b in needs(mod, {mod}):
            for n in hinted.get(b, ()):
                if b + '.' + n in g and b + '.' + n != a: g[a].add(b + '.' + n)
    return g

def dependents(g, bad):
    rev = {}
    for a, bs in g.items():
        for b in bs: rev.setdefault(b, set()).add(a)
    seen = set(bad); todo = list(bad)
    while todo:
        for a in rev.get(todo.pop(), ()):
            if a not in seen: seen.add(a); todo.append(a)
    return seen

def prop_theorems(d):
    r = set()
    for f in os.listdir(d):
        if f.startswith('Prop') and f.endswith('.v'):
            for m in re.finditer(r'^Theorem (\w+)', open(os.path.join(d, f)).read(), re.M):
                r.add(f[:-2] + '.' + m.group(1))
    return r

def enclosing(lines, ln):
    for i in range(ln - 1, -1, -1):
        m = STMT.match(lines[i])
        if m: return i, m.group(1), m.group(2)
    return None

def patch(path, ln):
    lines = open(path).read().split('\n')
    e = enclosing(lines, ln)
    if not e: return None, False
    i, kind, name = e
    if kind not in ('Theorem', 'Lemma', 'Example', 'Corollary', 'Fact'): return name, False
    j = i
    while j < len(lines) and not re.search(r'(^|\s)Proof\.', lines[j]): j += 1
    if j >= len(lines) or j > ln: return name, False
    k = j
    while k < len(lines) and not re.search(r'(Qed|Defined)\.\s*$', lines[k]): k += 1
    head = re.split(r'(?:^|(?<=\s))Proof\.', lines[j])[0]
    lines[j:k + 1] = [head + 'Admitted.'] + [''] * (k - j)
    open(path, 'w').write('\n'.join(lines))
    return name, True

def run(m, scratch, g, props):
    shutil.rmtree(scratch, ignore_errors=True)
    shutil.copytree(SRC, scratch)
    th = os.path.join(scratch, 'theories')
    p = os.path.join(th, m['file'])
    s = open(p).read()
    n = s.count(m['old'])
    idx = m.get('nth')
    if idx is None:
        assert n == 1, (m['name'], 'occurrences', n)
        s = s.replace(m['old'], m['new'])
    else:
        parts = s.split(m['old'])
        assert n > idx, (m['name'], n)
        s = m['old'].join(parts[:idx + 1]) + m['new'] + m['old'].join(parts[idx + 1:])
    open(p, 'w').write(s)
    failed = []; dead = set(); rounds = 0
    while rounds < ROUNDS:
        rounds += 1
        o = subprocess.run(['make', '-k', '-j3', 'COQC=timeout 600 coqc'], cwd=scratch, capture_output=True, text=True)
        out = o.stdout + o.stderr
        errs = re.findall(r'File "\./theories/(\w+)\.v", line (\d+), characters [\d-]+:\nError', out)
        tmo = re.findall(r'theories/(\w+)\.vo\] Error 124', out)
        if o.returncode == 0: break
        progress = False
        for f, ln in errs:
            if f in dead: continue
            name, ok = patch(os.path.join(th, f + '.v'), int(ln))
            failed.append(f + '.' + str(name))
            if ok: progress = True
            else: dead.add(f)
        for f in tmo: 
            if f not in dead: dead.add(f); failed.append(f + '.<timeout>')
        if not progress: break
    # a file that cannot be repaired takes everything in it down
    bad = set(failed)
    hit = dependents(g, bad)
    thms = sorted(t.split('.', 1)[1] for t in hit & props)
    return {'definition': m['file'] + ': ' + m['name'], 'edit': m['old'] + '  ==>  ' + m['new'],
            'claim': m['claim'], 'failed_proofs': failed[:40], 'theorems_failed': thms,
            'finished': o.returncode == 0, 'tightened': []}

if __name__ == '__main__':
    ms = json.load(open(sys.argv[1])); out = sys.argv[2]
    scratch = sys.argv[3] if len(sys.argv) > 3 else '/tmp/mut'
    os.makedirs(scratch, exist_ok=True)
    g = graph(os.path.join(SRC, 'theories')); props = prop_theorems(os.path.join(SRC, 'theories'))
    done = set()
    if os.path.exists(out):
        for l in open(out): d = json.loads(l); done.add((d['definition'], d['edit']))
    for m in ms:
        if (m['file'] + ': ' + m['name'], m['old'] + '  ==>  ' + m['new']) in done: continue
        try: r = run(m, scratch, g, props)
        except AssertionError as e: print('BAD', e, flush=True); continue
        with open(out, 'a') as f: f.write(json.dumps(r) + '\n')
        print(r['definition'], '|', len(r['failed_proofs']), 'proofs', len(r['theorems_failed']), 'theorems', r['finished'], flush=True)
