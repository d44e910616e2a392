#!/usr/bin/env python3
"""Seed bugs into scratch copies of the model and record which theorems fail.

usage: tools/seed.py [--log] NAME...     (mutants are listed in seeded/mutants.py)

For each mutant the built tree rocq/ is copied to /tmp/mut/NAME, one model
definition is edited and everything is rebuilt.  Proofs that fail are replaced
by Admitted in the copy until the build goes through; the property theorems
that depend on them (Print Assumptions) are the ones that noticed the bug.
With FIRST=1 the build stops at the first failing lemma on which a property
theorem depends, and the theorems are found from the .glob files.
"""
import bisect, json, os, re, shutil, subprocess, sys, glob, time
ROOT = os.path.dirname(os.path.dirname(os.path.abspath(__file__)))
sys.path.insert(0, os.path.join(ROOT, 'seeded'))
from mutants import MUTANTS
SRC = os.environ.get('SRC', ROOT + '/rocq')   # a built copy of rocq/
STD = ('ClassicalDedekindReals', 'FunctionalExtensionality', 'Classical_Prop')
START = re.compile(r'^\s*(?:Local\s+|Global\s+|#\[[^\]]*\]\s*)*(Lemma|Theorem|Example|Corollary|Fact|Remark|Definition|Fixpoint|Instance)\s+(\w+)', re.M)

def sh(cmd, cwd, t=1800):
    p = subprocess.run(cmd, cwd=cwd, shell=True, stdout=subprocess.PIPE, stderr=subprocess.STDOUT, timeout=t)
    return p.returncode, p.stdout.decode(errors='replace')

def binders(s):
    """names bound by the argument of Context / Variables"""
    names, depth, colon, word, seen = [], 0, [False], '', '(' in s.split(':')[0] or '{' in s.split(':')[0]
    for ch in s + ' ':
        if re.match(r"[\w']", ch): word += ch; continue
        if word and not colon[-1] and (depth == 1 if seen else depth == 0): names.append(word)
        word = ''
        if ch in '({': depth += 1; colon.append(depth > 1 or False)
        elif ch in ')}':
            depth -= 1; colon.pop()
        elif ch == ':': colon[-1] = True
    return names

def section_vars(text, pos):
    """names of the section variables open at pos"""
    stack = []
    for m in re.finditer(r'^\s*(Section\s+(\w+)\.|End\s+(\w+)\.|(?:Context|Variables?|Hypothes[ie]s)\b((?:[^.]|\.(?!\s))*)\.(?=\s))', text[:pos], re.M):
        if m.group(2): stack.append([])
        elif m.group(3):
            if stack: stack.pop()
        elif stack: stack[-1] += binders(m.group(4))
    return bool(stack), set(x for s in stack for x in s)

def used_vars(mod, name, cands):
    f = '/tmp/mut/about_%s.v' % name
    open(f, 'w').write('Set Printing Width 100000.\nFrom Verif Require %s.\nCheck @%s.%s.\n' % (mod, mod, name))
    rc, out = sh('coqc -q -Q theories Verif %s' % f, SRC)
    m = re.search(r':\s*forall\s+(.*?),', out, re.S)
    if rc or not m: return []
    names = re.findall(r"\(?([A-Za-z_][\w' ]*?) :|(?<![\w(])([A-Za-z_][\w']*)(?=\s|$)", m.group(1))
    res = []
    for a, b in names:
        for x in (a or b).split():
            if x in cands and x not in res: res.append(x)
    return res

def enclosing(text, pos):
    last = None
    for m in START.finditer(text):
        if m.start() > pos: break
        last = m
    return last

def admit(path, line):
    text = open(path).read()
    pos = sum(len(l) + 1 for l in text.split('\n')[:line - 1])
    eol = text.find('\n', pos)
    m = enclosing(text, eol if eol >= 0 else len(text))
    if not m: return None
    p = re.compile(r'\bProof\b[^.]*\.').search(text, m.end())
    q = re.compile(r'\b(Qed|Defined)\.').search(text, m.end())
    nxt = START.search(text, m.end())
    if nxt and p and p.start() > nxt.start(): p = None
    if not p or not q or p.start() > q.start() or pos + len(text[pos:eol]) < p.start():
        return ('?', m.group(2))
    insec, cands = section_vars(text, m.start())
    mod = os.path.basename(path)[:-2]
    using = ''
    if insec:
        vs = used_vars(mod, m.group(2), cands)
        using = ' using' + ''.join(' ' + v for v in vs) + ('' if vs else ' Type')
    nl = text[p.start():q.end()].count('\n')
    new = text[:p.start()] + 'Proof' + using + '. Admitted.' + '\n' * nl + text[q.end():]
    open(path, 'w').write(new)
    return (m.group(1), m.group(2))

def dependents():
    """For each lemma, the property theorems whose proofs use it, from the .glob files of SRC."""
    uses, thms = {}, set()
    for g in glob.glob(SRC + '/theories/*.glob'):
        mod = os.path.basename(g)[:-5]
        defs, refs = [], []
        for l in open(g):
            m = re.match(r'(\w+) (\d+):\d+ \S+ (\S+)$', l)
            if m and m.group(1) in ('prf', 'thm', 'def', 'rec', 'inst', 'coe', 'ax'):
                defs.append((int(m.group(2)), m.group(3)))
            m = re.match(r'R(\d+):\d+ Verif\.(\w+) \S+ (\S+) (?:thm|prf|def)$', l)
            if m: refs.append((int(m.group(1)), m.group(2) + '.' + m.group(3)))
        defs.sort()
        starts = [d[0] for d in defs]
        for pos, r in refs:
            i = bisect.bisect(starts, pos) - 1
            if i >= 0: uses.setdefault(r, set()).add(mod + '.' + defs[i][1])
        if mod.startswith('P_'):
            thms.update(mod + '.' + x for x in re.findall(r'Print Assumptions (\w+)\.', open(g[:-5] + '.v').read()))
    return uses, thms

def theorems_of(lemma, deps):
    uses, thms = deps
    seen, todo = set(), [lemma]
    while todo:
        x = todo.pop()
        if x in seen: continue
        seen.add(x); todo += uses.get(x, ())
    return sorted(x.split('.')[1] for x in seen & thms)

def run(mut, deps=None):
    t0 = time.time()
    d = '/tmp/mut/' + mut['name']
    shutil.rmtree(d, ignore_errors=True); os.makedirs('/tmp/mut', exist_ok=True)
    sh('cp -a %s %s' % (SRC, d), '/')
    # the replayed tests are not theorems, and a wrong hash function may keep them running for hours
    sh(r"sed -i '/Conformance\(Data\|Tests\)\?\.v/d' _CoqProject && coq_makefile -f _CoqProject -o Makefile", d)
    f = d + '/theories/' + mut['file'] + '.v'
    text = open(f).read()
    for old, new in mut['edit']:
        assert text.count(old) == 1, (mut['name'], 'edit matches %d times' % text.count(old), old)
        text = text.replace(old, new)
    open(f, 'w').write(text)
    mods = [os.path.basename(x)[:-2] for x in glob.glob(d + '/theories/*.v')]
    open(d + '/run.sh', 'w').write('#!/bin/bash\nfor f; do :; done\n'
        'timeout 900 "$@" > "$f.log" 2>&1; rc=$?\ncat "$f.log"; exit $rc\n')
    failed, ex_failed, bad, props_failed = [], [], [], []
    jobs = os.environ.get('J', '4')
    for it in range(60):
        rc, out = sh('make %s -j%s TIMER="bash run.sh"' % ('' if deps else '-k', jobs), d, 3600)
        if rc == 0: break
        errs = {}
        for m in re.finditer(r'File "\./theories/(\w+)\.v", line (\d+), characters [\d-]+:\n(Error.*)', out):
            errs.setdefault(m.group(1), int(m.group(2)))
        if not errs:
            bad.append('build failed: ' + out[-300:]); break
        for mod, line in errs.items():
            r = admit(d + '/theories/%s.v' % mod, line)
            if r is None or r[0] == '?':
                log = open(d + '/theories/%s.v.log' % mod).read()
                bad.append('%s:%d not in a proof (%s) %s' % (mod, line, r, log[-500:]))
            elif mod.startswith('P_'): ex_failed.append(r[1])
            else:
                failed.append('%s.%s' % (mod, r[1]))
                if deps: props_failed += [x for x in theorems_of(failed[-1], deps) if x not in props_failed]
        if bad or props_failed: break
    for p in sorted(m for m in mods if m.startswith('P_') and not bad and not props_failed):
        path = d + '/theories/%s.v' % p
        if not os.path.exists(path + '.log'): continue
        thms = re.findall(r'Print Assumptions (\w+)\.', open(path).read())
        outs = re.split(r'^(?=Closed under|Axioms:)', open(path + '.log').read(), flags=re.M)[1:]
        if len(outs) != len(thms):
            bad.append('%s: %d outputs for %d theorems' % (p, len(outs), len(thms)))
        for th, o in zip(thms, outs):
            ax = re.findall(r'^([A-Za-z_][\w.\']*)\s*(?::|$)', o, re.M)
            ax = [a for a in ax if a != 'Axioms' and not a.startswith(STD)]
            if ax: props_failed.append(th)
    res = dict(name=mut['name'], file=mut['file'], lemmas=failed, theorems=props_failed, examples=ex_failed,
               first=bool(deps and props_failed), problems=bad, seconds=int(time.time() - t0))
    if not bad: shutil.rmtree(d, ignore_errors=True)
    return res

if __name__ == '__main__':
    args = sys.argv[1:]
    names = args or [m['name'] for m in MUTANTS]
    os.makedirs('/tmp/mut/results', exist_ok=True)
    # FIRST=1: stop at the first lemma that fails and on which a property theorem depends
    deps = dependents() if os.environ.get('FIRST') else None
    for m in MUTANTS:
        if m['name'] not in names: continue
        if not args and os.path.exists('/tmp/mut/results/%s.json' % m['name']): continue
        try: r = run(m, deps)
        except Exception as e: r = dict(name=m['name'], problems=[repr(e)], theorems=[], lemmas=[], examples=[])
        json.dump(r, open('/tmp/mut/results/%s.json' % m['name'], 'w'), indent=1)
        print(m['name'], 'lemmas', len(r['lemmas']), 'theorems', len(r['theorems']), r['problems'], r.get('seconds'), flush=True)
