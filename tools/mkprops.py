#!/usr/bin/env python3
"""Generate rocq/theories/P_*.v from tools/props/P_*.v.in.

A line `@thm NAME FILE LEMMA` becomes a theorem NAME with the statement of the
lemma LEMMA of FILE.v, proved by that lemma; its assumptions are printed.
Text after ` | ` is put in front of the statement (for lemmas proved in a
section).  Everything else is copied.
"""
import re, sys, glob, os
here = os.path.dirname(os.path.abspath(__file__))
th = os.path.join(here, '..', 'rocq', 'theories')

def split_top(s):
    """Split 'binders : statement' at the first top-level colon."""
    d = 0
    for i, c in enumerate(s):
        if c in '([{': d += 1
        elif c in ')]}': d -= 1
        elif c == ':' and d == 0 and s[i:i+2] != ':=':
            return s[:i], s[i+1:]
    raise SystemExit('no colon in ' + s)

def lemma(f, name):
    src = open(os.path.join(th, f + '.v')).read()
    m = re.search(r'^ *(?:Lemma|Theorem) ' + re.escape(name) + r'\b(.*?)\.\s*\n\s*Proof', src, re.S | re.M)
    if not m: raise SystemExit('no lemma %s in %s' % (name, f))
    b, st = split_top(m.group(1))
    b = re.sub(r'\{([^}]*)\}', lambda m: '(' + m.group(1) + (' : Type' if ':' not in m.group(1) else '') + ')', b.strip())
    return b, st.strip()

def main():
    for t in sorted(glob.glob(os.path.join(here, 'props', 'P_*.v.in'))):
        out = []
        for line in open(t):
            m = re.match(r'@thm (\S+) (\S+) (\S+)(?: \| (.*))?\s*$', line)
            if not m:
                out.append(line); continue
            new, f, l, pre = m.groups()
            b, st = lemma(f, l)
            head = 'Theorem %s : %s%s%s.\n' % (new, pre + '\n  ' if pre else '', 'forall %s,\n  ' % b if b else '', st)
            out.append(head + 'Proof. exact (@%s.%s). Qed.\nPrint Assumptions %s.\n' % (f, l, new))
        p = os.path.join(th, os.path.basename(t)[:-3])
        new = ''.join(out)
        if not os.path.exists(p) or open(p).read() != new:
            open(p, 'w').write(new); print('wrote', os.path.basename(p))
main()
