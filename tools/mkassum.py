#!/usr/bin/env python3
"""Rewrite the per-theorem axiom table of DESIGN.md (between the two `axioms` markers).

Recompiles every theories/*Properties.v of a finished build (output thrown away), pairs each
`Print Assumptions T.` with what Coq prints for it, and groups the theorems by axiom set.
"""
import re, os, subprocess, glob, sys
from concurrent.futures import ThreadPoolExecutor
ROOT = os.path.join(os.path.dirname(os.path.abspath(__file__)), '..')
R = os.path.join(ROOT, 'rocq')
groups = {}
def compile_one(f):
    return subprocess.run(['coqc', '-Q', 'theories', 'Verif', os.path.relpath(f, R), '-o', '/tmp/mkassum/%s.vo' % os.path.basename(f)[:-2]],
                          cwd=R, capture_output=True, text=True)
files = sorted(glob.glob(os.path.join(R, 'theories', '*Properties.v')))
os.makedirs('/tmp/mkassum', exist_ok=True)
with ThreadPoolExecutor(4) as ex:
    done = list(ex.map(compile_one, files))
for f, p in zip(files, done):
    names = re.findall(r'^Print Assumptions (\w+)\.', open(f).read(), re.M)
    if p.returncode:
        sys.exit(p.stderr)
    cur, got = None, []
    for l in p.stdout.split('\n'):
        if l.startswith('Closed under'):
            got.append(())
        elif l.startswith('Axioms:'):
            got.append([])
        else:
            m = re.match(r'^([A-Za-z_][\w.]*)\s*(:|$)', l)
            if m and got and isinstance(got[-1], list):
                got[-1].append(m.group(1))
    assert len(got) == len(names), (f, len(got), len(names))
    for n, a in zip(names, got):
        groups.setdefault(tuple(sorted(a)), []).append(n)
out = []
for a, ns in sorted(groups.items(), key=lambda t: len(t[0])):
    ns.sort(key=lambda s: (int(re.match(r'C(\d+)', s).group(1)), s))
    out.append('* **%s** (%d theorems): %s' % (', '.join('`%s`' % x for x in a) if a else 'no axioms (closed under the global context)', len(ns), ', '.join(ns)))
d = os.path.join(ROOT, 'DESIGN.md')
s = open(d).read()
s = re.sub(r'(<!-- axioms -->\n).*?(<!-- end axioms -->)', lambda m: m.group(1) + '\n'.join(out) + '\n' + m.group(2), s, flags=re.S)
open(d, 'w').write(s)
print({len(a): len(ns) for a, ns in groups.items()})
