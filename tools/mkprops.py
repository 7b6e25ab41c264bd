#!/usr/bin/env python3
"""Regenerate theories/XProperties.v from the final lemmas of theories/XProofs.v.

Every lemma of XProofs.v named cNN_... becomes Theorem CNN_... with the same statement,
closed by `exact`, followed by Print Assumptions; lemmas whose name ends in _ex become
Examples (concrete non-trivial cases meeting the hypotheses of the theorem above them).
usage: mkprops.py X [X ...]
"""
import re, sys, os
TH = os.path.join(os.path.dirname(os.path.abspath(__file__)), '..', 'rocq', 'theories')
for x in sys.argv[1:]:
    src = open(os.path.join(TH, x + 'Proofs.v')).read()
    head = [l for l in src.split('\n') if re.match(r'^(From|Require|Local Open Scope|Import|Open Scope)', l)]
    out = ['(** * Property theorems of %s: statements only, proofs in %sProofs.v.' % (x, x),
           '    Generated by tools/mkprops.py from the final lemmas. *)'] + head
    out.append('From Verif Require Import %sProofs.\n' % x)
    pos = 0
    pat = re.compile(r'(?:\(\*\*((?:(?!\*\)).)*)\*\)\n)?^Lemma (c\d\d\w*)((?:(?!^Proof).)*?)^Proof', re.S | re.M)
    for m in pat.finditer(src):
        doc, name, stmt = m.group(1), m.group(2), m.group(3).rstrip()
        new = 'C' + name[1:]
        d = 0
        for i, ch in enumerate(stmt):          # first ':' outside parentheses
            d += (ch in '({[') - (ch in ')}]')
            if ch == ':' and d == 0:
                break
        binders, body = stmt[:i].strip(), stmt[i + 1:]
        stmt = (' :\n  forall %s,' % binders if binders else ' :') + ('\n ' if body[:1] == ' ' else '') + body
        if doc:
            out.append('(**%s*)' % doc)
        kind = 'Example' if name.endswith('_ex') else 'Theorem'
        out.append('%s %s%s\nProof. exact %s. Qed.' % (kind, new, stmt, name))
        if kind == 'Theorem':
            out.append('Print Assumptions %s.' % new)
        out.append('')
    open(os.path.join(TH, x + 'Properties.v'), 'w').write('\n'.join(out))
    print(x, sum(1 for l in out if l.startswith('Theorem')), 'theorems', sum(1 for l in out if l.startswith('Example')), 'examples')
