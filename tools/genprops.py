#!/usr/bin/env python3
"""Regenerate theories/Props_X.v from theories/T_X.v.

Every `Lemma cNN_name : stmt.` / `Example cNN_name : stmt.` of T_X.v becomes
`Theorem CNN_name : stmt. Proof. exact cNN_name. Qed. Print Assumptions CNN_name.`
in Props_X.v, together with the comment just above it."""
import re, sys, os
root = os.path.join(os.path.dirname(os.path.abspath(__file__)), '..', 'rocq', 'theories')
pat = re.compile(r'((?:\(\*\*(?:(?!\*\)).)*\*\)\n+)*)^(Lemma|Example) (c\d\d\w*)( *:.*?)\nProof', re.S | re.M)
for name in sorted(os.listdir(root)):
    m = re.match(r'T_(\w+)\.v$', name)
    if not m: continue
    src = open(os.path.join(root, name)).read()
    hdr = re.match(r'(?:\(\*\*(.*?)\*\)\n)?(.*?)(?=^\(\*\*|^Lemma|^Example|^Definition|^Ltac|^Hint|^Section|^Fixpoint)', src, re.S | re.M)
    head = hdr.group(2)
    head = re.sub(r'(From Verif Require Import [^.]*)\.', r'\1 T_%s.' % m.group(1), head, 1)
    head = re.sub(r'^From Verif Require Import', 'From Verif Require Import', head)
    out = ['(** Property theorems, restated from T_%s.v (generated by tools/genprops.py).\n   %s*)\n' % (m.group(1), hdr.group(1) or ''), head.strip() + '\n']
    for c, kind, nm, stmt in pat.findall(src):
        up = 'C' + nm[1:]
        if c.strip(): out.append(c.strip())
        out.append('%s %s%s' % ('Theorem' if kind == 'Lemma' else 'Example', up, stmt))
        out.append('Proof. exact %s. Qed.' % nm)
        if kind == 'Lemma': out.append('Print Assumptions %s.' % up)
        out.append('')
    dst = os.path.join(root, 'Props_%s.v' % m.group(1))
    txt = '\n'.join(out)
    if not os.path.exists(dst) or open(dst).read() != txt:
        open(dst, 'w').write(txt)
