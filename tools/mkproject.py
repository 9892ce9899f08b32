#!/usr/bin/env python3
"""Rewrite rocq/_CoqProject with every file of theories/ (keeps the -Q flag)."""
import os
r = os.path.join(os.path.dirname(os.path.abspath(__file__)), '..', 'rocq')
fs = sorted(f for f in os.listdir(r + '/theories') if f.endswith('.v'))
open(r + '/_CoqProject', 'w').write('-Q theories Verif\n' + ''.join('theories/%s\n' % f for f in fs))
