#!/usr/bin/env python3
"""Print Assumptions of every theorem in MANIFEST.json, grouped.  usage: assumptions.py (after building /verif/rocq); rewrites the table between the markers in DESIGN.md"""
import json, re, subprocess, glob, os, collections
R = '/verif/rocq'
where = {}
for p in sorted(glob.glob(R + '/theories/Properties/*.v')):
    mod = 'Verif.Properties.' + os.path.basename(p)[:-2]
    for m in re.finditer(r'^\s*(?:Theorem|Lemma|Corollary)\s+(C\d\d\w*)', open(p).read(), re.M): where[m.group(1)] = mod
ths = []
for c in json.load(open('/verif/MANIFEST.json'))['claims']: ths += c['theorems']
ths = list(dict.fromkeys(ths))
mods = sorted(set(where.values()))
src = 'From Coq Require Import String.\n' + ''.join('Require %s.\n' % m for m in mods)
for t in ths: src += 'Eval compute in "@@%s"%%string.\nPrint Assumptions %s.%s.\n' % (t, where[t], t)
open('/tmp/PA.v', 'w').write(src)
o = subprocess.run(['coqc', '-Q', 'theories', 'Verif', '/tmp/PA.v'], cwd=R, capture_output=True, text=True)
if o.returncode: raise SystemExit(o.stderr)
groups = collections.OrderedDict()
for part in o.stdout.split('"@@')[1:]:
    t, rest = part.split('"', 1)
    ax = tuple(sorted(set(re.findall(r'^([A-Za-z_][\w.]*)\s*(?::|$)', rest.split('Axioms:')[1], re.M)))) if 'Axioms:' in rest else ()
    groups.setdefault(ax, []).append(t)
out = ''
for ax, l in sorted(groups.items(), key=lambda x: len(x[0])):
    out += '* %s (%d theorems): %s\n' % ('**none** (closed under the global context)' if not ax else ', '.join('`%s`' % a for a in ax), len(l), ', '.join(l))
d = open('/verif/DESIGN.md').read()
a, b = '<!-- assumptions:begin -->\n', '<!-- assumptions:end -->'
if a in d: d = d[:d.index(a) + len(a)] + out + d[d.index(b):]; open('/verif/DESIGN.md', 'w').write(d)
print(out[:3000])
