#!/usr/bin/env python3
"""Writes ASSUMPTIONS.md: the axioms reported by Print Assumptions for every property theorem.  Needs a compiled rocq/."""
import glob, os, re, subprocess, tempfile
root = os.path.abspath(os.path.join(os.path.dirname(__file__), '..'))
rows, missing = [], []
for f in sorted(glob.glob(root + '/rocq/theories/*Props.v')):
    t = open(f).read()
    thms = re.findall(r'^\s*(?:Theorem|Corollary)\s+(C\d\d\d?_\w+)', t, re.M)
    names = re.findall(r'^\s*Print Assumptions (\w+)\.', t, re.M)
    missing += [n for n in thms if n not in names]
    out = subprocess.run(['coqc', '-Q', root + '/rocq/theories', 'Verif', f, '-o', tempfile.mkdtemp() + '/' + os.path.basename(f) + 'o'],
                         capture_output=True, text=True, check=True).stdout
    parts = re.split(r'^(Closed under the global context|Axioms:)$', out, flags=re.M)
    blocks = [(parts[q], parts[q + 1]) for q in range(1, len(parts) - 1, 2)]
    assert len(blocks) == len(names), (f, len(blocks), len(names))
    for n, (tag, body) in zip(names, blocks):
        ax = re.findall(r'^([\w.\']+)(?:\s*:|$)', body, re.M) if tag == 'Axioms:' else []
        rows.append((n, os.path.basename(f), ax))
with open(root + '/ASSUMPTIONS.md', 'w') as g:
    g.write('# Output of Print Assumptions\n\nGenerated by `tools/gen_assumptions.py`.\n\n| theorem | file | axioms |\n|---|---|---|\n')
    for n, f, ax in sorted(rows):
        g.write('| %s | %s | %s |\n' % (n, f, ', '.join(ax) or 'none'))
print(len(rows), 'theorems;', 'without Print Assumptions:', missing)
print(sorted({a for _, _, x in rows for a in x}))
