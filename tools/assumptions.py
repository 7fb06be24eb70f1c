#!/usr/bin/env python3
"""Runs Print Assumptions on every property theorem (after a build) and writes ASSUMPTIONS.md."""
import glob, os, re, subprocess, tempfile
root = os.path.dirname(os.path.dirname(os.path.abspath(__file__)))
rows = []
for v in sorted(glob.glob(root + '/rocq/theories/Properties/*.v')):
    mod = os.path.basename(v)[:-2]
    names = re.findall(r'^Theorem (C\d\d_\w+)', open(v).read(), re.M)
    if not names:
        continue
    with tempfile.TemporaryDirectory() as d:
        f = d + '/t.v'
        open(f, 'w').write('Require Verif.Properties.%s.\n' % mod + ''.join(
            'Print Assumptions Verif.Properties.%s.%s.\n' % (mod, n) for n in names))
        o = subprocess.run(['coqtop', '-Q', root + '/rocq/theories', 'Verif', '-batch', '-l', f],
                           capture_output=True, text=True).stdout
    parts = re.split(r'(?=Closed under the global context|Axioms:)', o)[1:]
    assert len(parts) == len(names), (mod, o)
    rows += [(n, mod, ' '.join(p.split())) for n, p in zip(names, parts)]
rows.sort()
out = ['# Assumptions of the property theorems', '',
       'Output of `Print Assumptions`, collected by `tools/assumptions.py`.', '', '| theorem | file | Print Assumptions |', '|---|---|---|']
out += ['| `%s` | %s | %s |' % r for r in rows]
open(root + '/ASSUMPTIONS.md', 'w').write('\n'.join(out) + '\n')
print(len(rows), 'theorems,', sum(r[2] != 'Closed under the global context' for r in rows), 'with assumptions')
