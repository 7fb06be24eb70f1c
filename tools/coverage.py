#!/usr/bin/env python3
"""Which functions of /repo are cited by definitions of the model. Writes COVERAGE.md."""
import glob, os, re
root = os.path.dirname(os.path.dirname(os.path.abspath(__file__)))
repo = '/repo'
funcs = {}
for f in sorted(glob.glob(repo + '/detour/*.go') + glob.glob(repo + '/recast/*.go')):
    if f.endswith('_test.go'):
        continue
    rel = os.path.relpath(f, repo)
    lines = open(f).read().split('\n')
    cur = None
    for i, l in enumerate(lines, 1):
        m = re.match(r'func (?:\(\s*\w*\s*\*?(\w+)\) )?(\w+)\(', l)
        if m:
            cur = [(m.group(1) + '.' if m.group(1) else '') + m.group(2), i, i]
            funcs.setdefault(rel, []).append(cur)
            if l.rstrip().endswith('}') and l.count('{') == l.count('}'):
                cur = None
        elif l.startswith('}') and cur:
            cur[2] = i
            cur = None
cites = {}
for v in sorted(glob.glob(root + '/rocq/theories/Base/*.v') + glob.glob(root + '/rocq/theories/Model/*.v')):
    s = open(v).read()
    mod = os.path.basename(v)[:-2]
    for m in re.finditer(r'((?:detour|recast)/\w+\.go):([\d][\d\-, and]*)', s):
        for r in re.finditer(r'(\d+)(?:-(\d+))?', m.group(2)):
            a = int(r.group(1)); b = int(r.group(2) or a)
            cites.setdefault(m.group(1), []).append((a, b, mod))
out = ['# Functions and the model files that cite them', '',
       'Generated by `tools/coverage.py` from the line citations in the model. A function with no model file is not',
       'modelled. The cited share is the part of its lines within a citation; what a definition leaves out is said in its comment.', '']
tot = mod_n = 0
for rel in sorted(funcs):
    out += ['## ' + rel, '', '| function | lines | model | cited |', '|---|---|---|---|']
    for name, a, b in funcs[rel]:
        ms = sorted({m for (x, y, m) in cites.get(rel, []) if x <= b and a <= y})
        cov = sum(any(x <= n <= y for (x, y, _) in cites.get(rel, [])) for n in range(a, b + 1))
        tot += 1; mod_n += bool(ms)
        out.append('| `%s` | %d-%d | %s | %s |' % (name, a, b, ', '.join(ms) or 'not modelled', '%d%%' % (100 * cov // (b - a + 1)) if ms else ''))
    out.append('')
out.insert(5, '%d of %d functions are cited.\n' % (mod_n, tot))
open(root + '/COVERAGE.md', 'w').write('\n'.join(out))
print(mod_n, tot)
