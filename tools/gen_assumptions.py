#!/usr/bin/env python3
"""Rewrites section 6 of DESIGN.md from the output of Print Assumptions."""
import glob, os, re, subprocess
root = os.path.dirname(os.path.dirname(os.path.abspath(__file__)))
rows, other = [], []
for f in sorted(glob.glob(root + '/rocq/theories/Props*.v')):
    names = re.findall(r'^Print Assumptions (\w+)\.', open(f).read(), re.M)
    out = subprocess.run(['coqc', '-Q', 'theories', 'Verif', '-o', '/tmp/' + os.path.basename(f) + 'o', f], cwd=root + '/rocq',
                         capture_output=True, text=True).stdout
    closed = out.count('Closed under the global context')
    axioms = 'Axioms:' in out
    assert closed == len(names) and not axioms, (f, closed, len(names))
    rows.append((os.path.basename(f), names))
text = '''
## 6. Print Assumptions

`Print Assumptions` says "Closed under the global context" for each of the %d
theorems below: they depend on no axiom at all.

Loading std++ also loads the standard library's `Coq.ssr.ssrunder`, whose module type
`Under_rel` declares seven parameters (`Under_rel`, `Under_rel_from_rel`,
`Under_relE`, `Over_rel`, `over_rel`, `over_rel_done`, `under_rel_done`); a checker of the
whole environment lists them as axioms of the library.  No theorem uses them.

| File | Theorems |
|---|---|
''' % sum(len(n) for _, n in rows)
for f, names in rows:
    text += '| `%s` | %s |\n' % (f, ', '.join('`%s`' % n for n in names))
p = root + '/DESIGN.md'
s = open(p).read()
i = s.find('\n## 6. Print Assumptions')
open(p, 'w').write((s if i < 0 else s[:i]) .rstrip('\n') + '\n' + text)
print(sum(len(n) for _, n in rows))
