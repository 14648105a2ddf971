"""DESIGN.md, COVERAGE.md and AXIOMS.md from DESIGN.in.md, findings.md, the property list and
the output of coqc on Assumptions1..4.v (directory given as argument: Assumptions<i>.out)."""
import json, re, sys, glob, os, runpy
here = os.path.dirname(os.path.abspath(__file__)); V = os.path.dirname(here)
where = {}
for f in sorted(glob.glob(V + '/rocq/theories/Prop_*.v')):
    for t in re.findall(r'^Theorem (C\d+)_', open(f).read(), re.M):
        where.setdefault(t, {}).setdefault(os.path.basename(f)[:-2], 0); where[t][os.path.basename(f)[:-2]] += 1
rows = ['| Property | Title | Theorems in |', '|---|---|---|']
for l in open(V + '/properties.jsonl'):
    d = json.loads(l)
    rows.append('| %s | %s | %s |' % (d['id'], d['title'], ', '.join('%s (%d)' % x for x in sorted(where.get(d['id'], {}).items()))))
cov = runpy.run_path(here + '/coverage.py')
with open(V + '/COVERAGE.md', 'w') as f:
    f.write('# Functions of /repo/PySeismoSoil and the model files that cite them\n\nGenerated by tools/design.py. "-": not modelled (figures, printed texts, see DESIGN.md section 4).\n\n| File | Function | Lines | Model |\n|---|---|---|---|\n')
    for g, n, i, e in cov['funs']:
        f.write('| %s | %s | %d-%d | %s |\n' % (g, n, i, e, ' '.join(sorted(cov['cov'].get((g, n), []))) or '-'))
ax = {}
for i in range(1, 5):
    src = open(V + '/rocq/theories/Assumptions%d.v' % i).read(); out = open(sys.argv[1] + '/Assumptions%d.out' % i).read()
    names = re.findall(r'Print Assumptions ([\w.]+)\.', src)
    parts = re.split(r'(?m)^(?=Axioms:|Closed under)', out)[1:]
    assert len(names) == len(parts), (i, len(names), len(parts))
    for n, p in zip(names, parts):
        ax[n.split('.')[-1]] = sorted({a for a in re.findall(r'(?m)^([A-Za-z_][\w.]*)\s*(?::|$)', p) if a != 'Axioms'}) if p.startswith('Axioms') else []
allax = sorted({a for v in ax.values() for a in v})
groups = {}
for n, v in ax.items(): groups.setdefault(tuple(v), []).append(n)
key = lambda n: (int(re.match(r'C(\d+)', n).group(1)), n)
with open(V + '/AXIOMS.md', 'w') as f:
    f.write('# What `Print Assumptions` lists\n\nGenerated by tools/design.py from the output of `Assumptions1.v` .. `Assumptions4.v`. %d theorems.\n' % len(ax))
    for v, ns in sorted(groups.items()):
        f.write('\n## %s\n\n%d theorems: %s\n' % (', '.join('`%s`' % a for a in v) or 'Closed under the global context (no axioms)', len(ns), ', '.join(sorted(ns, key=key))))
s = open(here + '/DESIGN.in.md').read()
s = s.replace('@@TABLE@@', '\n'.join(rows)).replace('@@AXIOMS@@', ', '.join('`%s`' % a for a in allax)).replace('@@FINDINGS@@', open(here + '/findings.md').read().strip())
open(V + '/DESIGN.md', 'w').write(s)
print(len(ax), 'theorems;', allax)
