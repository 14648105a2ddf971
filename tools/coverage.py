"""Which functions of /repo/PySeismoSoil do the citations in the model files touch?"""
import re, glob, os
R = '/repo/PySeismoSoil/'
funs = []
for f in sorted(glob.glob(R + '*.py')):
    L = open(f).read().split('\n'); b = os.path.basename(f); cls = ''
    starts = []
    for i, l in enumerate(L, 1):
        m = re.match(r'(class|def|    def) (\w+)', l)
        if not m: continue
        if m.group(1) == 'class': cls = m.group(2); starts.append((i, None)); continue
        if m.group(1) == 'def': cls = ''
        starts.append((i, (cls + '.' if m.group(1).startswith(' ') and cls else '') + m.group(2)))
    for k, (i, n) in enumerate(starts):
        e = starts[k + 1][0] - 1 if k + 1 < len(starts) else len(L)
        if n: funs.append((b, n, i, e))
cov = {}
for f in sorted(glob.glob('/verif/rocq/theories/M_*.v')):
    mod = os.path.basename(f)[:-2]; cur = None
    for c in re.finditer(r'\(\*.*?\*\)', open(f).read(), re.S):
        t = c.group(0)
        for m in re.finditer(r'((?:class|helper)_\w+\.py)(?::)?|(\d{1,4})(?:-(\d{1,4}))?', t):
            if m.group(1): cur = m.group(1); continue
            if cur is None: continue
            a = int(m.group(2)); b = int(m.group(3) or a)
            pre = t[max(0, m.start() - 12):m.start()].lower()
            if not (m.group(3) or 'line' in pre or pre.rstrip().endswith((':', ',', 'and'))): continue
            for g, n, i, e in funs:
                if g == cur and i <= b and a <= e and not (b == i - 1): cov.setdefault((g, n), set()).add(mod)
if __name__ == '__main__':
    for g, n, i, e in funs:
        print('%-34s %-50s %4d-%4d %s' % (g, n, i, e, ' '.join(sorted(cov.get((g, n), []))) or '-'))
