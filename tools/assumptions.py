"""Rewrites the table between the ASSUMPTIONS markers of DESIGN.md from the output of Print Assumptions.

Run after a build; compiles every Properties*.v once more to read what it prints."""
import glob, os, re, subprocess, tempfile
from concurrent.futures import ThreadPoolExecutor
root = os.path.dirname(os.path.dirname(os.path.abspath(__file__)))
th = os.path.join(root, 'rocq', 'theories')
groups = {}


def read(f):
    src = open(f).read()
    printed = re.findall(r'^Print Assumptions (\w+)\.', src, re.M)
    thms = re.findall(r'^Theorem (\w+)', src, re.M)
    assert printed == thms, (f, set(thms) ^ set(printed))
    with tempfile.TemporaryDirectory() as d:
        out = subprocess.run(['coqc', '-Q', '.', 'Verif', '-o', d + '/x.vo', f], cwd=th, capture_output=True, text=True)
    if out.returncode:
        out = subprocess.run(['coqc', '-Q', '.', 'Verif', f], cwd=th, capture_output=True, text=True, check=True)
    blocks = re.split(r'^(Axioms:|Closed under the global context)$', out.stdout, flags=re.M)[1:]
    heads, bodies = blocks[0::2], blocks[1::2]
    assert len(heads) == len(printed), (f, len(heads), len(printed))
    return [(t, tuple(sorted(re.findall(r'^([A-Za-z_][\w.]*)(?= :|$)', b, re.M))) if h == 'Axioms:' else ())
            for t, h, b in zip(printed, heads, bodies)]


with ThreadPoolExecutor(4) as pool:
    for found in pool.map(read, sorted(glob.glob(th + '/Properties*.v'))):
        for t, ax in found:
            groups.setdefault(ax, []).append(t)
lines = []
for ax, ts in sorted(groups.items(), key=lambda g: (len(g[0]), g[0])):
    lines.append('* ' + (', '.join('`%s`' % a for a in ax) or 'no axioms (closed under the global context)') + ' (%d theorems): ' % len(ts) + ', '.join(sorted(ts)) + '.')
f = os.path.join(root, 'DESIGN.md')
s = open(f).read()
a, b = '<!-- ASSUMPTIONS -->\n', '<!-- END ASSUMPTIONS -->'
s = s[:s.index(a) + len(a)] + '\n'.join(lines) + '\n' + s[s.index(b):]
open(f, 'w').write(s)
print({k: len(v) for k, v in groups.items()})
