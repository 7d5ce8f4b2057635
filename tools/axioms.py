"""Rewrite section 4 of DESIGN.md from Print Assumptions of every theorem in
MANIFEST.json.  Run from /verif after a complete build in rocq/."""
import glob, json, os, re, subprocess, tempfile

want = [t for c in json.load(open('MANIFEST.json'))['claims'] for t in c['theorems']]
loc = {}
for f in glob.glob('rocq/theories/Props_*.v'):
    for t in re.findall(r'^Theorem (\w+)', open(f).read(), re.M):
        loc[t] = os.path.basename(f)[:-2]
src = ''.join('From Verif Require %s.\n' % f for f in sorted({loc[t] for t in want}))
src += ''.join('Print Assumptions %s.%s.\n' % (loc[t], t) for t in want)
with tempfile.TemporaryDirectory() as d:
    open(d + '/ax.v', 'w').write(src)
    out = subprocess.run(['coqc', '-Q', os.path.abspath('rocq/theories'), 'Verif', 'ax.v'],
                         cwd=d, capture_output=True, text=True).stdout
blocks, cur = [], None
for line in out.splitlines():
    if line.startswith('Closed under'):
        blocks.append(set())
    elif line.startswith('Axioms:'):
        cur = set()
        blocks.append(cur)
    elif cur is not None:
        m = re.match(r"([A-Za-z_][\w.']*)\s*(:|$)", line)
        if m:
            cur.add(m.group(1))
assert len(blocks) == len(want)
groups = {}
for t, b in zip(want, blocks):
    groups.setdefault(tuple(sorted(b)), []).append(t)
text = []
for b, ts in sorted(groups.items(), key=lambda g: len(g[0])):
    head = ', '.join('`%s`' % x.split('.')[-1] for x in b) if b else 'No axioms (closed under the global context)'
    text.append('**%s** (%d theorems): %s.\n' % (head, len(ts), ', '.join(ts)))
s = open('DESIGN.md').read()
a, b = '<!-- axioms -->\n', '<!-- /axioms -->'
i, j = s.index(a) + len(a), s.index(b)
open('DESIGN.md', 'w').write(s[:i] + '\n'.join(text) + s[j:])
print(len(want), 'theorems', {len(k): len(v) for k, v in groups.items()})
