#!/usr/bin/env python3
"""Print, for DESIGN.md, what Print Assumptions lists for each property theorem.

Needs the built .vo files.  Writes the section between the two markers of DESIGN.md."""
import collections, glob, os, re, subprocess, tempfile
ROOT = os.path.dirname(os.path.dirname(os.path.abspath(__file__)))
TH = os.path.join(ROOT, 'rocq', 'theories')
BEGIN, END = '<!-- assumptions: begin -->', '<!-- assumptions: end -->'
names = []
for f in sorted(glob.glob(os.path.join(TH, '*Properties.v'))):
    mod = os.path.basename(f)[:-2]
    text = re.sub(r'\(\*.*?\*\)', '', open(f).read(), flags=re.S)
    for m in re.finditer(r'^(?:Theorem|Corollary) (C\d+\w*)', text, re.M):
        names.append((mod, m.group(1)))
groups = collections.defaultdict(list)
with tempfile.TemporaryDirectory() as d:
    for mod in sorted({m for m, _ in names}):
        ts = [t for m, t in names if m == mod]
        src = 'From Verif Require %s.\n' % mod
        for t in ts:
            src += 'Goal True. idtac "@@ %s". exact I. Qed.\nPrint Assumptions Verif.%s.%s.\n' % (t, mod, t)
        p = os.path.join(d, 'Q.v')
        open(p, 'w').write(src)
        out = subprocess.run(['coqc', '-Q', TH, 'Verif', p], capture_output=True, text=True)
        assert out.returncode == 0, (mod, out.stderr)
        parts = out.stdout.split('@@ ')[1:]
        assert len(parts) == len(ts), mod
        for part in parts:
            t, rest = part.split('\n', 1)
            ax = sorted(set(re.findall(r'^([A-Za-z_][\w.]*)\s*:', rest, re.M)) - {'Axioms'})
            if 'Closed under the global context' in rest:
                assert not ax
            else:
                assert ax, (t, rest)
            groups[tuple(ax)].append(t.strip())
lines = [BEGIN, '', '## What Print Assumptions lists for each theorem', '',
         'Generated by `tools/assumptions.py` from the compiled theories.', '']
key = lambda t: (int(re.match(r'C(\d+)', t).group(1)), t)
for ax, ts in sorted(groups.items(), key=lambda g: (len(g[0]), g[0])):
    head = 'No axioms ("Closed under the global context")' if not ax else ', '.join('`%s`' % a for a in ax)
    lines += ['* ' + head + ' (%d theorems): ' % len(ts) + ', '.join(sorted(ts, key=key)) + '.', '']
lines.append(END)
p = os.path.join(ROOT, 'DESIGN.md')
t = open(p).read()
new = '\n'.join(lines)
t = re.sub(re.escape(BEGIN) + '.*' + re.escape(END), lambda m: new, t, flags=re.S) if BEGIN in t else t.rstrip('\n') + '\n\n' + new + '\n'
open(p, 'w').write(t)
print({len(a): len(ts) for a, ts in groups.items()})
