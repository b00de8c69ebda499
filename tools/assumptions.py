"""Regenerate the assumptions table of DESIGN.md: what Print Assumptions lists for each manifest theorem.
usage: python3 tools/assumptions.py   (after a build)"""
import json, re, subprocess, glob, os, collections
R = os.path.join(os.path.dirname(__file__), '..')
os.chdir(R)
where = {}
for f in sorted(glob.glob('rocq/theories/Props*.v')):
    for m in re.finditer(r'^\s*Theorem (C\d\d_\w+)', open(f).read(), re.M): where[m.group(1)] = os.path.basename(f)[:-2]
src = 'From Verif Require %s.\n' % ' '.join(sorted(set(where.values())))
for t in sorted(where): src += 'Goal True. idtac "@@ %s". Abort.\nPrint Assumptions Verif.%s.%s.\n' % (t, where[t], t)
os.makedirs('/tmp/asm', exist_ok=True)
open('/tmp/asm/a.v', 'w').write(src)
out = subprocess.run(['coqc', '-Q', 'rocq/theories', 'Verif', '/tmp/asm/a.v'], capture_output=True, text=True)
assert out.returncode == 0, out.stderr
groups = collections.defaultdict(list)
for blk in out.stdout.split('@@ ')[1:]:
    name, _, body = blk.partition('\n')
    ax = tuple(sorted(set(re.findall(r'^([A-Z]\w*(?:\.\w+)+)', body, re.M)))) if 'Axioms:' in body else ()
    assert ax or 'Closed under the global context' in body, blk
    groups[ax].append(name)
lines = ['<!-- assumptions:begin (tools/assumptions.py) -->']
for ax in sorted(groups, key=lambda a: (len(a), a)):
    lines.append('')
    lines.append('*%s* (%d theorems):' % ('Closed under the global context' if not ax else ', '.join(ax), len(groups[ax])))
    lines.append(', '.join('`%s`' % t for t in groups[ax]) + '.')
lines.append(''); lines.append('<!-- assumptions:end -->')
d = open('DESIGN.md').read(); b = '\n'.join(lines)
if '<!-- assumptions:begin' in d: d = re.sub(r'<!-- assumptions:begin.*?assumptions:end -->', lambda _: b, d, flags=re.S)
else: d = d.rstrip('\n') + '\n\n## 7. Print Assumptions, theorem by theorem\n\nStandard-library axioms only; generated from the compiled files.\n\n' + b + '\n'
open('DESIGN.md', 'w').write(d)
print({len(k): len(v) for k, v in groups.items()})
