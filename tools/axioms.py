"""Rewrite the axiom table of DESIGN.md from the output of Print Assumptions (needs a built tree)."""
import glob, os, re, subprocess
root = os.path.dirname(os.path.dirname(os.path.abspath(__file__)))
th = root + '/rocq/theories'
groups, total, unprinted = {}, 0, []
for f in sorted(glob.glob(th + '/*.v')):
    src = open(f).read()
    names = re.findall(r'^\s*Theorem (c\d+_\w+)', src, re.M)
    printed = re.findall(r'^\s*Print Assumptions (\w+)\.', src, re.M)
    unprinted += [n for n in names if n not in printed]
    if not names:
        continue
    tmp = '/tmp/ax_' + os.path.basename(f)[:-2]
    mod = os.path.basename(f)[:-2]
    v = '/tmp/AxQuery.v'
    open(v, 'w').write('From Verif Require %s.\n' % mod + ''.join(
        'Goal True. idtac "@@%s". Abort.\nPrint Assumptions %s.%s.\n' % (n, mod, n) for n in names))
    out = subprocess.run(['coqc', '-Q', th, 'Verif', v], capture_output=True, text=True).stdout
    for part in out.split('@@')[1:]:
        n, body = part.split('\n', 1)
        ax = tuple(sorted(x for x in re.findall(r'^([A-Za-z_][\w.]*)\s*:', body, re.M) if x != 'Axioms'))
        assert ax or 'Closed under' in body, (n, body)
        groups.setdefault(ax, []).append(n)
        total += 1
if unprinted:
    print('without Print Assumptions:', unprinted)
lines = ['', '%d property theorems; %d of them are closed under the global context.' % (total, len(groups.get((), []))), '']
for ax in sorted(groups, key=len):
    if not ax:
        continue
    lines += ['Using ' + ', '.join('`%s`' % a for a in ax) + ':', '',
              ', '.join('`%s`' % n for n in sorted(groups[ax])) + '.', '']
d = open(root + '/DESIGN.md').read()
a, b = '<!-- axioms -->', '<!-- /axioms -->'
i, j = d.index(a) + len(a), d.index(b)
open(root + '/DESIGN.md', 'w').write(d[:i] + '\n'.join(lines) + '\n' + d[j:])
print(total, 'theorems', {k: len(v) for k, v in groups.items()})
