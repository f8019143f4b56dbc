"""Rewrite the generated parts of DESIGN.md: disagreements and the list of models."""
import glob, json, os, re
root = os.path.dirname(os.path.dirname(os.path.abspath(__file__)))
man = json.load(open(root + '/MANIFEST.json'))['claims']
title = {json.loads(l)['id']: json.loads(l)['title'] for l in open(root + '/properties.jsonl')}
def put(d, tag, text):
    a, b = '<!-- %s -->' % tag, '<!-- /%s -->' % tag
    i, j = d.index(a) + len(a), d.index(b)
    return d[:i] + '\n\n' + text + '\n\n' + d[j:]
dis, opn = [], []
for c in man:
    r = [t for t in c['theorems'] if t.endswith('_refuted')]
    row = '* **%s** %s. %s' % (c['property'], title[c['property']], c['note'])
    if r:
        dis.append(row + ' (' + ', '.join('`%s`' % t for t in r) + ')')
    elif c['status'] != 'proved':
        opn.append(row)
models = []
for f in sorted(glob.glob(root + '/rocq/theories/*Model*.v')):
    s = open(f).read()
    m = re.search(r'\(\*\*(.*?)\*\)', s, re.S)
    head = ' '.join(m.group(1).split()) if m else ''
    models.append('* `%s`: %s' % (os.path.basename(f), head))
d = open(root + '/DESIGN.md').read()
d = put(d, 'disagreements', '\n'.join(dis))
d = put(d, 'open', '\n'.join(opn))
d = put(d, 'models', '\n'.join(models))
open(root + '/DESIGN.md', 'w').write(d)
print(len(dis), 'disagreements', len(opn), 'open', len(models), 'models')
