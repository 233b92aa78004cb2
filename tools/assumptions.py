"""Rewrite the table of assumptions in DESIGN.md.

Usage: assumptions.py DIR, where DIR/Prop_X.out holds what coqc printed for
rocq/theories/Prop_X.v.  The n-th answer belongs to the n-th Print Assumptions."""
import glob, os, re, sys

root = os.path.dirname(os.path.dirname(os.path.abspath(__file__)))
short = {}
groups = {}
for path in sorted(glob.glob(root + '/rocq/theories/Prop_*.v')):
    asked = re.findall(r'^\s*Print Assumptions (\w+)\.', open(path).read(), re.M)
    out = open(os.path.join(sys.argv[1], os.path.basename(path)[:-2] + '.out')).read()
    answers = re.split(r'^(?=Axioms:|Closed under the global context)', out, flags=re.M)[1:]
    assert len(asked) == len(answers), (path, len(asked), len(answers))
    for name, text in zip(asked, answers):
        axioms = tuple(sorted(re.findall(r'^([A-Z]\w*(?:\.\w+)+)', text, re.M)))
        assert axioms or text.startswith('Closed'), (path, name)
        groups.setdefault(axioms, []).append(name)
lines = ['| axioms | theorems |', '|---|---|']
for axioms in sorted(groups, key=lambda a: (len(a), a)):
    label = ', '.join('`%s`' % a.split('.')[-1] for a in axioms) or 'none'
    names = sorted(groups[axioms])
    lines.append('| %s | %d: %s |' % (label, len(names), ', '.join(names)))
design = root + '/DESIGN.md'
text = open(design).read()
start, end = '<!-- assumptions -->\n', '<!-- end of assumptions -->\n'
a, b = text.index(start) + len(start), text.index(end)
open(design, 'w').write(text[:a] + '\n' + '\n'.join(lines) + '\n\n' + text[b:])
print({k: len(v) for k, v in groups.items()})
