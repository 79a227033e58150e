#!/usr/bin/env python3
"""Write INDEX.md: every refuted and every partial theorem, where it is, and the comment that goes with it."""
import glob, os, re
root = os.path.dirname(os.path.dirname(os.path.abspath(__file__)))
rows = {'_refuted': [], '_partial': []}
for path in sorted(glob.glob(os.path.join(root, 'rocq/theories/*/Prop_*.v'))):
  text = open(path).read()
  comments = [(m.end(), re.sub(r'\s+', ' ', m.group(1)).strip(' *')) for m in re.finditer(r'\(\*\*(?!\*)(.*?)\*\)', text, re.S)]
  for m in re.finditer(r'^Theorem ((C\d+)_\w*?(_refuted|_partial))\b', text, re.M):
    before = [c for end, c in comments if end <= m.start()]
    line = text.count('\n', 0, m.start()) + 1
    where = os.path.relpath(path, os.path.join(root, 'rocq/theories'))
    note = before[-1].replace('|', '\\|') if before else ''
    rows[m.group(3)].append((m.group(2), m.group(1), f'{where}:{line}', note))
with open(os.path.join(root, 'INDEX.md'), 'w') as out:
  out.write('# Index of refuted and partial theorems\n\nGenerated by tools/gen_index.py from the comments in rocq/theories. What each partial property lacks is in the notes of MANIFEST.json.\n')
  for key, title in (('_refuted', 'Refuted: claims of the code or its documentation shown false by a witness'), ('_partial', 'Partial: what is proved of a property that is not proved in full')):
    out.write(f'\n## {title}\n\n| Theorem | Where | Comment |\n|---|---|---|\n')
    for _, name, where, note in sorted(rows[key]):
      out.write(f'| {name} | {where} | {note} |\n')
