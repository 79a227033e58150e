#!/usr/bin/env python3
"""Seeded-bug harness: apply one edit to a model file in a scratch copy, rebuild, report which theorems fail.
usage: mutate.py rounds.json [--log]   entries: {file, definition, old, new, edit, claim, expect?}"""
import json, os, re, shutil, subprocess, sys
SRC, DST = os.environ.get('MUT_SRC', '/tmp/mutsrc'), os.environ.get('MUT_DIR', '/tmp/mut/rocq')
J = os.environ.get('MUT_J', '3')

def restore():
    os.makedirs(DST, exist_ok=True)
    subprocess.run(['rm', '-rf', DST]); subprocess.run(['cp', '-a', SRC, DST], check=True)

def decl_at(path, line):
    name = '?'
    for i, l in enumerate(open(path).read().split('\n')[:line], 1):
        m = re.match(r'\s*(?:Local\s+|Global\s+)?(?:Theorem|Lemma|Example|Corollary|Definition|Fixpoint|Instance|Remark|Fact)\s+([\w\']+)', l)
        if m: name = m.group(1)
    return name

def dependents(files):
    """Prop theorems in files that (transitively) import the failed files"""
    deps = {}
    root = os.path.join(DST, 'theories')
    allf = [os.path.relpath(os.path.join(d, f), root)[:-2] for d, _, fs in os.walk(root) for f in fs if f.endswith('.v')]
    for f in allf:
        t = open(os.path.join(root, f + '.v')).read()
        deps[f] = {m.replace('.', '/') for imp in re.findall(r'From Verif Require (?:Import|Export)?([^\n]*?)\.\s*\n', t) for m in imp.split()}
    bad = set(files); changed = True
    while changed:
        changed = False
        for f in allf:
            if f not in bad and deps[f] & bad: bad.add(f); changed = True
    out = []
    for f in sorted(bad - set(files)):
        out += re.findall(r'^Theorem (C\d\d_\w+)', open(os.path.join(root, f + '.v')).read(), re.M)
    return out

def run(m):
    restore()
    p = os.path.join(DST, 'theories', m['file'])
    t = open(p).read()
    n = t.count(m['old'])
    if n != 1 and not m.get('all'):
        return {'status': f'bad edit: {n} matches'}
    open(p, 'w').write(t.replace(m['old'], m['new']))
    for a in m.get('also', []):  # the same edit in a proof's own copy of the definition
        pa = os.path.join(DST, 'theories', a['file']); ta = open(pa).read()
        if ta.count(a['old']) != 1: return {'status': f"bad edit: {ta.count(a['old'])} matches in {a['file']}"}
        open(pa, 'w').write(ta.replace(a['old'], a['new']))
    r = subprocess.run(f'ulimit -t 500; timeout 1500 make -k -j{J}', shell=True, cwd=DST, capture_output=True, text=True)
    fails, files = [], []
    for f, l in re.findall(r'File "\./theories/([\w/]+)\.v", line (\d+)', r.stderr):
        k = f + ': ' + decl_at(os.path.join(DST, 'theories', f + '.v'), int(l))
        seg = r.stderr
        if k not in fails: fails.append(k)
        if f not in files: files.append(f)
    if r.returncode == 0: return {'status': 'SURVIVED', 'failed': []}
    return {'status': 'killed', 'failed': fails, 'unprovable': dependents(files)}

def main():
    ms = json.load(open(sys.argv[1])); log = '--log' in sys.argv
    for m in ms:
        r = run(m)
        print(m['definition'], '|', m['edit'], '->', r['status'], '; '.join(r.get('failed', [])), flush=True)
        if log and not r['status'].startswith('bad'):
            e = {'definition': m['file'] + ': ' + m['definition'], 'edit': m['edit'], 'claim': m['claim'],
                 'result': r['status'], 'theorems_failed': r.get('failed', []), 'dependent_theorems_blocked': r.get('unprovable', []),
                 'theorems_tightened': m.get('tightened', [])}
            open('/verif/seeded/LOG.jsonl', 'a').write(json.dumps(e) + '\n')
main()
