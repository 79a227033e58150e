"""Lists, per source file of /repo, the functions whose lines no model comment cites."""
import ast, os, re, sys
ROOT = '/repo'
cites = {}
for d, _, fs in os.walk('/verif/rocq/theories'):
    for f in fs:
        if f.startswith('Model_') and f.endswith('.v'):
            t = open(os.path.join(d, f)).read()
            cur = None
            for c in re.findall(r'\(\*.*?\*\)', t, re.S):
                for m in re.finditer(r'([\w/]+\.py)|(?<![\w.])(\d+)\s*-\s*(\d+)', c):
                    if m.group(1):
                        cur = os.path.basename(m.group(1)), d.split('/')[-1]
                    elif cur:
                        cites.setdefault(cur, []).append((int(m.group(2)), int(m.group(3))))
pk = {'Bool': 'jaxite_bool', 'Cggi': 'jaxite_cggi', 'Ckks': 'jaxite_ckks', 'Ec': 'jaxite_ec'}
for d, _, fs in sorted(os.walk(ROOT)):
    for f in sorted(fs):
        if not f.endswith('.py') or f.endswith('_test.py'):
            continue
        p = os.path.join(d, f)
        rs = [r for (b, pkg), l in cites.items() if b == f and pk[pkg] in p for r in l]
        out, n = [], 0
        def walk(node, pre):
            global n
            for x in getattr(node, 'body', []):
                if isinstance(x, ast.ClassDef):
                    walk(x, pre + x.name + '.')
                elif isinstance(x, ast.FunctionDef):
                    n += 1
                    if not any(a <= x.end_lineno and b >= x.lineno for a, b in rs):
                        out.append(f'{pre}{x.name} ({x.lineno}-{x.end_lineno})')
        walk(ast.parse(open(p).read()), '')
        if n:
            print(f'{p[6:]}: {n - len(out)}/{n} cited' + ('; not cited: ' + ', '.join(out) if out else ''))
