"""List every function of /repo/nephosem and the model files whose comments cite lines of it.

Usage: python3 tools/coverage.py [-u] > COVERAGE.txt    (-u: only the functions no model cites)
A citation is a line number or range after a file name in a comment of a Model file; ranges of more than 260
lines are file headers and do not count.
"""
import ast, glob, os, re, sys
ROOT = os.path.dirname(os.path.dirname(os.path.abspath(__file__)))
REPO = '/repo/nephosem'
cites = {}
for f in sorted(glob.glob(ROOT + '/rocq/theories/*Model*.v')):
    src = open(f).read()
    for c in re.findall(r'\(\*.*?\*\)', src, re.S):
        name = None
        for m in re.finditer(r'([A-Za-z_/]+\.py)|(?<![\w.\-])(\d{2,4})(?:-(\d{2,4}))?(?![\w.\-]*\w)', c):
            if m.group(1):
                name = m.group(1).split('nephosem/')[-1]
                name = {'deprel.py': 'models/deprel.py', 'deputils.py': 'specutils/deputils.py'}.get(name, name)
            elif name:
                a = int(m.group(2)); b = int(m.group(3) or a)
                if a <= b <= a + 260:
                    cites.setdefault(name, []).append((a, b, os.path.basename(f)[:-2]))
files = ['conf.py', 'utils.py', 'logging.py'] + ['core/%s.py' % x for x in ('vocab', 'terms', 'handler', 'matrix', 'graph')] \
    + ['specutils/%s.py' % x for x in ('mxutils', 'mxcalc', 'deputils')] + ['models/%s.py' % x for x in ('typetoken', 'deprel', 'cbc')] \
    + ['deprel/%s.py' % x for x in ('basic', 'deputils', 'dephandler')]
def funcs(node, prefix=''):
    for n in node.body:
        if isinstance(n, ast.FunctionDef):
            yield prefix + n.name, n
        elif isinstance(n, ast.ClassDef):
            yield from funcs(n, prefix + n.name + '.')
for fn in files:
    tree = ast.parse(open(os.path.join(REPO, fn)).read())
    rs = [c for k, v in cites.items() if fn == k or fn.endswith('/' + k) or k.endswith('/' + fn) for c in v]
    for name, n in funcs(tree):
        start = n.body[0].lineno
        body = n.body
        if isinstance(body[0], ast.Expr) and isinstance(getattr(body[0], 'value', None), (ast.Str, ast.Constant)) and len(body) > 1:
            start = body[1].lineno
        end = n.end_lineno
        ms = sorted({m for a, b, m in rs if a <= end and b >= start})
        if '-u' in sys.argv[1:] and ms:
            continue
        print('%-22s %-45s %4d-%-4d %s' % (fn, name, n.lineno, end, ', '.join(ms) or '-'))
