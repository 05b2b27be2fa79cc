"""Print, for every theorem of the Props files, what Print Assumptions says (run after a build, in rocq/)."""
import glob, re, subprocess
from concurrent.futures import ThreadPoolExecutor
def run(f):
    src = open(f).read()
    names = re.findall(r'^Print Assumptions (\w+)\.', src, re.M)
    out = subprocess.run(['coqc', '-Q', 'theories', 'Verif', f], capture_output=True, text=True).stdout
    parts = re.split(r'^(?=Axioms:|Closed under the global context)', out, flags=re.M)
    parts = [p for p in parts if p.startswith(('Axioms:', 'Closed'))]
    assert len(parts) == len(names), (f, len(parts), len(names))
    res = []
    for n, p in zip(names, parts):
        ax = [a for a in re.findall(r'^([A-Za-z_.]+)(?=\s*(?::|$))', p.split('\n', 1)[1] if '\n' in p else '', re.M)] if not p.startswith('Closed') else []
        res.append(n + ' | ' + (', '.join(ax) if ax else 'closed'))
    return res
with ThreadPoolExecutor(4) as ex:
    for res in ex.map(run, sorted(glob.glob('theories/*Props.v'))):
        for r in res:
            print(r)
