"""List, per module of /repo, the functions cited and not cited by the model."""
import ast, glob, os, re, collections
cites = collections.defaultdict(set)
for f in glob.glob('/verif/rocq/theories/Model/*.v') + glob.glob('/verif/rocq/theories/Base/*.v'):
    s = open(f).read()
    for c in re.findall(r'\(\*(.*?)\*\)', s, re.S):
        last = None
        for m in re.finditer(r'(?:([a-z_/0-9]+\.py):)?(\d+)(?:-(\d+))?', c):
            if m.group(1):
                last = os.path.basename(m.group(1))
            if last:
                a = int(m.group(2)); b = int(m.group(3) or a)
                cites[last].add((a, b))
        head = re.findall(r'([a-z_0-9]+\.py)', c)
    base = re.findall(r'putting_dune/[a-z_/0-9]*?([a-z_0-9]+\.py)', s[:300])
for f in sorted(glob.glob('/repo/putting_dune/**/*.py', recursive=True)):
    if f.endswith('_test.py') or f.endswith('__init__.py'):
        continue
    t = ast.parse(open(f).read())
    yes, no = [], []
    def visit(node, pre):
        for n in node.body:
            if isinstance(n, ast.ClassDef):
                visit(n, pre + n.name + '.')
            elif isinstance(n, ast.FunctionDef):
                c = any(a <= n.end_lineno and b >= n.lineno for a, b in cites[os.path.basename(f)])
                (yes if c else no).append(pre + n.name)
    visit(t, '')
    if yes or no:
        print(f[len('/repo/putting_dune/'):], len(yes), 'of', len(yes) + len(no), '| missing:', ' '.join(no))
