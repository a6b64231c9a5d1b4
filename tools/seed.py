#!/usr/bin/env python3
"""Seeded-bug runs: apply one edit to a scratch copy of the model, rebuild, log.

usage: seed.py MUTATIONS.py [first_id ...]   (scratch copy in /tmp/mut)
MUTATIONS.py defines M = [(id, file, old, new, definition, claim), ...].
"""
import json, os, re, subprocess, sys
ROOT = '/verif'
BASE, WORK = os.environ.get('MUT_BASE', '/tmp/mut/base'), os.environ.get('MUT_WORK', '/tmp/mut/work')
LOG = ROOT + '/seeded/LOG.jsonl'

def sh(c, t=3000):
    try:
        return subprocess.run(c, shell=True, capture_output=True, text=True, timeout=t)
    except subprocess.TimeoutExpired:
        return None

def enclosing(path, line):
    src = open(path).read().split('\n')
    for i in range(min(line, len(src)) - 1, -1, -1):
        m = re.match(r'\s*(?:Theorem|Lemma|Example|Corollary|Definition|Fixpoint|Fact)\s+(\w+)', src[i])
        if m:
            return m.group(1)
    return '?'

def run(mid, f, old, new, definition, claim):
    sh(f'rm -rf {WORK}; cp -a {BASE} {WORK}')
    p = f'{WORK}/theories/{f}'
    s = open(p).read()
    if s.count(old) != 1:
        print(mid, 'PATTERN COUNT', s.count(old)); return
    open(p, 'w').write(s.replace(old, new))
    r = sh(f'cd {WORK} && timeout 2400 make -k -j{os.environ.get("MUT_J", "2")} 2>&1')
    out = r.stdout if r else ''
    failed, where = [], []
    for m in re.finditer(r'File "\./(theories/[^"]+)", line (\d+)[^\n]*:\n(Error|.*\nError)', out):
        name = enclosing(f'{WORK}/{m.group(1)}', int(m.group(2)))
        failed.append(name); where.append(os.path.basename(m.group(1))[:-2])
    rest = sh(f'cd {WORK} && make -k -n 2>&1').stdout
    blocked = sorted(set(re.findall(r'COQC theories/Props/(\w+)\.v', rest)))
    rec = dict(id=mid, definition=definition, file=f, edit=f'{old.strip()}  ==>  {new.strip()}', breaks=claim,
               failed=failed, failed_in=where, props_not_compiling=blocked, tightened=[])
    if not failed: rec['note'] = 'SURVIVED' 
    print(json.dumps(rec)[:400], flush=True)
    with open(os.environ.get('MUT_LOG', '/tmp/mut/log.jsonl'), 'a') as h:
        h.write(json.dumps(rec) + '\n')

if __name__ == '__main__':
    ns = {}
    exec(open(sys.argv[1]).read(), ns)
    only = set(sys.argv[2:])
    for m in ns['M']:
        if not only or m[0] in only:
            run(*m)
