#!/usr/bin/env python3
"""Systematic wrong programs: small edits of every definition of some model files.

usage: automut.py WORKDIR LOG PER_DEFINITION SEED FILE...   (FILE as Model/X.v; base tree in /tmp/mut/base)
Edits that do not type check are skipped; a build stops at the first theorem that fails.
"""
import json, os, random, re, subprocess, sys
BASE = os.environ.get('MUT_BASE', '/tmp/mut/base')
OPS = [
  (r'<\?', '<=?'), (r'<=\?', '<?'), (r'=\?', '<=?'), (r'&&', '||'), (r'\|\|', '&&'), (r'\bnegb ', ''), (r'\btrue\b', 'false'), (r'\bfalse\b', 'true'),
  (r'\bfst\b', 'snd'), (r'\bsnd\b', 'fst'), (r' \+ ', ' - '), (r' - ', ' + '), (r' \* ', ' + '), (r' / ', ' * '), (r'\b0\b', '1'), (r'\b1\b', '2'), (r'\b1\b', '0'),
  (r'\b([2-9]|\d\d+)\b', lambda m: str(int(m.group(0)) + 1)), (r'\bRltb\b', 'Rleb'), (r'\bRleb\b', 'Rltb'), (r'\bNat\.min\b', 'Nat.max'), (r'\bNat\.max\b', 'Nat.min'),
  (r'\bRmin\b', 'Rmax'), (r'\bRmax\b', 'Rmin'), (r'\bZ\.min\b', 'Z.max'), (r'\bZ\.max\b', 'Z.min'), (r'\bfirstn\b', 'skipn'), (r'\bskipn\b', 'firstn'), (r'\bKeyError\b', 'ValueError'),
  (r'\bValueError\b', 'TypeError'), (r'\bTypeError\b', 'ValueError'), (r'\bAttributeError\b', 'TypeError'), (r'\bIndexError\b', 'KeyError'), (r'\bRuntimeError\b', 'ValueError'),
  (r'\bNone\b', None), (r'\bfilter\b', None), (r'\bforallb\b', 'existsb'), (r'\bexistsb\b', 'forallb'), (r'\bmap2 (\w+) (\w+) (\w+)', r'map2 \1 \3 \2'), (r' \+\+ ', None),
  (r'\brev ', ''), (r'\bpx\b', 'py'), (r'\bpy\b', 'px'), (r'"([a-z_/]+)"', r'"\1x"'), (r'\bS ([a-z]\w*)', r'\1'), (r'\bsum\b', None), (r'\bpadd\b', 'psub'), (r'\bpsub\b', 'padd'), (r'\binsert\b', None),
]
def definitions(src):
    nocomment = re.sub(r'\(\*.*?\*\)', lambda m: ' ' * len(m.group(0)), src, flags=re.S)
    for m in re.finditer(r'^(?:Definition|Fixpoint|with|Inductive|Record) (\w+)', nocomment, re.M):
        end = re.search(r'\.\s*(?=\n|$)', nocomment[m.start():])
        if not end: continue
        body = nocomment.find(':=', m.start())
        stop = m.start() + end.start()
        if nocomment[m.start():].startswith(('Inductive', 'Record')): continue
        if body < 0 or body > stop: continue
        yield m.group(1), body + 2, stop, nocomment
def sh(c, t=2400):
    try: return subprocess.run(c, shell=True, capture_output=True, text=True, timeout=t)
    except subprocess.TimeoutExpired: return None
def enclosing(path, line):
    src = open(path).read().split('\n')
    for i in range(min(line, len(src)) - 1, -1, -1):
        m = re.match(r'\s*(?:Theorem|Lemma|Example|Corollary|Definition|Fixpoint|Fact)\s+(\w+)', src[i])
        if m: return m.group(1)
    return '?'
def main():
    work, log, per, seed, files = sys.argv[1], sys.argv[2], int(sys.argv[3]), int(sys.argv[4]), sys.argv[5:]
    rnd = random.Random(seed)
    flags = ' '.join(l.strip() for l in open(BASE + '/_CoqProject') if l.startswith('-'))
    for f in files:
        src = open(f'{BASE}/theories/{f}').read()
        for name, a, b, nc in definitions(src):
            cand = []
            for pat, rep in OPS:
                if rep is None: continue
                for m in re.finditer(pat, nc[a:b]):
                    new = m.expand(rep) if isinstance(rep, str) else rep(m)
                    cand.append((a + m.start(), a + m.end(), new))
            rnd.shuffle(cand)
            done = 0
            for s, e, new in cand:
                if done >= per: break
                sh(f'rm -rf {work}; cp -a {BASE} {work}')
                p = f'{work}/theories/{f}'
                open(p, 'w').write(src[:s] + new + src[e:])
                r = sh(f'cd {work} && timeout 600 coqc -q {flags} theories/{f}')
                if r is None or r.returncode: continue
                done += 1
                r = sh(f'cd {work} && timeout 1800 make -j{os.environ.get("MUT_J", "2")} 2>&1')
                out = r.stdout if r else ''
                bad = [(enclosing(f'{work}/{m.group(1)}', int(m.group(2))), os.path.basename(m.group(1))[:-2]) for m in re.finditer(r'File "\./(theories/[^"]+)", line (\d+)[^\n]*:\n(?:Error|[^\n]*\nError)', out)]
                line = src.rfind('\n', 0, s) + 1
                eol = src.find('\n', e)
                rec = dict(definition=name, file=f, edit=f'{src[line:eol].strip()}  ==>  {(src[line:s] + new + src[e:eol]).strip()}', failed=[x for x, _ in bad], failed_in=[x for _, x in bad])
                if r is None or (r.returncode and not bad): rec['note'] = 'BUILD ' + out[-200:]
                elif not bad: rec['note'] = 'SURVIVED'
                open(log, 'a').write(json.dumps(rec) + '\n')
if __name__ == '__main__':
    main()
