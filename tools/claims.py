"""Single source for properties.jsonl and MANIFEST.json (run: python3 tools/claims.py)."""
import json, os, re, sys

ROOT = os.path.dirname(os.path.dirname(os.path.abspath(__file__)))
PROPS = []


def P(id, title, statement, quantifier, why, anchors, status='planned',
      theorems=(), note=''):
  PROPS.append(dict(id=id, title=title, statement=statement,
                    quantifier=quantifier, why_tests_cant=why,
                    anchors=list(anchors), status=status,
                    theorems=list(theorems), note=note))


def S(id, status, theorems, note=''):
  """Sets the claim for a property."""
  p = next(p for p in PROPS if p['id'] == id)
  p.update(status=status, theorems=theorems.split(), note=note)


exec(open(os.path.join(ROOT, 'tools', 'claims_data.py')).read())
exec(open(os.path.join(ROOT, 'tools', 'claims_status.py')).read())


def main():
  ids = [p['id'] for p in PROPS]
  assert len(ids) == len(set(ids)), 'duplicate ids'
  with open(os.path.join(ROOT, 'properties.jsonl'), 'w') as f:
    for p in PROPS:
      f.write(json.dumps({k: p[k] for k in (
          'id', 'title', 'statement', 'quantifier', 'why_tests_cant',
          'anchors')}) + '\n')
  claims = []
  for p in PROPS:
    if p['status'] == 'planned':
      continue
    claims.append(dict(property=p['id'], status=p['status'],
                       theorems=p['theorems'], note=p['note']))
  with open(os.path.join(ROOT, 'MANIFEST.json'), 'w') as f:
    json.dump({'claims': claims}, f, indent=1)
    f.write('\n')
  # Every theorem named here must exist in a Props file.
  have = set()
  for dp, _, fs in os.walk(os.path.join(ROOT, 'rocq', 'theories')):
    for fn in fs:
      if fn.endswith('.v'):
        have |= set(re.findall(r'^\s*Theorem\s+([A-Za-z0-9_\']+)',
                               open(os.path.join(dp, fn)).read(), re.M))
  used = {t for p in PROPS for t in p['theorems']}
  missing = sorted(used - have)
  if missing:
    print('MISSING theorems:', missing)
  unused = sorted(have - used)
  if unused:
    print('theorems not in the manifest:', unused)
  print(len(PROPS), 'properties,', len(claims), 'claims,',
        len(used), 'theorems')


if __name__ == '__main__':
  main()
