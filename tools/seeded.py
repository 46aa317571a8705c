"""Append to seeded/LOG.jsonl the results of the mutation harness (DIR/ID.json)."""
import json, glob, os, sys
here = os.path.dirname(os.path.dirname(os.path.abspath(__file__)))
log = os.path.join(here, 'seeded', 'LOG.jsonl')
notes = {}
np = os.path.join(here, 'seeded', 'tightened.json')
if os.path.exists(np): notes = json.load(open(np))
def key(f):
    b = os.path.basename(f)[:-5]
    return (b.rstrip('0123456789'), int('0' + ''.join(c for c in b if c.isdigit())))
out = []
for f in sorted(glob.glob(sys.argv[1] + '/*.json'), key=key):
    d = json.load(open(f)); s, r = d['spec'], d['result']
    if 'error' in r: continue
    edit = '; '.join('%s.v: %s  ==>  %s' % (e['file'], e['old'], e['new']) for e in s['edits'])
    x = dict(id=s['id'], definition=s['definition'], edit=s['desc'] + ' [' + edit + ']', claim=s['claim'],
             failed=r['failed_theorems'],
             failed_lemmas=sorted(set(sum(r['failed_lemmas'].values(), []))), tightened=[])
    if r['unbuilt']: x['not_built'] = r['unbuilt']
    if r.get('stopped_early'): x['stopped'] = 'rebuild stopped at the first failing theorem'
    if s['id'] in notes: x['tightened'] = notes[s['id']].get('tightened', []); x['note'] = notes[s['id']].get('note', '')
    out.append(x)
open(log, 'w').write(''.join(json.dumps(x) + '\n' for x in out))
print(len(out), 'lines;', 'caught by nothing:', [x['id'] for x in out if not x['failed'] and not x['failed_lemmas'] and not x['tightened']])
