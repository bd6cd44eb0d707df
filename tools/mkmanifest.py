"""Writes /verif/MANIFEST.json: the theorems C<nn>_* of rocq/theories per property."""
import re,glob,json,os
root=os.path.dirname(os.path.dirname(os.path.abspath(__file__)))
th={}
for f in sorted(glob.glob(root+'/rocq/theories/*.v')):
    for m in re.finditer(r'^\s*(?:Theorem|Corollary) (C(\d\d)_\w+)',open(f).read(),re.M):
        th.setdefault('C'+m.group(2),[]).append(m.group(1))
exec(open(root+'/tools/notes.py').read())
claims=[]
for l in open(root+'/properties.jsonl'):
    i=json.loads(l)['id']
    st,note=NOTES[i]
    claims.append(dict(property=i,status=st,theorems=th.get(i,[]),note=note))
    assert th.get(i),i
for k in th: assert k in NOTES,k
json.dump({"claims":claims},open(root+'/MANIFEST.json','w'),indent=1)
print(len(claims),sum(len(c['theorems']) for c in claims))
