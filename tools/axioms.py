"""Rewrites section 5 of DESIGN.md from Print Assumptions (needs the compiled files)."""
import re,glob,json,os,subprocess,tempfile
root=os.path.dirname(os.path.dirname(os.path.abspath(__file__)))
names=[t for c in json.load(open(root+'/MANIFEST.json'))['claims'] for t in c['theorems']]
where={}
for f in glob.glob(root+'/rocq/theories/*.v'):
    for m in re.finditer(r'^\s*(?:Theorem|Corollary) (C\d\d_\w+)',open(f).read(),re.M):
        where[m.group(1)]=os.path.basename(f)[:-2]
d=tempfile.mkdtemp()
v=d+'/ax.v'
with open(v,'w') as o:
    o.write('From Verif Require '+' '.join(sorted(set(where[n] for n in names)))+'.\n')
    for n in names:
        o.write('Goal True. idtac "@@ %s". Abort.\nPrint Assumptions %s.%s.\n'%(n,where[n],n))
out=subprocess.run(['coqc','-Q',root+'/rocq/theories','Verif',v],capture_output=True,text=True)
assert out.returncode==0,out.stderr[-2000:]
groups={}
for part in out.stdout.split('@@ ')[1:]:
    n,body=part.split('\n',1)
    ax=tuple(sorted(set(re.findall(r'^([A-Z][\w.]*)\s*(?::|$)',body,re.M))-{'Axioms','Closed'}))
    groups.setdefault(ax,[]).append(n)
lines=[]
for ax,ns in sorted(groups.items(),key=lambda p:len(p[0])):
    if not ax: h='Closed under the global context (no axioms)'
    elif len(ax)<=6: h=', '.join('`%s`'%a for a in ax)
    else:
        base=[a for a in ax if not a.startswith(('PrimInt63','Uint63'))]
        h='the axioms '+', '.join('`%s`'%a for a in base)+' and, through the Interval tactic, the primitive 63-bit integers and their specification: '+', '.join('`%s`'%a for a in ax if a not in base)
    lines.append('* %s (%d theorems): %s.\n'%(h,len(ns),', '.join(ns)))
p=root+'/DESIGN.md'
s=open(p).read()
i=s.index('Only axioms of Coq\'s standard library occur:')
j=s.index("The checker's list of axioms")
s=s[:i]+"Only axioms of Coq's standard library occur:\n\n"+'\n'.join(lines)+'\n'+s[j:]
open(p,'w').write(s)
print([(len(a),len(b)) for a,b in groups.items()])
