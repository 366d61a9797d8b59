#!/usr/bin/env python3
"""List what Print Assumptions reports for each property theorem (needs a finished build).
Output: one line per theorem, grouped by set of axioms."""
import re,subprocess,glob,os,collections,tempfile
T=os.path.join(os.path.dirname(os.path.abspath(__file__)),'..','rocq','theories')
groups=collections.defaultdict(list)
for f in sorted(glob.glob(T+'/Prop*.v')):
    src=open(f).read()
    names=re.findall(r'^Print Assumptions (\w+)\.',src,re.M)
    if not names: continue
    mod=os.path.basename(f)[:-2]
    with tempfile.TemporaryDirectory() as d:
        g=d+'/q.v'
        open(g,'w').write('From Verif Require Import %s.\n'%mod+''.join('Print Assumptions %s.\n'%n for n in names))
        out=subprocess.run(['coqc','-Q',T,'Verif',g],capture_output=True,text=True)
        assert out.returncode==0,(f,out.stderr)
    blocks=re.split(r'^(?=Axioms:|Closed under)',out.stdout,flags=re.M)[1:]
    assert len(blocks)==len(names),(f,len(blocks),len(names))
    for n,b in zip(names,blocks):
        ax=tuple(sorted(x.split('.')[-1] for x in re.findall(r'^([A-Za-z_][\w.]*)\s*(?::|$)',b,re.M) if x not in('Axioms',)))
        groups[ax].append(n)
for ax,ns in sorted(groups.items(),key=lambda x:len(x[0])):
    print('* **'+(', '.join('`%s`'%a for a in ax) or 'none (closed under the global context)')+'** (%d):'%len(ns))
    print('  '+', '.join(ns)+'.')
