# Regenerates section 6 of DESIGN.md (assumptions per theorem) from the output of
# compiling the Prop*.v files.
#   cd rocq/theories; for f in Prop*.v; do echo "FILE $f"; coqc -w none -Q . Verif $f; done > log
#   python3 tools/gen_design.py log
import re,sys
log=open(sys.argv[1]).read()
code={'ClassicalDedekindReals.sig_forall_dec':'F','ClassicalDedekindReals.sig_not_dec':'N',
      'FunctionalExtensionality.functional_extensionality_dep':'E','Classical_Prop.classic':'C'}
rows=[]
for part in log.split('FILE ')[1:]:
    f,body=part.split('\n',1)
    names=re.findall(r'^Print Assumptions ([\w\']+)\.',open('/verif/rocq/theories/'+f).read(),re.M)
    bl=re.findall(r'(Closed under the global context|Axioms:\n(?:(?!Axioms:|Closed under).*\n?)*)',body)
    assert len(names)==len(bl),(f,len(names),len(bl))
    for n,b in zip(names,bl):
        ax=re.findall(r'^([A-Za-z]\w*(?:\.\w+)+)\b',b,re.M)
        for a in ax: assert a in code,(n,a)
        rows.append((n,f,''.join(sorted(code[a] for a in ax)) or '-'))
rows.sort()
t='| theorem | file | axioms |\n|---|---|---|\n'+''.join(f'| `{n}` | `{f}` | {a} |\n' for n,f,a in rows)
d=open('/verif/DESIGN.md').read()
a=d.index('<!-- table -->'); b=d.index('<!-- end table -->')
open('/verif/DESIGN.md','w').write(d[:a]+'<!-- table -->\n'+t+d[b:])
print(len(rows))
