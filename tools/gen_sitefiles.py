import os
out=['(** Generated by tools/gen_sitefiles.py: the names of the average tables and axes',
'    in the two data directories of /repo/PySeismoSoil/data (the directory listing;',
'    the unused [_std] files are left out). *)',
'From Coq Require Import List String.','Import ListNotations.','Open Scope string_scope.','']
for d,n in (('amplification','amplif_files'),('phase','phase_files')):
    l=sorted(f for f in os.listdir('/repo/PySeismoSoil/data/'+d) if not f.endswith('_std.csv'))
    out.append('(** /repo/PySeismoSoil/data/%s/ *)'%d)
    out.append('Definition %s : list string := ['%n)
    for i in range(0,len(l),4): out.append('  '+'; '.join('"%s"'%x for x in l[i:i+4])+(';' if i+4<len(l) else ''))
    out.append('].'); out.append('')
open('/verif/rocq/theories/M_sitefiles.v','w').write('\n'.join(out))
