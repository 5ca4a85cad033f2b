#!/usr/bin/env python3
"""Writes rocq/theories/ConformData.v: the small data files of /repo/common/data-files as Coq lists."""
import csv,os
D='/repo/common/data-files/'
out=['(** The small data files of /repo/common/data-files, written by tools/gen_conform.py. A number is (digits, decimal places).*)',
'From Coq Require Import ZArith List String.','Import ListNotations.','Local Open Scope Z_scope.','Local Open Scope string_scope.','']
for f in ['iris','iris_test','synthetic_1','wine_train','wine_test']:
    rows=list(csv.reader(open(D+f+'.csv')))
    out.append('(** %s.csv *)'%f)
    out.append('Definition %s_header : list string := [%s].'%(f,'; '.join('"%s"'%h for h in rows[0])))
    def num(s):
        a,_,b=s.partition('.'); return '(%d, %d)'%(int(a+b),len(b))
    out.append('Definition %s_records : list (list (Z * Z)) :=\n  [%s].'%(f,';\n   '.join('['+'; '.join(num(x) for x in r)+']' for r in rows[1:])))
    out.append('')
open(os.path.dirname(os.path.abspath(__file__))+'/../rocq/theories/ConformData.v','w').write('\n'.join(out))
