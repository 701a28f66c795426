#!/usr/bin/env python3
"""Generate rocq/theories/Data_Maps.v and Data_Atm.v from the shipped data (read as text)."""
import sys, ast; sys.path.insert(0,'/verif/tools')
from fractions import Fraction
from map_ast import allmaps, n3maps, lit
K=10**4
def z(x):
    v=x*K; assert v.denominator==1,(x,); return str(v.numerator) if v>=0 else f'({v.numerator})'
def l1(l): return '['+'; '.join(z(x) for x in l)+']'
def l3(t): return '['+';\n      '.join('['+';\n       '.join(l1(r) for r in p)+']' for p in t)+']'
o=['(* GENERATED by tools/gen_map_data.py: the performance maps of pycycle/maps/*.py. Every number z stands for z / 10^4. *)',
'From Coq Require Import ZArith.','From Verif Require Export Spec_Comp Spec_Py.','Open Scope string_scope. Open Scope list_scope. Open Scope Z_scope.',
'(* params: name, units, default, grid; outputs: name, units, table; md_defaults: the entries of MapData.defaults *)',
'Record mapZ := mkMapZ { mz_name : string; mz_params : list (string * string * Z * list Z); mz_outputs : list (string * string * list (list (list Z)));',
'  mz_defaults : dict Z; mz_stall : option Z }.']
names=[]
for b,k,v in allmaps():
    names.append(k+'_z')
    ps='; '.join(f'("{p["name"]}", "{p["units"] or ""}", {z(p["default"])}, {l1(p["data"])})' for p in v['params'])
    os_=';\n    '.join(f'("{p["name"]}", "{p["units"] or ""}", {l3(p["data"])})' for p in v['outputs'])
    ds='; '.join(f'("{a}", {z(x)})' for a,x in v['defaults'].items())
    st=f'Some {z(v["RlineStall"])}' if 'RlineStall' in v else 'None'
    o.append(f'(* maps/{b} *)\nDefinition {k}_z : mapZ := mkMapZ "{k}"\n  [{ps}]\n   [{os_}]\n  [{ds}] ({st}).')
o.append('Definition shipped_maps : list mapZ := ['+'; '.join(names)+'].')
open('/verif/rocq/theories/Data_Maps.v','w').write('\n'.join(o)+'\n')
# the maps of the N+3 example
names=[]
o=['(* GENERATED by tools/gen_map_data.py: the performance maps of example_cycles/N+3ref/N3_*_map.py. Every number z stands for z / 10^4. *)',
'From Coq Require Import ZArith.','From Verif Require Export Data_Maps.','Open Scope string_scope. Open Scope list_scope. Open Scope Z_scope.']
for b,k,v in n3maps():
    names.append(k+'_z')
    ps='; '.join(f'("{p["name"]}", "{p["units"] or ""}", {z(p["default"])}, {l1(p["data"])})' for p in v['params'])
    os_=';\n    '.join(f'("{p["name"]}", "{p["units"] or ""}", {l3(p["data"])})' for p in v['outputs'])
    ds='; '.join(f'("{a}", {z(x)})' for a,x in v['defaults'].items())
    st=f'Some {z(v["RlineStall"])}' if 'RlineStall' in v else 'None'
    o.append(f'(* example_cycles/N+3ref/{b} *)\nDefinition {k}_z : mapZ := mkMapZ "{k}"\n  [{ps}]\n   [{os_}]\n  [{ds}] ({st}).')
o.append('Definition n3_maps : list mapZ := ['+'; '.join(names)+'].')
open('/verif/rocq/theories/Data_MapsN3.v','w').write('\n'.join(o)+'\n')
# atmosphere
src=open('/repo/pycycle/elements/US1976.py').read(); A={}
for st in ast.parse(src).body:
    if isinstance(st,ast.Assign) and isinstance(st.targets[0],ast.Attribute):
        A[st.targets[0].attr]=lit(st.value,src,{})
o=['(* GENERATED by tools/gen_map_data.py: the table of pycycle/elements/US1976.py:12-65. *)','From Coq Require Import ZArith List.','Import ListNotations.','Open Scope Z_scope.']
sc={'alt':0,'T':3,'P':7,'rho':11,'a':3,'viscosity':9}
for n,k in sc.items():
    vals=[]
    for x in A[n]:
        y=x*10**k; assert y.denominator==1,(n,x); vals.append(str(y.numerator) if y>=0 else f'({y.numerator})')
    o.append(f'(* USatm1976Data.{n}; z stands for z / 10^{k} *)\nDefinition atm_{n}_z : list Z := [{"; ".join(vals)}].')
open('/verif/rocq/theories/Data_Atm.v','w').write('\n'.join(o)+'\n')
print({n:len(A[n]) for n in sc})
