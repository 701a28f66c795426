#!/usr/bin/env python3
"""Regenerates rocq/theories/Data_Thermo.v from /repo/pycycle/thermo/cea/thermo_data/*.py (exact decimals).
   The modules are executed with a stub numpy; nothing of pyCycle is run."""
import sys,types,os
from decimal import Decimal
sys.dont_write_bytecode=True
D='/repo/pycycle/thermo/cea/thermo_data/'
np=types.ModuleType('numpy'); np.array=list; sys.modules['numpy']=np
def load(n):
    m=types.ModuleType(n); exec(compile(open(D+n+'.py').read(),D+n+'.py','exec'),m.__dict__); return m
janaf=load('janaf'); co2=load('co2_co_o2')
for k in ('pycycle','pycycle.thermo','pycycle.thermo.cea','pycycle.thermo.cea.thermo_data'):
    sys.modules[k]=types.ModuleType(k)
sys.modules['pycycle.thermo.cea.thermo_data'].janaf=janaf
wet=load('wet_air')
def dec(x):
    t=Decimal(repr(x)).as_tuple(); m=int(''.join(map(str,t.digits))); e=t.exponent
    if m==0: e=0
    while m and m%10==0: m//=10; e+=1
    if t.sign: m=-m
    return f'({m},{e})'
def lst(l,f): return '['+'; '.join(map(f,l))+']'
def dct(d,f): return '['+'; '.join(f'("{k}", {f(v)})' for k,v in d.items())+']'
def sp(p,ind='     '):
    return 'mkSpD\n'+ind+'['+(';\n'+ind+' ').join(lst(c,dec) for c in p['coeffs'])+']\n'+ind+lst(p['ranges'],dec)+' '+dec(p['wt'])+' '+dct(p['elements'],dec)
out='''(* GENERATED by tools/gen_thermo_data.py: the shipped data of pycycle/thermo/cea/thermo_data/janaf.py,
   co2_co_o2.py and wet_air.py, as exact decimals (mantissa, exponent of ten). *)
From Coq Require Import ZArith.
From Verif Require Export Model_Species.
Open Scope string_scope. Open Scope list_scope. Open Scope Z_scope.
Definition dec := (Z * Z)%type.
Record spD := mkSpD { d_coeffs : list (list dec); d_ranges : list dec; d_wt : dec; d_elems : dict dec }.
Record specD := mkSpecD { d_products : dict spD; d_element_wts : dict dec; d_reactants : dict (dict dec) }.
'''
def mod(name,m,cite):
    s=f'(* {cite} *)\nDefinition {name} : specD := mkSpecD\n  ['
    s+=';\n   '.join(f'("{k}", {sp(p)})' for k,p in m.products.items())
    s+=']\n  '+dct(m.element_wts,dec)+'\n  '+dct(getattr(m,'reactants',{}),lambda d:dct(d,dec))+'.\n'
    return s
out+=mod('janaf_dec',janaf,'thermo_data/janaf.py')
out+=mod('co2_co_o2_dec',co2,'thermo_data/co2_co_o2.py; this module has no reactants')
# wet_air: janaf without CH4 and C2H4
assert list(wet.products)==[k for k in janaf.products if k not in('CH4','C2H4')] and wet.element_wts is janaf.element_wts
out+='''(* thermo_data/wet_air.py:8-17: janaf without two products *)
Definition wet_air_dec : specD := mkSpecD
  (filter (fun kv => negb (String.eqb (fst kv) "CH4" || String.eqb (fst kv) "C2H4")) (d_products janaf_dec))
  (d_element_wts janaf_dec) (d_reactants janaf_dec).
Definition shipped_specs : list specD := [janaf_dec; co2_co_o2_dec; wet_air_dec].
(* as real numbers *)
Definition dR (d : dec) : R := (IZR (fst d) * powerRZ 10 (snd d))%R.
Definition dictR (d : dict dec) : dict R := map (fun kv => (fst kv, dR (snd kv))) d.
Definition spR (s : spD) : species := mkSpecies (map (map dR) (d_coeffs s)) (map dR (d_ranges s)) (dR (d_wt s)) (dictR (d_elems s)).
Definition specR (s : specD) : spec_data := mkSpec (map (fun kv => (fst kv, spR (snd kv))) (d_products s))
  (dictR (d_element_wts s)) (map (fun kv => (fst kv, dictR (snd kv))) (d_reactants s)).
'''
open(os.path.dirname(os.path.dirname(os.path.abspath(__file__)))+'/rocq/theories/Data_Thermo.v','w').write(out)
