#!/usr/bin/env python3
"""Reads the MPCycle classes of /repo/example_cycles as text (ast only) and writes rocq/theories/Data_Multi.v: for every class and every kind of
off-design point it adds, the cycle parameters, whether the default design-to-off-design connections are used, and the connections made by pyc_connect_des_od."""
import ast, os, sys
REPO = '/repo/example_cycles'
FILES = [('simple_turbojet.py', 'MPTurbojet', [('Turbojet', 'Turbojet_od')]), ('wet_simple_turbojet.py', 'MPWetTurbojet', [('WetTurbojet', 'WetTurbojet_od')]),
         ('afterburning_turbojet.py', 'MPABTurbojet', [('ABTurbojet', 'ABTurbojet_od')]), ('electric_propulsor.py', 'MPpropulsor', [('Propulsor', 'Propulsor_od')]),
         ('wet_propulsor.py', 'MPWetPropulsor', [('WetPropulsor', 'WetPropulsor_od')]), ('single_spool_turboshaft.py', 'MPSingleSpool', [('SingleSpoolTurboshaft', 'SingleSpoolTurboshaft_od')]),
         ('multi_spool_turboshaft.py', 'MPMultiSpool', [('MultiSpoolTurboshaft', 'MultiSpoolTurboshaft_od')]), ('high_bypass_turbofan.py', 'MPhbtf', [('HBTF', 'HBTF_od'), ('HBTF', 'HBTF_od_pc')]),
         ('mixedflow_turbofan.py', 'MPMixedFlowTurbofan', [('MixedFlowTurbofan', 'MixedFlowTurbofan_od')]), ('N+3ref/N3ref.py', 'MPN3', [('N3', 'N3_od')])]
q = lambda x: '"%s"' % x
lst = lambda xs: '[' + '; '.join(xs) + ']'
out = ['''(* GENERATED by tools/gen_multi.py from the MPCycle classes of /repo/example_cycles (read as text). N3's point RTO (with turbine cooling) is left out: its
   coolant flows are sized by the cooling rows, which are not part of the cycle model. *)
From Verif Require Export Model_Multi Data_Examples.
Open Scope string_scope. Open Scope list_scope.''']
names = []
for f, c, pairs in FILES:
    tree = ast.parse(open(os.path.join(REPO, f)).read())
    cd = next(n for n in tree.body if isinstance(n, ast.ClassDef) and n.name == c)
    fn = next(n for n in cd.body if isinstance(n, ast.FunctionDef) and n.name == 'setup')
    params, conns, default, cross = [], [], False, []
    calls = [n for n in ast.walk(fn) if isinstance(n, ast.Call)]
    calls.sort(key=lambda n: (n.lineno, n.col_offset))
    for k in calls:
        g = ast.unparse(k.func)
        if g == 'self.pyc_add_cycle_param': params.append(ast.literal_eval(k.args[0]))
        elif g == 'self.pyc_connect_des_od': conns.append((ast.literal_eval(k.args[0]), ast.literal_eval(k.args[1])))
        elif g == 'self.pyc_use_default_des_od_conns': assert not k.args and not k.keywords; default = True
        elif g == 'self.connect': cross.append(tuple(map(ast.literal_eval, k.args)))
    for d, o in pairs:
        n = 'm_' + o[:-3] if o.endswith('_od') else 'm_' + o
        extra = ''
        if cross: extra = '; connections between points: ' + ', '.join('%s -> %s' % x for x in cross)
        out.append('(* %s:%d-%d %s%s *)' % (f, fn.lineno, fn.end_lineno, c, extra))
        out.append('Definition %s : multi := mkMulti %s x_%s x_%s\n  %s\n  %s\n  %s.' % (n, q(c), d, o, lst(map(q, params)), 'true' if default else 'false', lst('(%s, %s)' % (q(a), q(t)) for a, t in conns)))
        names.append(n)
out.append('Definition multis : list multi := ' + lst(names) + '.')
open('/verif/rocq/theories/Data_Multi.v', 'w').write('\n'.join(out) + '\n')
