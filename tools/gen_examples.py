#!/usr/bin/env python3
"""Reads the Cycle classes of /repo/example_cycles as text (ast only, nothing is imported or run) and writes
rocq/theories/Data_Examples.v: for every class and every setting of its boolean options, the elements it adds, its flow
connections, its other connections, promotions, shafts, balances. A statement of setup() that is not understood is an error."""
import ast, sys, itertools, os
REPO = '/repo/example_cycles'
FILES = [('simple_turbojet.py', 'Turbojet', {}), ('wet_simple_turbojet.py', 'WetTurbojet', {}), ('afterburning_turbojet.py', 'ABTurbojet', {}),
         ('electric_propulsor.py', 'Propulsor', {}), ('wet_propulsor.py', 'WetPropulsor', {}), ('single_spool_turboshaft.py', 'SingleSpoolTurboshaft', {}),
         ('multi_spool_turboshaft.py', 'MultiSpoolTurboshaft', {'maxiter': [10]}), ('high_bypass_turbofan.py', 'HBTF', {'throttle_mode': ['T4', 'percent_thrust']}),
         ('mixedflow_turbofan.py', 'MixedFlowTurbofan', {}), ('N+3ref/N3ref.py', 'N3', {'cooling': [False, True]})]
IGNORED_ATTR = {'nonlinear_solver', 'linear_solver'}
class Obj:
    def __init__(s, cls, kw, args): s.cls, s.kw, s.args = cls, kw, args
class Sym:
    def __init__(s, n): s.n = n
class Run:
    def __init__(s, opts):
        s.opts = dict(opts); s.env = {}; s.subs = []; s.promos = []; s.conns = []; s.links = []; s.bals = []
    def ev(s, e):
        if isinstance(e, ast.Constant): return e.value
        if isinstance(e, ast.UnaryOp) and isinstance(e.op, ast.USub): return -s.ev(e.operand)
        if isinstance(e, (ast.List, ast.Tuple)): return [s.ev(x) for x in e.elts]
        if isinstance(e, ast.Dict): return {s.ev(k): s.ev(v) for k, v in zip(e.keys, e.values)}
        if isinstance(e, ast.BinOp) and isinstance(e.op, ast.Add): return s.ev(e.left) + s.ev(e.right)
        if isinstance(e, ast.Name): return s.env[e.id] if e.id in s.env else Sym(e.id)
        if isinstance(e, ast.Attribute): return Sym(ast.unparse(e))
        if isinstance(e, ast.Subscript) and ast.unparse(e.value) == 'self.options': return s.opts[s.ev(e.slice)]
        if isinstance(e, ast.Compare) and isinstance(e.ops[0], ast.Eq): return s.ev(e.left) == s.ev(e.comparators[0])
        if isinstance(e, ast.Call):
            f = ast.unparse(e.func); args = [s.ev(a) for a in e.args]; kw = {k.arg: s.ev(k.value) for k in e.keywords}
            if f == 'self.add_subsystem': return s.add(*args, **kw)
            return Obj(f.split('.')[-1] if f.startswith(('pyc.', 'om.')) else f, kw, args)
        raise SystemExit('expression not understood: ' + ast.unparse(e))
    def add(s, name, obj, promotes_inputs=()):
        s.subs.append((name, obj)); obj.name = name
        s.prom(name, promotes_inputs); return obj
    def prom(s, name, ins):
        for p in ins: s.promos.append((name, p, p) if isinstance(p, str) else (name, p[0], p[1]))
    def stmt(s, st):
        if isinstance(st, ast.If):
            for b in (st.body if s.ev(st.test) else st.orelse): s.stmt(b)
            return
        if isinstance(st, ast.Assign):
            t = st.targets[0]
            if isinstance(t, ast.Name):
                if ast.unparse(st.value).startswith(('newton.', 'om.BoundsEnforceLS', 'om.ArmijoGoldsteinLS')): return
                v = s.ev(st.value)
                if len(st.targets) > 1: return        # newton = self.nonlinear_solver = ..., ls = newton.linesearch = ...
                s.env[t.id] = v; return
            src = ast.unparse(t)
            if src.startswith("self.options["): s.opts[s.ev(t.slice)] = s.ev(st.value); return
            if src.split('.')[0] in ('newton', 'ls') or src in ('self.nonlinear_solver', 'self.linear_solver'): return
            raise SystemExit('assignment not understood: ' + ast.unparse(st))
        if isinstance(st, ast.Expr):
            if isinstance(st.value, ast.Constant): return
            c = st.value; f = ast.unparse(c.func)
            args = [s.ev(a) for a in c.args]; kw = {k.arg: s.ev(k.value) for k in c.keywords}
            if f == 'self.add_subsystem': s.add(*args, **kw)
            elif f == 'self.connect':
                for t in (args[1] if isinstance(args[1], list) else [args[1]]): s.conns.append((args[0], t))
            elif f == 'self.pyc_connect_flow': s.links.append((args[0], args[1], kw.get('connect_stat', True), kw.get('connect_tot', True), kw.get('connect_w', True)))
            elif f == 'self.promotes': s.prom(args[0], kw['inputs'])
            elif f == 'balance.add_balance': s.bals.append((s.env['balance'], args[0], kw))
            elif f in ('self.set_order', 'super().setup', 'super().initialize'): pass
            else: raise SystemExit('call not understood: ' + ast.unparse(st))
            return
        raise SystemExit('statement not understood: ' + ast.unparse(st))
def dec(x):
    from decimal import Decimal
    t = Decimal(repr(x)).normalize().as_tuple(); m = int(''.join(map(str, t.digits))) * (-1 if t.sign else 1)
    return '(%d, %d)' % ((m, t.exponent) if m else (0, 0))
q = lambda x: '"%s"' % x
lst = lambda xs: '[' + '; '.join(xs) + ']'
b = lambda x: 'true' if x else 'false'
def port(p): n, x = p.split('.'); return '(%s, %s)' % (q(n), q(x))
def cls(o, run):
    k = o.kw
    if 'statics' in k: raise SystemExit('statics option')
    if o.cls == 'FlightConditions':
        if not k: return 'XFlight None'
        assert k['composition'].n == 'pyc.CEA_AIR_COMPOSITION' and set(k) == {'composition', 'reactant', 'mix_ratio_name'}
        return 'XFlight (Some (%s, %s))' % (q(k['reactant']), q(k['mix_ratio_name']))
    if o.cls == 'Inlet': assert not k; return 'XInlet'
    if o.cls == 'Duct': assert set(k) <= {'expMN'}; return 'XDuct %s' % dec(k.get('expMN', 0.0))
    if o.cls == 'Splitter': assert not k; return 'XSplitter'
    if o.cls == 'BleedOut': assert set(k) == {'bleed_names'}; return 'XBleedOut %s' % lst(map(q, k['bleed_names']))
    if o.cls == 'Combustor': assert set(k) == {'fuel_type'}; return 'XCombustor %s' % q(k['fuel_type'])
    if o.cls == 'Compressor': assert set(k) <= {'map_data', 'map_extrap', 'bleed_names'}; return 'XCompressor %s' % lst(map(q, k.get('bleed_names', [])))
    if o.cls == 'Turbine': assert set(k) <= {'map_data', 'map_extrap', 'bleed_names'}; return 'XTurbine %s' % lst(map(q, k.get('bleed_names', [])))
    if o.cls == 'Nozzle':
        assert set(k) <= {'nozzType', 'lossCoef', 'internal_solver'}
        return 'XNozzle %s %s' % (k.get('nozzType', 'CV'), {'Cv': 'Cv', 'Cfg': 'Cfg'}[k.get('lossCoef', 'Cv')])
    if o.cls == 'Mixer': assert set(k) == {'designed_stream'}; return 'XMixer %s' % b(k['designed_stream'] == 1)
    return None
out = ['''(* GENERATED by tools/gen_examples.py from the Cycle classes of /repo/example_cycles (read as text): elements, flow connections, other
   connections, promotions, shafts, performance element and balances, for every setting of the options `design` and those a class declares. *)
From Verif Require Export Model_Examples.
Open Scope string_scope. Open Scope list_scope. Open Scope Z_scope.''']
allnames = []
for f, c, extra in FILES:
    src = open(os.path.join(REPO, f)).read(); tree = ast.parse(src)
    cd = next(n for n in tree.body if isinstance(n, ast.ClassDef) and n.name == c)
    fn = next(n for n in cd.body if isinstance(n, ast.FunctionDef) and n.name == 'setup')
    for design in (True, False):
        keys = list(extra)
        for vals in itertools.product(*(extra[k] for k in keys)):
            opts = {'design': design, **dict(zip(keys, vals))}
            if c == 'HBTF' and design and opts['throttle_mode'] != 'T4': continue    # the design branch does not read it
            r = Run(opts)
            for st in fn.body: r.stmt(st)
            name = c + ('' if design else '_od') + ('_cooling' if opts.get('cooling') else '') + ('_pc' if opts.get('throttle_mode') == 'percent_thrust' else '')
            els, shafts, gears, perfs, others, balname = [], [], [], [], [], None
            for n, o in r.subs:
                k = cls(o, r)
                if k: els.append((n, k))
                elif o.cls == 'Shaft': shafts.append((n, o.kw['num_ports']))
                elif o.cls == 'Gearbox': assert not o.kw; gears.append(n)
                elif o.cls == 'Performance': perfs.append((n, o.kw['num_nozzles'], o.kw['num_burners']))
                elif o.cls == 'BalanceComp': assert n == 'balance'
                else: others.append((n, o.cls))
            bals = []
            for o, n, kw in r.bals:
                assert o.name == 'balance'
                assert set(kw) <= {'units', 'eq_units', 'lower', 'upper', 'val', 'rhs_val', 'use_mult', 'mult_val', 'rhs_name', 'res_ref'}, kw
                bals.append('mkXBal %s %s %s %s %s' % (q(n), q(kw.get('units') or ''), q(kw.get('eq_units') or ''), q(kw.get('rhs_name', 'rhs:' + n)), b(kw.get('use_mult', False))))
            free = []   # rhs and mult values nothing drives keep the value given to add_balance
            driven = {t for _, t in r.conns}; prom = {n + '.' + x for n, x, _ in r.promos}
            for o, n, kw in r.bals:
                rn = 'balance.' + kw.get('rhs_name', 'rhs:' + n)
                if rn not in driven and rn not in prom and 'rhs_val' in kw: free.append('(%s, (%s, %s))' % (q(rn), q(kw.get('eq_units') or ''), dec(kw['rhs_val'])))
                if kw.get('use_mult') and 'balance.mult:' + n not in driven and 'balance.mult:' + n not in prom: free.append('(%s, ("", %s))' % (q('balance.mult:' + n), dec(kw.get('mult_val', 1.0))))
            data = r.opts['thermo_data'].n
            meth = {'CEA': 'CEA', 'TABULAR': 'TABULAR'}[r.opts['thermo_method']]
            tap = {n for n, _ in others}
            links = [l for l in r.links if l[1].split('.')[0] not in tap]
            taps = [l for l in r.links if l[1].split('.')[0] in tap]
            out.append('(* %s:%d-%d%s *)' % (f, fn.lineno, fn.end_lineno, ''.join(', %s = %r' % kv for kv in opts.items() if kv[0] != 'maxiter')))
            out.append('Definition x_%s : example := mkExample %s %s %s %s' % (name, q(name), meth, q(data.split('.')[-1]), b(design)))
            out.append('  ' + lst('(%s, %s)' % (q(n), k) for n, k in els))
            out.append('  ' + lst('mkLink %s %s %s %s %s' % (port(l[0]), port(l[1]), b(l[2]), b(l[3]), b(l[4])) for l in links))
            out.append('  ' + lst('(%s, %s)' % (q(a), q(t)) for a, t in r.conns))
            out.append('  ' + lst('(%s, (%s, %s))' % (q(n), q(x), q(a)) for n, x, a in r.promos))
            out.append('  ' + lst('(%s, %d%%nat)' % (q(n), k) for n, k in shafts) + ' ' + lst(map(q, gears)) + ' ' + lst('(%s, (%d, %d)%%nat)' % (q(n), i, j) for n, i, j in perfs))
            out.append('  ' + lst(bals) + ' ' + lst(free))
            out.append('  (* not modelled: subsystems %s; flow connections to them %s *)' % (', '.join('%s (%s)' % x for x in others) or 'none', ', '.join('%s -> %s' % l[:2] for l in taps) or 'none'))
            out[-2], out[-1] = out[-1], out[-2] + '.'
            allnames.append('x_' + name)
out.append('Definition examples : list example := ' + lst(allnames) + '.')
open(sys.argv[1] if len(sys.argv) > 1 else '/verif/rocq/theories/Data_Examples.v', 'w').write('\n'.join(out) + '\n')
