"""Read the shipped map files as text (ast, nothing is executed)."""
import ast, glob
from fractions import Fraction
def lit(n, src, env):
    if isinstance(n, ast.List) or isinstance(n, ast.Tuple): return [lit(x,src,env) for x in n.elts]
    if isinstance(n, ast.UnaryOp) and isinstance(n.op, ast.USub): return -lit(n.operand,src,env)
    if isinstance(n, ast.Constant):
        if isinstance(n.value,(int,float)) and not isinstance(n.value,bool): return Fraction(ast.get_source_segment(src,n))
        return n.value
    if isinstance(n, ast.Call) and ast.unparse(n.func)=='np.array': return lit(n.args[0],src,env)
    if isinstance(n, ast.Call) and ast.unparse(n.func)=='np.mean': return ('mean',ast.unparse(n.args[0]))
    if isinstance(n, ast.Attribute): 
        return env[n.attr] if n.attr in env else ('expr',ast.unparse(n))
    return ('expr',ast.unparse(n))
def load(f):
    src=open(f).read(); maps={}
    for st in ast.parse(src).body:
        if isinstance(st,ast.Assign):
            t=st.targets[0]
            if isinstance(t,ast.Name) and ast.unparse(st.value)=='MapData()': maps[t.id]={'params':[],'outputs':[],'defaults':{}}; cur=t.id
            elif isinstance(t,ast.Attribute): 
                if ast.unparse(st.value) in('{}','[]'): continue
                maps[t.value.id][t.attr]=lit(st.value,src,maps[t.value.id])
            elif isinstance(t,ast.Subscript) and t.value.attr=='defaults':
                maps[t.value.value.id]['defaults'][ast.literal_eval(t.slice)]=lit(st.value,src,{})
        elif isinstance(st,ast.Expr) and isinstance(st.value,ast.Call) and ast.unparse(st.value.func).endswith('_data.append'):
            c=st.value; m=c.func.value.value.id; kind='params' if c.func.value.attr=='param_data' else 'outputs'
            d={ast.literal_eval(k): (ast.unparse(v) if ast.literal_eval(k)=='values' else lit(v,src,maps[m])) for k,v in zip(c.args[0].keys,c.args[0].values)}
            d['data']=maps[m][d['values'].split('.')[1]]
            assert d['values'].split('.')[0]==m
            maps[m][kind].append(d)
    return maps
def allmaps():
    out=[]
    for f in sorted(glob.glob('/repo/pycycle/maps/*.py')):
        b=f.split('/')[-1]
        if b in('__init__.py','map_data.py'): continue
        for k,v in load(f).items(): out.append((b,k,v))
    return out
def n3maps():
    out=[]
    for f in sorted(glob.glob('/repo/example_cycles/N+3ref/N3_*_map.py')):
        b=f.split('/')[-1]
        for k,v in load(f).items(): out.append((b,'N3'+k,v))
    return out
