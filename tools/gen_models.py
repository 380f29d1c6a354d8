"""Translate experiments/benchmarks/models.py (read as text) into rocq/theories/M_Benchmarks.v."""
import ast
from fractions import Fraction
SRC = '/repo/experiments/benchmarks/models.py'
text = open(SRC).read()
mod = ast.parse(text)
SKIP = {'Eulerised', 'LinearDiscreteNVars', 'Quadrotor2d', 'LinearSatellite'}

def num(seg):
    q = Fraction(seg.replace('_', ''))
    return f"(UNum ({q.numerator} # {q.denominator}))"

class T:
    def __init__(self, cls):
        self.attr = {}
        for s in cls.body:
            if isinstance(s, ast.Assign):
                self.attr[s.targets[0].id] = s.value
    def index(self, n):
        e = n.slice
        es = e.elts if isinstance(e, ast.Tuple) else [e]
        return [x.value for x in es]
    def go(self, n, env):
        if isinstance(n, ast.Constant):
            return num(ast.get_source_segment(text, n))
        if isinstance(n, ast.Name):
            return env[n.id]
        if isinstance(n, ast.UnaryOp):
            assert isinstance(n.op, ast.USub)
            return f"(UMinus {self.go(n.operand, env)})"
        if isinstance(n, ast.BinOp):
            a = self.go(n.left, env)
            if isinstance(n.op, ast.Pow):
                return f"(UPow {a} {n.right.value})"
            c = {ast.Add: 'UAdd', ast.Sub: 'USub', ast.Mult: 'UMul', ast.Div: 'UDiv'}[type(n.op)]
            return f"({c} {a} {self.go(n.right, env)})"
        if isinstance(n, ast.Call):
            f = n.func
            if isinstance(f, ast.Attribute):
                assert f.value.id == 'torch'; name = f.attr
            else:
                name = env[f.id]; assert name.startswith('fn:'); name = name[3:]
            return f'(UFn "{name}" {self.go(n.args[0], env)})'
        if isinstance(n, ast.Attribute):
            assert n.value.id == 'self'
            return self.go(self.attr[n.attr], {})
        if isinstance(n, ast.Subscript):
            v = n.value
            if isinstance(v, ast.Attribute) and v.value.id == 'self':
                d = self.attr[v.attr]
                if isinstance(d, ast.Call): d = d.args[0]
                for i in self.index(n): d = d.elts[i]
                return self.go(d, {})
            if isinstance(v, ast.Name) and v.id in ('v', 'u'):
                s = n.slice
                i = s.elts[1].value if isinstance(s, ast.Tuple) else s.value
                return f"({'UVar' if v.id == 'v' else 'UInput'} {i})"
        raise Exception(ast.dump(n))
    def method(self, m):
        env = {}; unpack = {'v': None, 'u': None}
        for s in m.body:
            if isinstance(s, ast.Expr): continue
            if isinstance(s, ast.Return):
                return unpack, [self.go(e, env) for e in s.value.elts]
            t, val = s.targets[0], s.value
            if isinstance(t, ast.Tuple):
                if isinstance(val, ast.Name):
                    unpack[val.id] = len(t.elts)
                    for i, x in enumerate(t.elts): env[x.id] = f"({'UVar' if val.id == 'v' else 'UInput'} {i})"
                else:
                    for x, e in zip(t.elts, val.elts, strict=True): env[x.id] = self.go(e, env)
            elif isinstance(val, ast.Subscript) and isinstance(val.value, ast.Attribute) and val.value.attr == 'fncs':
                env[t.id] = 'fn:' + val.slice.value
            else:
                env[t.id] = self.go(val, env)
names = []
out = []
for c in mod.body:
    if not isinstance(c, ast.ClassDef) or c.name in SKIP: continue
    t = T(c)
    ms = {m.name: m for m in c.body if isinstance(m, ast.FunctionDef)}
    ut, ft = t.method(ms['f_torch']); us, fs = t.method(ms['f_smt'])
    ctrl = c.bases[0].attr == 'ControllableDynamicalModel'
    lk = {}
    for s in ms['f_smt'].body:
        pass
    def o(x): return 'None' if x is None else f'(Some {x})'
    nv = t.attr['n_vars'].value if 'n_vars' in t.attr else None
    nu = t.attr['n_u'].value if 'n_u' in t.attr else None
    looked = [s.value.slice.value for s in ms['f_smt'].body if isinstance(s, ast.Assign) and isinstance(s.value, ast.Subscript)
              and isinstance(s.value.value, ast.Attribute) and s.value.value.attr == 'fncs']
    lo = '[' + '; '.join(f'"{x}"' for x in looked) + ']'
    ind = lambda l: '[' + ';\n     '.join(l) + ']'
    out.append(f"""(** models.py:{c.lineno}-{c.end_lineno} [{c.name}]. *)
Definition {c.name} : benchmark_model :=
  {{| bm_name := "{c.name}"; bm_control := {'true' if ctrl else 'false'}; bm_n_vars := {o(nv)}; bm_n_u := {o(nu)};
    bm_torch := {ind(ft)};
    bm_functions := {lo}; bm_unpack_v := {o(us['v'])}; bm_unpack_u := {o(us['u'])};
    bm_smt := {ind(fs)} |}}.
""")
    names.append(c.name)
head = open('/verif/tools/models_head.txt').read()
tail = "\n(** The classes above, in the order of the file. *)\nDefinition benchmark_models : list benchmark_model := [" + '; '.join(names) + "].\n"
open('/verif/rocq/theories/M_Benchmarks.v', 'w').write(head + '\n'.join(out) + tail)
print(len(names))
