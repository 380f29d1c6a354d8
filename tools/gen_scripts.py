"""Translate the scripts of experiments/benchmarks/{rwa,rswa,rar,stabsafe,lyap,roa,barrier} (read as text)
into rocq/theories/M_Scripts.v."""
import ast, os, math
from fractions import Fraction
ROOT = '/repo/experiments/benchmarks/'
DIRS = ['rwa', 'rswa', 'rar', 'stabsafe', 'lyap', 'roa', 'barrier']
LABEL = {'XD': 'XD', 'XI': 'XI', 'XU': 'XU', 'XS': 'XS', 'XG': 'XG', 'XS_BORDER': 'XS_BORDER', 'XG_BORDER': 'XG_BORDER',
         'XF': 'XF', 'XNF': 'XNF', 'XR': 'XR'}
# certificate.py / consts.py: DomainNames
TEXT = {'lie': 'XD', 'init': 'XI', 'unsafe': 'XU', 'safe': 'XS', 'safe_border': 'XS_BORDER', 'goal': 'XG',
        'goal_border': 'XG_BORDER', 'final': 'XF', 'not_final': 'XNF'}
models = ast.parse(open(ROOT + 'models.py').read())
MODELS = {}
for c in models.body:
    if isinstance(c, ast.ClassDef):
        MODELS[c.name] = {s.targets[0].id: s.value.value for s in c.body
                          if isinstance(s, ast.Assign) and isinstance(s.value, ast.Constant)}
def q(x): return f"({x.numerator} # {x.denominator})" if x >= 0 else f"((-{-x.numerator}) # {x.denominator})"
def ql(l): return '[' + '; '.join(q(x) for x in l) + ']%Q'
class Model:
    def __init__(self, name, closed=False): self.name, self.closed = name, closed
class Data:
    pass
class Script:
    def __init__(self, path):
        self.text = open(path).read(); self.mod = ast.parse(self.text)
        self.classes = {}; self.env = {}
        for s in self.mod.body:
            if isinstance(s, ast.ClassDef): self.cls(s)
            if isinstance(s, ast.ImportFrom) and s.module == 'experiments.benchmarks.models':
                for a in s.names: self.env[a.asname or a.name] = Model(a.name)
        f = [s for s in self.mod.body if isinstance(s, ast.FunctionDef) and s.name == 'test_lnn'][0]
        self.opts = None; self.line = (f.lineno, f.end_lineno)
        for s in f.body: self.stmt(s)
    def cls(self, c):
        base = ast.unparse(c.bases[0])
        if 'Dynamical' in base:
            # a copy of the class in models.py
            other = [m for m in models.body if isinstance(m, ast.ClassDef) and m.name == c.name][0]
            meth = lambda k: [ast.unparse(m) for m in k.body if isinstance(m, ast.FunctionDef)]
            assert meth(c) == meth(other), (meth(c), meth(other))
            self.env[c.name] = Model(c.name)
        elif base == 'certificate.Certificate': self.env[c.name] = 'certificate'
        else: self.classes[c.name] = c
    def stmt(self, s):
        if isinstance(s, ast.ClassDef): self.cls(s)
        elif isinstance(s, ast.Assign):
            v = self.ev(s.value)
            self.env[s.targets[0].id] = v
    def comp(self, n, v):
        """an arithmetic term over the components of the argument"""
        if isinstance(n, ast.Constant): return f"(ENum {q(Fraction(ast.get_source_segment(self.text, n)))})"
        if isinstance(n, ast.Name): return f"(nth {v.index(n.id)} v (ENum 0))"
        if isinstance(n, ast.UnaryOp): return f"(ENum {q(-Fraction(ast.get_source_segment(self.text, n.operand)))})"
        if isinstance(n, ast.BinOp):
            if isinstance(n.op, ast.Pow): return f"(EPow {self.comp(n.left, v)} {n.right.value})"
            return f"(EBin {({ast.Add: 'BAdd', ast.Sub: 'BSub'})[type(n.op)]} {self.comp(n.left, v)} {self.comp(n.right, v)})"
        raise Exception(ast.dump(n))
    def fml(self, n, v):
        if isinstance(n, ast.Compare):
            assert len(n.ops) == 1 and isinstance(n.ops[0], ast.LtE)
            return f"FCmp CLe {self.comp(n.left, v)} {self.comp(n.comparators[0], v)}"
        assert isinstance(n, ast.Call) and n.func.slice.value == 'And'
        return 'fand [' + '; '.join(self.fml(a, v) for a in n.args) + ']'
    def written(self, c):
        if ast.unparse(c.bases[0]) == 'domains.Sphere':
            # RWA4Unsafe: the formula of OpenSphere
            m = {m.name: m for m in c.body if isinstance(m, ast.FunctionDef)}
            at = {s.targets[0].attr: s.value for s in m['__init__'].body}
            want = "return f['And'](sum([(x[i] - self.centre[i]) ** 2 for i in range(len(x))]) < self.radius ** 2)"
            assert ast.unparse(m['generate_domain'].body[-1]) == want
            return f"(Shipped (OpenSph {ql(self.ev(at['centre']))} {q(self.ev(at['radius']))} None))"
        g = [m for m in c.body if isinstance(m, ast.FunctionDef) and m.name == 'generate_domain'][0]
        v = None
        for s in g.body:
            if isinstance(s, ast.Return): return f"(Written (fun v => {self.fml(s.value, v)}))"
            if isinstance(s.targets[0], ast.Tuple): v = [x.id for x in s.targets[0].elts]
    def num(self, n): return Fraction(ast.get_source_segment(self.text, n).replace('_', ''))
    def ev(self, n):
        if isinstance(n, ast.Constant):
            if isinstance(n.value, (int, float)) and not isinstance(n.value, bool): return self.num(n)
            return n.value
        if isinstance(n, ast.UnaryOp): return -self.ev(n.operand)
        if isinstance(n, ast.List): return [self.ev(e) for e in n.elts]
        if isinstance(n, ast.Dict): return {self.label(k): self.ev(v) for k, v in zip(n.keys, n.values)}
        if isinstance(n, ast.BinOp):
            a, b = self.ev(n.left), self.ev(n.right)
            if isinstance(n.op, ast.Mult): return a * (int(b) if isinstance(a, list) else b)
            if isinstance(n.op, ast.Div): return a / b
            if isinstance(n.op, ast.Pow): return a ** b
        if isinstance(n, ast.Name): return self.env[n.id]
        if isinstance(n, ast.Attribute):
            s = ast.unparse(n)
            if s == 'np.pi': return Fraction(math.pi)
            if s.startswith('models.'): return Model(n.attr)
            for t in ('ActivationType.', 'CertificateType.', 'TimeDomain.', 'VerifierType.'):
                if t in s: return n.attr
            v = self.ev(n.value)
            assert isinstance(v, Model), s
            return Fraction(MODELS[v.name][n.attr])
        if isinstance(n, ast.Call):
            f = ast.unparse(n.func); last = f.split('.')[-1]
            if f in self.classes: return self.written(self.classes[f])
            if f == 'len': return len(self.ev(n.args[0]))
            if last == '_generate_data' or last == '_sample_border': return Data()
            if last == 'prepare_from_open': return Model(self.ev(n.args[0].func).name, True)
            if last in ('synthesise', 'pop'): return None
            if last == 'CegisConfig':
                self.opts = {k.arg: self.ev(k.value) for k in n.keywords}; return None
            a = [self.ev(x) for x in n.args] + [self.ev(k.value) for k in n.keywords]
            S = lambda x: x[len('(Shipped '):-1]
            if last == 'Rectangle': return f"(Shipped (Rect {ql(a[0])} {ql(a[1])}))"
            if last in ('Sphere', 'OpenSphere'):
                assert len(a) == 2
                return f"(Shipped ({'Sph' if last == 'Sphere' else 'OpenSph'} {ql(a[0])} {q(a[1])} None))"
            if last == 'Torus': return f"(Shipped (Tor {ql(a[0])} {q(a[1])} {q(a[2])} None))"
            if last == 'Union': return f"(Shipped (UnionS {S(a[0])} {S(a[1])}))"
            if last == 'SetMinus': return f"(Shipped (MinusS {S(a[0])} {S(a[1])}))"
            if last == 'Complement': return f"(Shipped (ComplS {S(a[0])}))"
        raise Exception(ast.dump(n))
    def label(self, n):
        if isinstance(n, ast.Constant): return TEXT[n.value]
        return LABEL[n.attr]
def lst(l, f=str): return '[' + '; '.join(f(x) for x in l) + ']'
out = []; names = []
for d in DIRS:
    for fn in sorted(os.listdir(ROOT + d)):
        if fn == 'ctrlbarr_quadrotor2d.py': model = None
        s = Script(ROOT + d + '/' + fn); o = s.opts
        name = 'script_' + fn[:-3]; names.append((d, name, o))
        m = o['SYSTEM']
        known = m.name != 'Quadrotor2d'
        assert m.closed == ('CTRLAYER' in o)
        ctrl = 'None' if 'CTRLAYER' not in o else f"(Some ({lst(o['CTRLAYER'])}, {lst(o['CTRLACTIVATION'])}))"
        sets = ';\n      '.join(f"({l}, {v})" for l, v in o['DOMAINS'].items())
        allowed = {'SYSTEM', 'DOMAINS', 'DATA', 'N_VARS', 'CERTIFICATE', 'TIME_DOMAIN', 'VERIFIER', 'ACTIVATION', 'N_HIDDEN_NEURONS',
                   'ACTIVATION_ALT', 'N_HIDDEN_NEURONS_ALT', 'CTRLAYER', 'CTRLACTIVATION', 'LLO', 'CEGIS_MAX_ITERS', 'SYMMETRIC_BELT',
                   'VERBOSE', 'SEED', 'CUSTOM_CERTIFICATE', 'LEARNING_RATE'}
        assert set(o) <= allowed, (fn, set(o) - allowed)
        out.append(f'''(** experiments/benchmarks/{d}/{fn}:{s.line[0]}-{s.line[1]}. *)
Definition {name} : script :=
  {{| x_file := "{d}/{fn}"; x_system := {('Some ' + m.name) if known else 'None'}; x_n := {o['N_VARS']};
     x_type := {o['CERTIFICATE']}; x_time := {o['TIME_DOMAIN']}; x_verifier := V{o['VERIFIER']};
     x_domains := [{sets}];
     x_data := {lst(o['DATA'])};
     x_hidden := {lst(o['N_HIDDEN_NEURONS'])}; x_acts := {lst(o['ACTIVATION'])};
     x_hidden_alt := {lst(o['N_HIDDEN_NEURONS_ALT']) if 'N_HIDDEN_NEURONS_ALT' in o else 'default_hidden_alt'}; x_acts_alt := {lst(o['ACTIVATION_ALT']) if 'ACTIVATION_ALT' in o else 'default_acts_alt'};
     x_ctrl := {ctrl}; x_llo := {str(o.get('LLO', False)).lower()}; x_max_iters := {o['CEGIS_MAX_ITERS'] if 'CEGIS_MAX_ITERS' in o else 'default_max_iters'} |}}.
''')
with open('/verif/rocq/theories/M_Scripts.v', 'w') as f:
    f.write('''(** The scripts of experiments/benchmarks/, translated by tools/gen_scripts.py from the source text: local
    names are replaced by their values, decimal literals are exact, [np.pi] is the double it stands for,
    the sets are those passed as DOMAINS, and of DATA only the labels are kept.  No proofs in this file.
    Not translated: the scripts in archive/. *)
From Coq Require Import String QArith ZArith List.
From Verif Require Import M_Syntax M_Certificates M_Verifier M_Labels M_Activations M_Domains M_Cegis M_Control M_Cli M_Dispatch M_Model M_Benchmarks M_Experiment.
Import ListNotations.
Local Open Scope string_scope.
Local Open Scope Q_scope.
Local Open Scope nat_scope.

''')
    f.write('\n'.join(out))
    for d in DIRS:
        f.write(f"\nDefinition {d}_scripts : list script := {lst([n for dd, n, o in names if dd == d])}.")
    f.write(f"\nDefinition all_scripts : list script := ({' ++ '.join(d + '_scripts' for d in DIRS)})%list.\n")
