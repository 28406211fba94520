"""Writes rocq/theories/ClsTable.v from the text of /repo/sangfroid/layer/*.py.
The source is only parsed (ast), never run."""
import ast, sys
from fractions import Fraction
from decimal import Decimal

SRC = '/repo/sangfroid/layer/'
# the order of the imports in layer/__init__.py
FILES = ['blurs', 'geometry', 'group', 'other', 'stylise', 'text', 'time', 'tbd', 'transform']
VCLS = {'Real': 'VReal', 'Integer': 'VInteger', 'Bool': 'VBool', 'Angle': 'VAngle', 'Time': 'VTime',
        'String': 'VString', 'Color': 'VColor', 'X_Y': 'VXY', 'Transformation': 'VTransformation',
        'Gradient': 'VGradient', 'Canvas': 'VCanvas', 'BlendMethod': 'VBlendMethod', 'Tone': '(VTbd (s "Tone"))'}

blend = {}
for n in ast.walk(ast.parse(open('/repo/sangfroid/value/blendmethod.py').read())):
    if isinstance(n, ast.Assign) and isinstance(n.value, ast.Constant) and isinstance(n.value.value, int):
        blend[n.targets[0].id] = n.value.value

def text(n, src):
    return ast.get_source_segment(src, n)

def num(t):
    f = Fraction(Decimal(t))
    return f'PFlo (rnd64 ({f.numerator} # {f.denominator}))'.replace('(-', '((-').replace(' #', ') #') if f < 0 else f'PFlo (rnd64 ({f.numerator} # {f.denominator}))'

def val(n, src):
    if isinstance(n, ast.Constant):
        if n.value is None: return 'PNone'
        if isinstance(n.value, bool): return f'PBool {str(n.value).lower()}'
        if isinstance(n.value, int): return f'PInt {n.value}'
        if isinstance(n.value, float): return num(text(n, src))
        if isinstance(n.value, str): return f'PStr (s "{n.value}")'
    if isinstance(n, ast.UnaryOp) and isinstance(n.op, ast.USub):
        if isinstance(n.operand.value, int): return f'PInt (-{n.operand.value})'
        return num('-' + text(n.operand, src))
    if isinstance(n, ast.Tuple): return 'PTuple [' + '; '.join(val(x, src) for x in n.elts) + ']'
    if isinstance(n, ast.List): return 'PList [' + '; '.join(val(x, src) for x in n.elts) + ']'
    if isinstance(n, ast.Dict):
        if isinstance(n.keys[0].value, str):
            return 'PDict [' + '; '.join(f'(s "{k.value}", {val(x, src)})' for k, x in zip(n.keys, n.values)) + ']'
        return 'PDictF [' + '; '.join(f'({num(text(k, src))[5:]}, {val(x, src)})' for k, x in zip(n.keys, n.values)) + ']'
    if isinstance(n, ast.Attribute) and isinstance(n.value, ast.Attribute) and n.value.attr == 'BlendMethod':
        return f'PInt {blend[n.attr]}'
    raise SystemExit('unknown default ' + ast.dump(n))

out = ['''(** The layer classes of /repo/sangfroid/layer/*.py: for each, its name, its base,
    SYNFIG_VERSION if it gives one, and its fields in the order of its body.
    Generated by /verif/gen/cls_table.py from the text of those files. *)
From Verif Require Export ValModel.

(** field.py: [ParamTagField] and its subclass [ParamArrayField] are [FParam], with
    type_ and default; [NotImplementedField] and its subclasses are [FTodo];
    [ShortcutField] is [FShort], with the name of the field it reads. *)
Inductive lfield : Type :=
| FParam (c : vcls) (d : pyval)
| FTodo
| FShort (upstream : pstr).

Record lcls : Type := mkC {
  c_name : pstr;
  c_base : pstr;
  c_version : option pstr;
  c_fields : list (pstr * lfield) }.
''']
rows = []
for f in FILES:
    src = open(SRC + f + '.py').read()
    for c in ast.parse(src).body:
        if not isinstance(c, ast.ClassDef): continue
        decs = [text(d, src) for d in c.decorator_list]
        assert 'Layer.handles_type()' in decs, c.name
        assert len(c.bases) == 1
        ver = None; fields = []
        for st in c.body:
            if not isinstance(st, ast.Assign): continue
            nm = st.targets[0].id
            if nm == 'SYNFIG_VERSION': ver = st.value.value; assert isinstance(ver, str)
            if isinstance(st.value, ast.Call):
                k = st.value.func.attr
                if k in ('ParamTagField', 'ParamArrayField'):
                    args = st.value.args
                    kw = {x.arg: x.value for x in st.value.keywords}
                    assert set(kw) <= {'doc', 'default'}, kw
                    d = args[1] if len(args) > 1 else kw['default']
                    fields.append((nm, f'FParam {VCLS[args[0].attr]} ({val(d, src)})', st.lineno))
                elif k in ('NotImplementedField', 'SwitchCanvasField', 'DuplicatesIndexField'):
                    fields.append((nm, 'FTodo', st.lineno))
                else: raise SystemExit(k)
        for d in decs:
            if 'include_from' in d:
                up = d.split('"')[1]
                # value/transformation.py: REQUIRED_KEYS
                for k in ('offset', 'angle', 'skew_angle', 'scale'):
                    fields.append((k, f'FShort (s "{up}")', c.decorator_list[0].lineno))
        names = [x[0] for x in fields]
        assert len(set(names)) == len(names)
        rows.append(c.name)
        v = f'(Some (s "{ver}"))' if ver is not None else 'None'
        out.append(f'(** layer/{f}.py:{c.lineno}-{c.end_lineno} *)\nDefinition cls_{c.name} : lcls :=\n  mkC (s "{c.name}") (s "{c.bases[0].id}") {v}\n  [ ' +
                   ';\n    '.join(f'(s "{n}", {t})' for n, t, _ in fields) + ' ].\n')
out.append('(** In the order in which layer/__init__.py:13-21 imports them *)\nDefinition layer_classes : list lcls :=\n  [ ' + '; '.join('cls_' + r for r in rows) + ' ].\n')
open('/verif/rocq/theories/ClsTable.v', 'w').write('\n'.join(out))
print(len(rows))
