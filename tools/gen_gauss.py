#!/usr/bin/env python3
"""Generate rocq/theories/GaussTab.v from the text of /repo/solidspy/gaussutil.py.
Literals are copied verbatim from the source."""
import ast
SRC = '/repo/solidspy/gaussutil.py'
src = open(SRC).read()
tree = ast.parse(src)

def lit(n):
    if isinstance(n, ast.Constant):
        return ast.get_source_segment(src, n).strip()
    if isinstance(n, ast.UnaryOp):
        return '-' + lit(n.operand)
    if isinstance(n, ast.List):
        return [lit(x) for x in n.elts]
    if n.func.attr == 'array':
        return lit(n.args[0])
    if n.func.attr == 'full':
        return [lit(n.args[1])] * n.args[0].elts[0].value
    raise Exception(ast.dump(n))

def fmt(x):
    return x if isinstance(x, str) else '[' + '; '.join(fmt(y) for y in x) + ']'

def wrap(s, w=76):
    out, line = [], '  '
    for tok in s.split(' '):
        if len(line) + len(tok) > w:
            out.append(line.rstrip()); line = '   '
        line += tok + ' '
    out.append(line.rstrip())
    return '\n'.join(out)

print('(** * Quadrature tables.  GENERATED by tools/gen_gauss.py from')
print('    solidspy/gaussutil.py; the literals are copied verbatim.  Simplification:')
print('    a literal stands for the decimal number written in the source, not for the')
print('    nearest binary64 number. *)')
print('From Coq Require Import QArith ZArith List.\nImport ListNotations.\n')
for fn in tree.body:
    if isinstance(fn, ast.FunctionDef) and fn.name != 'gauss_nd':
        node = [x for x in fn.body if isinstance(x, ast.If)][0]
        ty = 'list Q' if fn.name == 'gauss_1d' else 'list (list Q)'
        cases = []
        while True:
            c = node.test.comparators[0]
            ks = [c.value] if isinstance(c, ast.Constant) else [e.value for e in c.elts]
            tag = '_'.join(map(str, ks))
            d = {a.targets[0].id: a for a in node.body}
            for v, t in (('pts', ty), ('wts', 'list Q')):
                a = d[v]
                print('(* gaussutil.py:%d-%d *)' % (a.lineno, a.end_lineno))
                print('Definition %s_%s_%s : %s :=' % (fn.name, tag, v, t))
                print(wrap(fmt(lit(a.value)) + '%Q.') + '\n')
            cases.append((ks, tag))
            if len(node.orelse) == 1 and isinstance(node.orelse[0], ast.If):
                node = node.orelse[0]
            else:
                break
        print('(* dispatch of %s, gaussutil.py:%d-%d *)' % (fn.name, fn.lineno, fn.end_lineno))
        print('Definition %s_tab (k : Z) : option (%s * list Q) :=' % (fn.name, ty))
        print('  match k with')
        for ks, tag in cases:
            print('  | %s => Some (%s_%s_pts, %s_%s_wts)' % (' | '.join('%d%%Z' % k for k in ks), fn.name, tag, fn.name, tag))
        print('  | _ => None\n  end.\n')
