"""Writes rocq/theories/SymTable.v from the text of /repo/sangfroid/layer/*.py: the SYMBOL of each class.
The source is only parsed (ast), never run."""
import ast

SRC = '/repo/sangfroid/layer/'
FILES = ['layer', 'blurs', 'geometry', 'group', 'other', 'stylise', 'text', 'time', 'tbd', 'transform']

rows = []
for f in FILES:
    for n in ast.parse(open(SRC + f + '.py').read()).body:
        if isinstance(n, ast.ClassDef):
            for b in n.body:
                if isinstance(b, ast.Assign) and b.targets[0].id == 'SYMBOL':
                    chars = '; '.join(f'{ord(c)}%N' for c in b.value.value)
                    rows.append(f'   (* layer/{f}.py:{b.lineno} *) (s "{n.name}", [{chars}])')

out = '''(** The symbols of the classes of /repo/sangfroid/layer/*.py which give one.
    Generated by /verif/gen/sym_table.py from the text of those files. *)
From Verif Require Export ClsTable.

Definition own_symbols : list (pstr * pstr) :=
  [
''' + ';\n'.join(rows) + '''
  ].
'''
open('/verif/rocq/theories/SymTable.v', 'w').write(out)
