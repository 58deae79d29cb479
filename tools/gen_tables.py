#!/usr/bin/env python3
"""Generate rocq/theories/Model/Tables.v from the CSV files in /repo."""
import csv, os
from fractions import Fraction
D = '/repo/csu_radartools/beta_function_parameters/'
names = {'KDZ': 'Reflectivity', 'KDR': 'Differential_Reflectivity',
         'KKD': 'Specific_Differential_Phase', 'KRH': 'Correlation_Coefficient',
         'KLD': 'Linear_Depolarization_Ratio', 'KT': 'Temperature'}
seas = {'Summer': '', 'Winter': '_winter', 'Melt': '_ML'}
def num(s):
    s = s.strip()
    if s.lower() == 'nan' or s == '': return 'None'
    assert all(ch in '-0123456789.' for ch in s), s
    f = Fraction(s)
    return 'Some (%d # %d)' % (f.numerator, f.denominator)
out = ['(** * The shipped membership parameters, transcribed verbatim from the 54 CSV files in',
 '    csu_radartools/beta_function_parameters/ by tools/gen_tables.py.',
 '    A row is (m, a, b); [None] is a NaN cell.  Column lookup is by header name. *)',
 'From Coq Require Import QArith List.', 'Import ListNotations.', 'Local Open Scope Q_scope.', '',
 '(** keys of csu_fhc.py:28 and of the mbf_sets dictionaries *)',
 'Inductive key := KDZ | KDR | KKD | KRH | KLD | KT.',
 "(** the band argument: 'S', 'C' or 'X'; any other string has no CSV file *)",
 'Inductive band := BS | BC | BX.',
 '(** which family of files: <name>.csv, <name>_winter.csv, <name>_ML.csv *)',
 'Inductive season := Summer | Winter | Melt.',
 'Definition row : Type := (option Q * option Q * option Q)%type.', '']
cases = []
for s, suf in seas.items():
    for b in 'SCX':
        for k, n in names.items():
            fn = '%s-band_%s%s.csv' % (b, n, suf)
            rows = list(csv.reader(open(D + fn)))
            hdr = [h.strip() for h in rows[0]]
            body = [r for r in rows[1:] if r]
            nl = len(open(D + fn).read().rstrip('\n').split('\n'))
            im, ia, ib = hdr.index('m'), hdr.index('a'), hdr.index('b')
            ident = 'csv_%s_%s_%s' % (s, b, k)
            out.append('(** csu_radartools/beta_function_parameters/%s:1-%d *)' % (fn, nl))
            out.append('Definition %s : list row :=' % ident)
            out.append('  [' + ';\n   '.join('(%s, %s, %s)' % (num(r[im]), num(r[ia]), num(r[ib])) for r in body) + '].')
            cases.append('  | %s, B%s, %s => %s' % (s, b, k, ident))
out += ['', "(** file name construction, beta_functions.py:166-187, 238-259, 315-336, 397-418:",
        "    band + '-band_' + variable + suffix + '.csv' *)",
        'Definition csv (s : season) (b : band) (k : key) : list row :=',
        '  match s, b, k with'] + cases + ['  end.']
open(os.path.join(os.path.dirname(__file__), '../rocq/theories/Model/Tables.v'), 'w').write('\n'.join(out) + '\n')
