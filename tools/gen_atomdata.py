#!/usr/bin/env python3
"""Writes rocq/theories/AtomData.v from the three element databases of neutronpy."""
import json
from fractions import Fraction

D = '/repo/neutronpy/database/'


def load(name):
    return json.load(open(D + name), parse_float=Fraction, parse_int=Fraction)


def s(x):
    assert all(32 <= ord(c) < 127 for c in x), x
    return '"' + x + '"%string'


def q(x):
    return '({} # {})'.format(x.numerator, x.denominator)


def opt(x):
    return 'None' if x is None else '(Some {})'.format(q(x))


def length(x):
    if x is None:
        return 'NoLength'
    if isinstance(x, list):
        assert len(x) == 2
        return '(ComplexLength {} {})'.format(q(x[0]), q(x[1]))
    return '(RealLength {})'.format(q(x))


print('''(** Generated by tools/gen_atomdata.py from /repo/neutronpy/database/scattering_lengths.json,
    periodic_table.json and magnetic_form_factors.json, in file order; decimals as exact fractions. *)
From Coq Require Import String List QArith.
Import ListNotations.
Local Open Scope Q_scope.

(** The entry 'Coh b': null, a number or a list of two numbers. *)
Inductive slength := NoLength | RealLength (b : Q) | ComplexLength (re im : Q).
(** Ion, 'Coh b', 'Coh xs', 'Inc xs', 'Abs xs'; [None] is null. *)
Record scatterer := mkS { s_ion : string; s_b : slength; s_coh : option Q; s_inc : option Q; s_abs : option Q }.
Definition scattering_table : list scatterer := [''')
d = load('scattering_lengths.json')
print(';\n'.join('  mkS {} {} {} {} {}'.format(s(k), length(v['Coh b']), opt(v['Coh xs']), opt(v['Inc xs']), opt(v['Abs xs'])) for k, v in d.items()) + '].')
print('(** Element and mass. *)\nDefinition mass_table : list (string * Q) := [')
d = load('periodic_table.json')
print(';\n'.join('  ({}, {})'.format(s(k), q(v['mass'])) for k, v in d.items()) + '].')
print('(** Ion and the coefficient lists j0, j2, j4. *)\nRecord magnetic := mkMag { m_ion : string; m_j0 : list Q; m_j2 : list Q; m_j4 : list Q }.\nDefinition magnetic_table : list magnetic := [')
d = load('magnetic_form_factors.json')
print(';\n'.join('  mkMag {} {}'.format(s(k), ' '.join('[' + '; '.join(map(q, v[j])) + ']' for j in ('j0', 'j2', 'j4'))) for k, v in d.items()) + '].')
