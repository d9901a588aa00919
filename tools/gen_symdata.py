#!/usr/bin/env python3
"""Writes rocq/theories/SymData.v from neutronpy/database/symmetry.json."""
import json
import sys

src = sys.argv[1] if len(sys.argv) > 1 else '/repo/neutronpy/database/symmetry.json'
groups = json.load(open(src))['space_groups']


def q(s):
    assert all(32 <= ord(c) < 127 for c in s), s
    return '"' + s.replace('"', '""') + '"'


print("(** Generated by tools/gen_symdata.py from /repo/neutronpy/database/symmetry.json, in file order:")
print("    key, total_operations, generators, number, full_name, hermann-manguin_symbol, point_group, type. *)")
print("From Coq Require Import String List ZArith.")
print("Import ListNotations.")
print("Local Open Scope string_scope.")
print()
print("Record entry := mkE { e_key : string; e_total : nat; e_gens : list string; e_number : Z; e_full : string;")
print("  e_hm : string; e_pg : string; e_type : string }.")
print()
print("Definition table : list entry := [")
rows = []
for k, v in groups.items():
    assert set(v) - {'unique_axis', 'origin_choice', 'axes'} == {'total_operations', 'generators', 'number', 'full_name', 'hermann-manguin_symbol', 'point_group', 'type'}
    rows.append('  mkE {} {} [{}] {} {} {} {} {}'.format(
        q(k), v['total_operations'], '; '.join(map(q, v['generators'])), v['number'], q(v['full_name']),
        q(v['hermann-manguin_symbol']), q(v['point_group']), q(v['type'])))
print(';\n'.join(rows) + '].')
