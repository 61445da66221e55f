#!/usr/bin/env python3
"""Writes NttCheck32.v and NttCheck64.v: the table of size 4096 passes the check, the others are prefixes of it."""
import os
OUT = os.path.join(os.path.dirname(os.path.abspath(__file__)), '../rocq/theories/')
for w in (32, 64):
    o = [f'(** * The {w}-bit tables pass the check.  Generated by tools/gen_ntt_checks.py. *)',
         f'From Verif Require Import Base NttTableProofs NttTables{w}.', '',
         f'Lemma check_{w} : check_table MOD_{w}_4096 12 ROOTS_{w}_4096 INVROOTS_{w}_4096 = true.',
         'Proof. vm_cast_no_check (eq_refl true). Qed.']
    for m in range(7, 13):
        n = 2 ** m
        for t in ('ROOTS', 'INVROOTS'):
            o.append(f'Lemma {t}_{w}_{n}_prefix : {t}_{w}_{n} = firstn (2 ^ {m})%nat {t}_{w}_4096.')
            o.append(f'Proof. vm_cast_no_check (@eq_refl (list Z) {t}_{w}_{n}). Qed.')
    open(OUT + f'NttCheck{w}.v', 'w').write('\n'.join(o) + '\n')
