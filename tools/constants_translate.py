#!/usr/bin/env python3
"""Copies the named floating-point constants of muu into ConstTables.v.

usage: constants_translate.py <path to muu> > rocq/theories/ConstTables.v
"""
import re, sys

root = sys.argv[1]
core = open(root + '/include/muu/impl/core_constants.h').read()
half = open(root + '/include/muu/half.h').read()
special = {'lowest', 'highest', 'zero', 'one', 'two', 'three', 'four', 'five', 'six', 'seven', 'eight', 'nine', 'ten', 'one_hundred',
           'default_epsilon', 'nan', 'signaling_nan', 'infinity', 'negative_infinity', 'negative_zero'}

def table(name, comment, rows):
    print('(** %s *)' % comment)
    print('Definition %s : list (string * Z) := [' % name)
    print(';\n'.join('  ("%s", %s)' % r for r in rows) + '].\n')

def decimal(s, digits):
    whole, frac = s.split('.')
    assert len(frac) == digits, s
    return str(int(whole + frac))

print('''(** Generated by tools/constants_translate.py: the named floating-point constants of muu, as written in the source. *)
From Coq Require Import ZArith String List.
Import ListNotations.
Local Open Scope string_scope.
Local Open Scope Z_scope.
''')
table('literals', 'core_constants.h:177-290: the [long double] literals, in units of 10^-21.',
      [(n, decimal(s, 21)) for n, s in re.findall(r'static constexpr T (\w+)\s*= T\(([0-9.]+)L\)', core)])
table('literals128', 'core_constants.h:300-405: the [float128_t] literals, in units of 10^-36.',
      [(n, decimal(s, 36)) for n, s in re.findall(r'static constexpr float128_t (\w+)\s*= ([0-9.]+)q', core)])
table('half_bits', 'half.h:800-906: the bit patterns of the emulated half type.',
      [(n, str(int(s.replace("'", ''), 2))) for n, s in re.findall(r"static constexpr half (\w+)\s*= half::from_bits\(0b([01']+)_u16\)", half)
       if n not in special])
