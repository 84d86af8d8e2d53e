#!/usr/bin/env python3
"""Writes rocq/theories/PyConformance.v: what this machine's Python answers for the built-in
operations the model of PyBase.v and PyNum.v stands for (no project code is run)."""
import random
from decimal import Decimal, InvalidOperation
from fractions import Fraction
random.seed(82)
out = ['''(** * Python's built-in operations compared with PyBase.v and PyNum.v (generated by
    tools/gen_pyconf.py, which asks the Python on this machine).

    These are tests, not proofs: they check the hand-written models of int, Decimal and str. *)
From Verif Require Import PyBase PyNum.
From Coq Require Import QArith.
Close Scope Q_scope.
Local Open Scope N_scope.

Definition dec_is (s : string) (t : option string) : bool :=
  match py_decimal (u s), t with
  | Ok d, Some t => str_eqb (dec_str d) (u t)
  | Err EInvalidOperation, None => true
  | _, _ => false
  end.
Definition value_is (s : string) (q : Q) : bool :=
  match py_decimal (u s) with Ok d => Qeq_bool (dec_Q d) q | _ => false end.
''']
def digs(n): return ''.join(random.choice('0123456789') for _ in range(n))
cases = ["1e-1999999999999999997","1e-1999999999999999998","10e-1999999999999999998","1e999999999999999999",
 "1e1000000000000000000","10e999999999999999999","0.01e1000000000000000000","0e1000000000000000000","0e-1999999999999999998",
 "0.00e5","0","-0","+0.0","-0e-7","0.0000001","0.000001","1e-6","1e-7","1.e3",".5","5.","00012.500","1e0","1E+2","123e-2","123e-10","1e24","1e-24","6.02214179e23"]
for _ in range(150):
    s = random.choice(['', '', '+', '-'])
    a, b = digs(random.randint(0, 5)), digs(random.randint(0, 8))
    if not a + b: a = '7'
    s += a + random.choice(['.', '.' + b]) if (a or b) and random.random() < .8 and (a or b) else (a or '1')
    if s in ('.', '+.', '-.') : s += '3'
    if not any(c.isdigit() for c in s): s += '4'
    if random.random() < .6: s += random.choice('eE') + random.choice(['', '+', '-']) + str(random.randint(0, 30))
    cases.append(s)
def dstr(s):
    try: return 'Some "%s"' % Decimal(s)
    except InvalidOperation: return 'None'
def pairs(name, items, f):
    out.append('Example %s : forallb (fun p => %s) [' % (name, f))
    out.append(';\n  '.join(items))
    out.append('] = true.\nProof. vm_compute. reflexivity. Qed.\n')
pairs('decimal_texts', ['("%s"%%string, %s%%string)' % (s, dstr(s)) if dstr(s) != 'None' else '("%s"%%string, None)' % s for s in cases], 'dec_is (fst p) (snd p)')
vals = []
for s in cases:
    try: d = Decimal(s)
    except InvalidOperation: continue
    if abs(d.as_tuple().exponent) > 60: continue
    q = Fraction(d); vals.append('("%s"%%string, Qmake (%d) %d)' % (s, q.numerator, q.denominator))
pairs('decimal_values', vals, 'value_is (fst p) (snd p)')
def istr(s):
    try: return 'Some (%d)%%Z' % int(s)
    except ValueError: return 'None'
ints = ['0', '-0', '+7', '007', '-12', '12345678901234567890123'] + [random.choice(['', '-', '+']) + digs(random.randint(1, 12)) for _ in range(40)]
pairs('int_texts', ['("%s"%%string, %s)' % (s, istr(s)) for s in ints],
  'match py_int (u (fst p)), snd p with Ok a, Some b => Z.eqb a b | Err _, None => true | _, _ => false end')
for n in (4300, 4301):
    try: int('1' * n); ok = 'true'
    except ValueError: ok = 'false'
    out.append('Example int_digits_%d : is_ok (py_int (repeat 49 (N.to_nat %d))) = %s.\nProof. vm_compute. reflexivity. Qed.' % (n, n, ok))
zs = [0, 1, -1, 9, 10, -10, 99, 100, 10**18, -10**18] + [random.randint(-10**9, 10**9) for _ in range(30)]
pairs('int_str', ['((%d)%%Z, "%s"%%string)' % (z, z) for z in zs], 'str_eqb (Z_str (fst p)) (u (snd p))')
spaces = [c for c in range(0x110000) if chr(c).isspace()]
strips = [c for c in range(0x110000) if not 0xD800 <= c < 0xE000 and chr(c).strip() == '']
assert spaces == strips
out.append('(** str.strip() removes these code points and no others (Python was asked about all; the model is compared up to 12399) *)')
out.append('''Fixpoint all_below (n : nat) (c : N) (f : N -> bool) : bool :=
  match n with O => true | S n' => if f c then all_below n' (c + 1) f else false end.
Definition white : list N := [%s].
Example white_space : all_below (N.to_nat 12400) 0 (fun c => Bool.eqb (is_space c) (existsb (N.eqb c) white)) = true.
Proof. vm_compute. reflexivity. Qed.
''' % '; '.join(map(str, spaces)))
def coqs(s): return '[' + '; '.join(str(ord(c)) for c in s) + ']'
alpha = ' \t\n\x0b\x1c\x85\xa0\u2003abz'
sts = [''.join(random.choice(alpha) for _ in range(random.randint(0, 8))) for _ in range(60)]
pairs('str_strip', ['(%s, %s)' % (coqs(s), coqs(s.strip())) for s in sts], 'str_eqb (strip (fst p)) (snd p)')
sw = [(''.join(random.choice('ab') for _ in range(random.randint(0, 3))), ''.join(random.choice('ab') for _ in range(random.randint(0, 5)))) for _ in range(60)]
pairs('str_startswith', ['(("%s"%%string, "%s"%%string), (%s, %s))' % (a, b, str(b.startswith(a)).lower(), str(b.endswith(a)).lower()) for a, b in sw],
  'Bool.eqb (startswith (u (fst (fst p))) (u (snd (fst p)))) (fst (snd p)) && Bool.eqb (endswith (u (fst (fst p))) (u (snd (fst p)))) (snd (snd p))')
open('/verif/rocq/theories/PyConformance.v', 'w').write('\n'.join(out))
