(** * Python's built-in operations compared with PyBase.v and PyNum.v (generated by
    tools/gen_pyconf.py, which asks the Python on this machine).

    These are tests, not proofs: they check the hand-written models of int, Decimal and str. *)
From Verif Require Import PyBase PyNum.
From Coq Require Import QArith.
Close Scope Q_scope.
Local Open Scope N_scope.

Definition dec_is (s : string) (t : option string) : bool :=
  match py_decimal (u s), t with
  | Ok d, Some t => str_eqb (dec_str d) (u t)
  | Err EInvalidOperation, None => true
  | _, _ => false
  end.
Definition value_is (s : string) (q : Q) : bool :=
  match py_decimal (u s) with Ok d => Qeq_bool (dec_Q d) q | _ => false end.

Example decimal_texts : forallb (fun p => dec_is (fst p) (snd p)) [
("1e-1999999999999999997"%string, Some "1E-1999999999999999997"%string);
  ("1e-1999999999999999998"%string, None);
  ("10e-1999999999999999998"%string, None);
  ("1e999999999999999999"%string, Some "1E+999999999999999999"%string);
  ("1e1000000000000000000"%string, None);
  ("10e999999999999999999"%string, None);
  ("0.01e1000000000000000000"%string, Some "1E+999999999999999998"%string);
  ("0e1000000000000000000"%string, None);
  ("0e-1999999999999999998"%string, None);
  ("0.00e5"%string, Some "0E+3"%string);
  ("0"%string, Some "0"%string);
  ("-0"%string, Some "-0"%string);
  ("+0.0"%string, Some "0.0"%string);
  ("-0e-7"%string, Some "-0E-7"%string);
  ("0.0000001"%string, Some "1E-7"%string);
  ("0.000001"%string, Some "0.000001"%string);
  ("1e-6"%string, Some "0.000001"%string);
  ("1e-7"%string, Some "1E-7"%string);
  ("1.e3"%string, Some "1E+3"%string);
  (".5"%string, Some "0.5"%string);
  ("5."%string, Some "5"%string);
  ("00012.500"%string, Some "12.500"%string);
  ("1e0"%string, Some "1"%string);
  ("1E+2"%string, Some "1E+2"%string);
  ("123e-2"%string, Some "1.23"%string);
  ("123e-10"%string, Some "1.23E-8"%string);
  ("1e24"%string, Some "1E+24"%string);
  ("1e-24"%string, Some "1E-24"%string);
  ("6.02214179e23"%string, Some "6.02214179E+23"%string);
  ("842.e9"%string, Some "8.42E+11"%string);
  ("1E17"%string, Some "1E+17"%string);
  ("+7664."%string, Some "7664"%string);
  ("+1"%string, Some "1"%string);
  ("+1"%string, Some "1"%string);
  ("76018.587151E-1"%string, Some "7601.8587151"%string);
  ("-38.0E-13"%string, Some "-3.80E-12"%string);
  ("54234.3621319e-29"%string, Some "5.42343621319E-25"%string);
  ("+7.974311e-27"%string, Some "7.974311E-27"%string);
  ("4.E-12"%string, Some "4E-12"%string);
  ("-6.e4"%string, Some "-6E+4"%string);
  ("+19075."%string, Some "19075"%string);
  ("-0640.E-13"%string, Some "-6.40E-11"%string);
  ("1e20"%string, Some "1E+20"%string);
  ("-691.1"%string, Some "-691.1"%string);
  ("50.1740e10"%string, Some "5.01740E+11"%string);
  ("-81.E+29"%string, Some "-8.1E+30"%string);
  (".3e24"%string, Some "3E+23"%string);
  ("-00050.584736"%string, Some "-50.584736"%string);
  ("+7.3255e22"%string, Some "7.3255E+22"%string);
  ("+758."%string, Some "758"%string);
  ("-47.2e15"%string, Some "-4.72E+16"%string);
  ("6229.E-6"%string, Some "0.006229"%string);
  ("5"%string, Some "5"%string);
  ("-161.e17"%string, Some "-1.61E+19"%string);
  ("13885.E22"%string, Some "1.3885E+26"%string);
  ("+7.33288E-19"%string, Some "7.33288E-19"%string);
  ("-4236.47E23"%string, Some "-4.23647E+26"%string);
  ("+1E6"%string, Some "1E+6"%string);
  ("-1"%string, Some "-1"%string);
  ("-9473.8574053"%string, Some "-9473.8574053"%string);
  ("+61232.775270e+25"%string, Some "6.1232775270E+29"%string);
  ("-277.e+5"%string, Some "-2.77E+7"%string);
  ("61477.29536574"%string, Some "61477.29536574"%string);
  (".3e0"%string, Some "0.3"%string);
  ("+42933"%string, Some "42933"%string);
  ("+0.E-6"%string, Some "0.000000"%string);
  ("331.28E-8"%string, Some "0.0000033128"%string);
  ("67719.e-10"%string, Some "0.0000067719"%string);
  ("77633.e-25"%string, Some "7.7633E-21"%string);
  ("+78.99059459"%string, Some "78.99059459"%string);
  ("+35618.9078807"%string, Some "35618.9078807"%string);
  ("+.3E11"%string, Some "3E+10"%string);
  ("+51.55805173e25"%string, Some "5.155805173E+26"%string);
  ("+1E1"%string, Some "1E+1"%string);
  ("+862.e-7"%string, Some "0.0000862"%string);
  ("902.7978"%string, Some "902.7978"%string);
  ("4335.E-13"%string, Some "4.335E-10"%string);
  ("-4918.2E-2"%string, Some "-49.182"%string);
  ("-7252"%string, Some "-7252"%string);
  ("+26636.3620301e+7"%string, Some "266363620301"%string);
  ("-3.09"%string, Some "-3.09"%string);
  ("34.86274"%string, Some "34.86274"%string);
  ("+3667.E16"%string, Some "3.667E+19"%string);
  ("+31410."%string, Some "31410"%string);
  ("5739.e+14"%string, Some "5.739E+17"%string);
  ("+528.e8"%string, Some "5.28E+10"%string);
  ("169.E-15"%string, Some "1.69E-13"%string);
  ("41703e-23"%string, Some "4.1703E-19"%string);
  ("+506.3253252e-13"%string, Some "5.063253252E-11"%string);
  (".96304454E+14"%string, Some "9.6304454E+13"%string);
  ("-04.5"%string, Some "-4.5"%string);
  ("597.E-28"%string, Some "5.97E-26"%string);
  (".3"%string, Some "0.3"%string);
  (".3"%string, Some "0.3"%string);
  ("25."%string, Some "25"%string);
  ("2814.9e-25"%string, Some "2.8149E-22"%string);
  ("3248.e+17"%string, Some "3.248E+20"%string);
  ("09206.E+22"%string, Some "9.206E+25"%string);
  ("43e+18"%string, Some "4.3E+19"%string);
  ("844.9885E+12"%string, Some "8.449885E+14"%string);
  ("-763.E29"%string, Some "-7.63E+31"%string);
  ("+712."%string, Some "712"%string);
  ("+588.1415E-17"%string, Some "5.881415E-15"%string);
  ("5."%string, Some "5"%string);
  ("8076.425E-26"%string, Some "8.076425E-23"%string);
  ("7"%string, Some "7"%string);
  (".3e27"%string, Some "3E+26"%string);
  ("4.e-18"%string, Some "4E-18"%string);
  ("07.5479266"%string, Some "7.5479266"%string);
  ("33."%string, Some "33"%string);
  ("65.e20"%string, Some "6.5E+21"%string);
  ("+3."%string, Some "3"%string);
  ("02.E14"%string, Some "2E+14"%string);
  ("2264.734325E+28"%string, Some "2.264734325E+31"%string);
  ("-1e+19"%string, Some "-1E+19"%string);
  ("73"%string, Some "73"%string);
  ("+93579.8622756"%string, Some "93579.8622756"%string);
  ("6.93944"%string, Some "6.93944"%string);
  ("0929.1"%string, Some "929.1"%string);
  ("+.3e0"%string, Some "0.3"%string);
  ("1676.21E-12"%string, Some "1.67621E-9"%string);
  ("4745.8070"%string, Some "4745.8070"%string);
  ("2040.97094e+13"%string, Some "2.04097094E+16"%string);
  ("7529."%string, Some "7529"%string);
  (".3205"%string, Some "0.3205"%string);
  (".3"%string, Some "0.3"%string);
  ("-6."%string, Some "-6"%string);
  ("74.E-25"%string, Some "7.4E-24"%string);
  (".73784672e6"%string, Some "737846.72"%string);
  ("+0130.69332207"%string, Some "130.69332207"%string);
  ("-57487.e21"%string, Some "-5.7487E+25"%string);
  ("+5516.99944745E20"%string, Some "5.51699944745E+23"%string);
  ("8.E2"%string, Some "8E+2"%string);
  ("43282.59990257e-5"%string, Some "0.4328259990257"%string);
  ("9e+29"%string, Some "9E+29"%string);
  ("-8"%string, Some "-8"%string);
  ("767"%string, Some "767"%string);
  ("97"%string, Some "97"%string);
  ("1852.606e+9"%string, Some "1.852606E+12"%string);
  ("9.E+21"%string, Some "9E+21"%string);
  ("74.4540032e+6"%string, Some "74454003.2"%string);
  ("0."%string, Some "0"%string);
  ("+974."%string, Some "974"%string);
  ("-4583E-25"%string, Some "-4.583E-22"%string);
  ("-3.e-30"%string, Some "-3E-30"%string);
  ("2.E-21"%string, Some "2E-21"%string);
  ("01.8715300E+7"%string, Some "18715300"%string);
  ("62e-24"%string, Some "6.2E-23"%string);
  ("01.4539"%string, Some "1.4539"%string);
  ("-10074.E-3"%string, Some "-10.074"%string);
  ("5.19021607e+14"%string, Some "5.19021607E+14"%string);
  ("166.E-11"%string, Some "1.66E-9"%string);
  ("-73"%string, Some "-73"%string);
  ("7.52305"%string, Some "7.52305"%string);
  ("-53879.E23"%string, Some "-5.3879E+27"%string);
  ("6621.201256E+17"%string, Some "6.621201256E+20"%string);
  ("3E+22"%string, Some "3E+22"%string);
  ("+65776.540760E+3"%string, Some "65776540.760"%string);
  ("+.8562"%string, Some "0.8562"%string);
  ("-69."%string, Some "-69"%string);
  ("711."%string, Some "711"%string);
  ("-51781.5454"%string, Some "-51781.5454"%string);
  ("80064."%string, Some "80064"%string);
  ("-89135e-29"%string, Some "-8.9135E-25"%string);
  ("+5."%string, Some "5"%string);
  ("93.E0"%string, Some "93"%string);
  ("+068.8"%string, Some "68.8"%string);
  ("-8."%string, Some "-8"%string);
  ("-034e+18"%string, Some "-3.4E+19"%string);
  ("9013.E-15"%string, Some "9.013E-12"%string);
  ("012.e-21"%string, Some "1.2E-20"%string);
  ("-1E11"%string, Some "-1E+11"%string);
  ("3565E6"%string, Some "3.565E+9"%string);
  ("-1.e11"%string, Some "-1E+11"%string);
  ("58.e27"%string, Some "5.8E+28"%string);
  ("+238.8431"%string, Some "238.8431"%string);
  ("163.e17"%string, Some "1.63E+19"%string);
  ("138."%string, Some "138"%string);
  ("00450.56320"%string, Some "450.56320"%string)
] = true.
Proof. vm_compute. reflexivity. Qed.

Example decimal_values : forallb (fun p => value_is (fst p) (snd p)) [
("0.00e5"%string, Qmake (0) 1);
  ("0"%string, Qmake (0) 1);
  ("-0"%string, Qmake (0) 1);
  ("+0.0"%string, Qmake (0) 1);
  ("-0e-7"%string, Qmake (0) 1);
  ("0.0000001"%string, Qmake (1) 10000000);
  ("0.000001"%string, Qmake (1) 1000000);
  ("1e-6"%string, Qmake (1) 1000000);
  ("1e-7"%string, Qmake (1) 10000000);
  ("1.e3"%string, Qmake (1000) 1);
  (".5"%string, Qmake (1) 2);
  ("5."%string, Qmake (5) 1);
  ("00012.500"%string, Qmake (25) 2);
  ("1e0"%string, Qmake (1) 1);
  ("1E+2"%string, Qmake (100) 1);
  ("123e-2"%string, Qmake (123) 100);
  ("123e-10"%string, Qmake (123) 10000000000);
  ("1e24"%string, Qmake (1000000000000000000000000) 1);
  ("1e-24"%string, Qmake (1) 1000000000000000000000000);
  ("6.02214179e23"%string, Qmake (602214179000000000000000) 1);
  ("842.e9"%string, Qmake (842000000000) 1);
  ("1E17"%string, Qmake (100000000000000000) 1);
  ("+7664."%string, Qmake (7664) 1);
  ("+1"%string, Qmake (1) 1);
  ("+1"%string, Qmake (1) 1);
  ("76018.587151E-1"%string, Qmake (76018587151) 10000000);
  ("-38.0E-13"%string, Qmake (-19) 5000000000000);
  ("54234.3621319e-29"%string, Qmake (542343621319) 1000000000000000000000000000000000000);
  ("+7.974311e-27"%string, Qmake (7974311) 1000000000000000000000000000000000);
  ("4.E-12"%string, Qmake (1) 250000000000);
  ("-6.e4"%string, Qmake (-60000) 1);
  ("+19075."%string, Qmake (19075) 1);
  ("-0640.E-13"%string, Qmake (-1) 15625000000);
  ("1e20"%string, Qmake (100000000000000000000) 1);
  ("-691.1"%string, Qmake (-6911) 10);
  ("50.1740e10"%string, Qmake (501740000000) 1);
  ("-81.E+29"%string, Qmake (-8100000000000000000000000000000) 1);
  (".3e24"%string, Qmake (300000000000000000000000) 1);
  ("-00050.584736"%string, Qmake (-1580773) 31250);
  ("+7.3255e22"%string, Qmake (73255000000000000000000) 1);
  ("+758."%string, Qmake (758) 1);
  ("-47.2e15"%string, Qmake (-47200000000000000) 1);
  ("6229.E-6"%string, Qmake (6229) 1000000);
  ("5"%string, Qmake (5) 1);
  ("-161.e17"%string, Qmake (-16100000000000000000) 1);
  ("13885.E22"%string, Qmake (138850000000000000000000000) 1);
  ("+7.33288E-19"%string, Qmake (91661) 125000000000000000000000);
  ("-4236.47E23"%string, Qmake (-423647000000000000000000000) 1);
  ("+1E6"%string, Qmake (1000000) 1);
  ("-1"%string, Qmake (-1) 1);
  ("-9473.8574053"%string, Qmake (-94738574053) 10000000);
  ("+61232.775270e+25"%string, Qmake (612327752700000000000000000000) 1);
  ("-277.e+5"%string, Qmake (-27700000) 1);
  ("61477.29536574"%string, Qmake (3073864768287) 50000000);
  (".3e0"%string, Qmake (3) 10);
  ("+42933"%string, Qmake (42933) 1);
  ("+0.E-6"%string, Qmake (0) 1);
  ("331.28E-8"%string, Qmake (4141) 1250000000);
  ("67719.e-10"%string, Qmake (67719) 10000000000);
  ("77633.e-25"%string, Qmake (77633) 10000000000000000000000000);
  ("+78.99059459"%string, Qmake (7899059459) 100000000);
  ("+35618.9078807"%string, Qmake (356189078807) 10000000);
  ("+.3E11"%string, Qmake (30000000000) 1);
  ("+51.55805173e25"%string, Qmake (515580517300000000000000000) 1);
  ("+1E1"%string, Qmake (10) 1);
  ("+862.e-7"%string, Qmake (431) 5000000);
  ("902.7978"%string, Qmake (4513989) 5000);
  ("4335.E-13"%string, Qmake (867) 2000000000000);
  ("-4918.2E-2"%string, Qmake (-24591) 500);
  ("-7252"%string, Qmake (-7252) 1);
  ("+26636.3620301e+7"%string, Qmake (266363620301) 1);
  ("-3.09"%string, Qmake (-309) 100);
  ("34.86274"%string, Qmake (1743137) 50000);
  ("+3667.E16"%string, Qmake (36670000000000000000) 1);
  ("+31410."%string, Qmake (31410) 1);
  ("5739.e+14"%string, Qmake (573900000000000000) 1);
  ("+528.e8"%string, Qmake (52800000000) 1);
  ("169.E-15"%string, Qmake (169) 1000000000000000);
  ("41703e-23"%string, Qmake (41703) 100000000000000000000000);
  ("+506.3253252e-13"%string, Qmake (1265813313) 25000000000000000000);
  (".96304454E+14"%string, Qmake (96304454000000) 1);
  ("-04.5"%string, Qmake (-9) 2);
  ("597.E-28"%string, Qmake (597) 10000000000000000000000000000);
  (".3"%string, Qmake (3) 10);
  (".3"%string, Qmake (3) 10);
  ("25."%string, Qmake (25) 1);
  ("2814.9e-25"%string, Qmake (28149) 100000000000000000000000000);
  ("3248.e+17"%string, Qmake (324800000000000000000) 1);
  ("09206.E+22"%string, Qmake (92060000000000000000000000) 1);
  ("43e+18"%string, Qmake (43000000000000000000) 1);
  ("844.9885E+12"%string, Qmake (844988500000000) 1);
  ("-763.E29"%string, Qmake (-76300000000000000000000000000000) 1);
  ("+712."%string, Qmake (712) 1);
  ("+588.1415E-17"%string, Qmake (1176283) 200000000000000000000);
  ("5."%string, Qmake (5) 1);
  ("8076.425E-26"%string, Qmake (323057) 4000000000000000000000000000);
  ("7"%string, Qmake (7) 1);
  (".3e27"%string, Qmake (300000000000000000000000000) 1);
  ("4.e-18"%string, Qmake (1) 250000000000000000);
  ("07.5479266"%string, Qmake (37739633) 5000000);
  ("33."%string, Qmake (33) 1);
  ("65.e20"%string, Qmake (6500000000000000000000) 1);
  ("+3."%string, Qmake (3) 1);
  ("02.E14"%string, Qmake (200000000000000) 1);
  ("2264.734325E+28"%string, Qmake (22647343250000000000000000000000) 1);
  ("-1e+19"%string, Qmake (-10000000000000000000) 1);
  ("73"%string, Qmake (73) 1);
  ("+93579.8622756"%string, Qmake (233949655689) 2500000);
  ("6.93944"%string, Qmake (86743) 12500);
  ("0929.1"%string, Qmake (9291) 10);
  ("+.3e0"%string, Qmake (3) 10);
  ("1676.21E-12"%string, Qmake (167621) 100000000000000);
  ("4745.8070"%string, Qmake (4745807) 1000);
  ("2040.97094e+13"%string, Qmake (20409709400000000) 1);
  ("7529."%string, Qmake (7529) 1);
  (".3205"%string, Qmake (641) 2000);
  (".3"%string, Qmake (3) 10);
  ("-6."%string, Qmake (-6) 1);
  ("74.E-25"%string, Qmake (37) 5000000000000000000000000);
  (".73784672e6"%string, Qmake (18446168) 25);
  ("+0130.69332207"%string, Qmake (13069332207) 100000000);
  ("-57487.e21"%string, Qmake (-57487000000000000000000000) 1);
  ("+5516.99944745E20"%string, Qmake (551699944745000000000000) 1);
  ("8.E2"%string, Qmake (800) 1);
  ("43282.59990257e-5"%string, Qmake (4328259990257) 10000000000000);
  ("9e+29"%string, Qmake (900000000000000000000000000000) 1);
  ("-8"%string, Qmake (-8) 1);
  ("767"%string, Qmake (767) 1);
  ("97"%string, Qmake (97) 1);
  ("1852.606e+9"%string, Qmake (1852606000000) 1);
  ("9.E+21"%string, Qmake (9000000000000000000000) 1);
  ("74.4540032e+6"%string, Qmake (372270016) 5);
  ("0."%string, Qmake (0) 1);
  ("+974."%string, Qmake (974) 1);
  ("-4583E-25"%string, Qmake (-4583) 10000000000000000000000000);
  ("-3.e-30"%string, Qmake (-3) 1000000000000000000000000000000);
  ("2.E-21"%string, Qmake (1) 500000000000000000000);
  ("01.8715300E+7"%string, Qmake (18715300) 1);
  ("62e-24"%string, Qmake (31) 500000000000000000000000);
  ("01.4539"%string, Qmake (14539) 10000);
  ("-10074.E-3"%string, Qmake (-5037) 500);
  ("5.19021607e+14"%string, Qmake (519021607000000) 1);
  ("166.E-11"%string, Qmake (83) 50000000000);
  ("-73"%string, Qmake (-73) 1);
  ("7.52305"%string, Qmake (150461) 20000);
  ("-53879.E23"%string, Qmake (-5387900000000000000000000000) 1);
  ("6621.201256E+17"%string, Qmake (662120125600000000000) 1);
  ("3E+22"%string, Qmake (30000000000000000000000) 1);
  ("+65776.540760E+3"%string, Qmake (1644413519) 25);
  ("+.8562"%string, Qmake (4281) 5000);
  ("-69."%string, Qmake (-69) 1);
  ("711."%string, Qmake (711) 1);
  ("-51781.5454"%string, Qmake (-258907727) 5000);
  ("80064."%string, Qmake (80064) 1);
  ("-89135e-29"%string, Qmake (-17827) 20000000000000000000000000000);
  ("+5."%string, Qmake (5) 1);
  ("93.E0"%string, Qmake (93) 1);
  ("+068.8"%string, Qmake (344) 5);
  ("-8."%string, Qmake (-8) 1);
  ("-034e+18"%string, Qmake (-34000000000000000000) 1);
  ("9013.E-15"%string, Qmake (9013) 1000000000000000);
  ("012.e-21"%string, Qmake (3) 250000000000000000000);
  ("-1E11"%string, Qmake (-100000000000) 1);
  ("3565E6"%string, Qmake (3565000000) 1);
  ("-1.e11"%string, Qmake (-100000000000) 1);
  ("58.e27"%string, Qmake (58000000000000000000000000000) 1);
  ("+238.8431"%string, Qmake (2388431) 10000);
  ("163.e17"%string, Qmake (16300000000000000000) 1);
  ("138."%string, Qmake (138) 1);
  ("00450.56320"%string, Qmake (281602) 625)
] = true.
Proof. vm_compute. reflexivity. Qed.

Example int_texts : forallb (fun p => match py_int (u (fst p)), snd p with Ok a, Some b => Z.eqb a b | Err _, None => true | _, _ => false end) [
("0"%string, Some (0)%Z);
  ("-0"%string, Some (0)%Z);
  ("+7"%string, Some (7)%Z);
  ("007"%string, Some (7)%Z);
  ("-12"%string, Some (-12)%Z);
  ("12345678901234567890123"%string, Some (12345678901234567890123)%Z);
  ("3100591736"%string, Some (3100591736)%Z);
  ("-9551452"%string, Some (-9551452)%Z);
  ("030486226857"%string, Some (30486226857)%Z);
  ("828"%string, Some (828)%Z);
  ("+25448"%string, Some (25448)%Z);
  ("4745842"%string, Some (4745842)%Z);
  ("-67169657144"%string, Some (-67169657144)%Z);
  ("-34407535459"%string, Some (-34407535459)%Z);
  ("-85"%string, Some (-85)%Z);
  ("562"%string, Some (562)%Z);
  ("+34"%string, Some (34)%Z);
  ("1"%string, Some (1)%Z);
  ("+042276"%string, Some (42276)%Z);
  ("964"%string, Some (964)%Z);
  ("+241646578"%string, Some (241646578)%Z);
  ("5"%string, Some (5)%Z);
  ("+1"%string, Some (1)%Z);
  ("246602498014"%string, Some (246602498014)%Z);
  ("00420955221"%string, Some (420955221)%Z);
  ("-67499008171"%string, Some (-67499008171)%Z);
  ("+4134"%string, Some (4134)%Z);
  ("-7"%string, Some (-7)%Z);
  ("3598567192"%string, Some (3598567192)%Z);
  ("-104"%string, Some (-104)%Z);
  ("-2583557"%string, Some (-2583557)%Z);
  ("41633"%string, Some (41633)%Z);
  ("87629522"%string, Some (87629522)%Z);
  ("+05"%string, Some (5)%Z);
  ("+510694988209"%string, Some (510694988209)%Z);
  ("+6"%string, Some (6)%Z);
  ("-26"%string, Some (-26)%Z);
  ("5177623173"%string, Some (5177623173)%Z);
  ("+8758070"%string, Some (8758070)%Z);
  ("1693"%string, Some (1693)%Z);
  ("6889955"%string, Some (6889955)%Z);
  ("55"%string, Some (55)%Z);
  ("50912"%string, Some (50912)%Z);
  ("+465"%string, Some (465)%Z);
  ("65"%string, Some (65)%Z);
  ("+5191"%string, Some (5191)%Z)
] = true.
Proof. vm_compute. reflexivity. Qed.

Example int_digits_4300 : is_ok (py_int (repeat 49 (N.to_nat 4300))) = true.
Proof. vm_compute. reflexivity. Qed.
Example int_digits_4301 : is_ok (py_int (repeat 49 (N.to_nat 4301))) = false.
Proof. vm_compute. reflexivity. Qed.
Example int_str : forallb (fun p => str_eqb (Z_str (fst p)) (u (snd p))) [
((0)%Z, "0"%string);
  ((1)%Z, "1"%string);
  ((-1)%Z, "-1"%string);
  ((9)%Z, "9"%string);
  ((10)%Z, "10"%string);
  ((-10)%Z, "-10"%string);
  ((99)%Z, "99"%string);
  ((100)%Z, "100"%string);
  ((1000000000000000000)%Z, "1000000000000000000"%string);
  ((-1000000000000000000)%Z, "-1000000000000000000"%string);
  ((-21309642)%Z, "-21309642"%string);
  ((710334407)%Z, "710334407"%string);
  ((484395729)%Z, "484395729"%string);
  ((-573678854)%Z, "-573678854"%string);
  ((-220866249)%Z, "-220866249"%string);
  ((-631364422)%Z, "-631364422"%string);
  ((869860977)%Z, "869860977"%string);
  ((292338923)%Z, "292338923"%string);
  ((-461028529)%Z, "-461028529"%string);
  ((-440394404)%Z, "-440394404"%string);
  ((242685732)%Z, "242685732"%string);
  ((-335191484)%Z, "-335191484"%string);
  ((-132215942)%Z, "-132215942"%string);
  ((-955855877)%Z, "-955855877"%string);
  ((250327629)%Z, "250327629"%string);
  ((-277744237)%Z, "-277744237"%string);
  ((935501690)%Z, "935501690"%string);
  ((-202526650)%Z, "-202526650"%string);
  ((-628380307)%Z, "-628380307"%string);
  ((-890480972)%Z, "-890480972"%string);
  ((480208299)%Z, "480208299"%string);
  ((511552020)%Z, "511552020"%string);
  ((-185627315)%Z, "-185627315"%string);
  ((331413152)%Z, "331413152"%string);
  ((-818696443)%Z, "-818696443"%string);
  ((-961114971)%Z, "-961114971"%string);
  ((826362867)%Z, "826362867"%string);
  ((429125688)%Z, "429125688"%string);
  ((463396868)%Z, "463396868"%string);
  ((-401747832)%Z, "-401747832"%string)
] = true.
Proof. vm_compute. reflexivity. Qed.

(** str.strip() removes these code points and no others (Python was asked about all; the model is compared up to 12399) *)
Fixpoint all_below (n : nat) (c : N) (f : N -> bool) : bool :=
  match n with O => true | S n' => if f c then all_below n' (c + 1) f else false end.
Definition white : list N := [9; 10; 11; 12; 13; 28; 29; 30; 31; 32; 133; 160; 5760; 8192; 8193; 8194; 8195; 8196; 8197; 8198; 8199; 8200; 8201; 8202; 8232; 8233; 8239; 8287; 12288].
Example white_space : all_below (N.to_nat 12400) 0 (fun c => Bool.eqb (is_space c) (existsb (N.eqb c) white)) = true.
Proof. vm_compute. reflexivity. Qed.

Example str_strip : forallb (fun p => str_eqb (strip (fst p)) (snd p)) [
([], []);
  ([122; 97; 98; 32; 11; 9; 32; 97], [122; 97; 98; 32; 11; 9; 32; 97]);
  ([160; 9; 9], []);
  ([11; 9; 98; 97; 98; 32; 122; 10], [98; 97; 98; 32; 122]);
  ([122; 32; 98; 8195; 10], [122; 32; 98]);
  ([11; 133; 133], []);
  ([], []);
  ([11; 133], []);
  ([98; 160; 28], [98]);
  ([11], []);
  ([32], []);
  ([28; 28; 32; 133; 11; 133; 9; 133], []);
  ([133; 97; 11; 97], [97; 11; 97]);
  ([160; 97; 28; 10; 160; 133; 122; 122], [97; 28; 10; 160; 133; 122; 122]);
  ([], []);
  ([9; 160; 98; 133; 28; 32], [98]);
  ([98; 11; 97], [98; 11; 97]);
  ([], []);
  ([9; 133; 11; 122; 98; 28; 28; 9], [122; 98]);
  ([28; 28; 32; 32; 9], []);
  ([133], []);
  ([98], [98]);
  ([32; 8195; 28; 133; 11; 8195; 97], [97]);
  ([9; 97], [97]);
  ([], []);
  ([11], []);
  ([8195; 98; 32; 10; 133; 8195; 160; 11], [98]);
  ([10; 11; 11; 160], []);
  ([], []);
  ([], []);
  ([133; 133; 8195; 11; 11; 11; 133; 98], [98]);
  ([133; 10], []);
  ([160], []);
  ([32; 122; 28; 122; 11; 10], [122; 28; 122]);
  ([28; 28; 160; 10], []);
  ([28; 9], []);
  ([28; 9], []);
  ([97; 9; 98], [97; 9; 98]);
  ([8195; 98; 10; 8195; 32; 8195], [98]);
  ([97; 133; 32; 98; 97], [97; 133; 32; 98; 97]);
  ([], []);
  ([9; 10; 133; 10; 122; 122; 9], [122; 122]);
  ([8195; 10], []);
  ([10], []);
  ([8195; 8195; 160], []);
  ([160; 160; 11; 11; 8195], []);
  ([11; 8195; 10; 8195; 133], []);
  ([122; 11; 8195; 11; 98; 122; 8195], [122; 11; 8195; 11; 98; 122]);
  ([], []);
  ([9; 133; 8195], []);
  ([133; 8195; 32; 133; 28], []);
  ([32; 32; 160; 11; 133; 97; 122; 133], [97; 122]);
  ([10; 133; 11], []);
  ([32; 98], [98]);
  ([9; 11; 122; 9; 133; 160], [122]);
  ([9; 11; 133; 10; 10; 9], []);
  ([11; 122; 32; 97; 97; 98; 98; 32], [122; 32; 97; 97; 98; 98]);
  ([97; 28; 28; 133; 10; 133; 10; 10], [97]);
  ([28; 133; 11; 98; 160], [98]);
  ([133; 10; 160; 122; 133; 97; 28], [122; 133; 97])
] = true.
Proof. vm_compute. reflexivity. Qed.

Example str_startswith : forallb (fun p => Bool.eqb (startswith (u (fst (fst p))) (u (snd (fst p)))) (fst (snd p)) && Bool.eqb (endswith (u (fst (fst p))) (u (snd (fst p)))) (snd (snd p))) [
(("ab"%string, "b"%string), (false, false));
  ((""%string, "aa"%string), (true, true));
  (("abb"%string, "abaa"%string), (false, false));
  (("ba"%string, ""%string), (false, false));
  (("baa"%string, "a"%string), (false, false));
  ((""%string, "aaab"%string), (true, true));
  (("bab"%string, "aa"%string), (false, false));
  (("abb"%string, "abbaa"%string), (true, false));
  (("ba"%string, "bbaaa"%string), (false, false));
  (("bab"%string, "abaab"%string), (false, false));
  (("bb"%string, "bbaab"%string), (true, false));
  ((""%string, "bb"%string), (true, true));
  (("aa"%string, "baaba"%string), (false, false));
  (("bab"%string, "aa"%string), (false, false));
  (("a"%string, "aab"%string), (true, false));
  ((""%string, ""%string), (true, true));
  ((""%string, "ab"%string), (true, true));
  (("b"%string, "a"%string), (false, false));
  (("ab"%string, "abb"%string), (true, false));
  ((""%string, "abb"%string), (true, true));
  ((""%string, "b"%string), (true, true));
  ((""%string, "baaab"%string), (true, true));
  (("b"%string, "ba"%string), (true, false));
  ((""%string, "ba"%string), (true, true));
  ((""%string, "b"%string), (true, true));
  ((""%string, "ba"%string), (true, true));
  (("a"%string, "ba"%string), (false, true));
  (("ab"%string, "aaa"%string), (false, false));
  (("aa"%string, "aabb"%string), (true, false));
  (("bb"%string, "aa"%string), (false, false));
  (("b"%string, ""%string), (false, false));
  (("a"%string, "bba"%string), (false, true));
  (("a"%string, "abab"%string), (true, false));
  (("bbb"%string, ""%string), (false, false));
  ((""%string, "baab"%string), (true, true));
  (("aa"%string, "abb"%string), (false, false));
  (("aa"%string, "ba"%string), (false, false));
  (("bba"%string, "a"%string), (false, false));
  (("aa"%string, "aaabb"%string), (true, false));
  (("aaa"%string, "bba"%string), (false, false));
  (("a"%string, "aaab"%string), (true, false));
  (("b"%string, "baaaa"%string), (true, false));
  (("aa"%string, "bb"%string), (false, false));
  (("aa"%string, ""%string), (false, false));
  (("ba"%string, "bb"%string), (false, false));
  (("bb"%string, "aabb"%string), (false, true));
  (("bba"%string, "aa"%string), (false, false));
  (("a"%string, "aba"%string), (true, true));
  (("a"%string, "aaa"%string), (true, true));
  (("b"%string, "aa"%string), (false, false));
  (("a"%string, "aabb"%string), (true, false));
  (("bba"%string, "b"%string), (false, false));
  ((""%string, "aba"%string), (true, true));
  (("baa"%string, "abab"%string), (false, false));
  (("a"%string, "aabba"%string), (true, true));
  ((""%string, "aa"%string), (true, true));
  (("ab"%string, ""%string), (false, false));
  (("baa"%string, "abaa"%string), (false, true));
  (("ba"%string, "baa"%string), (true, false));
  ((""%string, "abb"%string), (true, true))
] = true.
Proof. vm_compute. reflexivity. Qed.
