(** Generated by tools/gen_atomdata.py from /repo/neutronpy/database/scattering_lengths.json,
    periodic_table.json and magnetic_form_factors.json, in file order; decimals as exact fractions. *)
From Coq Require Import String List QArith.
Import ListNotations.
Local Open Scope Q_scope.

(** The entry 'Coh b': null, a number or a list of two numbers. *)
Inductive slength := NoLength | RealLength (b : Q) | ComplexLength (re im : Q).
(** Ion, 'Coh b', 'Coh xs', 'Inc xs', 'Abs xs'; [None] is null. *)
Record scatterer := mkS { s_ion : string; s_b : slength; s_coh : option Q; s_inc : option Q; s_abs : option Q }.
Definition scattering_table : list scatterer := [
  mkS "100Mo"%string (RealLength (673 # 100)) (Some (569 # 100)) (Some (0 # 1)) (Some (2 # 5));
  mkS "100Ru"%string NoLength None (Some (0 # 1)) (Some (24 # 5));
  mkS "101Ru"%string NoLength None None (Some (33 # 10));
  mkS "102Pd"%string (RealLength (77 # 10)) (Some (15 # 2)) (Some (0 # 1)) (Some (17 # 5));
  mkS "102Ru"%string NoLength None (Some (0 # 1)) (Some (117 # 100));
  mkS "104Pd"%string (RealLength (77 # 10)) (Some (15 # 2)) (Some (0 # 1)) (Some (3 # 5));
  mkS "104Ru"%string NoLength None (Some (0 # 1)) (Some (31 # 100));
  mkS "105Pd"%string (RealLength (11 # 2)) (Some (19 # 5)) (Some (4 # 5)) (Some (20 # 1));
  mkS "106Cd"%string (RealLength (5 # 1)) (Some (31 # 10)) (Some (0 # 1)) (Some (1 # 1));
  mkS "106Pd"%string (RealLength (32 # 5)) (Some (51 # 10)) (Some (0 # 1)) (Some (38 # 125));
  mkS "107Ag"%string (RealLength (1511 # 200)) (Some (717 # 100)) (Some (13 # 100)) (Some (188 # 5));
  mkS "108Cd"%string (RealLength (27 # 5)) (Some (37 # 10)) (Some (0 # 1)) (Some (11 # 10));
  mkS "108Pd"%string (RealLength (41 # 10)) (Some (21 # 10)) (Some (0 # 1)) (Some (171 # 20));
  mkS "109Ag"%string (RealLength (833 # 200)) (Some (109 # 50)) (Some (8 # 25)) (Some (91 # 1));
  mkS "10B"%string (ComplexLength (-1 # 10) (-533 # 500)) (Some (18 # 125)) (Some (3 # 1)) (Some (3835 # 1));
  mkS "110Cd"%string (RealLength (59 # 10)) (Some (22 # 5)) (Some (0 # 1)) (Some (11 # 1));
  mkS "110Pd"%string (RealLength (77 # 10)) (Some (15 # 2)) (Some (0 # 1)) (Some (113 # 500));
  mkS "111Cd"%string (RealLength (13 # 2)) (Some (53 # 10)) (Some (3 # 10)) (Some (24 # 1));
  mkS "112Cd"%string (RealLength (32 # 5)) (Some (51 # 10)) (Some (0 # 1)) (Some (11 # 5));
  mkS "112Sn"%string (RealLength (6 # 1)) (Some (9 # 2)) (Some (0 # 1)) (Some (1 # 1));
  mkS "113Cd"%string (ComplexLength (-8 # 1) (-573 # 100)) (Some (121 # 10)) (Some (3 # 10)) (Some (20600 # 1));
  mkS "113In"%string (RealLength (539 # 100)) (Some (73 # 20)) (Some (37 # 1000000)) (Some (12 # 1));
  mkS "114Cd"%string (RealLength (15 # 2)) (Some (71 # 10)) (Some (0 # 1)) (Some (17 # 50));
  mkS "114Sn"%string (RealLength (31 # 5)) (Some (24 # 5)) (Some (0 # 1)) (Some (57 # 500));
  mkS "115In"%string (ComplexLength (401 # 100) (-281 # 5000)) (Some (101 # 50)) (Some (11 # 20)) (Some (202 # 1));
  mkS "115Sn"%string (RealLength (6 # 1)) (Some (9 # 2)) (Some (3 # 10)) (Some (30 # 1));
  mkS "116Cd"%string (RealLength (63 # 10)) (Some (5 # 1)) (Some (0 # 1)) (Some (3 # 40));
  mkS "116Sn"%string (RealLength (593 # 100)) (Some (221 # 50)) (Some (0 # 1)) (Some (7 # 50));
  mkS "117Sn"%string (RealLength (162 # 25)) (Some (132 # 25)) (Some (3 # 10)) (Some (23 # 10));
  mkS "118Sn"%string (RealLength (607 # 100)) (Some (463 # 100)) (Some (0 # 1)) (Some (11 # 50));
  mkS "119Sn"%string (RealLength (153 # 25)) (Some (471 # 100)) (Some (3 # 10)) (Some (11 # 5));
  mkS "11B"%string (RealLength (133 # 20)) (Some (139 # 25)) (Some (21 # 100)) (Some (11 # 2000));
  mkS "120Sn"%string (RealLength (649 # 100)) (Some (529 # 100)) (Some (0 # 1)) (Some (7 # 50));
  mkS "120Te"%string (RealLength (53 # 10)) (Some (7 # 2)) (Some (0 # 1)) (Some (23 # 10));
  mkS "121Sb"%string (RealLength (571 # 100)) (Some (41 # 10)) (Some (3 # 10000)) (Some (23 # 4));
  mkS "122Sn"%string (RealLength (287 # 50)) (Some (207 # 50)) (Some (0 # 1)) (Some (9 # 50));
  mkS "122Te"%string (RealLength (19 # 5)) (Some (9 # 5)) (Some (0 # 1)) (Some (17 # 5));
  mkS "123Sb"%string (RealLength (269 # 50)) (Some (91 # 25)) (Some (1 # 1000)) (Some (19 # 5));
  mkS "123Te"%string (ComplexLength (-1 # 20) (-29 # 250)) (Some (1 # 500)) (Some (13 # 25)) (Some (418 # 1));
  mkS "124Sn"%string (RealLength (597 # 100)) (Some (112 # 25)) (Some (0 # 1)) (Some (133 # 1000));
  mkS "124Te"%string (RealLength (199 # 25)) (Some (8 # 1)) (Some (0 # 1)) (Some (34 # 5));
  mkS "124Xe"%string NoLength None (Some (0 # 1)) (Some (165 # 1));
  mkS "125Te"%string (RealLength (251 # 50)) (Some (317 # 100)) (Some (1 # 125)) (Some (31 # 20));
  mkS "126Te"%string (RealLength (139 # 25)) (Some (97 # 25)) (Some (0 # 1)) (Some (26 # 25));
  mkS "126Xe"%string NoLength None (Some (0 # 1)) (Some (7 # 2));
  mkS "128Te"%string (RealLength (589 # 100)) (Some (109 # 25)) (Some (0 # 1)) (Some (43 # 200));
  mkS "12C"%string (RealLength (66511 # 10000)) (Some (5559 # 1000)) (Some (0 # 1)) (Some (353 # 100000));
  mkS "130Ba"%string (RealLength (-18 # 5)) (Some (8 # 5)) (Some (0 # 1)) (Some (30 # 1));
  mkS "130Te"%string (RealLength (301 # 50)) (Some (91 # 20)) (Some (0 # 1)) (Some (29 # 100));
  mkS "132Ba"%string (RealLength (39 # 5)) (Some (38 # 5)) (Some (0 # 1)) (Some (7 # 1));
  mkS "132Xe"%string NoLength None (Some (0 # 1)) (Some (9 # 20));
  mkS "134Ba"%string (RealLength (57 # 10)) (Some (102 # 25)) (Some (0 # 1)) (Some (2 # 1));
  mkS "134Xe"%string NoLength None (Some (0 # 1)) (Some (53 # 200));
  mkS "135Ba"%string (RealLength (467 # 100)) (Some (137 # 50)) (Some (1 # 2)) (Some (29 # 5));
  mkS "136Ba"%string (RealLength (491 # 100)) (Some (303 # 100)) (Some (0 # 1)) (Some (17 # 25));
  mkS "136Ce"%string (RealLength (29 # 5)) (Some (423 # 100)) (Some (0 # 1)) (Some (73 # 10));
  mkS "136Xe"%string NoLength None (Some (0 # 1)) (Some (13 # 50));
  mkS "137Ba"%string (RealLength (683 # 100)) (Some (293 # 50)) (Some (1 # 2)) (Some (18 # 5));
  mkS "138Ba"%string (RealLength (121 # 25)) (Some (147 # 50)) (Some (0 # 1)) (Some (27 # 100));
  mkS "138Ce"%string (RealLength (67 # 10)) (Some (141 # 25)) (Some (0 # 1)) (Some (11 # 10));
  mkS "138La"%string (RealLength (8 # 1)) (Some (8 # 1)) (Some (1 # 2)) (Some (57 # 1));
  mkS "139La"%string (RealLength (206 # 25)) (Some (853 # 100)) (Some (113 # 100)) (Some (893 # 100));
  mkS "13C"%string (RealLength (619 # 100)) (Some (481 # 100)) (Some (17 # 500)) (Some (137 # 100000));
  mkS "140Ce"%string (RealLength (121 # 25)) (Some (147 # 50)) (Some (0 # 1)) (Some (57 # 100));
  mkS "142Ce"%string (RealLength (19 # 4)) (Some (71 # 25)) (Some (0 # 1)) (Some (19 # 20));
  mkS "142Nd"%string (RealLength (77 # 10)) (Some (15 # 2)) (Some (0 # 1)) (Some (187 # 10));
  mkS "143Nd"%string (RealLength (14 # 1)) (Some (25 # 1)) (Some (55 # 1)) (Some (337 # 1));
  mkS "144Nd"%string (RealLength (14 # 5)) (Some (1 # 1)) (Some (0 # 1)) (Some (18 # 5));
  mkS "144Sm"%string (RealLength (-3 # 1)) (Some (1 # 1)) (Some (0 # 1)) (Some (7 # 10));
  mkS "145Nd"%string (RealLength (14 # 1)) (Some (25 # 1)) (Some (5 # 1)) (Some (42 # 1));
  mkS "146Nd"%string (RealLength (87 # 10)) (Some (19 # 2)) (Some (0 # 1)) (Some (7 # 5));
  mkS "147Sm"%string (RealLength (14 # 1)) (Some (25 # 1)) (Some (143 # 1)) (Some (57 # 1));
  mkS "148Nd"%string (RealLength (57 # 10)) (Some (41 # 10)) (Some (0 # 1)) (Some (5 # 2));
  mkS "148Sm"%string (RealLength (-3 # 1)) (Some (1 # 1)) (Some (0 # 1)) (Some (12 # 5));
  mkS "149Sm"%string (ComplexLength (-96 # 5) (-117 # 10)) (Some (127 # 2)) (Some (137 # 1)) (Some (42080 # 1));
  mkS "14N"%string (RealLength (937 # 100)) (Some (1103 # 100)) (Some (1 # 2)) (Some (191 # 100));
  mkS "150Nd"%string (RealLength (53 # 10)) (Some (7 # 2)) (Some (0 # 1)) (Some (6 # 5));
  mkS "150Sm"%string (RealLength (14 # 1)) (Some (25 # 1)) (Some (0 # 1)) (Some (104 # 1));
  mkS "151Eu"%string (ComplexLength (613 # 100) (-253 # 100)) (Some (11 # 2)) (Some (31 # 10)) (Some (9100 # 1));
  mkS "152Gd"%string (RealLength (10 # 1)) (Some (13 # 1)) (Some (0 # 1)) (Some (735 # 1));
  mkS "152Sm"%string (RealLength (-5 # 1)) (Some (31 # 10)) (Some (0 # 1)) (Some (206 # 1));
  mkS "153Eu"%string (RealLength (411 # 50)) (Some (17 # 2)) (Some (13 # 10)) (Some (312 # 1));
  mkS "154Gd"%string (RealLength (10 # 1)) (Some (13 # 1)) (Some (0 # 1)) (Some (85 # 1));
  mkS "154Sm"%string (RealLength (93 # 10)) (Some (11 # 1)) (Some (0 # 1)) (Some (42 # 5));
  mkS "155Gd"%string (ComplexLength (6 # 1) (-17 # 1)) (Some (204 # 5)) (Some (25 # 1)) (Some (61100 # 1));
  mkS "156Dy"%string (RealLength (61 # 10)) (Some (47 # 10)) (Some (0 # 1)) (Some (33 # 1));
  mkS "156Gd"%string (RealLength (63 # 10)) (Some (5 # 1)) (Some (0 # 1)) (Some (3 # 2));
  mkS "157Gd"%string (ComplexLength (-57 # 50) (-719 # 10)) (Some (650 # 1)) (Some (394 # 1)) (Some (259000 # 1));
  mkS "158Dy"%string (RealLength (6 # 1)) (Some (5 # 1)) (Some (0 # 1)) (Some (43 # 1));
  mkS "158Gd"%string (RealLength (9 # 1)) (Some (10 # 1)) (Some (0 # 1)) (Some (11 # 5));
  mkS "15N"%string (RealLength (161 # 25)) (Some (521 # 100)) (Some (1 # 20000)) (Some (3 # 125000));
  mkS "160Dy"%string (RealLength (67 # 10)) (Some (28 # 5)) (Some (0 # 1)) (Some (56 # 1));
  mkS "160Gd"%string (RealLength (183 # 20)) (Some (263 # 25)) (Some (0 # 1)) (Some (77 # 100));
  mkS "161Dy"%string (RealLength (103 # 10)) (Some (133 # 10)) (Some (3 # 1)) (Some (600 # 1));
  mkS "162Dy"%string (RealLength (-7 # 5)) (Some (1 # 4)) (Some (0 # 1)) (Some (194 # 1));
  mkS "162Er"%string (RealLength (44 # 5)) (Some (97 # 10)) (Some (0 # 1)) (Some (19 # 1));
  mkS "163Dy"%string (RealLength (5 # 1)) (Some (31 # 10)) (Some (21 # 100)) (Some (124 # 1));
  mkS "164Dy"%string (ComplexLength (247 # 5) (-79 # 100)) (Some (307 # 1)) (Some (0 # 1)) (Some (2840 # 1));
  mkS "164Er"%string (RealLength (41 # 5)) (Some (42 # 5)) (Some (0 # 1)) (Some (13 # 1));
  mkS "166Er"%string (RealLength (53 # 5)) (Some (141 # 10)) (Some (0 # 1)) (Some (98 # 5));
  mkS "167Er"%string (RealLength (3 # 1)) (Some (11 # 10)) (Some (13 # 100)) (Some (659 # 1));
  mkS "168Er"%string (RealLength (37 # 5)) (Some (69 # 10)) (Some (0 # 1)) (Some (137 # 50));
  mkS "168Yb"%string (ComplexLength (-407 # 100) (-31 # 50)) (Some (213 # 100)) (Some (0 # 1)) (Some (2230 # 1));
  mkS "16O"%string (RealLength (5803 # 1000)) (Some (529 # 125)) (Some (0 # 1)) (Some (1 # 10000));
  mkS "170Er"%string (RealLength (48 # 5)) (Some (58 # 5)) (Some (0 # 1)) (Some (29 # 5));
  mkS "170Yb"%string (RealLength (677 # 100)) (Some (29 # 5)) (Some (0 # 1)) (Some (57 # 5));
  mkS "171Yb"%string (RealLength (483 # 50)) (Some (117 # 10)) (Some (39 # 10)) (Some (243 # 5));
  mkS "172Yb"%string (RealLength (943 # 100)) (Some (56 # 5)) (Some (0 # 1)) (Some (4 # 5));
  mkS "173Yb"%string (RealLength (239 # 25)) (Some (23 # 2)) (Some (7 # 2)) (Some (171 # 10));
  mkS "174Hf"%string (RealLength (109 # 10)) (Some (15 # 1)) (Some (0 # 1)) (Some (561 # 1));
  mkS "174Yb"%string (RealLength (193 # 10)) (Some (234 # 5)) (Some (0 # 1)) (Some (347 # 5));
  mkS "175Lu"%string (RealLength (181 # 25)) (Some (659 # 100)) (Some (3 # 5)) (Some (21 # 1));
  mkS "176Hf"%string (RealLength (661 # 100)) (Some (11 # 2)) (Some (0 # 1)) (Some (47 # 2));
  mkS "176Lu"%string (ComplexLength (61 # 10) (-57 # 100)) (Some (47 # 10)) (Some (6 # 5)) (Some (2065 # 1));
  mkS "176Yb"%string (RealLength (218 # 25)) (Some (48 # 5)) (Some (0 # 1)) (Some (57 # 20));
  mkS "177Hf"%string (RealLength (4 # 5)) (Some (1 # 10)) (Some (1 # 10)) (Some (373 # 1));
  mkS "178Hf"%string (RealLength (59 # 10)) (Some (22 # 5)) (Some (0 # 1)) (Some (84 # 1));
  mkS "179Hf"%string (RealLength (373 # 50)) (Some (7 # 1)) (Some (7 # 50)) (Some (41 # 1));
  mkS "17O"%string (RealLength (289 # 50)) (Some (21 # 5)) (Some (1 # 250)) (Some (59 # 250));
  mkS "180Hf"%string (RealLength (66 # 5)) (Some (219 # 10)) (Some (0 # 1)) (Some (326 # 25));
  mkS "180Ta"%string (RealLength (7 # 1)) (Some (31 # 5)) (Some (1 # 2)) (Some (563 # 1));
  mkS "180W"%string (RealLength (5 # 1)) (Some (3 # 1)) (Some (0 # 1)) (Some (30 # 1));
  mkS "181Ta"%string (RealLength (691 # 100)) (Some (6 # 1)) (Some (11 # 1000)) (Some (41 # 2));
  mkS "182W"%string (RealLength (697 # 100)) (Some (61 # 10)) (Some (0 # 1)) (Some (207 # 10));
  mkS "183W"%string (RealLength (653 # 100)) (Some (134 # 25)) (Some (3 # 10)) (Some (101 # 10));
  mkS "184Os"%string (RealLength (10 # 1)) (Some (13 # 1)) (Some (0 # 1)) (Some (3000 # 1));
  mkS "184W"%string (RealLength (187 # 25)) (Some (703 # 100)) (Some (0 # 1)) (Some (17 # 10));
  mkS "185Re"%string (RealLength (9 # 1)) (Some (51 # 5)) (Some (1 # 2)) (Some (112 # 1));
  mkS "186Os"%string (RealLength (58 # 5)) (Some (17 # 1)) (Some (0 # 1)) (Some (80 # 1));
  mkS "186W"%string (RealLength (-18 # 25)) (Some (13 # 200)) (Some (0 # 1)) (Some (379 # 10));
  mkS "187Os"%string (RealLength (10 # 1)) (Some (13 # 1)) (Some (3 # 10)) (Some (320 # 1));
  mkS "187Re"%string (RealLength (93 # 10)) (Some (109 # 10)) (Some (1 # 1)) (Some (382 # 5));
  mkS "188Os"%string (RealLength (38 # 5)) (Some (73 # 10)) (Some (0 # 1)) (Some (47 # 10));
  mkS "189Os"%string (RealLength (107 # 10)) (Some (72 # 5)) (Some (1 # 2)) (Some (25 # 1));
  mkS "18O"%string (RealLength (146 # 25)) (Some (429 # 100)) (Some (0 # 1)) (Some (1 # 6250));
  mkS "190Os"%string (RealLength (11 # 1)) (Some (76 # 5)) (Some (0 # 1)) (Some (131 # 10));
  mkS "190Pt"%string (RealLength (9 # 1)) (Some (10 # 1)) (Some (0 # 1)) (Some (152 # 1));
  mkS "191Ir"%string NoLength None None (Some (954 # 1));
  mkS "192Os"%string (RealLength (23 # 2)) (Some (83 # 5)) (Some (0 # 1)) (Some (2 # 1));
  mkS "192Pt"%string (RealLength (99 # 10)) (Some (123 # 10)) (Some (0 # 1)) (Some (10 # 1));
  mkS "193Ir"%string NoLength None None (Some (111 # 1));
  mkS "194Pt"%string (RealLength (211 # 20)) (Some (14 # 1)) (Some (0 # 1)) (Some (36 # 25));
  mkS "195Pt"%string (RealLength (883 # 100)) (Some (49 # 5)) (Some (13 # 100)) (Some (55 # 2));
  mkS "196Hg"%string (RealLength (303 # 10)) (Some (115 # 1)) (Some (0 # 1)) (Some (3080 # 1));
  mkS "196Pt"%string (RealLength (989 # 100)) (Some (123 # 10)) (Some (0 # 1)) (Some (18 # 25));
  mkS "198Hg"%string NoLength None (Some (0 # 1)) (Some (2 # 1));
  mkS "198Pt"%string (RealLength (39 # 5)) (Some (38 # 5)) (Some (0 # 1)) (Some (183 # 50));
  mkS "199Hg"%string (RealLength (169 # 10)) (Some (36 # 1)) (Some (30 # 1)) (Some (2150 # 1));
  mkS "1H"%string (RealLength (-18703 # 5000)) (Some (17583 # 10000)) (Some (8027 # 100)) (Some (1663 # 5000));
  mkS "202Hg"%string NoLength None (Some (0 # 1)) (Some (489 # 100));
  mkS "204Hg"%string NoLength None (Some (0 # 1)) (Some (43 # 100));
  mkS "204Pb"%string (RealLength (99 # 10)) (Some (123 # 10)) (Some (0 # 1)) (Some (13 # 20));
  mkS "205Tl"%string (RealLength (238 # 25)) (Some (1139 # 100)) (Some (7 # 1000)) (Some (13 # 125));
  mkS "206Pb"%string (RealLength (461 # 50)) (Some (267 # 25)) (Some (0 # 1)) (Some (3 # 100));
  mkS "207Pb"%string (RealLength (232 # 25)) (Some (541 # 50)) (Some (1 # 500)) (Some (699 # 1000));
  mkS "208Pb"%string (RealLength (19 # 2)) (Some (567 # 50)) (Some (0 # 1)) (Some (3 # 6250));
  mkS "20Ne"%string (RealLength (4631 # 1000)) (Some (539 # 200)) (Some (0 # 1)) (Some (9 # 250));
  mkS "21Ne"%string (RealLength (333 # 50)) (Some (28 # 5)) (Some (1 # 20)) (Some (67 # 100));
  mkS "22Ne"%string (RealLength (387 # 100)) (Some (47 # 25)) (Some (0 # 1)) (Some (23 # 500));
  mkS "233U"%string (RealLength (101 # 10)) (Some (64 # 5)) (Some (1 # 10)) (Some (5747 # 10));
  mkS "234U"%string (RealLength (62 # 5)) (Some (193 # 10)) (Some (0 # 1)) (Some (1001 # 10));
  mkS "235U"%string (RealLength (1047 # 100)) (Some (689 # 50)) (Some (1 # 5)) (Some (6809 # 10));
  mkS "238Pu"%string (RealLength (141 # 10)) (Some (25 # 1)) (Some (0 # 1)) (Some (558 # 1));
  mkS "238U"%string (RealLength (4201 # 500)) (Some (8871 # 1000)) (Some (0 # 1)) (Some (67 # 25));
  mkS "239Pu"%string (RealLength (77 # 10)) (Some (15 # 2)) (Some (1 # 5)) (Some (10173 # 10));
  mkS "240Pu"%string (RealLength (7 # 2)) (Some (77 # 50)) (Some (0 # 1)) (Some (1448 # 5));
  mkS "242Pu"%string (RealLength (81 # 10)) (Some (41 # 5)) (Some (0 # 1)) (Some (37 # 2));
  mkS "244Cm"%string (RealLength (19 # 2)) (Some (113 # 10)) (Some (0 # 1)) (Some (81 # 5));
  mkS "246Cm"%string (RealLength (93 # 10)) (Some (109 # 10)) (Some (0 # 1)) (Some (34 # 25));
  mkS "248Cm"%string (RealLength (77 # 10)) (Some (15 # 2)) (Some (0 # 1)) (Some (3 # 1));
  mkS "24Mg"%string (RealLength (283 # 50)) (Some (403 # 100)) (Some (0 # 1)) (Some (1 # 20));
  mkS "25Mg"%string (RealLength (181 # 50)) (Some (33 # 20)) (Some (7 # 25)) (Some (19 # 100));
  mkS "26Mg"%string (RealLength (489 # 100)) (Some (3 # 1)) (Some (0 # 1)) (Some (191 # 5000));
  mkS "28Si"%string (RealLength (4107 # 1000)) (Some (53 # 25)) (Some (0 # 1)) (Some (177 # 1000));
  mkS "29Si"%string (RealLength (47 # 10)) (Some (139 # 50)) (Some (1 # 1000)) (Some (101 # 1000));
  mkS "2H"%string (RealLength (6671 # 1000)) (Some (699 # 125)) (Some (41 # 20)) (Some (519 # 1000000));
  mkS "30Si"%string (RealLength (229 # 50)) (Some (66 # 25)) (Some (0 # 1)) (Some (107 # 1000));
  mkS "32S"%string (RealLength (701 # 250)) (Some (247 # 250)) (Some (0 # 1)) (Some (27 # 50));
  mkS "33S"%string (RealLength (237 # 50)) (Some (14 # 5)) (Some (3 # 10)) (Some (27 # 50));
  mkS "34S"%string (RealLength (87 # 25)) (Some (38 # 25)) (Some (0 # 1)) (Some (227 # 1000));
  mkS "35Cl"%string (RealLength (233 # 20)) (Some (853 # 50)) (Some (47 # 10)) (Some (441 # 10));
  mkS "36Ar"%string (RealLength (249 # 10)) (Some (779 # 10)) (Some (0 # 1)) (Some (26 # 5));
  mkS "36S"%string (RealLength (3 # 1)) (Some (11 # 10)) (Some (0 # 1)) (Some (3 # 20));
  mkS "37Cl"%string (RealLength (77 # 25)) (Some (119 # 100)) (Some (1 # 1000)) (Some (433 # 1000));
  mkS "38Ar"%string (RealLength (7 # 2)) (Some (3 # 2)) (Some (0 # 1)) (Some (4 # 5));
  mkS "39K"%string (RealLength (187 # 50)) (Some (44 # 25)) (Some (1 # 4)) (Some (21 # 10));
  mkS "3H"%string (RealLength (599 # 125)) (Some (289 # 100)) (Some (7 # 50)) (Some (0 # 1));
  mkS "3He"%string (ComplexLength (287 # 50) (-1483 # 1000)) (Some (221 # 50)) (Some (8 # 5)) (Some (5333 # 1));
  mkS "40Ar"%string (RealLength (183 # 100)) (Some (421 # 1000)) (Some (0 # 1)) (Some (33 # 50));
  mkS "40Ca"%string (RealLength (24 # 5)) (Some (29 # 10)) (Some (0 # 1)) (Some (41 # 100));
  mkS "40K"%string (RealLength (3 # 1)) (Some (11 # 10)) (Some (1 # 2)) (Some (35 # 1));
  mkS "41K"%string (RealLength (269 # 100)) (Some (91 # 100)) (Some (3 # 10)) (Some (73 # 50));
  mkS "42Ca"%string (RealLength (84 # 25)) (Some (71 # 50)) (Some (0 # 1)) (Some (17 # 25));
  mkS "43Ca"%string (RealLength (-39 # 25)) (Some (31 # 100)) (Some (1 # 2)) (Some (31 # 5));
  mkS "44Ca"%string (RealLength (71 # 50)) (Some (1 # 4)) (Some (0 # 1)) (Some (22 # 25));
  mkS "46Ca"%string (RealLength (18 # 5)) (Some (8 # 5)) (Some (0 # 1)) (Some (37 # 50));
  mkS "46Ti"%string (RealLength (493 # 100)) (Some (61 # 20)) (Some (0 # 1)) (Some (59 # 100));
  mkS "47Ti"%string (RealLength (363 # 100)) (Some (83 # 50)) (Some (3 # 2)) (Some (17 # 10));
  mkS "48Ca"%string (RealLength (39 # 100)) (Some (19 # 1000)) (Some (0 # 1)) (Some (109 # 100));
  mkS "48Ti"%string (RealLength (-152 # 25)) (Some (93 # 20)) (Some (0 # 1)) (Some (196 # 25));
  mkS "49Ti"%string (RealLength (26 # 25)) (Some (7 # 50)) (Some (33 # 10)) (Some (11 # 5));
  mkS "4He"%string (RealLength (163 # 50)) (Some (67 # 50)) (Some (0 # 1)) (Some (0 # 1));
  mkS "50Cr"%string (RealLength (-9 # 2)) (Some (127 # 50)) (Some (0 # 1)) (Some (79 # 5));
  mkS "50Ti"%string (RealLength (309 # 50)) (Some (24 # 5)) (Some (0 # 1)) (Some (179 # 1000));
  mkS "50V"%string (RealLength (38 # 5)) (Some (73 # 10)) (Some (1 # 2)) (Some (60 # 1));
  mkS "51V"%string (RealLength (-201 # 500)) (Some (203 # 10000)) (Some (507 # 100)) (Some (49 # 10));
  mkS "52Cr"%string (RealLength (123 # 25)) (Some (1521 # 500)) (Some (0 # 1)) (Some (19 # 25));
  mkS "53Cr"%string (RealLength (-21 # 5)) (Some (111 # 50)) (Some (593 # 100)) (Some (181 # 10));
  mkS "54Cr"%string (RealLength (91 # 20)) (Some (13 # 5)) (Some (0 # 1)) (Some (9 # 25));
  mkS "54Fe"%string (RealLength (21 # 5)) (Some (11 # 5)) (Some (0 # 1)) (Some (9 # 4));
  mkS "56Fe"%string (RealLength (497 # 50)) (Some (621 # 50)) (Some (0 # 1)) (Some (259 # 100));
  mkS "57Fe"%string (RealLength (23 # 10)) (Some (33 # 50)) (Some (3 # 10)) (Some (62 # 25));
  mkS "58Fe"%string (RealLength (15 # 1)) (Some (28 # 1)) (Some (0 # 1)) (Some (32 # 25));
  mkS "58Ni"%string (RealLength (72 # 5)) (Some (261 # 10)) (Some (0 # 1)) (Some (23 # 5));
  mkS "60Ni"%string (RealLength (14 # 5)) (Some (99 # 100)) (Some (0 # 1)) (Some (29 # 10));
  mkS "61Ni"%string (RealLength (38 # 5)) (Some (363 # 50)) (Some (19 # 10)) (Some (5 # 2));
  mkS "62Ni"%string (RealLength (-87 # 10)) (Some (19 # 2)) (Some (0 # 1)) (Some (29 # 2));
  mkS "63Cu"%string (RealLength (643 # 100)) (Some (26 # 5)) (Some (3 # 500)) (Some (9 # 2));
  mkS "64Ni"%string (RealLength (-37 # 100)) (Some (17 # 1000)) (Some (0 # 1)) (Some (38 # 25));
  mkS "64Zn"%string (RealLength (261 # 50)) (Some (171 # 50)) (Some (0 # 1)) (Some (93 # 100));
  mkS "65Cu"%string (RealLength (1061 # 100)) (Some (141 # 10)) (Some (2 # 5)) (Some (217 # 100));
  mkS "66Zn"%string (RealLength (597 # 100)) (Some (112 # 25)) (Some (0 # 1)) (Some (31 # 50));
  mkS "67Zn"%string (RealLength (189 # 25)) (Some (359 # 50)) (Some (7 # 25)) (Some (34 # 5));
  mkS "68Zn"%string (RealLength (603 # 100)) (Some (457 # 100)) (Some (0 # 1)) (Some (11 # 10));
  mkS "69Ga"%string (RealLength (197 # 25)) (Some (39 # 5)) (Some (91 # 1000)) (Some (109 # 50));
  mkS "6Li"%string (ComplexLength (2 # 1) (-261 # 1000)) (Some (51 # 100)) (Some (23 # 50)) (Some (940 # 1));
  mkS "70Ge"%string (RealLength (10 # 1)) (Some (63 # 5)) (Some (0 # 1)) (Some (3 # 1));
  mkS "70Zn"%string (RealLength (6 # 1)) (Some (9 # 2)) (Some (0 # 1)) (Some (23 # 250));
  mkS "71Ga"%string (RealLength (32 # 5)) (Some (103 # 20)) (Some (21 # 250)) (Some (361 # 100));
  mkS "72Ge"%string (RealLength (851 # 100)) (Some (91 # 10)) (Some (0 # 1)) (Some (4 # 5));
  mkS "73Ge"%string (RealLength (251 # 50)) (Some (317 # 100)) (Some (3 # 2)) (Some (151 # 10));
  mkS "74Ge"%string (RealLength (379 # 50)) (Some (36 # 5)) (Some (0 # 1)) (Some (2 # 5));
  mkS "74Se"%string (RealLength (4 # 5)) (Some (1 # 10)) (Some (0 # 1)) (Some (259 # 5));
  mkS "76Ge"%string (RealLength (41 # 5)) (Some (8 # 1)) (Some (0 # 1)) (Some (4 # 25));
  mkS "76Se"%string (RealLength (61 # 5)) (Some (187 # 10)) (Some (0 # 1)) (Some (85 # 1));
  mkS "77Se"%string (RealLength (33 # 4)) (Some (43 # 5)) (Some (1 # 20)) (Some (42 # 1));
  mkS "78Kr"%string NoLength None (Some (0 # 1)) (Some (32 # 5));
  mkS "78Se"%string (RealLength (206 # 25)) (Some (17 # 2)) (Some (0 # 1)) (Some (43 # 100));
  mkS "79Br"%string (RealLength (34 # 5)) (Some (581 # 100)) (Some (3 # 20)) (Some (11 # 1));
  mkS "7Li"%string (RealLength (-111 # 50)) (Some (619 # 1000)) (Some (39 # 50)) (Some (227 # 5000));
  mkS "80Kr"%string NoLength None (Some (0 # 1)) (Some (59 # 5));
  mkS "80Se"%string (RealLength (187 # 25)) (Some (703 # 100)) (Some (0 # 1)) (Some (61 # 100));
  mkS "81Br"%string (RealLength (679 # 100)) (Some (579 # 100)) (Some (1 # 20)) (Some (27 # 10));
  mkS "82Kr"%string NoLength None (Some (0 # 1)) (Some (29 # 1));
  mkS "82Se"%string (RealLength (317 # 50)) (Some (101 # 20)) (Some (0 # 1)) (Some (11 # 250));
  mkS "83Kr"%string NoLength None None (Some (185 # 1));
  mkS "84Kr"%string NoLength None (Some (0 # 1)) (Some (113 # 1000));
  mkS "84Sr"%string (RealLength (7 # 1)) (Some (6 # 1)) (Some (0 # 1)) (Some (87 # 100));
  mkS "85Rb"%string (RealLength (703 # 100)) (Some (31 # 5)) (Some (1 # 2)) (Some (12 # 25));
  mkS "86Kr"%string (RealLength (81 # 10)) (Some (41 # 5)) (Some (0 # 1)) (Some (3 # 1000));
  mkS "86Sr"%string (RealLength (567 # 100)) (Some (101 # 25)) (Some (0 # 1)) (Some (26 # 25));
  mkS "87Rb"%string (RealLength (723 # 100)) (Some (33 # 5)) (Some (1 # 2)) (Some (3 # 25));
  mkS "87Sr"%string (RealLength (37 # 5)) (Some (172 # 25)) (Some (1 # 2)) (Some (16 # 1));
  mkS "88Sr"%string (RealLength (143 # 20)) (Some (321 # 50)) (Some (0 # 1)) (Some (29 # 500));
  mkS "90Zr"%string (RealLength (32 # 5)) (Some (51 # 10)) (Some (0 # 1)) (Some (11 # 1000));
  mkS "91Zr"%string (RealLength (87 # 10)) (Some (19 # 2)) (Some (3 # 20)) (Some (117 # 100));
  mkS "92Mo"%string (RealLength (691 # 100)) (Some (6 # 1)) (Some (0 # 1)) (Some (19 # 1000));
  mkS "92Zr"%string (RealLength (37 # 5)) (Some (69 # 10)) (Some (0 # 1)) (Some (11 # 50));
  mkS "94Mo"%string (RealLength (34 # 5)) (Some (581 # 100)) (Some (0 # 1)) (Some (3 # 200));
  mkS "94Zr"%string (RealLength (41 # 5)) (Some (42 # 5)) (Some (0 # 1)) (Some (499 # 10000));
  mkS "95Mo"%string (RealLength (691 # 100)) (Some (6 # 1)) (Some (1 # 2)) (Some (131 # 10));
  mkS "96Mo"%string (RealLength (31 # 5)) (Some (483 # 100)) (Some (0 # 1)) (Some (1 # 2));
  mkS "96Ru"%string NoLength None (Some (0 # 1)) (Some (7 # 25));
  mkS "96Zr"%string (RealLength (11 # 2)) (Some (19 # 5)) (Some (0 # 1)) (Some (229 # 10000));
  mkS "97Mo"%string (RealLength (181 # 25)) (Some (659 # 100)) (Some (1 # 2)) (Some (5 # 2));
  mkS "98Mo"%string (RealLength (329 # 50)) (Some (136 # 25)) (Some (0 # 1)) (Some (127 # 1000));
  mkS "Ac"%string NoLength (Some (0 # 1)) None None;
  mkS "Ag"%string (RealLength (2961 # 500)) (Some (4407 # 1000)) (Some (29 # 50)) (Some (633 # 10));
  mkS "Al"%string (RealLength (3449 # 1000)) (Some (299 # 200)) (Some (41 # 5000)) (Some (231 # 1000));
  mkS "Am"%string (RealLength (83 # 10)) (Some (87 # 10)) (Some (3 # 10)) (Some (753 # 10));
  mkS "Ar"%string (RealLength (1909 # 1000)) (Some (229 # 500)) (Some (9 # 40)) (Some (27 # 40));
  mkS "As"%string (RealLength (329 # 50)) (Some (136 # 25)) (Some (3 # 50)) (Some (9 # 2));
  mkS "At"%string NoLength (Some (0 # 1)) None None;
  mkS "Au"%string (RealLength (763 # 100)) (Some (183 # 25)) (Some (43 # 100)) (Some (1973 # 20));
  mkS "B"%string (ComplexLength (53 # 10) (-213 # 1000)) (Some (177 # 50)) (Some (17 # 10)) (Some (767 # 1));
  mkS "Ba"%string (RealLength (507 # 100)) (Some (323 # 100)) (Some (3 # 20)) (Some (11 # 10));
  mkS "Be"%string (RealLength (779 # 100)) (Some (763 # 100)) (Some (9 # 5000)) (Some (19 # 2500));
  mkS "Bi"%string (RealLength (2133 # 250)) (Some (2287 # 250)) (Some (21 # 2500)) (Some (169 # 5000));
  mkS "Br"%string (RealLength (1359 # 200)) (Some (29 # 5)) (Some (1 # 10)) (Some (69 # 10));
  mkS "C"%string (RealLength (3323 # 500)) (Some (5551 # 1000)) (Some (1 # 1000)) (Some (7 # 2000));
  mkS "Ca"%string (RealLength (47 # 10)) (Some (139 # 50)) (Some (1 # 20)) (Some (43 # 100));
  mkS "Cd"%string (ComplexLength (487 # 100) (-7 # 10)) (Some (76 # 25)) (Some (173 # 50)) (Some (2520 # 1));
  mkS "Ce"%string (RealLength (121 # 25)) (Some (147 # 50)) (Some (1 # 1000)) (Some (63 # 100));
  mkS "Cl"%string (RealLength (9577 # 1000)) (Some (115257 # 10000)) (Some (53 # 10)) (Some (67 # 2));
  mkS "Cm"%string NoLength (Some (0 # 1)) None None;
  mkS "Co"%string (RealLength (249 # 100)) (Some (779 # 1000)) (Some (24 # 5)) (Some (1859 # 50));
  mkS "Cr"%string (RealLength (727 # 200)) (Some (83 # 50)) (Some (183 # 100)) (Some (61 # 20));
  mkS "Cs"%string (RealLength (271 # 50)) (Some (369 # 100)) (Some (21 # 100)) (Some (29 # 1));
  mkS "Cu"%string (RealLength (3859 # 500)) (Some (1497 # 200)) (Some (11 # 20)) (Some (189 # 50));
  mkS "Dy"%string (ComplexLength (169 # 10) (-69 # 250)) (Some (359 # 10)) (Some (272 # 5)) (Some (994 # 1));
  mkS "Er"%string (RealLength (779 # 100)) (Some (763 # 100)) (Some (11 # 10)) (Some (159 # 1));
  mkS "Eu"%string (ComplexLength (361 # 50) (-63 # 50)) (Some (657 # 100)) (Some (5 # 2)) (Some (4530 # 1));
  mkS "F"%string (RealLength (2827 # 500)) (Some (4017 # 1000)) (Some (1 # 1250)) (Some (6 # 625));
  mkS "Fe"%string (RealLength (189 # 20)) (Some (561 # 50)) (Some (2 # 5)) (Some (64 # 25));
  mkS "Fr"%string NoLength (Some (0 # 1)) None None;
  mkS "Ga"%string (RealLength (911 # 125)) (Some (267 # 40)) (Some (4 # 25)) (Some (11 # 4));
  mkS "Gd"%string (ComplexLength (13 # 2) (-691 # 50)) (Some (293 # 10)) (Some (151 # 1)) (Some (49700 # 1));
  mkS "Ge"%string (RealLength (1637 # 200)) (Some (421 # 50)) (Some (9 # 50)) (Some (11 # 5));
  mkS "H"%string (RealLength (-3739 # 1000)) (Some (1098 # 625)) (Some (4013 # 50)) (Some (1663 # 5000));
  mkS "He"%string (RealLength (163 # 50)) (Some (67 # 50)) (Some (0 # 1)) (Some (747 # 100000));
  mkS "Hf"%string (RealLength (77 # 10)) (Some (38 # 5)) (Some (13 # 5)) (Some (1041 # 10));
  mkS "Hg"%string (RealLength (3173 # 250)) (Some (506 # 25)) (Some (33 # 5)) (Some (3723 # 10));
  mkS "Ho"%string (RealLength (801 # 100)) (Some (403 # 50)) (Some (9 # 25)) (Some (647 # 10));
  mkS "I"%string (RealLength (132 # 25)) (Some (7 # 2)) (Some (31 # 100)) (Some (123 # 20));
  mkS "In"%string (ComplexLength (813 # 200) (-539 # 10000)) (Some (52 # 25)) (Some (27 # 50)) (Some (969 # 5));
  mkS "Ir"%string (RealLength (53 # 5)) (Some (141 # 10)) (Some (0 # 1)) (Some (425 # 1));
  mkS "K"%string (RealLength (367 # 100)) (Some (169 # 100)) (Some (27 # 100)) (Some (21 # 10));
  mkS "Kr"%string (RealLength (781 # 100)) (Some (767 # 100)) (Some (1 # 100)) (Some (25 # 1));
  mkS "La"%string (RealLength (206 # 25)) (Some (853 # 100)) (Some (113 # 100)) (Some (897 # 100));
  mkS "Li"%string (RealLength (-19 # 10)) (Some (227 # 500)) (Some (23 # 25)) (Some (141 # 2));
  mkS "Lu"%string (RealLength (721 # 100)) (Some (653 # 100)) (Some (7 # 10)) (Some (74 # 1));
  mkS "Mg"%string (RealLength (43 # 8)) (Some (3631 # 1000)) (Some (2 # 25)) (Some (63 # 1000));
  mkS "Mn"%string (RealLength (-373 # 100)) (Some (7 # 4)) (Some (2 # 5)) (Some (133 # 10));
  mkS "Mo"%string (RealLength (1343 # 200)) (Some (567 # 100)) (Some (1 # 25)) (Some (62 # 25));
  mkS "N"%string (RealLength (234 # 25)) (Some (1101 # 100)) (Some (1 # 2)) (Some (19 # 10));
  mkS "Na"%string (RealLength (363 # 100)) (Some (83 # 50)) (Some (81 # 50)) (Some (53 # 100));
  mkS "Nb"%string (RealLength (3527 # 500)) (Some (6253 # 1000)) (Some (3 # 1250)) (Some (23 # 20));
  mkS "Nd"%string (RealLength (769 # 100)) (Some (743 # 100)) (Some (46 # 5)) (Some (101 # 2));
  mkS "Ne"%string (RealLength (2283 # 500)) (Some (131 # 50)) (Some (1 # 125)) (Some (39 # 1000));
  mkS "Ni"%string (RealLength (103 # 10)) (Some (133 # 10)) (Some (26 # 5)) (Some (449 # 100));
  mkS "Np"%string (RealLength (211 # 20)) (Some (14 # 1)) (Some (1 # 2)) (Some (1759 # 10));
  mkS "O"%string (RealLength (5803 # 1000)) (Some (529 # 125)) (Some (1 # 1250)) (Some (19 # 100000));
  mkS "Os"%string (RealLength (107 # 10)) (Some (72 # 5)) (Some (3 # 10)) (Some (16 # 1));
  mkS "P"%string (RealLength (513 # 100)) (Some (3307 # 1000)) (Some (1 # 200)) (Some (43 # 250));
  mkS "Pa"%string (RealLength (91 # 10)) (Some (52 # 5)) (Some (1 # 10)) (Some (1003 # 5));
  mkS "Pb"%string (RealLength (1881 # 200)) (Some (2223 # 200)) (Some (3 # 1000)) (Some (171 # 1000));
  mkS "Pd"%string (RealLength (591 # 100)) (Some (439 # 100)) (Some (93 # 1000)) (Some (69 # 10));
  mkS "Pm"%string (RealLength (63 # 5)) (Some (20 # 1)) (Some (13 # 10)) (Some (842 # 5));
  mkS "Po"%string NoLength (Some (0 # 1)) None None;
  mkS "Pr"%string (RealLength (229 # 50)) (Some (66 # 25)) (Some (3 # 200)) (Some (23 # 2));
  mkS "Pt"%string (RealLength (48 # 5)) (Some (579 # 50)) (Some (13 # 100)) (Some (103 # 10));
  mkS "Pu"%string NoLength None None None;
  mkS "Ra"%string (RealLength (10 # 1)) (Some (13 # 1)) (Some (0 # 1)) (Some (64 # 5));
  mkS "Rb"%string (RealLength (709 # 100)) (Some (158 # 25)) (Some (1 # 2)) (Some (19 # 50));
  mkS "Re"%string (RealLength (46 # 5)) (Some (53 # 5)) (Some (9 # 10)) (Some (897 # 10));
  mkS "Rh"%string (RealLength (147 # 25)) (Some (217 # 50)) (Some (3 # 10)) (Some (724 # 5));
  mkS "Rn"%string NoLength (Some (0 # 1)) None None;
  mkS "Ru"%string (RealLength (703 # 100)) (Some (621 # 100)) (Some (2 # 5)) (Some (64 # 25));
  mkS "S"%string (RealLength (2847 # 1000)) (Some (5093 # 5000)) (Some (7 # 1000)) (Some (53 # 100));
  mkS "Sb"%string (RealLength (557 # 100)) (Some (39 # 10)) (Some (7 # 1000)) (Some (491 # 100));
  mkS "Sc"%string (RealLength (1229 # 100)) (Some (19 # 1)) (Some (9 # 2)) (Some (55 # 2));
  mkS "Se"%string (RealLength (797 # 100)) (Some (399 # 50)) (Some (8 # 25)) (Some (117 # 10));
  mkS "Si"%string (RealLength (41491 # 10000)) (Some (2163 # 1000)) (Some (1 # 250)) (Some (171 # 1000));
  mkS "Sm"%string (ComplexLength (4 # 5) (-33 # 20)) (Some (211 # 500)) (Some (39 # 1)) (Some (5922 # 1));
  mkS "Sn"%string (RealLength (249 # 40)) (Some (4871 # 1000)) (Some (11 # 500)) (Some (313 # 500));
  mkS "Sr"%string (RealLength (351 # 50)) (Some (619 # 100)) (Some (3 # 50)) (Some (32 # 25));
  mkS "Ta"%string (RealLength (691 # 100)) (Some (6 # 1)) (Some (1 # 100)) (Some (103 # 5));
  mkS "Tb"%string (RealLength (369 # 50)) (Some (171 # 25)) (Some (1 # 250)) (Some (117 # 5));
  mkS "Tc"%string (RealLength (34 # 5)) (Some (29 # 5)) (Some (1 # 2)) (Some (20 # 1));
  mkS "Te"%string (RealLength (29 # 5)) (Some (423 # 100)) (Some (9 # 100)) (Some (47 # 10));
  mkS "Th"%string (RealLength (1031 # 100)) (Some (334 # 25)) (Some (0 # 1)) (Some (737 # 100));
  mkS "Ti"%string (RealLength (-1719 # 500)) (Some (297 # 200)) (Some (287 # 100)) (Some (609 # 100));
  mkS "Tl"%string (RealLength (1097 # 125)) (Some (4839 # 500)) (Some (21 # 100)) (Some (343 # 100));
  mkS "Tm"%string (RealLength (707 # 100)) (Some (157 # 25)) (Some (1 # 10)) (Some (100 # 1));
  mkS "U"%string (RealLength (8417 # 1000)) (Some (8903 # 1000)) (Some (1 # 200)) (Some (757 # 100));
  mkS "V"%string (RealLength (-239 # 625)) (Some (23 # 1250)) (Some (127 # 25)) (Some (127 # 25));
  mkS "W"%string (RealLength (243 # 50)) (Some (297 # 100)) (Some (163 # 100)) (Some (183 # 10));
  mkS "Xe"%string (RealLength (123 # 25)) (Some (74 # 25)) (Some (0 # 1)) (Some (239 # 10));
  mkS "Y"%string (RealLength (31 # 4)) (Some (151 # 20)) (Some (3 # 20)) (Some (32 # 25));
  mkS "Yb"%string (RealLength (1243 # 100)) (Some (971 # 50)) (Some (4 # 1)) (Some (174 # 5));
  mkS "Zn"%string (RealLength (142 # 25)) (Some (2027 # 500)) (Some (77 # 1000)) (Some (111 # 100));
  mkS "Zr"%string (RealLength (179 # 25)) (Some (161 # 25)) (Some (1 # 50)) (Some (37 # 200))].
(** Element and mass. *)
Definition mass_table : list (string * Q) := [
  ("Ac"%string, (227 # 1));
  ("Ag"%string, (539341 # 5000));
  ("Al"%string, (53963 # 2000));
  ("Am"%string, (243 # 1));
  ("Ar"%string, (9987 # 250));
  ("As"%string, (46826 # 625));
  ("At"%string, (210 # 1));
  ("Au"%string, (393933 # 2000));
  ("B"%string, (10811 # 1000));
  ("Ba"%string, (137327 # 1000));
  ("Be"%string, (45061 # 5000));
  ("Bh"%string, (264 # 1));
  ("Bi"%string, (522451 # 2500));
  ("Bk"%string, (247 # 1));
  ("Br"%string, (9988 # 125));
  ("C"%string, (120107 # 10000));
  ("Ca"%string, (20039 # 500));
  ("Cd"%string, (112411 # 1000));
  ("Ce"%string, (35029 # 250));
  ("Cf"%string, (251 # 1));
  ("Cl"%string, (35453 # 1000));
  ("Cm"%string, (247 # 1));
  ("Co"%string, (147333 # 2500));
  ("Cr"%string, (519961 # 10000));
  ("Cs"%string, (265811 # 2000));
  ("Cu"%string, (31773 # 500));
  ("Db"%string, (262 # 1));
  ("Dy"%string, (325 # 2));
  ("Er"%string, (167259 # 1000));
  ("Es"%string, (252 # 1));
  ("Eu"%string, (37991 # 250));
  ("F"%string, (11874 # 625));
  ("Fe"%string, (11169 # 200));
  ("Fm"%string, (257 # 1));
  ("Fr"%string, (223 # 1));
  ("Ga"%string, (69723 # 1000));
  ("Gd"%string, (629 # 4));
  ("Ge"%string, (1816 # 25));
  ("H"%string, (10079 # 10000));
  ("He"%string, (20013 # 5000));
  ("Hf"%string, (17849 # 100));
  ("Hg"%string, (20059 # 100));
  ("Ho"%string, (1649303 # 10000));
  ("Hs"%string, (277 # 1));
  ("I"%string, (253809 # 2000));
  ("In"%string, (57409 # 500));
  ("Ir"%string, (192217 # 1000));
  ("K"%string, (390983 # 10000));
  ("Kr"%string, (419 # 5));
  ("La"%string, (277811 # 2000));
  ("Li"%string, (6941 # 1000));
  ("Lr"%string, (262 # 1));
  ("Lu"%string, (174967 # 1000));
  ("Md"%string, (258 # 1));
  ("Mg"%string, (4861 # 200));
  ("Mn"%string, (27469 # 500));
  ("Mo"%string, (4797 # 50));
  ("Mt"%string, (268 # 1));
  ("N"%string, (140067 # 10000));
  ("Na"%string, (229897 # 10000));
  ("Nb"%string, (116133 # 1250));
  ("Nd"%string, (3606 # 25));
  ("Ne"%string, (201797 # 10000));
  ("Ni"%string, (293467 # 5000));
  ("No"%string, (259 # 1));
  ("Np"%string, (237 # 1));
  ("O"%string, (79997 # 5000));
  ("Os"%string, (19023 # 100));
  ("P"%string, (154869 # 5000));
  ("Pa"%string, (2310359 # 10000));
  ("Pb"%string, (1036 # 5));
  ("Pd"%string, (5321 # 50));
  ("Pm"%string, (145 # 1));
  ("Po"%string, (209 # 1));
  ("Pr"%string, (1409077 # 10000));
  ("Pt"%string, (97539 # 500));
  ("Pu"%string, (244 # 1));
  ("Ra"%string, (226 # 1));
  ("Rb"%string, (427339 # 5000));
  ("Re"%string, (186207 # 1000));
  ("Rf"%string, (261 # 1));
  ("Rh"%string, (205811 # 2000));
  ("Rn"%string, (222 # 1));
  ("Ru"%string, (10107 # 100));
  ("S"%string, (6413 # 200));
  ("Sb"%string, (3044 # 25));
  ("Sc"%string, (449559 # 10000));
  ("Se"%string, (1974 # 25));
  ("Sg"%string, (266 # 1));
  ("Si"%string, (56171 # 2000));
  ("Sm"%string, (3759 # 25));
  ("Sn"%string, (11871 # 100));
  ("Sr"%string, (4381 # 50));
  ("Ta"%string, (1809479 # 10000));
  ("Tb"%string, (1589253 # 10000));
  ("Tc"%string, (98 # 1));
  ("Te"%string, (638 # 5));
  ("Th"%string, (2320381 # 10000));
  ("Ti"%string, (47867 # 1000));
  ("Tl"%string, (2043833 # 10000));
  ("Tm"%string, (844671 # 5000));
  ("U"%string, (2380289 # 10000));
  ("V"%string, (101883 # 2000));
  ("W"%string, (4596 # 25));
  ("Xe"%string, (131293 # 1000));
  ("Y"%string, (889059 # 10000));
  ("Yb"%string, (4326 # 25));
  ("Zn"%string, (6539 # 100));
  ("Zr"%string, (11403 # 125))].
(** Ion and the coefficient lists j0, j2, j4. *)
Record magnetic := mkMag { m_ion : string; m_j0 : list Q; m_j2 : list Q; m_j4 : list Q }.
Definition magnetic_table : list magnetic := [
  mkMag "Am2+"%string [(4743 # 10000); (2722 # 125); (79 # 50); (569 # 100); (-10779 # 10000); (829 # 200); (109 # 5000); (1253 # 10000)] [(35237 # 10000); (3191 # 200); (4571 # 2000); (1039 # 200); (-71 # 5000); (117 # 200); (33 # 10000); (14 # 125)] [(-7433 # 10000); (2052 # 125); (3481 # 10000); (1697 # 250); (3007 # 5000); (1173 # 500); (0 # 1); (283 # 5000)];
  mkMag "Am3+"%string [(4239 # 10000); (9787 # 500); (14573 # 10000); (734 # 125); (-2263 # 2500); (496 # 125); (119 # 5000); (527 # 5000)] [(14311 # 5000); (14733 # 1000); (24099 # 10000); (643 # 125); (-663 # 5000); (31 # 1000); (1233 # 10000); (727 # 10000)] [(-2023 # 2500); (6427 # 500); (4161 # 10000); (5459 # 1000); (1369 # 2500); (543 # 250); (-11 # 10000); (53 # 1000)];
  mkMag "Am4+"%string [(3737 # 10000); (8931 # 500); (13521 # 10000); (6043 # 1000); (-3757 # 5000); (93 # 25); (129 # 5000); (1113 # 10000)] [(24141 # 10000); (3237 # 250); (23687 # 10000); (989 # 200); (-249 # 1000); (11 # 500); (2371 # 10000); (251 # 5000)] [(-2137 # 2500); (6113 # 500); (3037 # 10000); (5909 # 1000); (6173 # 10000); (547 # 250); (-1 # 625); (57 # 1250)];
  mkMag "Am5+"%string [(739 # 2500); (4343 # 250); (581 # 400); (6073 # 1000); (-1551 # 2000); (1831 # 500); (277 # 10000); (601 # 5000)] [(20109 # 10000); (12053 # 1000); (4831 # 2000); (1209 # 250); (-283 # 1250); (27 # 1000); (133 # 625); (207 # 5000)] [(-3269 # 5000); (7731 # 500); (-237 # 2500); (5997 # 1000); (1459 # 2000); (2297 # 1000); (0 # 1); (297 # 5000)];
  mkMag "Am6+"%string [(1151 # 5000); (16953 # 1000); (929 # 625); (1529 # 250); (-7457 # 10000); (3543 # 1000); (147 # 5000); (1323 # 10000)] [(8389 # 5000); (11337 # 1000); (24531 # 10000); (189 # 40); (-2043 # 10000); (17 # 500); (473 # 2500); (387 # 10000)] [(-539 # 1000); (15449 # 1000); (-2689 # 10000); (6017 # 1000); (7711 # 10000); (2297 # 1000); (-1 # 5000); (729 # 10000)];
  mkMag "Am7+"%string [(3601 # 10000); (1273 # 100); (491 # 250); (128 # 25); (-339 # 250); (1857 # 500); (79 # 2500); (77 # 625)] [(3769 # 2000); (9161 # 1000); (10373 # 5000); (2021 # 500); (-659 # 5000); (1723 # 1000); (1 # 500); (379 # 10000)] [(-293 # 625); (12019 # 1000); (-673 # 2500); (3521 # 500); (7297 # 10000); (541 # 250); (-11 # 10000); (131 # 5000)];
  mkMag "Ce2+"%string [(2953 # 10000); (3537 # 200); (2923 # 10000); (6733 # 1000); (4313 # 10000); (5383 # 1000); (-97 # 5000); (169 # 2000)] [(9809 # 10000); (18063 # 1000); (18413 # 10000); (7769 # 1000); (1981 # 2000); (569 # 200); (3 # 250); (28 # 625)] [(-1617 # 2500); (10533 # 1000); (1013 # 2500); (703 # 125); (853 # 2500); (307 # 200); (1 # 125); (261 # 5000)];
  mkMag "Ce3+"%string [(2407 # 10000); (3527 # 200); (1517 # 5000); (7191 # 1250); (1187 # 2500); (57529 # 10000); (-12 # 625)] [(49 # 40000); (534381 # 2500); (1221 # 5000); (43341 # 2500); (3869 # 5000); (57367 # 10000); (-193 # 10000)] [(-261927 # 10000); (34449 # 5000); (3433 # 10000); (39029 # 2500); (134339 # 5000); (68399 # 10000); (-947 # 50000)];
  mkMag "Co"%string [(4139 # 10000); (8081 # 500); (6013 # 10000); (239 # 50); (-759 # 5000); (21 # 1000); (269 # 2000); (1033 # 10000)] [(9839 # 5000); (1417 # 100); (14911 # 10000); (1237 # 250); (961 # 2500); (1797 # 1000); (27 # 10000); (113 # 2500)] [(-4221 # 10000); (2839 # 200); (29 # 100); (3979 # 1000); (2469 # 10000); (643 # 500); (63 # 10000); (1 # 25)];
  mkMag "Co+"%string [(99 # 1000); (265 # 8); (729 # 2000); (15177 # 1000); (547 # 1000); (626 # 125); (-109 # 10000); (983 # 10000)] [(24097 # 10000); (16161 # 1000); (789 # 500); (273 # 50); (819 # 2000); (957 # 500); (31 # 10000); (581 # 10000)] [(-823 # 2000); (14561 # 1000); (179 # 500); (4717 # 1000); (661 # 2500); (709 # 500); (37 # 5000); (541 # 10000)];
  mkMag "Co2+"%string [(1083 # 2500); (2871 # 200); (5857 # 10000); (576 # 125); (-191 # 5000); (67 # 500); (179 # 10000); (711 # 10000)] [(19049 # 10000); (2911 # 250); (13159 # 10000); (4357 # 1000); (1573 # 5000); (329 # 200); (17 # 10000); (459 # 10000)] [(4759 # 10000); (7023 # 500); (2747 # 10000); (3731 # 1000); (1229 # 5000); (5 # 4); (57 # 10000); (141 # 5000)];
  mkMag "Co3+"%string [(1951 # 5000); (3127 # 250); (1581 # 2500); (4457 # 1000); (-3 # 20); (17 # 500); (159 # 1250); (103 # 2000)] [(8529 # 5000); (8859 # 1000); (11409 # 10000); (3309 # 1000); (737 # 5000); (109 # 100); (-1 # 400); (231 # 5000)] [(-2233 # 5000); (13391 # 1000); (1419 # 10000); (3011 # 1000); (2773 # 10000); (267 # 200); (93 # 10000); (341 # 10000)];
  mkMag "Co4+"%string [(703 # 2000); (5389 # 500); (3389 # 5000); (2117 # 500); (-389 # 10000); (241 # 1000); (49 # 5000); (39 # 1000)] [(1311 # 1000); (321 # 40); (11551 # 10000); (3179 # 1000); (201 # 1250); (113 # 100); (-11 # 10000); (187 # 5000)] [(-4091 # 10000); (6597 # 500); (-97 # 5000); (3417 # 1000); (1767 # 5000); (1421 # 1000); (7 # 625); (311 # 5000)];
  mkMag "Cr"%string [(227 # 2000); (45199 # 1000); (3481 # 10000); (19493 # 1000); (5477 # 10000); (3677 # 500); (-23 # 2500); (79 # 400)] [(6817 # 2000); (20127 # 1000); (10503 # 5000); (3401 # 500); (2133 # 5000); (1197 # 500); (19 # 10000); (331 # 5000)] [(-667 # 1000); (19613 # 1000); (2671 # 5000); (3239 # 500); (3641 # 10000); (381 # 200); (73 # 10000); (157 # 2500)];
  mkMag "Cr+"%string [(-977 # 10000); (47 # 1000); (284 # 625); (5201 # 200); (5579 # 10000); (7489 # 1000); (831 # 10000); (557 # 5000)] [(4721 # 1250); (10173 # 500); (5257 # 2500); (6893 # 1000); (401 # 1000); (2411 # 1000); (17 # 10000); (343 # 5000)] [(-8309 # 10000); (18043 # 1000); (1813 # 2500); (7531 # 1000); (957 # 2500); (2003 # 1000); (73 # 10000); (781 # 10000)];
  mkMag "Cr2+"%string [(1503 # 1250); (-1 # 200); (2079 # 5000); (5137 # 250); (377 # 625); (1739 # 250); (-6109 # 5000); (143 # 2500)] [(13211 # 5000); (803 # 50); (9599 # 5000); (6253 # 1000); (2223 # 5000); (593 # 250); (1 # 500); (6 # 125)] [(-893 # 1000); (1958 # 125); (559 # 1000); (7033 # 1000); (4093 # 10000); (481 # 250); (81 # 10000); (631 # 10000)];
  mkMag "Cr3+"%string [(-1547 # 5000); (27 # 1000); (46 # 125); (3407 # 200); (6559 # 10000); (1631 # 250); (357 # 1250); (109 # 2500)] [(8131 # 5000); (7533 # 500); (10309 # 5000); (1571 # 250); (5281 # 10000); (296 # 125); (23 # 10000); (263 # 10000)] [(-7327 # 10000); (14073 # 1000); (817 # 2500); (2837 # 500); (2057 # 5000); (181 # 100); (17 # 2000); (101 # 2000)];
  mkMag "Cr4+"%string [(-29 # 125); (43 # 1000); (3101 # 10000); (1869 # 125); (3591 # 5000); (6173 # 1000); (1021 # 5000); (419 # 10000)] [(10293 # 10000); (279 # 20); (19933 # 10000); (6059 # 1000); (2987 # 5000); (1173 # 500); (27 # 10000); (183 # 5000)] [(-1687 # 2500); (6473 # 500); (361 # 2000); (6753 # 1000); (2263 # 5000); (9 # 5); (49 # 5000); (161 # 2500)];
  mkMag "Cu"%string [(909 # 10000); (4373 # 125); (511 # 1250); (11443 # 1000); (641 # 1250); (153 # 40); (-31 # 2500); (513 # 10000)] [(9591 # 5000); (1449 # 100); (13329 # 10000); (473 # 100); (1921 # 5000); (1639 # 1000); (7 # 2000); (617 # 10000)] [(-801 # 2500); (3783 # 250); (467 # 2000); (4021 # 1000); (289 # 1250); (299 # 250); (17 # 2500); (457 # 10000)];
  mkMag "Cu+"%string [(749 # 10000); (17483 # 500); (4147 # 10000); (2941 # 250); (2619 # 5000); (77 # 20); (-127 # 10000); (591 # 10000)] [(9407 # 5000); (13433 # 1000); (12809 # 10000); (909 # 200); (1823 # 5000); (801 # 500); (33 # 10000); (59 # 1000)] [(-893 # 2500); (121 # 8); (146 # 625); (1983 # 500); (463 # 2000); (1197 # 1000); (7 # 1000); (397 # 10000)];
  mkMag "Cu2+"%string [(29 # 1250); (34969 # 1000); (4023 # 10000); (2891 # 250); (2941 # 5000); (3843 # 1000); (-137 # 10000); (133 # 2500)] [(15189 # 10000); (5239 # 500); (1439 # 1250); (3813 # 1000); (1459 # 5000); (699 # 500); (17 # 10000); (429 # 10000)] [(-1957 # 5000); (737 # 50); (51 # 400); (423 # 125); (637 # 2500); (251 # 200); (103 # 10000); (197 # 5000)];
  mkMag "Cu3+"%string [(31 # 10000); (34907 # 1000); (1791 # 5000); (5457 # 500); (6531 # 10000); (957 # 250); (-147 # 10000); (133 # 2000)] [(12797 # 10000); (169 # 20); (2063 # 2000); (82 # 25); (2401 # 10000); (5 # 4); (3 # 2000); (389 # 10000)] [(-3671 # 10000); (7041 # 500); (-39 # 5000); (663 # 200); (1577 # 5000); (1377 # 1000); (33 # 2500); (267 # 5000)];
  mkMag "Cu4+"%string [(-33 # 2500); (15341 # 500); (2801 # 10000); (11163 # 1000); (749 # 1000); (3817 # 1000); (-33 # 2000); (767 # 10000)] [(598 # 625); (931 # 125); (9099 # 10000); (849 # 250); (3729 # 10000); (849 # 250); (49 # 10000); (33 # 1000)] [(-583 # 2000); (3531 # 250); (-213 # 2000); (4201 # 1000); (3247 # 10000); (169 # 125); (37 # 2500); (579 # 10000)];
  mkMag "Dy2+"%string [(327 # 2500); (4579 # 250); (1559 # 5000); (1533 # 200); (1159 # 2000); (3147 # 1000); (-113 # 5000); (63 # 2000)] [(5917 # 10000); (18511 # 1000); (2957 # 2500); (6747 # 1000); (8801 # 10000); (1107 # 500); (229 # 10000); (439 # 10000)] [(-1603 # 5000); (12071 # 1000); (113 # 1250); (4013 # 500); (327 # 1250); (123 # 100); (143 # 10000); (767 # 10000)];
  mkMag "Dy3+"%string [(1157 # 10000); (15073 # 1000); (327 # 1000); (6799 # 1000); (5821 # 10000); (151 # 50); (-249 # 10000); (73 # 5000)] [(2523 # 10000); (18517 # 1000); (5457 # 5000); (842 # 125); (1869 # 2000); (276 # 125); (1 # 40); (119 # 2500)] [(-2829 # 10000); (381 # 40); (113 # 2000); (4429 # 1000); (2437 # 10000); (533 # 500); (23 # 2500); (181 # 10000)];
  mkMag "Er2+"%string [(561 # 5000); (9061 # 500); (1731 # 5000); (6911 # 1000); (5649 # 10000); (2761 # 1000); (-47 # 2000); (207 # 10000)] [(4693 # 10000); (2316 # 125); (2109 # 2000); (6649 # 1000); (8679 # 10000); (53 # 25); (261 # 10000); (413 # 10000)] [(-119 # 400); (9829 # 1000); (1189 # 10000); (4741 # 1000); (529 # 2500); (251 # 250); (117 # 10000); (131 # 2500)];
  mkMag "Er3+"%string [(293 # 5000); (899 # 50); (177 # 500); (887 # 125); (3063 # 5000); (687 # 250); (-251 # 10000); (171 # 10000)] [(171 # 1000); (9267 # 500); (9879 # 10000); (53 # 8); (2261 # 2500); (21 # 10); (139 # 5000); (489 # 10000)] [(-321 # 1250); (4917 # 500); (89 # 2500); (4741 # 1000); (543 # 2500); (257 # 250); (37 # 2500); (217 # 5000)];
  mkMag "Eu2+"%string [(151 # 2000); (3162 # 125); (3001 # 10000); (11599 # 1000); (3219 # 5000); (161 # 40); (-49 # 2500); (61 # 1250)] [(897 # 1000); (18443 # 1000); (13769 # 10000); (1401 # 200); (453 # 500); (2421 # 1000); (19 # 1000); (511 # 10000)] [(-829 # 2000); (10193 # 1000); (2447 # 10000); (1291 # 250); (2661 # 10000); (241 # 200); (13 # 2000); (129 # 2500)];
  mkMag "Eu3+"%string [(51 # 2500); (6327 # 250); (301 # 1000); (5737 # 500); (1401 # 2000); (1971 # 500); (-11 # 500); (89 # 2500)] [(797 # 2000); (18451 # 1000); (13307 # 10000); (1739 # 250); (9603 # 10000); (1189 # 500); (197 # 10000); (447 # 10000)] [(-819 # 2000); (10211 # 1000); (297 # 2000); (207 # 40); (34 # 125); (1237 # 1000); (131 # 10000); (247 # 5000)];
  mkMag "Fe"%string [(353 # 5000); (4376 # 125); (3589 # 10000); (7679 # 500); (5819 # 10000); (5561 # 1000); (-57 # 5000); (699 # 5000)] [(3881 # 2000); (18473 # 1000); (9783 # 5000); (6323 # 1000); (2583 # 5000); (2161 # 1000); (9 # 2500); (197 # 5000)] [(-5029 # 10000); (19677 # 1000); (2999 # 10000); (472 # 125); (161 # 625); (178 # 125); (71 # 10000); (73 # 2500)];
  mkMag "Fe+"%string [(1251 # 10000); (34963 # 1000); (3629 # 10000); (7757 # 500); (5223 # 10000); (5591 # 1000); (-21 # 2000); (1301 # 10000)] [(2629 # 1000); (933 # 50); (1169 # 625); (6331 # 1000); (469 # 1000); (2163 # 1000); (31 # 10000); (491 # 10000)] [(-5109 # 10000); (77 # 4); (487 # 1250); (4891 # 1000); (281 # 1000); (763 # 500); (69 # 10000); (3 # 80)];
  mkMag "Fe2+"%string [(263 # 10000); (874 # 25); (917 # 2500); (15943 # 1000); (1547 # 2500); (2797 # 500); (-119 # 10000); (1437 # 10000)] [(1649 # 1000); (16559 # 1000); (2383 # 1250); (6133 # 1000); (2603 # 5000); (2137 # 1000); (7 # 2000); (67 # 2000)] [(-5401 # 10000); (17227 # 1000); (573 # 2000); (1871 # 500); (1329 # 5000); (178 # 125); (19 # 2500); (139 # 5000)];
  mkMag "Fe3+"%string [(993 # 2500); (3311 # 250); (1259 # 2000); (4903 # 1000); (-157 # 5000); (7 # 20); (11 # 2500); (441 # 10000)] [(6801 # 5000); (5999 # 500); (3797 # 2500); (5003 # 1000); (941 # 2000); (1991 # 1000); (19 # 5000); (187 # 5000)] [(-5507 # 10000); (11493 # 1000); (2153 # 10000); (2453 # 500); (867 # 2500); (1523 # 1000); (19 # 2000); (157 # 5000)];
  mkMag "Fe4+"%string [(1891 # 5000); (569 # 50); (1639 # 2500); (574 # 125); (-173 # 5000); (483 # 1000); (1 # 2000); (181 # 5000)] [(7791 # 5000); (331 # 40); (11863 # 10000); (3279 # 1000); (683 # 5000); (1107 # 1000); (-11 # 5000); (327 # 10000)] [(-669 # 1250); (9507 # 1000); (1783 # 10000); (207 # 40); (224 # 625); (1469 # 1000); (97 # 10000); (9 # 250)];
  mkMag "Gd2+"%string [(159 # 2500); (12691 # 500); (3033 # 10000); (2803 # 250); (408 # 625); (947 # 250); (-199 # 10000); (243 # 5000)] [(1939 # 2500); (18469 # 1000); (3281 # 2500); (6899 # 1000); (2239 # 2500); (1169 # 500); (199 # 10000); (441 # 10000)] [(-239 # 625); (1293 # 125); (391 # 2000); (2653 # 500); (1311 # 5000); (1203 # 1000); (97 # 10000); (363 # 10000)];
  mkMag "Gd3+"%string [(93 # 5000); (25387 # 1000); (579 # 2000); (5571 # 500); (1427 # 2000); (469 # 125); (-217 # 10000); (489 # 10000)] [(3347 # 10000); (4619 # 250); (2493 # 2000); (6877 # 1000); (9537 # 10000); (1159 # 500); (217 # 10000); (121 # 2500)] [(-3621 # 10000); (10353 # 1000); (127 # 1250); (531 # 100); (2649 # 10000); (1219 # 1000); (147 # 10000); (247 # 5000)];
  mkMag "Ho2+"%string [(199 # 2000); (2272 # 125); (661 # 2000); (982 # 125); (5921 # 10000); (149 # 50); (-23 # 1000); (31 # 250)] [(2547 # 5000); (3703 # 200); (5617 # 5000); (3353 # 500); (8727 # 10000); (2159 # 1000); (121 # 5000); (7 # 125)] [(-186 # 625); (9719 # 1000); (153 # 1250); (927 # 200); (2279 # 10000); (201 # 200); (63 # 10000); (113 # 2500)];
  mkMag "Ho3+"%string [(283 # 5000); (9159 # 500); (673 # 2000); (961 # 125); (6317 # 10000); (2943 # 1000); (-31 # 1250); (17 # 2500)] [(547 # 2500); (4629 # 250); (128 # 125); (6707 # 1000); (9251 # 10000); (2161 # 1000); (67 # 2500); (503 # 10000)] [(-2717 # 10000); (9731 # 1000); (237 # 5000); (2319 # 500); (573 # 2500); (1047 # 1000); (31 # 2500); (31 # 1000)];
  mkMag "Mn"%string [(1219 # 5000); (24963 # 1000); (92 # 625); (15673 # 1000); (6189 # 10000); (327 # 50); (-21 # 2000); (437 # 2500)] [(26681 # 10000); (803 # 50); (17561 # 10000); (141 # 25); (147 # 400); (2049 # 1000); (17 # 10000); (119 # 2000)] [(-1363 # 2500); (15471 # 1000); (2203 # 5000); (2451 # 500); (721 # 2500); (1543 # 1000); (59 # 10000); (61 # 1250)];
  mkMag "Mn+"%string [(-69 # 5000); (421 # 1000); (4231 # 10000); (6167 # 250); (1181 # 2000); (1331 # 200); (-1 # 1000); (621 # 5000)] [(32953 # 10000); (3739 # 200); (2349 # 1250); (156 # 25); (3927 # 10000); (2201 # 1000); (11 # 5000); (659 # 10000)] [(-7947 # 10000); (17867 # 1000); (3039 # 5000); (963 # 125); (1989 # 5000); (381 # 200); (87 # 10000); (737 # 10000)];
  mkMag "Mn2+"%string [(211 # 500); (4421 # 250); (1487 # 2500); (1201 # 200); (43 # 10000); (-609 # 1000); (-219 # 10000); (589 # 10000)] [(4103 # 2000); (3889 # 250); (18841 # 10000); (6063 # 1000); (4787 # 10000); (279 # 125); (27 # 10000); (153 # 5000)] [(-927 # 1250); (3051 # 200); (3831 # 10000); (6469 # 1000); (787 # 2000); (9 # 5); (93 # 10000); (577 # 10000)];
  mkMag "Mn3+"%string [(2099 # 5000); (14283 # 1000); (3027 # 5000); (5469 # 1000); (9241 # 10000); (-9 # 1000); (-4749 # 5000); (49 # 1250)] [(12427 # 10000); (14997 # 1000); (19567 # 10000); (3059 # 500); (1433 # 2500); (1129 # 500); (31 # 10000); (21 # 625)] [(-6603 # 10000); (13607 # 1000); (1161 # 5000); (3109 # 500); (513 # 1250); (87 # 50); (101 # 10000); (579 # 10000)];
  mkMag "Mn4+"%string [(47 # 125); (6283 # 500); (3301 # 5000); (5133 # 1000); (-93 # 2500); (563 # 1000); (11 # 10000); (393 # 10000)] [(7879 # 10000); (6943 # 500); (18717 # 10000); (5743 # 1000); (5981 # 10000); (1091 # 500); (17 # 5000); (217 # 5000)] [(-5127 # 10000); (13461 # 1000); (313 # 10000); (7763 # 1000); (2141 # 5000); (1701 # 1000); (113 # 10000); (693 # 10000)];
  mkMag "Mo"%string [(903 # 5000); (49057 # 1000); (6153 # 5000); (7393 # 500); (-1067 # 2500); (6987 # 1000); (171 # 10000); (827 # 2000)] [(72367 # 10000); (3516 # 125); (8141 # 2000); (9923 # 1000); (-317 # 10000); (291 # 200); (49 # 10000); (399 # 5000)] [(-1443 # 500); (5143 # 250); (1813 # 1000); (3657 # 250); (11899 # 10000); (533 # 125); (-1 # 1250); (41 # 1000)];
  mkMag "Mo+"%string [(7 # 20); (9607 # 200); (2061 # 2000); (753 # 50); (-3929 # 10000); (7479 # 1000); (139 # 10000); (351 # 1000)] [(72367 # 10000); (3516 # 125); (8141 # 2000); (9923 # 1000); (-317 # 10000); (291 # 200); (49 # 10000); (399 # 5000)] [(-16309 # 5000); (12743 # 500); (5899 # 2500); (8231 # 500); (2791 # 2500); (4491 # 1000); (-7 # 10000); (37 # 625)];
  mkMag "Nb"%string [(1973 # 5000); (4923 # 100); (13197 # 10000); (7411 # 500); (-7269 # 10000); (1202 # 125); (129 # 10000); (3659 # 10000)] [(17547 # 2000); (6657 # 200); (11639 # 2500); (2321 # 200); (-67 # 2500); (1539 # 1000); (11 # 2500); (171 # 2000)] [(-31377 # 10000); (5119 # 200); (23411 # 10000); (16569 # 1000); (769 # 625); (499 # 100); (-1 # 2000); (123 # 2000)];
  mkMag "Nd2+"%string [(329 # 2000); (5009 # 200); (1261 # 5000); (5989 # 500); (1503 # 2500); (2473 # 500); (-9 # 500); (167 # 2500)] [(1453 # 1000); (917 # 50); (4049 # 2500); (1457 # 200); (547 # 625); (1311 # 500); (63 # 5000); (461 # 10000)] [(-677 # 1250); (3051 # 250); (3571 # 10000); (6169 # 1000); (1577 # 5000); (297 # 200); (49 # 5000); (519 # 10000)];
  mkMag "Nd3+"%string [(27 # 500); (25029 # 1000); (3101 # 10000); (6051 # 500); (263 # 400); (2361 # 500); (-27 # 1250); (239 # 5000)] [(6751 # 10000); (9171 # 500); (1017 # 625); (363 # 50); (2411 # 2500); (1301 # 500); (3 # 200); (9 # 200)] [(-4053 # 10000); (7007 # 500); (329 # 10000); (1401 # 200); (3759 # 10000); (1707 # 1000); (209 # 10000); (93 # 2500)];
  mkMag "Ni"%string [(-43 # 2500); (35739 # 1000); (1587 # 5000); (14269 # 1000); (446 # 625); (2283 # 500); (-143 # 10000); (67 # 625)] [(5151 # 5000); (3063 # 250); (14669 # 10000); (949 # 200); (4521 # 10000); (218 # 125); (9 # 2500); (169 # 5000)] [(-1107 # 2500); (2897 # 200); (87 # 1000); (1617 # 500); (733 # 2500); (1331 # 1000); (6 # 625); (277 # 5000)];
  mkMag "Ni+"%string [(141 # 2000); (4482 # 125); (249 # 625); (3451 # 250); (5427 # 10000); (4397 # 1000); (-59 # 5000); (369 # 5000)] [(263 # 125); (7433 # 500); (7151 # 5000); (5071 # 1000); (4031 # 10000); (889 # 500); (17 # 5000); (561 # 10000)] [(-959 # 2500); (537 # 40); (779 # 2500); (2231 # 500); (2471 # 10000); (1309 # 1000); (79 # 10000); (103 # 2000)];
  mkMag "Ni2+"%string [(163 # 10000); (35883 # 1000); (979 # 2500); (13223 # 1000); (1513 # 2500); (4339 # 1000); (-133 # 10000); (817 # 10000)] [(427 # 250); (1377 # 125); (12147 # 10000); (4103 # 1000); (63 # 200); (1533 # 1000); (9 # 5000); (223 # 5000)] [(-3803 # 10000); (10403 # 1000); (1419 # 5000); (1689 # 500); (527 # 2500); (138 # 125); (1 # 200); (237 # 5000)];
  mkMag "Ni3+"%string [(-67 # 5000); (8967 # 250); (1339 # 5000); (12333 # 1000); (3807 # 5000); (4237 # 1000); (-81 # 5000); (999 # 10000)] [(2903 # 2500); (77 # 10); (10027 # 10000); (3263 # 1000); (2719 # 10000); (689 # 500); (1 # 400); (163 # 5000)] [(-743 # 2000); (1119 # 125); (1211 # 10000); (147 # 50); (1263 # 5000); (221 # 200); (61 # 10000); (167 # 5000)];
  mkMag "Ni4+"%string [(-9 # 1000); (35861 # 1000); (347 # 1250); (1179 # 100); (3737 # 5000); (4201 # 1000); (-163 # 10000); (483 # 5000)] [(2903 # 2500); (77 # 10); (10027 # 10000); (3263 # 1000); (2719 # 10000); (689 # 500); (1 # 400); (163 # 5000)] [(-3509 # 10000); (8157 # 1000); (111 # 500); (1053 # 500); (1567 # 10000); (37 # 40); (13 # 2000); (22 # 625)];
  mkMag "Np3+"%string [(5157 # 10000); (4173 # 200); (1424 # 625); (5893 # 1000); (-18163 # 10000); (2423 # 500); (211 # 10000); (689 # 5000)] [(3717 # 1000); (15133 # 1000); (1451 # 625); (5503 # 1000); (-11 # 400); (4 # 5); (13 # 2500); (237 # 2500)] [(-9029 # 10000); (8293 # 500); (2003 # 5000); (647 # 100); (1309 # 2000); (2563 # 1000); (-1 # 2500); (47 # 1000)];
  mkMag "Np4+"%string [(2103 # 5000); (3961 # 200); (7001 # 2500); (2989 # 500); (-5609 # 2500); (997 # 200); (57 # 2500); (88 # 625)] [(29203 # 10000); (7323 # 500); (25979 # 10000); (5559 # 1000); (-301 # 10000); (367 # 1000); (141 # 10000); (133 # 2500)] [(-9887 # 10000); (12441 # 1000); (2959 # 5000); (2647 # 500); (2653 # 5000); (2263 # 1000); (-21 # 10000); (583 # 10000)];
  mkMag "Np5+"%string [(923 # 2500); (1819 # 100); (3151 # 1000); (117 # 20); (-12723 # 5000); (1229 # 250); (31 # 1250); (303 # 2000)] [(5827 # 2500); (6827 # 500); (27219 # 10000); (2747 # 500); (-1357 # 10000); (49 # 1000); (153 # 1250); (553 # 10000)] [(-4073 # 5000); (16581 # 1000); (-11 # 2000); (259 # 40); (1989 # 2500); (1281 # 500); (-1 # 2500); (3 # 50)];
  mkMag "Np6+"%string [(2929 # 10000); (17561 # 1000); (17433 # 5000); (1157 # 200); (-14033 # 5000); (4871 # 1000); (267 # 10000); (849 # 5000)] [(3649 # 2000); (659 # 50); (7127 # 2500); (5407 # 1000); (-1579 # 10000); (11 # 250); (719 # 5000); (117 # 2000)] [(-3369 # 5000); (16553 # 1000); (-2297 # 10000); (1301 # 200); (8513 # 10000); (2553 # 1000); (-3 # 10000); (623 # 10000)];
  mkMag "Pd"%string [(2003 # 10000); (29363 # 1000); (5723 # 5000); (9599 # 1000); (-3689 # 10000); (2021 # 500); (251 # 10000); (2453 # 10000)] [(6621 # 2000); (7363 # 500); (6583 # 2500); (2931 # 500); (-437 # 10000); (113 # 100); (53 # 10000); (123 # 2500)] [(-2331 # 2000); (4407 # 250); (3183 # 10000); (11309 # 1000); (1087 # 1250); (2909 # 1000); (-3 # 5000); (111 # 2000)];
  mkMag "Pd+"%string [(5033 # 10000); (3063 # 125); (9991 # 5000); (1727 # 250); (-381 # 250); (5513 # 1000); (213 # 10000); (1909 # 10000)] [(42749 # 10000); (179 # 10); (27021 # 10000); (3177 # 500); (-129 # 5000); (7 # 10); (71 # 10000); (48 # 625)] [(-7049 # 5000); (3553 # 200); (7927 # 10000); (9999 # 1000); (771 # 1000); (293 # 100); (-3 # 5000); (53 # 1000)];
  mkMag "Pu3+"%string [(48 # 125); (16679 # 1000); (31049 # 10000); (5421 # 1000); (-6287 # 2500); (4551 # 1000); (263 # 10000); (16 # 125)] [(4177 # 2000); (12871 # 1000); (25961 # 10000); (519 # 100); (-293 # 2000); (39 # 1000); (1343 # 10000); (433 # 5000)] [(-3507 # 5000); (16369 # 1000); (-581 # 5000); (6697 # 1000); (3889 # 5000); (49 # 20); (0 # 1); (273 # 5000)];
  mkMag "Pu4+"%string [(2467 # 5000); (4209 # 250); (8197 # 5000); (2819 # 500); (-11581 # 10000); (207 # 50); (31 # 1250); (621 # 5000)] [(6811 # 2500); (6463 # 500); (23387 # 10000); (5163 # 1000); (-13 # 100); (23 # 500); (1177 # 10000); (49 # 1000)] [(-229 # 250); (12203 # 1000); (4891 # 10000); (5127 # 1000); (529 # 1000); (2149 # 1000); (-11 # 5000); (13 # 250)];
  mkMag "Pu5+"%string [(243 # 625); (16559 # 1000); (10181 # 5000); (5657 # 1000); (-2903 # 2000); (851 # 200); (267 # 10000); (1287 # 10000)] [(21409 # 10000); (1604 # 125); (1604 # 625); (644 # 125); (-669 # 5000); (23 # 500); (121 # 1000); (491 # 10000)] [(-1407 # 2000); (409 # 25); (-979 # 10000); (3353 # 500); (3863 # 5000); (2447 # 1000); (0 # 1); (61 # 1000)];
  mkMag "Pu6+"%string [(793 # 2500); (16051 # 1000); (17327 # 5000); (5351 # 1000); (-14051 # 5000); (4513 # 1000); (281 # 10000); (691 # 5000)] [(8631 # 5000); (3081 # 250); (6663 # 2500); (2533 # 500); (-339 # 2000); (41 # 1000); (31 # 200); (251 # 5000)] [(-139 # 250); (8161 # 500); (-1523 # 5000); (846 # 125); (4073 # 5000); (1213 # 500); (1 # 10000); (149 # 2500)];
  mkMag "Rh"%string [(61 # 625); (24941 # 500); (11601 # 10000); (11831 # 1000); (-2789 # 10000); (4127 # 1000); (117 # 5000); (3263 # 10000)] [(33651 # 10000); (2168 # 125); (32121 # 10000); (1701 # 250); (-7 # 200); (503 # 1000); (73 # 5000); (109 # 2000)] [(-3373 # 2500); (17577 # 1000); (4527 # 10000); (10507 # 1000); (1857 # 2000); (631 # 200); (-9 # 10000); (483 # 10000)];
  mkMag "Rh+"%string [(1671 # 5000); (7439 # 250); (12209 # 10000); (4719 # 500); (-1151 # 2000); (1333 # 250); (21 # 1000); (1287 # 5000)] [(2013 # 500); (379 # 20); (31663 # 10000); (7 # 1); (-37 # 1250); (243 # 500); (127 # 10000); (629 # 10000)] [(-14673 # 10000); (17957 # 1000); (7381 # 10000); (1243 # 125); (1697 # 2000); (1563 # 500); (-3 # 2500); (487 # 10000)];
  mkMag "Ru"%string [(1069 # 10000); (6178 # 125); (1489 # 1250); (6371 # 500); (-397 # 1250); (614 # 125); (213 # 10000); (3597 # 10000)] [(7489 # 2000); (18613 # 1000); (34749 # 10000); (371 # 50); (-363 # 10000); (1007 # 1000); (73 # 10000); (533 # 10000)] [(-7521 # 5000); (17949 # 1000); (6027 # 10000); (9961 # 1000); (97 # 100); (3393 # 1000); (-1 # 1000); (169 # 5000)];
  mkMag "Ru+"%string [(441 # 1000); (33309 # 1000); (591 # 400); (9553 # 1000); (-9361 # 10000); (3361 # 500); (11 # 625); (163 # 625)] [(26413 # 5000); (23683 # 1000); (35813 # 10000); (1019 # 125); (-257 # 10000); (213 # 500); (131 # 10000); (83 # 1000)] [(8139 # 5000); (9253 # 500); (2957 # 2500); (10189 # 1000); (4069 # 5000); (1709 # 500); (-9 # 10000); (673 # 10000)];
  mkMag "Sc"%string [(157 # 625); (9003 # 100); (329 # 1000); (19701 # 500); (847 # 2000); (7161 # 500); (-43 # 10000); (2029 # 10000)] [(27043 # 2500); (54327 # 1000); (47353 # 10000); (14847 # 1000); (6071 # 10000); (2109 # 500); (11 # 10000); (303 # 2500)] [(671 # 500); (51 # 5); (3837 # 10000); (3079 # 1000); (117 # 2500); (59 # 500); (-41 # 1250); (1343 # 10000)];
  mkMag "Sc+"%string [(4889 # 10000); (1279 # 25); (5203 # 10000); (3519 # 250); (-143 # 5000); (179 # 1000); (37 # 2000); (1217 # 10000)] [(85021 # 10000); (6857 # 200); (8029 # 2500); (5497 # 500); (1061 # 2500); (721 # 200); (9 # 10000); (1037 # 10000)] [(71167 # 10000); (15487 # 1000); (-66671 # 10000); (18269 # 1000); (49 # 100); (374 # 125); (47 # 10000); (203 # 1250)];
  mkMag "Sc2+"%string [(631 # 1250); (31403 # 1000); (2593 # 5000); (1099 # 100); (-241 # 10000); (1183 # 1000); (0 # 1); (289 # 5000)] [(43683 # 10000); (14327 # 500); (37231 # 10000); (10823 # 1000); (3037 # 5000); (917 # 250); (7 # 5000); (681 # 10000)] [(-4171 # 2500); (1956 # 125); (8871 # 5000); (4531 # 500); (163 # 400); (603 # 250); (21 # 5000); (221 # 2000)];
  mkMag "Sm2+"%string [(909 # 10000); (25203 # 1000); (3037 # 10000); (1482 # 125); (5 # 8); (4237 # 1000); (-1 # 50); (51 # 1250)] [(259 # 250); (737 # 40); (14769 # 10000); (879 # 125); (881 # 1000); (2437 # 1000); (19 # 1250); (69 # 2000)] [(-83 # 200); (14057 # 1000); (171 # 1250); (879 # 125); (409 # 1250); (791 # 500); (12 # 625); (319 # 10000)];
  mkMag "Sm3+"%string [(18 # 625); (25207 # 1000); (2973 # 10000); (11831 # 1000); (3477 # 5000); (1053 # 250); (-213 # 10000); (51 # 1000)] [(4707 # 10000); (1843 # 100); (14261 # 10000); (3517 # 500); (4787 # 5000); (2439 # 1000); (91 # 5000); (51 # 1000)] [(-268 # 625); (2513 # 250); (891 # 5000); (5019 # 1000); (2833 # 10000); (309 # 250); (11 # 1250); (41 # 1250)];
  mkMag "Tb2+"%string [(547 # 10000); (25509 # 1000); (3171 # 10000); (10591 # 1000); (649 # 1000); (3517 # 1000); (-53 # 2500); (171 # 5000)] [(418 # 625); (18491 # 1000); (12487 # 10000); (3411 # 500); (1111 # 1250); (91 # 40); (43 # 2000); (439 # 10000)] [(-3443 # 10000); (10469 # 1000); (1481 # 10000); (677 # 125); (103 # 400); (591 # 500); (13 # 1250); (7 # 250)];
  mkMag "Tb3+"%string [(177 # 10000); (2551 # 100); (2921 # 10000); (10577 # 1000); (7133 # 10000); (439 # 125); (-231 # 10000); (32 # 625)] [(723 # 2500); (18497 # 1000); (5839 # 5000); (6797 # 1000); (9437 # 10000); (2257 # 1000); (29 # 1250); (229 # 5000)] [(-807 # 2500); (2619 # 250); (319 # 5000); (5419 # 1000); (1283 # 5000); (299 # 250); (159 # 10000); (439 # 10000)];
  mkMag "Tc"%string [(649 # 5000); (49661 # 1000); (1457 # 1250); (14131 # 1000); (-1567 # 5000); (5513 # 1000); (39 # 2000); (3869 # 10000)] [(42441 # 10000); (21397 # 1000); (39439 # 10000); (67 # 8); (-371 # 10000); (1187 # 1000); (33 # 5000); (129 # 2000)] [(-1119 # 400); (20159 # 1000); (413 # 250); (16261 # 1000); (5863 # 5000); (3943 # 1000); (-1 # 1250); (657 # 10000)];
  mkMag "Tc+"%string [(1337 # 5000); (48957 # 1000); (9569 # 10000); (15141 # 1000); (-2387 # 10000); (2729 # 500); (2 # 125); (853 # 2500)] [(8007 # 1250); (3103 # 125); (177 # 50); (8611 # 1000); (-183 # 5000); (297 # 200); (11 # 2500); (403 # 5000)] [(-2047 # 1000); (19683 # 1000); (8153 # 5000); (1449 # 125); (4349 # 5000); (3769 # 1000); (-1 # 1000); (723 # 10000)];
  mkMag "Ti"%string [(4657 # 10000); (3359 # 100); (549 # 1000); (9879 # 1000); (-291 # 10000); (323 # 1000); (123 # 10000); (68 # 625)] [(43583 # 10000); (4507 # 125); (3823 # 1000); (11133 # 1000); (1371 # 2000); (3469 # 1000); (1 # 500); (967 # 10000)] [(-4303 # 2000); (11271 # 1000); (25149 # 10000); (8859 # 1000); (711 # 2000); (2149 # 1000); (9 # 2000); (311 # 2500)];
  mkMag "Ti+"%string [(5093 # 10000); (36703 # 1000); (629 # 1250); (10371 # 1000); (-263 # 10000); (311 # 1000); (29 # 2500); (9 # 80)] [(61567 # 10000); (1091 # 40); (26833 # 10000); (8983 # 1000); (407 # 1000); (763 # 250); (11 # 10000); (451 # 5000)] [(-10383 # 10000); (1619 # 100); (14699 # 10000); (2231 # 250); (3631 # 10000); (2283 # 1000); (11 # 2500); (127 # 1000)];
  mkMag "Ti2+"%string [(5091 # 10000); (3122 # 125); (2581 # 5000); (8757 # 1000); (-281 # 10000); (229 # 250); (3 # 2000); (589 # 10000)] [(43107 # 10000); (4587 # 250); (262 # 125); (6797 # 1000); (373 # 1250); (637 # 250); (7 # 10000); (8 # 125)] [(-6621 # 5000); (1531 # 100); (6021 # 5000); (7899 # 1000); (497 # 1250); (539 # 250); (51 # 10000); (41 # 500)];
  mkMag "Ti3+"%string [(3571 # 10000); (22841 # 1000); (418 # 625); (8931 # 1000); (-177 # 5000); (483 # 1000); (99 # 10000); (23 # 400)] [(33717 # 10000); (3611 # 250); (9129 # 5000); (5713 # 1000); (247 # 1000); (453 # 200); (1 # 2000); (491 # 10000)] [(-11117 # 10000); (2927 # 200); (7689 # 10000); (6927 # 1000); (877 # 2000); (2089 # 1000); (3 # 500); (143 # 2500)];
  mkMag "Tm2+"%string [(983 # 10000); (4581 # 250); (169 # 500); (3459 # 500); (47 # 80); (1331 # 500); (-241 # 10000); (101 # 2500)] [(2099 # 5000); (9271 # 500); (9959 # 10000); (33 # 5); (8593 # 10000); (1041 # 500); (71 # 2500); (457 # 10000)] [(-2677 # 10000); (1236 # 125); (37 # 400); (598 # 125); (257 # 1250); (99 # 100); (31 # 2500); (99 # 2500)];
  mkMag "Tm3+"%string [(581 # 10000); (3773 # 250); (2787 # 10000); (7801 # 1000); (3427 # 5000); (2793 # 1000); (-14 # 625); (351 # 10000)] [(22 # 125); (9271 # 500); (1821 # 2000); (6579 # 1000); (897 # 1000); (1031 # 500); (147 # 5000); (117 # 2500)] [(-573 # 2500); (1979 # 200); (31 # 2500); (957 # 200); (527 # 2500); (1007 # 1000); (151 # 10000); (167 # 5000)];
  mkMag "U3+"%string [(2529 # 5000); (2911 # 125); (1683 # 1250); (7003 # 1000); (-2181 # 2500); (1217 # 250); (12 # 625); (1507 # 10000)] [(20791 # 5000); (8267 # 500); (987 # 400); (744 # 125); (-63 # 2500); (153 # 200); (57 # 10000); (411 # 5000)] [(-9859 # 10000); (16601 # 1000); (1529 # 2500); (1303 # 200); (301 # 500); (2597 # 1000); (-1 # 1000); (599 # 10000)];
  mkMag "U4+"%string [(3291 # 10000); (5887 # 250); (2709 # 2500); (4227 # 500); (-217 # 500); (103 # 25); (107 # 5000); (1757 # 10000)] [(37449 # 10000); (6947 # 500); (26453 # 10000); (4863 # 1000); (-2609 # 5000); (399 # 125); (9 # 10000); (58 # 625)] [(-527 # 500); (3321 # 200); (4339 # 10000); (814 # 125); (3373 # 5000); (2599 # 1000); (-11 # 10000); (471 # 10000)];
  mkMag "U5+"%string [(73 # 200); (4951 # 250); (32199 # 10000); (3141 # 500); (-26077 # 10000); (5301 # 1000); (233 # 10000); (7 # 40)] [(7681 # 2500); (6273 # 500); (5769 # 2500); (5231 # 1000); (-161 # 2500); (737 # 500); (7 # 2000); (477 # 10000)] [(-2397 # 2500); (3297 # 200); (197 # 1250); (161 # 25); (1557 # 2000); (66 # 25); (-1 # 1000); (493 # 10000)];
  mkMag "V"%string [(2043 # 5000); (28811 # 1000); (6077 # 10000); (1068 # 125); (-59 # 2000); (277 # 1000); (123 # 10000); (97 # 1000)] [(38099 # 10000); (21347 # 1000); (4659 # 2000); (7409 # 1000); (4333 # 10000); (329 # 125); (3 # 2000); (323 # 5000)] [(-9633 # 10000); (15273 # 1000); (4637 # 5000); (1933 # 250); (3891 # 10000); (2053 # 1000); (63 # 10000); (21 # 2500)];
  mkMag "V+"%string [(1111 # 2500); (4081 # 125); (5683 # 10000); (9097 # 1000); (-457 # 2000); (11 # 500); (43 # 200); (1111 # 10000)] [(23737 # 5000); (23323 # 1000); (23609 # 10000); (976 # 125); (821 # 2000); (1353 # 500); (7 # 5000); (2 # 25)] [(-4803 # 5000); (3109 # 200); (5639 # 5000); (4059 # 500); (3653 # 10000); (2097 # 1000); (7 # 1250); (1027 # 10000)];
  mkMag "V2+"%string [(817 # 2000); (23853 # 1000); (6091 # 10000); (4123 # 500); (-419 # 2500); (41 # 1000); (187 # 1250); (593 # 10000)] [(17193 # 5000); (1653 # 100); (9819 # 5000); (6141 # 1000); (2997 # 10000); (2267 # 1000); (9 # 10000); (113 # 2000)] [(-11729 # 10000); (14973 # 1000); (2273 # 2500); (7613 # 1000); (821 # 2000); (2039 # 1000); (67 # 10000); (719 # 10000)];
  mkMag "V3+"%string [(1799 # 5000); (2417 # 125); (829 # 1250); (7617 # 1000); (-383 # 1250); (3 # 100); (567 # 2000); (103 # 2000)] [(4601 # 2000); (7341 # 500); (5091 # 2500); (613 # 100); (4099 # 10000); (1191 # 500); (7 # 5000); (63 # 2500)] [(-9417 # 10000); (2841 # 200); (1321 # 2500); (6607 # 1000); (4411 # 10000); (1967 # 1000); (19 # 2500); (569 # 10000)];
  mkMag "V4+"%string [(1553 # 5000); (2102 # 125); (3599 # 5000); (7049 # 1000); (-521 # 10000); (151 # 500); (221 # 10000); (433 # 10000)] [(18377 # 10000); (12267 # 1000); (18247 # 10000); (2729 # 500); (3979 # 10000); (281 # 125); (3 # 2500); (399 # 10000)] [(-3827 # 5000); (13097 # 1000); (3071 # 10000); (2837 # 500); (1119 # 2500); (1871 # 1000); (81 # 10000); (259 # 5000)];
  mkMag "Y"%string [(1183 # 2000); (8451 # 125); (15123 # 10000); (179 # 10); (-1113 # 1000); (1767 # 125); (1 # 125); (409 # 1250)] [(36021 # 2500); (22329 # 500); (10209 # 2000); (1863 # 125); (-107 # 2000); (3319 # 1000); (7 # 2500); (1093 # 10000)] [(-80767 # 10000); (32201 # 1000); (79197 # 10000); (6289 # 250); (14067 # 10000); (6287 # 1000); (-1 # 10000); (1031 # 10000)];
  mkMag "Yb2+"%string [(171 # 2000); (2314 # 125); (2943 # 10000); (7373 # 1000); (1603 # 2500); (1339 # 500); (-213 # 10000); (421 # 10000)] [(963 # 2500); (371 # 20); (1883 # 2000); (6551 # 1000); (2123 # 2500); (2043 # 1000); (301 # 10000); (239 # 5000)] [(-2393 # 10000); (9947 # 1000); (663 # 10000); (4823 # 1000); (2009 # 10000); (193 # 200); (61 # 5000); (311 # 10000)];
  mkMag "Yb3+"%string [(26 # 625); (3219 # 200); (2849 # 10000); (3917 # 500); (6961 # 10000); (334 # 125); (-229 # 10000); (43 # 1250)] [(157 # 1000); (3711 # 200); (2121 # 2500); (327 # 50); (111 # 125); (2037 # 1000); (159 # 5000); (249 # 5000)] [(-2121 # 10000); (8197 # 1000); (13 # 400); (3153 # 1000); (79 # 400); (221 # 250); (93 # 10000); (87 # 2000)];
  mkMag "Zr"%string [(2053 # 5000); (14999 # 250); (10543 # 10000); (2331 # 125); (-4751 # 10000); (527 # 50); (53 # 5000); (3667 # 10000)] [(50689 # 5000); (35337 # 1000); (23867 # 5000); (2509 # 200); (-489 # 10000); (334 # 125); (9 # 2500); (57 # 625)] [(-52697 # 10000); (8217 # 250); (4193 # 1000); (24183 # 1000); (7601 # 5000); (756 # 125); (-1 # 5000); (171 # 2000)];
  mkMag "Zr+"%string [(1133 # 2500); (11919 # 200); (3917 # 5000); (5359 # 250); (-2451 # 10000); (2259 # 250); (49 # 5000); (3639 # 10000)] [(59361 # 5000); (873 # 25); (20251 # 5000); (12127 # 1000); (-79 # 1250); (707 # 250); (17 # 5000); (737 # 10000)] [(-3524 # 625); (33607 # 1000); (46729 # 10000); (11169 # 500); (6629 # 5000); (1481 # 250); (-3 # 10000); (337 # 5000)]].
