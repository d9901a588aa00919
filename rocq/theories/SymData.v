(** Generated by tools/gen_symdata.py from /repo/neutronpy/database/symmetry.json, in file order:
    key, total_operations, generators, number, full_name, hermann-manguin_symbol, point_group, type. *)
From Coq Require Import String List ZArith.
Import ListNotations.
Local Open Scope string_scope.

Record entry := mkE { e_key : string; e_total : nat; e_gens : list string; e_number : Z; e_full : string;
  e_hm : string; e_pg : string; e_type : string }.

Definition table : list entry := [
  mkE "P1" 1 ["x,y,z"] 1 "P1" "P1" "1" "triclinic";
  mkE "P-1" 2 ["x,y,z"; "-x,-y,-z"] 2 "P-1" "P-1" "-1" "triclinic";
  mkE "P121" 2 ["x,y,z"; "-x,y,-z"] 3 "P121" "P2" "2" "monoclinic";
  mkE "P12_11" 2 ["x,y,z"; "-x,y+1/2,-z"] 4 "P12_11" "P21" "2" "monoclinic";
  mkE "C121" 4 ["x,y,z"; "-x,y,-z"; "x+1/2,y+1/2,z"] 5 "C121" "C2" "2" "monoclinic";
  mkE "P1m1" 2 ["x,y,z"; "x,-y,z"] 6 "P1m1" "Pm" "m" "monoclinic";
  mkE "P1c1" 2 ["x,y,z"; "x,-y,z+1/2"] 7 "P1c1" "Pc" "m" "monoclinic";
  mkE "C1m1" 4 ["x,y,z"; "x,-y,z"; "x+1/2,y+1/2,z"] 8 "C1m1" "Cm" "m" "monoclinic";
  mkE "C1c1" 4 ["x,y,z"; "x,-y,z+1/2"; "x+1/2,y+1/2,z"] 9 "C1c1" "Cc" "m" "monoclinic";
  mkE "P12/m1" 4 ["x,y,z"; "x,-y,z"; "-x,-y,-z"] 10 "P12/m1" "P2/m" "2/m" "monoclinic";
  mkE "P12_1/m1" 4 ["x,y,z"; "-x,y+1/2,-z"; "-x,-y,-z"] 11 "P12_1/m1" "P21/m" "2/m" "monoclinic";
  mkE "C12/m1" 8 ["x,y,z"; "-x,y,-z"; "-x,-y,-z"; "x+1/2,y+1/2,z"] 12 "C12/m1" "C2/m" "2/m" "monoclinic";
  mkE "P12/c1" 4 ["x,y,z"; "-x,y,-z+1/2"; "-x,-y,-z"] 13 "P12/c1" "P2/c" "2/m" "monoclinic";
  mkE "P12_1/c1" 4 ["x,y,z"; "-x,y+1/2,-z+1/2"; "-x,-y,-z"] 14 "P12_1/c1" "P21/c" "2/m" "monoclinic";
  mkE "C12/c1" 8 ["x,y,z"; "-x,y,-z+1/2"; "-x,-y,-z"; "x+1/2,y+1/2,z"] 15 "C12/c1" "C2/c" "2/m" "monoclinic";
  mkE "P222" 4 ["x,y,z"; "-x,-y,z"; "-x,y,-z"] 16 "P222" "P222" "222" "orthorhombic";
  mkE "P222_1" 4 ["x,y,z"; "-x,-y,z+1/2"; "-x,y,-z+1/2"] 17 "P222_1" "P2221" "222" "orthorhombic";
  mkE "P2_12_12" 4 ["x,y,z"; "-x,-y,z"; "-x+1/2,y+1/2,-z"] 18 "P2_12_12" "P21212" "222" "orthorhombic";
  mkE "P2_12_121" 4 ["x,y,z"; "-x+1/2,-y,z+1/2"; "-x,y+1/2,-z+1/2"] 19 "P2_12_12_1" "P212121" "222" "orthorhombic";
  mkE "C222_1" 8 ["x,y,z"; "-x,-y,z+1/2"; "-x,y,-z+1/2"; "x+1/2,y+1/2,z"] 20 "C222_1" "C2221" "222" "orthorhombic";
  mkE "C222" 8 ["x,y,z"; "-x,-y,z"; "-x,y,-z"; "x+1/2,y+1/2,z"] 21 "C222" "C222" "222" "orthorhombic";
  mkE "F222" 16 ["x,y,z"; "-x,-y,z"; "-x,y,-z"; "x,y+1/2,z+1/2"; "x+1/2,y,z+1/2"] 22 "F222" "F222" "222" "orthorhombic";
  mkE "I222" 8 ["x,y,z"; "-x,-y,z"; "-x,y,-z"; "x+1/2,y+1/2,z+1/2"] 23 "I222" "I222" "222" "orthorhombic";
  mkE "I2_12_121" 8 ["x,y,z"; "-x+1/2,-y,z+1/2"; "-x,y+1/2,-z+1/2"; "x+1/2,y+1/2,z+1/2"] 24 "I2_12_12_1" "I212121" "222" "orthorhombic";
  mkE "Pmm2" 4 ["x,y,z"; "-x,-y,z"; "x,-y,z"] 25 "Pmm2" "Pmm2" "mm2" "orthorhombic";
  mkE "Pmc2_1" 4 ["x,y,z"; "-x,-y,z+1/2"; "x,-y,z+1/2"] 26 "Pmc2_1" "Pmc21" "mm2" "orthorhombic";
  mkE "Pcc2" 4 ["x,y,z"; "-x,-y,z"; "x,-y,z+1/2"] 27 "Pcc2" "Pcc2" "mm2" "orthorhombic";
  mkE "Pma2" 4 ["x,y,z"; "-x,-y,z"; "x+1/2,-y,z"] 28 "Pma2" "Pma2" "mm2" "orthorhombic";
  mkE "Pca2_1" 4 ["x,y,z"; "-x,-y,z+1/2"; "x+1/2,-y,z"] 29 "Pca2_1" "Pca21" "mm2" "orthorhombic";
  mkE "Pnc2" 4 ["x,y,z"; "-x,-y,z"; "x,-y+1/2,z+1/2"] 30 "Pnc2" "Pnc2" "mm2" "orthorhombic";
  mkE "Pmn2_1" 4 ["x,y,z"; "-x+1/2,-y,z+1/2"; "x+1/2,-y,z+1/2"] 31 "Pmn2_1" "Pmn21" "mm2" "orthorhombic";
  mkE "Pba2" 4 ["x,y,z"; "-x,-y,z"; "x+1/2,-y+1/2,z"] 32 "Pba2" "Pba2" "mm2" "orthorhombic";
  mkE "Pna2_1" 4 ["x,y,z"; "-x,-y,z+1/2"; "x+1/2,-y+1/2,z"] 33 "Pna2_1" "Pna21" "mm2" "orthorhombic";
  mkE "Pnn2" 4 ["x,y,z"; "-x,-y,z"; "x+1/2,-y+1/2,z+1/2"] 34 "Pnn2" "Pnn2" "mm2" "orthorhombic";
  mkE "Cmm2" 8 ["x,y,z"; "x+1/2,y+1/2,z"; "-x,-y,z"; "x,-y,z"] 35 "Cmm2" "Cmm2" "mm2" "orthorhombic";
  mkE "Cmc2_1" 8 ["x,y,z"; "x+1/2,y+1/2,z"; "-x,-y,z+1/2"; "x,-y,z+1/2"] 36 "Cmc2_1" "Cmc21" "mm2" "orthorhombic";
  mkE "Ccc2" 8 ["x,y,z"; "x+1/2,y+1/2,z"; "-x,-y,z"; "x,-y,z+1/2"] 37 "Ccc2" "Ccc2" "mm2" "orthorhombic";
  mkE "Amm2" 8 ["x,y,z"; "x,y+1/2,z+1/2"; "-x,-y,z"; "x,-y,z"] 38 "Amm2" "Amm2" "mm2" "orthorhombic";
  mkE "Abm2" 8 ["x,y,z"; "x,y+1/2,z+1/2"; "-x,-y,z"; "x,-y+1/2,z"] 39 "Aem2" "Aem2" "mm2" "orthorhombic";
  mkE "Ama2" 8 ["x,y,z"; "x,y+1/2,z+1/2"; "-x,-y,z"; "x+1/2,-y,z"] 40 "Ama2" "Ama2" "mm2" "orthorhombic";
  mkE "Aba2" 8 ["x,y,z"; "x,y+1/2,z+1/2"; "-x,-y,z"; "x+1/2,-y+1/2,z"] 41 "Aea2" "Aea2" "mm2" "orthorhombic";
  mkE "Fmm2" 16 ["x,y,z"; "x+1/2,y+1/2,z"; "x+1/2,y,z+1/2"; "-x,-y,z"; "x,-y,z"] 42 "Fmm2" "Fmm2" "mm2" "orthorhombic";
  mkE "Fdd2" 16 ["x,y,z"; "x+1/2,y+1/2,z"; "x+1/2,y,z+1/2"; "-x,-y,z"; "x+1/4,-y+1/4,z+1/4"] 43 "Fdd2" "Fdd2" "mm2" "orthorhombic";
  mkE "Imm2" 8 ["x,y,z"; "x+1/2,y+1/2,z+1/2"; "-x,-y,z"; "x,-y,z"] 44 "Imm2" "Imm2" "mm2" "orthorhombic";
  mkE "Iba2" 8 ["x,y,z"; "x+1/2,y+1/2,z+1/2"; "-x,-y,z"; "x+1/2,-y+1/2,z"] 45 "Iba2" "Iba2" "mm2" "orthorhombic";
  mkE "Ima2" 8 ["x,y,z"; "x+1/2,y+1/2,z+1/2"; "-x,-y,z"; "x+1/2,-y,z"] 46 "Ima2" "Ima2" "mm2" "orthorhombic";
  mkE "Pmmm" 8 ["x,y,z"; "-x,-y,z"; "-x,y,-z"; "-x,-y,-z"] 47 "P2/m2/m2/m" "Pmmm" "mmm" "orthorhombic";
  mkE "Pnnn" 8 ["x,y,z"; "-x+1/2,-y+1/2,z"; "-x+1/2,y,-z+1/2"; "-x,-y,-z"] 48 "P2/n2/n2/n" "Pnnn" "mmm" "orthorhombic";
  mkE "Pccm" 8 ["x,y,z"; "-x,-y,z"; "-x,y,-z+1/2"; "-x,-y,-z"] 49 "P2/c2/c2/m" "Pccm" "mmm" "orthorhombic";
  mkE "Pban" 8 ["x,y,z"; "-x+1/2,-y+1/2,z"; "-x+1/2,y,-z"; "-x,-y,-z"] 50 "P2/b2/a2/n" "Pban" "mmm" "orthorhombic";
  mkE "Pmma" 8 ["x,y,z"; "-x+1/2,-y,z"; "-x,y,-z"; "-x,-y,-z"] 51 "P2_1/m2/m2/a" "Pmma" "mmm" "orthorhombic";
  mkE "Pnna" 8 ["x,y,z"; "-x+1/2,-y,z"; "-x+1/2,y+1/2,-z+1/2"; "-x,-y,-z"] 52 "P2/n2_1/n2/a" "Pnna" "mmm" "orthorhombic";
  mkE "Pmna" 8 ["x,y,z"; "-x+1/2,-y,z+1/2"; "-x+1/2,y,-z+1/2"; "-x,-y,-z"] 53 "P2/m2/n2_1/a" "Pmna" "mmm" "orthorhombic";
  mkE "Pcca" 8 ["x,y,z"; "-x+1/2,-y,z"; "-x,y,-z+1/2"; "-x,-y,-z"] 54 "P2_1/c2/c2/a" "Pcca" "mmm" "orthorhombic";
  mkE "Pbam" 8 ["x,y,z"; "-x,-y,z"; "-x+1/2,y+1/2,-z"; "-x,-y,-z"] 55 "P2_1/b2_1/a2/m" "Pbam" "mmm" "orthorhombic";
  mkE "Pccn" 8 ["x,y,z"; "-x+1/2,-y+1/2,z"; "-x,y+1/2,-z+1/2"; "-x,-y,-z"] 56 "P2_1/c2_1/c2/n" "Pccn" "mmm" "orthorhombic";
  mkE "Pbcm" 8 ["x,y,z"; "-x,-y,z+1/2"; "-x,y+1/2,-z+1/2"; "-x,-y,-z"] 57 "P2/b2_1/c2_1/m" "Pbcm" "mmm" "orthorhombic";
  mkE "Pnnm" 8 ["x,y,z"; "-x,-y,z"; "-x+1/2,y+1/2,-z+1/2"; "-x,-y,-z"] 58 "P2_1/n2_1/n2/m" "Pnnm" "mmm" "orthorhombic";
  mkE "Pmmn" 8 ["x,y,z"; "-x+1/2,-y+1/2,z"; "-x,y+1/2,-z"; "-x,-y,-z"] 59 "P2_1/m2_1/m2/n" "Pmmn" "mmm" "orthorhombic";
  mkE "Pbcn" 8 ["x,y,z"; "-x+1/2,-y+1/2,z+1/2"; "-x,y,-z+1/2"; "-x,-y,-z"] 60 "P2_1/b2/c2_1/n" "Pbcn" "mmm" "orthorhombic";
  mkE "Pbca" 8 ["x,y,z"; "-x+1/2,-y,z+1/2"; "-x,y+1/2,-z+1/2"; "-x,-y,-z"] 61 "P2_1/b2_1/c2_1/a" "Pbca" "mmm" "orthorhombic";
  mkE "Pnma" 8 ["x,y,z"; "-x+1/2,-y,z+1/2"; "-x,y+1/2,-z"; "-x,-y,-z"] 62 "P2_1/n2_1/m2_1/a" "Pnma" "mmm" "orthorhombic";
  mkE "Cmcm" 16 ["x,y,z"; "x+1/2,y+1/2,z"; "-x,-y,z+1/2"; "-x,y,-z+1/2"; "-x,-y,-z"] 63 "C2/m2/c2_1/m" "Cmcm" "mmm" "orthorhombic";
  mkE "Cmce" 16 ["x,y,z"; "x+1/2,y+1/2,z"; "-x,-y+1/2,z+1/2"; "-x,y+1/2,-z+1/2"; "-x,-y,-z"] 64 "C2/m2/c2_1/e" "Cmce" "mmm" "orthorhombic";
  mkE "Cmmm" 16 ["x,y,z"; "x+1/2,y+1/2,z"; "-x,-y,z"; "-x,y,-z"; "-x,-y,-z"] 65 "C2/m2/m2/m" "Cmmm" "mmm" "orthorhombic";
  mkE "Cccm" 16 ["x,y,z"; "x+1/2,y+1/2,z"; "-x,-y,z"; "-x,y,-z+1/2"; "-x,-y,-z"] 66 "C2/c2/c2/m" "Cccm" "mmm" "orthorhombic";
  mkE "Cmma" 16 ["x,y,z"; "x+1/2,y+1/2,z"; "-x,-y+1/2,z"; "-x,y+1/2,-z"; "-x,-y,-z"] 67 "C2/m2/m2/e" "Cmme" "mmm" "orthorhombic";
  mkE "Ccca" 16 ["x,y,z"; "x+1/2,y+1/2,z"; "-x+1/2,-y,z"; "-x,y,-z+1/2"; "-x,-y,-z"] 68 "C2/c2/c2/e" "Ccce" "mmm" "orthorhombic";
  mkE "Fmmm" 32 ["x,y,z"; "x+1/2,y+1/2,z"; "x+1/2,y,z+1/2"; "-x,-y,z"; "-x,y,-z"; "-x,-y,-z"] 69 "F2/m2/m2/m" "Fmmm" "mmm" "orthorhombic";
  mkE "Fddd" 32 ["x,y,z"; "x+1/2,y+1/2,z"; "x+1/2,y,z+1/2"; "-x+3/4,-y+3/4,z"; "-x+3/4,y,-z+3/4"; "-x,-y,-z"] 70 "F2/d2/d2/d" "Fddd" "mmm" "orthorhombic";
  mkE "Immm" 16 ["x,y,z"; "x+1/2,y+1/2,z+1/2"; "-x,-y,z"; "-x,y,-z"; "-x,-y,-z"] 71 "I2/m2/m2/m" "Immm" "mmm" "orthorhombic";
  mkE "Ibam" 16 ["x,y,z"; "x+1/2,y+1/2,z+1/2"; "-x,-y,z"; "-x+1/2,y+1/2,-z"; "-x,-y,-z"] 72 "I2/b2/a2/m" "Ibam" "mmm" "orthorhombic";
  mkE "Ibca" 16 ["x,y,z"; "x+1/2,y+1/2,z+1/2"; "-x+1/2,-y,z+1/2"; "-x,y+1/2,-z+1/2"; "-x,-y,-z"] 73 "I2_1/b2_1/c2_1/a" "Ibca" "mmm" "orthorhombic";
  mkE "Imma" 16 ["x,y,z"; "x+1/2,y+1/2,z+1/2"; "-x,-y+1/2,z"; "-x,y+1/2,-z"; "-x,-y,-z"] 74 "I2_1/m2_1/m2_1/a" "Imma" "mmm" "orthorhombic";
  mkE "P4" 4 ["x,y,z"; "-x,-y,z"; "-y,x,z"] 75 "P4" "P4" "4" "tetragonal";
  mkE "P4_1" 4 ["x,y,z"; "-x,-y,z+1/2"; "-y,x,z+1/4"] 76 "P4_1" "P41" "4" "tetragonal";
  mkE "P4_2" 4 ["x,y,z"; "-x,-y,z"; "-y,x,z+1/2"] 77 "P4_2" "P42" "4" "tetragonal";
  mkE "P4_3" 4 ["x,y,z"; "-x,-y,z+1/2"; "-y,x,z+3/4"] 78 "P4_3" "P43" "4" "tetragonal";
  mkE "I4" 8 ["x,y,z"; "x+1/2,y+1/2,z+1/2"; "-x,-y,z"; "-y,x,z"] 79 "I4" "I4" "4" "tetragonal";
  mkE "I4_1" 8 ["x,y,z"; "x+1/2,y+1/2,z+1/2"; "-x+1/2,-y+1/2,z+1/2"; "-y,x+1/2,z+1/4"] 80 "I4_1" "I41" "4" "tetragonal";
  mkE "P-4" 4 ["x,y,z"; "-x,-y,z"; "y,-x,-z"] 81 "P-4" "P-4" "-4" "tetragonal";
  mkE "I-4" 8 ["x,y,z"; "x+1/2,y+1/2,z+1/2"; "-x,-y,z"; "y,-x,-z"] 82 "I-4" "I-4" "-4" "tetragonal";
  mkE "P4/m" 8 ["x,y,z"; "-x,-y,z"; "-y,x,z"; "-x,-y,-z"] 83 "P4/m" "P4/m" "4/m" "tetragonal";
  mkE "P4_2/m" 8 ["x,y,z"; "-x,-y,z"; "-y,x,z+1/2"; "-x,-y,-z"] 84 "P4_2/m" "P42/m" "4/m" "tetragonal";
  mkE "P4/n" 8 ["x,y,z"; "-x+1/2,-y+1/2,z"; "-y+1/2,x,z"; "-x,-y,-z"] 85 "P4/n" "P4/n" "4/m" "tetragonal";
  mkE "P4_2/n" 8 ["x,y,z"; "-x+1/2,-y+1/2,z"; "-y,x+1/2,z+1/2"; "-x,-y,-z"] 86 "P4_2/n" "P42/n" "4/m" "tetragonal";
  mkE "I4/m" 16 ["x,y,z"; "x+1/2,y+1/2,z+1/2"; "-x,-y,z"; "-y,x,z"; "-x,-y,-z"] 87 "I4/m" "I4/m" "4/m" "tetragonal";
  mkE "I4_1/a" 16 ["x,y,z"; "x+1/2,y+1/2,z+1/2"; "-x+1/2,-y,z+1/2"; "-y+3/4,x+1/4,z+1/4"; "-x,-y,-z"] 88 "I4_1/a" "I41/a" "4/m" "tetragonal";
  mkE "P422" 8 ["x,y,z"; "-x,-y,z"; "-y,x,z"; "-x,y,-z"] 89 "P422" "P422" "422" "tetragonal";
  mkE "P42_12" 8 ["x,y,z"; "-x,-y,z"; "-y+1/2,x+1/2,z"; "-x+1/2,y+1/2,-z"] 90 "P42_12" "P4212" "422" "tetragonal";
  mkE "P4_122" 8 ["x,y,z"; "-x,-y,z+1/2"; "-y,x,z+1/4"; "-x,y,-z"] 91 "P4_122" "P4122" "422" "tetragonal";
  mkE "P4_12_12" 8 ["x,y,z"; "-x,-y,z+1/2"; "-y+1/2,x+1/2,z+1/4"; "-x+1/2,y+1/2,-z+1/4"] 92 "P4_12_12" "P41212" "422" "tetragonal";
  mkE "P4_222" 8 ["x,y,z"; "-x,-y,z"; "-y,x,z+1/2"; "-x,y,-z"] 93 "P4_222" "P4222" "422" "tetragonal";
  mkE "P4_22_12" 8 ["x,y,z"; "-x,-y,z"; "-y+1/2,x+1/2,z+1/2"; "-x+1/2,y+1/2,-z+1/2"] 94 "P4_22_12" "P42212" "422" "tetragonal";
  mkE "P4_322" 8 ["x,y,z"; "-x,-y,z+1/2"; "-y,x,z+3/4"; "-x,y,-z"] 95 "P4_322" "P4322" "422" "tetragonal";
  mkE "P4_32_12" 8 ["x,y,z"; "-x,-y,z+1/2"; "-y+1/2,x+1/2,z+3/4"; "-x+1/2,y+1/2,-z+3/4"] 96 "P4_32_12" "P43212" "422" "tetragonal";
  mkE "I422" 16 ["x,y,z"; "x+1/2,y+1/2,z+1/2"; "-x,-y,z"; "-y,x,z"; "-x,y,-z"] 97 "I422" "I422" "422" "tetragonal";
  mkE "I4_122" 16 ["x,y,z"; "x+1/2,y+1/2,z+1/2"; "-x+1/2,-y+1/2,z+1/2"; "-y,x+1/2,z+1/4"; "-x+1/2,y,-z+3/4"] 98 "I4_122" "I4122" "422" "tetragonal";
  mkE "P4mm" 8 ["x,y,z"; "-x,-y,z"; "-y,x,z"; "x,-y,z"] 99 "P4mm" "P4mm" "4mm" "tetragonal";
  mkE "P4bm" 8 ["x,y,z"; "-x,-y,z"; "-y,x,z"; "x+1/2,-y+1/2,z"] 100 "P4bm" "P4bm" "4mm" "tetragonal";
  mkE "P4_2cm" 8 ["x,y,z"; "-x,-y,z"; "-y,x,z+1/2"; "x,-y,z+1/2"] 101 "P4_2cm" "P42cm" "4mm" "tetragonal";
  mkE "P4_2nm" 8 ["x,y,z"; "-x,-y,z"; "-y+1/2,x+1/2,z+1/2"; "x+1/2,-y+1/2,z+1/2"] 102 "P4_2nm" "P42nm" "4mm" "tetragonal";
  mkE "P4cc" 8 ["x,y,z"; "-x,-y,z"; "-y,x,z"; "x,-y,z+1/2"] 103 "P4cc" "P4cc" "4mm" "tetragonal";
  mkE "P4nc" 8 ["x,y,z"; "-x,-y,z"; "-y,x,z"; "x+1/2,-y+1/2,z+1/2"] 104 "P4nc" "P4nc" "4mm" "tetragonal";
  mkE "P4_2mc" 8 ["x,y,z"; "-x,-y,z"; "-y,x,z+1/2"; "x,-y,z"] 105 "P4_2mc" "P42mc" "4mm" "tetragonal";
  mkE "P4_2bc" 8 ["x,y,z"; "-x,-y,z"; "-y,x,z+1/2"; "x+1/2,-y+1/2,z"] 106 "P4_2bc" "P42bc" "4mm" "tetragonal";
  mkE "I4mm" 16 ["x,y,z"; "x+1/2,y+1/2,z+1/2"; "-x,-y,z"; "-y,x,z"; "x,-y,z"] 107 "I4mm" "I4mm" "4mm" "tetragonal";
  mkE "I4cm" 16 ["x,y,z"; "x+1/2,y+1/2,z+1/2"; "-x,-y,z"; "-y,x,z"; "x,-y,z+1/2"] 108 "I4cm" "I4cm" "4mm" "tetragonal";
  mkE "I4_1md" 16 ["x,y,z"; "x+1/2,y+1/2,z+1/2"; "-x+1/2,-y+1/2,z+1/2"; "-y,x+1/2,z+1/4"; "x,-y,z"] 109 "I4_1md" "I41md" "4mm" "tetragonal";
  mkE "I4_1cd" 16 ["x,y,z"; "x+1/2,y+1/2,z+1/2"; "-x+1/2,-y+1/2,z+1/2"; "-y,x+1/2,z+1/4"; "x,-y,z+1/2"] 110 "I4_1cd" "I41cd" "4mm" "tetragonal";
  mkE "P-42m" 8 ["x,y,z"; "-x,-y,z"; "y,-x,-z"; "-x,y,-z"] 111 "P-42m" "P-42m" "-42m" "tetragonal";
  mkE "P-42c" 8 ["x,y,z"; "-x,-y,z"; "y,-x,-z"; "-x,y,-z+1/2"] 112 "P-42c" "P-42c" "-42m" "tetragonal";
  mkE "P-42_1m" 8 ["x,y,z"; "-x,-y,z"; "y,-x,-z"; "-x+1/2,y+1/2,-z"] 113 "P-42_1m" "P-421m" "-42m" "tetragonal";
  mkE "P-42_1c" 8 ["x,y,z"; "-x,-y,z"; "y,-x,-z"; "-x+1/2,y+1/2,-z+1/2"] 114 "P-42_1c" "P-421c" "-42m" "tetragonal";
  mkE "P-4m2" 8 ["x,y,z"; "-x,-y,z"; "y,-x,-z"; "x,-y,z"] 115 "P-4m2" "P-4m2" "-4m2" "tetragonal";
  mkE "P-4c2" 8 ["x,y,z"; "-x,-y,z"; "y,-x,-z"; "x,-y,z+1/2"] 116 "P-4c2" "P-4c2" "-4m2" "tetragonal";
  mkE "P-4b2" 8 ["x,y,z"; "-x,-y,z"; "y,-x,-z"; "x+1/2,-y+1/2,z"] 117 "P-4b2" "P-4b2" "-4m2" "tetragonal";
  mkE "P-4n2" 8 ["x,y,z"; "-x,-y,z"; "y,-x,-z"; "x+1/2,-y+1/2,z+1/2"] 118 "P-4n2" "P-4n2" "-4m2" "tetragonal";
  mkE "I-4m2" 16 ["x,y,z"; "x+1/2,y+1/2,z+1/2"; "-x,-y,z"; "y,-x,-z"; "x,-y,z"] 119 "I-4m2" "I-4m2" "-4m2" "tetragonal";
  mkE "I-4c2" 16 ["x,y,z"; "x+1/2,y+1/2,z+1/2"; "-x,-y,z"; "y,-x,-z"; "x,-y,z+1/2"] 120 "I-4c2" "I-4c2" "-4m2" "tetragonal";
  mkE "I-42m" 16 ["x,y,z"; "x+1/2,y+1/2,z+1/2"; "-x,-y,z"; "y,-x,-z"; "-x,y,-z"] 121 "I-42m" "I-42m" "-42m" "tetragonal";
  mkE "I-42d" 16 ["x,y,z"; "x+1/2,y+1/2,z+1/2"; "-x,-y,z"; "y,-x,-z"; "-x+1/2,y,-z+3/4"] 122 "I-42d" "I-42d" "-42m" "tetragonal";
  mkE "P4/mmm" 16 ["x,y,z"; "-x,-y,z"; "-y,x,z"; "-x,y,-z"; "-x,-y,-z"] 123 "P4/m2/m2/m" "P4/mmm" "4/mmm" "tetragonal";
  mkE "P4/mcc" 16 ["x,y,z"; "-x,-y,z"; "-y,x,z"; "-x,y,-z+1/2"; "-x,-y,-z"] 124 "P4/m2/c2/c" "P4/mcc" "4/mmm" "tetragonal";
  mkE "P4/nbm" 16 ["x,y,z"; "-x+1/2,-y+1/2,z"; "-y+1/2,x,z"; "-x+1/2,y,-z"; "-x,-y,-z"] 125 "P4/n2/b2/m" "P4/nbm" "4/mmm" "tetragonal";
  mkE "P4/nnc" 16 ["x,y,z"; "-x+1/2,-y+1/2,z"; "-y+1/2,x,z"; "-x+1/2,y,-z+1/2"; "-x,-y,-z"] 126 "P4/n2/n2/c" "P4/nnc" "4/mmm" "tetragonal";
  mkE "P4/mbm" 16 ["x,y,z"; "-x,-y,z"; "-y,x,z"; "-x+1/2,y+1/2,-z"; "-x,-y,-z"] 127 "P4/m2_1/b2/m" "P4/mbm" "4/mmm" "tetragonal";
  mkE "P4/mnc" 16 ["x,y,z"; "-x,-y,z"; "-y,x,z"; "-x+1/2,y+1/2,-z+1/2"; "-x,-y,-z"] 128 "P4/m2_1/n2/c" "P4/mnc" "4/mmm" "tetragonal";
  mkE "P4/nmm" 16 ["x,y,z"; "-x+1/2,-y+1/2,z"; "-y+1/2,x,z"; "-x,y+1/2,-z"; "-x,-y,-z"] 129 "P4/n2_1/m2/m" "P4/nmm" "4/mmm" "tetragonal";
  mkE "P4/ncc" 16 ["x,y,z"; "-x+1/2,-y+1/2,z"; "-y+1/2,x,z"; "-x,y+1/2,-z+1/2"; "-x,-y,-z"] 130 "P4/n2_1/c2/c" "P4/ncc" "4/mmm" "tetragonal";
  mkE "P4_2/mmc" 16 ["x,y,z"; "-x,-y,z"; "-y,x,z+1/2"; "-x,y,-z"; "-x,-y,-z"] 131 "P4_2/m2/m2/c" "P42/mmc" "4/mmm" "tetragonal";
  mkE "P4_2/mcm" 16 ["x,y,z"; "-x,-y,z"; "-y,x,z+1/2"; "-x,y,-z+1/2"; "-x,-y,-z"] 132 "P4_2/m2/c2/m" "P42/mcm" "4/mmm" "tetragonal";
  mkE "P4_2/nbc" 16 ["x,y,z"; "-x+1/2,-y+1/2,z"; "-y+1/2,x,z+1/2"; "-x+1/2,y,-z"; "-x,-y,-z"] 133 "P4_2/n2/b2/c" "P42/nbc" "4/mmm" "tetragonal";
  mkE "P4_2/nnm" 16 ["x,y,z"; "-x+1/2,-y+1/2,z"; "-y+1/2,x,z+1/2"; "-x+1/2,y,-z+1/2"; "-x,-y,-z"] 134 "P4_2/n2/n2/m" "P42/nnm" "4/mmm" "tetragonal";
  mkE "P4_2/mbc" 16 ["x,y,z"; "-x,-y,z"; "-y,x,z+1/2"; "-x+1/2,y+1/2,-z"; "-x,-y,-z"] 135 "P4_2/m2_1/b2/c" "P42/mbc" "4/mmm" "tetragonal";
  mkE "P4_2/mnm" 16 ["x,y,z"; "-x,-y,z"; "-y+1/2,x+1/2,z+1/2"; "-x+1/2,y+1/2,-z+1/2"; "-x,-y,-z"] 136 "P4_2/m2_1/n2/m" "P42/mnm" "4/mmm" "tetragonal";
  mkE "P4_2/nmc" 16 ["x,y,z"; "-x+1/2,-y+1/2,z"; "-y+1/2,x,z+1/2"; "-x,y+1/2,-z"; "-x,-y,-z"] 137 "P4_2/n2_1/m2/c" "P42/nmc" "4/mmm" "tetragonal";
  mkE "P4_2/ncm" 16 ["x,y,z"; "-x+1/2,-y+1/2,z"; "-y+1/2,x,z+1/2"; "-x,y+1/2,-z+1/2"; "-x,-y,-z"] 138 "P4_2/n2_1/c2/m" "P42/ncm" "4/mmm" "tetragonal";
  mkE "I4/mmm" 32 ["x,y,z"; "x+1/2,y+1/2,z+1/2"; "-x,-y,z"; "-y,x,z"; "-x,y,-z"; "-x,-y,-z"] 139 "I4/m2/m2/m" "I4/mmm" "4/mmm" "tetragonal";
  mkE "I4/mcm" 32 ["x,y,z"; "x+1/2,y+1/2,z+1/2"; "-x,-y,z"; "-y,x,z"; "-x,y,-z+1/2"; "-x,-y,-z"] 140 "I4/m2/c2/m" "I4/mcm" "4/mmm" "tetragonal";
  mkE "I4_1/amd" 32 ["x,y,z"; "x+1/2,y+1/2,z+1/2"; "-x+1/2,-y,z+1/2"; "-y+1/4,x+3/4,z+1/4"; "-x+1/2,y,-z+1/2"; "-x,-y,-z"] 141 "I4_1/a2/m2/d" "I41/amd" "4/mmm" "tetragonal";
  mkE "I4_1/acd" 32 ["x,y,z"; "x+1/2,y+1/2,z+1/2"; "-x+1/2,-y,z+1/2"; "-y+1/4,x+3/4,z+1/4"; "-x+1/2,y,-z"; "-x,-y,-z"] 142 "I4_1/a2/c2/d" "I41/acd" "4/mmm" "tetragonal";
  mkE "P3" 3 ["x,y,z"; "-y,x-y,z"] 143 "P3" "P3" "3" "trigonal";
  mkE "P3_1" 3 ["x,y,z"; "-y,x-y,z+1/3"] 144 "P3_1" "P31" "3" "trigonal";
  mkE "P3_2" 3 ["x,y,z"; "-y,x-y,z+2/3"] 145 "P3_2" "P32" "3" "trigonal";
  mkE "R3H" 9 ["x,y,z"; "x+1/3,y+2/3,z+2/3"; "-y,x-y,z"] 146 "R3" "R3" "3" "trigonal";
  mkE "P-3" 6 ["x,y,z"; "-y,x-y,z"; "-x,-y,-z"] 147 "P-3" "P-3" "-3" "trigonal";
  mkE "R-3H" 18 ["x,y,z"; "x+1/3,y+2/3,z+2/3"; "-y,x-y,z"; "-x,-y,-z"] 148 "R-3" "R-3" "-3" "trigonal";
  mkE "P312" 6 ["x,y,z"; "-y,x-y,z"; "-y,-x,-z"] 149 "P312" "P312" "312" "trigonal";
  mkE "P321" 6 ["x,y,z"; "-y,x-y,z"; "y,x,-z"] 150 "P321" "P321" "321" "trigonal";
  mkE "P3_112" 6 ["x,y,z"; "-y,x-y,z+1/3"; "-y,-x,-z+2/3"] 151 "P3_112" "P3112" "312" "trigonal";
  mkE "P3_121" 6 ["x,y,z"; "-y,x-y,z+1/3"; "y,x,-z"] 152 "P3_121" "P3121" "321" "trigonal";
  mkE "P3_212" 6 ["x,y,z"; "-y,x-y,z+2/3"; "-y,-x,-z+1/3"] 153 "P3_212" "P3212" "312" "trigonal";
  mkE "P3_221" 6 ["x,y,z"; "-y,x-y,z+2/3"; "y,x,-z"] 154 "P3_221" "P3221" "321" "trigonal";
  mkE "R32H" 18 ["x,y,z"; "x+1/3,y+2/3,z+2/3"; "-y,x-y,z"; "y,x,-z"] 155 "R32" "R32" "32" "trigonal";
  mkE "P3m1" 6 ["x,y,z"; "-y,x-y,z"; "-y,-x,z"] 156 "P3m1" "P3m1" "3m1" "trigonal";
  mkE "P31m" 6 ["x,y,z"; "-y,x-y,z"; "y,x,z"] 157 "P31m" "P31m" "31m" "trigonal";
  mkE "P3c1" 6 ["x,y,z"; "-y,x-y,z"; "-y,-x,z+1/2"] 158 "P3c1" "P3c1" "3m1" "trigonal";
  mkE "P31c" 6 ["x,y,z"; "-y,x-y,z"; "y,x,z+1/2"] 159 "P31c" "P31c" "31m" "trigonal";
  mkE "R3mH" 18 ["x,y,z"; "x+1/3,y+2/3,z+2/3"; "-y,x-y,z"; "-y,-x,z"] 160 "R3m" "R3m" "3m" "trigonal";
  mkE "R3cH" 18 ["x,y,z"; "x+2/3,y+1/3,z+1/3"; "-y,x-y,z"; "-y,-x,z+1/2"] 161 "R3c" "R3c" "3m" "trigonal";
  mkE "P-31m" 12 ["x,y,z"; "-y,x-y,z"; "-y,-x,-z"; "-x,-y,-z"] 162 "P-312/m" "P-31m" "-31m" "trigonal";
  mkE "P-31c" 12 ["x,y,z"; "-y,x-y,z"; "-y,-x,-z+1/2"; "-x,-y,-z"] 163 "P-312/c" "P-31c" "-31m" "trigonal";
  mkE "P-3m1" 12 ["x,y,z"; "-y,x-y,z"; "y,x,-z"; "-x,-y,-z"] 164 "P-32/m1" "P-3m1" "-3m1" "trigonal";
  mkE "P-3c1" 12 ["x,y,z"; "-y,x-y,z"; "y,x,-z+1/2"; "-x,-y,-z"] 165 "P-32/c1" "P-3c1" "-3m1" "trigonal";
  mkE "R-3mH" 36 ["x,y,z"; "x+1/3,y+2/3,z+2/3"; "-y,x-y,z"; "y,x,-z"; "-x,-y,-z"] 166 "R-32/m" "R-3m" "-3m" "trigonal";
  mkE "R-3cH" 36 ["x,y,z"; "x+2/3,y+1/3,z+1/3"; "-y,x-y,z"; "y,x,-z+1/2"; "-x,-y,-z"] 167 "R-32/c" "R-3c" "-3m" "trigonal";
  mkE "P6" 6 ["x,y,z"; "-y,x-y,z"; "-x,-y,z"] 168 "P6" "P6" "6" "hexagonal";
  mkE "P6_1" 6 ["x,y,z"; "-y,x-y,z+1/3"; "-x,-y,z+1/2"] 169 "P6_1" "P61" "6" "hexagonal";
  mkE "P6_5" 6 ["x,y,z"; "-y,x-y,z+2/3"; "-x,-y,z+1/2"] 170 "P6_5" "P65" "6" "hexagonal";
  mkE "P6_2" 6 ["x,y,z"; "-y,x-y,z+2/3"; "-x,-y,z"] 171 "P6_2" "P62" "6" "hexagonal";
  mkE "P6_4" 6 ["x,y,z"; "-y,x-y,z+1/3"; "-x,-y,z"] 172 "P6_4" "P64" "6" "hexagonal";
  mkE "P6_3" 6 ["x,y,z"; "-y,x-y,z"; "-x,-y,z+1/2"] 173 "P6_3" "P63" "6" "hexagonal";
  mkE "P-6" 6 ["x,y,z"; "-y,x-y,z"; "x,y,-z"] 174 "P-6" "P-6" "-6" "hexagonal";
  mkE "P6/m" 12 ["x,y,z"; "-y,x-y,z"; "-x,-y,z"; "-x,-y,-z"] 175 "P6/m" "P6/m" "6/m" "hexagonal";
  mkE "P6_3/m" 12 ["x,y,z"; "-y,x-y,z"; "-x,-y,z+1/2"; "-x,-y,-z"] 176 "P6_3/m" "P63/m" "6/m" "hexagonal";
  mkE "P622" 12 ["x,y,z"; "-y,x-y,z"; "-x,-y,z"; "y,x,-z"] 177 "P622" "P622" "622" "hexagonal";
  mkE "P6_122" 12 ["x,y,z"; "-y,x-y,z+1/3"; "-x,-y,z+1/2"; "y,x,-z+1/3"] 178 "P6_122" "P6122" "622" "hexagonal";
  mkE "P6_522" 12 ["x,y,z"; "-y,x-y,z+2/3"; "-x,-y,z+1/2"; "y,x,-z+2/3"] 179 "P6_522" "P6522" "622" "hexagonal";
  mkE "P6_222" 12 ["x,y,z"; "-y,x-y,z+2/3"; "-x,-y,z"; "y,x,-z+2/3"] 180 "P6_222" "P6222" "622" "hexagonal";
  mkE "P6_422" 12 ["x,y,z"; "-y,x-y,z+1/3"; "-x,-y,z"; "y,x,-z+1/3"] 181 "P6_422" "P6422" "622" "hexagonal";
  mkE "P6_322" 12 ["x,y,z"; "-y,x-y,z"; "-x,-y,z+1/2"; "y,x,-z"] 182 "P6_322" "P6322" "622" "hexagonal";
  mkE "P6mm" 12 ["x,y,z"; "-y,x-y,z"; "-x,-y,z"; "-y,-x,z"] 183 "P6mm" "P6mm" "6mm" "hexagonal";
  mkE "P6cc" 12 ["x,y,z"; "-y,x-y,z"; "-x,-y,z"; "-y,-x,z+1/2"] 184 "P6cc" "P6cc" "6mm" "hexagonal";
  mkE "P6_3cm" 12 ["x,y,z"; "-y,x-y,z"; "-x,-y,z+1/2"; "-y,-x,z+1/2"] 185 "P6_3cm" "P63cm" "6mm" "hexagonal";
  mkE "P6_3mc" 12 ["x,y,z"; "-y,x-y,z"; "-x,-y,z+1/2"; "-y,-x,z"] 186 "P6_3mc" "P63mc" "6mm" "hexagonal";
  mkE "P-6m2" 12 ["x,y,z"; "-y,x-y,z"; "x,y,-z"; "-y,-x,z"] 187 "P-6m2" "P-6m2" "-6m2" "hexagonal";
  mkE "P-6c2" 12 ["x,y,z"; "-y,x-y,z"; "x,y,-z+1/2"; "-y,-x,z+1/2"] 188 "P-6c2" "P-6c2" "-6m2" "hexagonal";
  mkE "P-62m" 12 ["x,y,z"; "-y,x-y,z"; "x,y,-z"; "y,x,-z"] 189 "P-62m" "P-62m" "-62m" "hexagonal";
  mkE "P-62c" 12 ["x,y,z"; "-y,x-y,z"; "x,y,-z+1/2"; "y,x,-z"] 190 "P-62c" "P-62c" "-62m" "hexagonal";
  mkE "P6/mmm" 24 ["x,y,z"; "-y,x-y,z"; "-x,-y,z"; "y,x,-z"; "-x,-y,-z"] 191 "P6/m2/m2/m" "P6/mmm" "6/mmm" "hexagonal";
  mkE "P6/mcc" 24 ["x,y,z"; "-y,x-y,z"; "-x,-y,z"; "y,x,-z+1/2"; "-x,-y,-z"] 192 "P6/m2/c2/c" "P6/mcc" "6/mmm" "hexagonal";
  mkE "P6_3/mcm" 24 ["x,y,z"; "-y,x-y,z"; "-x,-y,z+1/2"; "y,x,-z+1/2"; "-x,-y,-z"] 193 "P6_3/m2/c2/m" "P63/mcm" "6/mmm" "hexagonal";
  mkE "P6_3/mmc" 24 ["x,y,z"; "-y,x-y,z"; "-x,-y,z+1/2"; "y,x,-z"; "-x,-y,-z"] 194 "P6_3/m2/m2/c" "P63/mmc" "6/mmm" "hexagonal";
  mkE "P23" 12 ["x,y,z"; "-x,-y,z"; "-x,y,-z"; "z,x,y"] 195 "P23" "P23" "23" "cubic";
  mkE "F23" 48 ["x,y,z"; "x+1/2,y+1/2,z"; "x+1/2,y,z+1/2"; "-x,-y,z"; "-x,y,-z"; "z,x,y"] 196 "F23" "F23" "23" "cubic";
  mkE "I23" 24 ["x,y,z"; "x+1/2,y+1/2,z+1/2"; "-x,-y,z"; "-x,y,-z"; "z,x,y"] 197 "I23" "I23" "23" "cubic";
  mkE "P2_13" 12 ["x,y,z"; "-x+1/2,-y,z+1/2"; "-x,y+1/2,-z+1/2"; "z,x,y"] 198 "P2_13" "P213" "23" "cubic";
  mkE "I2_13" 24 ["x,y,z"; "x+1/2,y+1/2,z+1/2"; "-x+1/2,-y,z+1/2"; "-x,y+1/2,-z+1/2"; "z,x,y"] 199 "I2_13" "I213" "23" "cubic";
  mkE "Pm-3" 24 ["x,y,z"; "-x,-y,z"; "-x,y,-z"; "z,x,y"; "-x,-y,-z"] 200 "P2/m-3" "Pm-3" "m-3" "cubic";
  mkE "Pn-3" 24 ["x,y,z"; "-x+1/2,-y+1/2,z"; "-x+1/2,y,-z+1/2"; "z,x,y"; "-x,-y,-z"] 201 "P2/n-3" "Pn-3" "m-3" "cubic";
  mkE "Fm-3" 96 ["x,y,z"; "x+1/2,y+1/2,z"; "x+1/2,y,z+1/2"; "-x,-y,z"; "-x,y,-z"; "z,x,y"; "-x,-y,-z"] 202 "F2/m-3" "Fm-3" "m-3" "cubic";
  mkE "Fd-3" 96 ["x,y,z"; "x+1/2,y+1/2,z"; "x+1/2,y,z+1/2"; "-x+1/4,-y+1/4,z"; "-x+1/4,y,-z+1/4"; "z,x,y"; "-x,-y,-z"] 203 "F2/d-3" "Fd-3" "m-3" "cubic";
  mkE "Im-3" 48 ["x,y,z"; "x+1/2,y+1/2,z+1/2"; "-x,-y,z"; "-x,y,-z"; "z,x,y"; "-x,-y,-z"] 204 "I2/m-3" "Im-3" "m-3" "cubic";
  mkE "Pa-3" 24 ["x,y,z"; "-x+1/2,-y,z+1/2"; "-x,y+1/2,-z+1/2"; "z,x,y"; "-x,-y,-z"] 205 "P2_1/a-3" "Pa-3" "m-3" "cubic";
  mkE "Ia-3" 48 ["x,y,z"; "x+1/2,y+1/2,z+1/2"; "-x+1/2,-y,z+1/2"; "-x,y+1/2,-z+1/2"; "z,x,y"; "-x,-y,-z"] 206 "I2_1/a-3" "Ia-3" "m-3" "cubic";
  mkE "P432" 24 ["x,y,z"; "-x,-y,z"; "-x,y,-z"; "z,x,y"; "y,x,-z"] 207 "P432" "P432" "432" "cubic";
  mkE "P4_232" 24 ["x,y,z"; "-x,-y,z"; "-x,y,-z"; "z,x,y"; "y+1/2,x+1/2,-z+1/2"] 208 "P4_232" "P4232" "432" "cubic";
  mkE "F432" 96 ["x,y,z"; "x+1/2,y+1/2,z"; "x+1/2,y,z+1/2"; "-x,-y,z"; "-x,y,-z"; "z,x,y"; "y,x,-z"] 209 "F432" "F432" "432" "cubic";
  mkE "F4_132" 96 ["x,y,z"; "x+1/2,y+1/2,z"; "x+1/2,y,z+1/2"; "-x,-y+1/2,z+1/2"; "-x+1/2,y+1/2,-z"; "z,x,y"; "y+3/4,x+1/4,-z+3/4"] 210 "F4_132" "F4132" "432" "cubic";
  mkE "I432" 48 ["x,y,z"; "x+1/2,y+1/2,z+1/2"; "-x,-y,z"; "-x,y,-z"; "z,x,y"; "y,x,-z"] 211 "I432" "I432" "432" "cubic";
  mkE "P4_332" 24 ["x,y,z"; "-x+1/2,-y,z+1/2"; "-x,y+1/2,-z+1/2"; "z,x,y"; "y+1/4,x+3/4,-z+3/4"] 212 "P4_332" "P4332" "432" "cubic";
  mkE "P4_132" 24 ["x,y,z"; "-x+1/2,-y,z+1/2"; "-x,y+1/2,-z+1/2"; "z,x,y"; "y+3/4,x+1/4,-z+1/4"] 213 "P4_132" "P4132" "432" "cubic";
  mkE "I4_132" 48 ["x,y,z"; "x+1/2,y+1/2,z+1/2"; "-x+1/2,-y,z+1/2"; "-x,y+1/2,-z+1/2"; "z,x,y"; "y+3/4,x+1/4,-z+1/4"] 214 "I4_132" "I4132" "432" "cubic";
  mkE "P-43m" 24 ["x,y,z"; "-x,-y,z"; "-x,y,-z"; "z,x,y"; "y,x,z"] 215 "P-43m" "P-43m" "-43m" "cubic";
  mkE "F-43m" 96 ["x,y,z"; "x+1/2,y+1/2,z"; "x+1/2,y,z+1/2"; "-x,-y,z"; "-x,y,-z"; "z,x,y"; "y,x,z"] 216 "F-43m" "F-43m" "-43m" "cubic";
  mkE "I-43m" 48 ["x,y,z"; "x+1/2,y+1/2,z+1/2"; "-x,-y,z"; "-x,y,-z"; "z,x,y"; "y,x,z"] 217 "I-43m" "I-43m" "-43m" "cubic";
  mkE "P-43n" 24 ["x,y,z"; "-x,-y,z"; "-x,y,-z"; "z,x,y"; "y+1/2,x+1/2,z+1/2"] 218 "P-43n" "P-43n" "-43m" "cubic";
  mkE "F-43c" 96 ["x,y,z"; "x+1/2,y+1/2,z"; "x+1/2,y,z+1/2"; "-x,-y,z"; "-x,y,-z"; "z,x,y"; "y+1/2,x+1/2,z+1/2"] 219 "F-43c" "F-43c" "-43m" "cubic";
  mkE "I-43d" 48 ["x,y,z"; "x+1/2,y+1/2,z+1/2"; "-x+1/2,-y,z+1/2"; "-x,y+1/2,-z+1/2"; "z,x,y"; "y+1/4,x+1/4,z+1/4"] 220 "I-43d" "I-43d" "-43m" "cubic";
  mkE "Pm-3m" 48 ["x,y,z"; "-x,-y,z"; "-x,y,-z"; "z,x,y"; "y,x,-z"; "-x,-y,-z"] 221 "P4/m-32/m" "Pm-3m" "m-3m" "cubic";
  mkE "Pn-3n" 48 ["x,y,z"; "-x+1/2,-y+1/2,z"; "-x+1/2,y,-z+1/2"; "z,x,y"; "y,x,-z+1/2"; "-x,-y,-z"] 222 "P4/n-32/n" "Pn-3n" "m-3m" "cubic";
  mkE "Pm-3n" 48 ["x,y,z"; "-x,-y,z"; "-x,y,-z"; "z,x,y"; "y+1/2,x+1/2,-z+1/2"; "-x,-y,-z"] 223 "P4_2/m-32/n" "Pm-3n" "m-3m" "cubic";
  mkE "Pn-3m" 48 ["x,y,z"; "-x+1/2,-y+1/2,z"; "-x+1/2,y,-z+1/2"; "z,x,y"; "y+1/2,x+1/2,-z"; "-x,-y,-z"] 224 "P4_2/n-32/m" "Pn-3m" "m-3m" "cubic";
  mkE "Fm-3m" 192 ["x,y,z"; "x+1/2,y+1/2,z"; "x+1/2,y,z+1/2"; "-x,-y,z"; "-x,y,-z"; "z,x,y"; "y,x,-z"; "-x,-y,-z"] 225 "F4/m-32/m" "Fm-3m" "m-3m" "cubic";
  mkE "Fm-3c" 192 ["x,y,z"; "x+1/2,y+1/2,z"; "x+1/2,y,z+1/2"; "-x,-y,z"; "-x,y,-z"; "z,x,y"; "y+1/2,x+1/2,-z+1/2"; "-x,-y,-z"] 226 "F4/m-32/c" "Fm-3c" "m-3m" "cubic";
  mkE "Fd-3m" 192 ["x,y,z"; "x+1/2,y+1/2,z"; "x+1/2,y,z+1/2"; "-x+3/4,-y+1/4,z+1/2"; "-x+1/4,y+1/2,-z+3/4"; "z,x,y"; "y+3/4,x+1/4,-z+1/2"; "-x,-y,-z"] 227 "F4_1/d-32/m" "Fd-3m" "m-3m" "cubic";
  mkE "Fd-3c" 192 ["x,y,z"; "x+1/2,y+1/2,z"; "x+1/2,y,z+1/2"; "-x+1/4,-y+3/4,z+1/2"; "-x+3/4,y+1/2,-z+1/4"; "z,x,y"; "y+3/4,x+1/4,-z"; "-x,-y,-z"] 228 "F4_1/d-32/c" "Fd-3c" "m-3m" "cubic";
  mkE "Im-3m" 96 ["x,y,z"; "x+1/2,y+1/2,z+1/2"; "-x,-y,z"; "-x,y,-z"; "z,x,y"; "y,x,-z"; "-x,-y,-z"] 229 "I4/m-32/m" "Im-3m" "m-3m" "cubic";
  mkE "Ia-3d" 96 ["x,y,z"; "x+1/2,y+1/2,z+1/2"; "-x+1/2,-y,z+1/2"; "-x,y+1/2,-z+1/2"; "z,x,y"; "y+3/4,x+1/4,-z+1/4"; "-x,-y,-z"] 230 "I4_1/a-32/d" "Ia-3d" "m-3m" "cubic"].
