(** Atoms, materials and structure factors: /repo/neutronpy/crystal/atom.py, material.py and
    structure_factors.py, over the reals.  Values that numpy would compute as nan are [None].
    Database numbers are the exact decimals of the JSON files. *)
From Coq Require Import String List ZArith QArith Reals Qreals.
From Verif Require Import Base AtomData SymData SymModel LinAlg LatticeModel.
Import ListNotations.
Local Open Scope R_scope.

(** Complex numbers. *)
Definition cx := (R * R)%type.
Definition c0 : cx := (0, 0).
Definition cadd (a b : cx) : cx := (fst a + fst b, snd a + snd b).
Definition cmul (a b : cx) : cx := (fst a * fst b - snd a * snd b, fst a * snd b + snd a * fst b).
Definition cscal (k : R) (a : cx) : cx := (k * fst a, k * snd a).
(** np.exp(1j * t). *)
Definition cis (t : R) : cx := (cos t, sin t).

(** ** Atoms *)
Record atom := mkAtom { a_ion : string; a_pos : v3; a_occ : R; a_b : cx; a_uiso : R; a_uaniso : m3;
  a_coh : option R; a_inc : option R; a_abs : option R }.
Definition scatterer_of (ion : string) : option scatterer := find (fun s => String.eqb (s_ion s) ion) scattering_table.
Definition mass_of (ion : string) : option Q := option_map snd (find (fun p => String.eqb (fst p) ion) mass_table).
Definition opt_R (o : option Q) : option R := option_map Q2R o.
(** atom.py:37-60.  A null scattering length takes part in arithmetic (TypeError); null cross sections are stored. *)
Definition make_atom (ion : string) (pos : v3) (occ mcell : R) (mass_norm : bool) (uiso : R) (uaniso : m3) : res atom :=
  match scatterer_of ion with
  | None => Err KeyError
  | Some s =>
      bind (match s_b s with
            | NoLength => if mass_norm then match mass_of ion with None => Err KeyError | Some _ => Err TypeError end else Err TypeError
            | RealLength b => Ok (Q2R b, 0)
            | ComplexLength re im => Ok (Q2R re, Q2R im)
            end) (fun b =>
      bind (if mass_norm
            then match mass_of ion with None => Err KeyError | Some m => Ok (cscal (occ * mcell / sqrt (Q2R m)) b) end
            else Ok (cscal (/ 10) b)) (fun b' =>
      Ok (mkAtom ion pos occ b' uiso uaniso (opt_R (s_coh s)) (opt_R (s_inc s)) (opt_R (s_abs s)))))
  end.

(** ** Materials *)
(** One entry of crystal['composition']: a dictionary with optional keys. *)
Record item := mkItem { i_ion : string; i_pos : v3; i_occ : option R; i_uiso : option R; i_uaniso : option m3 }.
Definition zero3 : m3 := M 0 0 0 0 0 0 0 0 0.
Definition with_occ (i : item) : item := mkItem (i_ion i) (i_pos i) (Some (match i_occ i with Some x => x | None => 1 end)) (i_uiso i) (i_uaniso i).
Definition with_uiso (i : item) : item := mkItem (i_ion i) (i_pos i) (i_occ i) (Some (match i_uiso i with Some x => x | None => 0 end)) (i_uaniso i).
Definition set_uaniso (i : item) : item := mkItem (i_ion i) (i_pos i) (i_occ i) (i_uiso i) (Some zero3).
Definition with_uaniso (i : item) : item := match i_uaniso i with Some _ => i | None => set_uaniso i end.
(** dict[key] of an optional key. *)
Definition get {A} (o : option A) : res A := match o with Some x => Ok x | None => Err KeyError end.

(** material.py:198-202: the mass of the composition; occupancies default to 1 in the caller's dictionaries. *)
Fixpoint mu_cell (l : list item) : res R :=
  match l with
  | [] => Ok 0
  | i :: r => match mass_of (i_ion i) with
              | None => Err KeyError
              | Some m => bind (mu_cell r) (fun x => Ok (Q2R m * match i_occ i with Some o => o | None => 1 end + x))
              end
  end.

(** Position under an operation, symmetry.py:98-106 with real coordinates. *)
Definition rot (o : op) : m3 :=
  M (IZR (r11 o)) (IZR (r12 o)) (IZR (r13 o)) (IZR (r21 o)) (IZR (r22 o)) (IZR (r23 o)) (IZR (r31 o)) (IZR (r32 o)) (IZR (r33 o)).
Definition tr (o : op) : v3 := V (Q2R (t1 o)) (Q2R (t2 o)) (Q2R (t3 o)).
Definition apply_real (o : op) (p : v3) : v3 := vadd (mv (rot o) p) (tr o).
Definition symmetrize_real (g : group) (p : v3) : list v3 := map (fun o => apply_real o p) (g_ops g).

(** material.py:233-239 and 224-230: Atom(...) from a completed entry at a position. *)
Definition atom_of (mcell : R) (mass_norm : option bool) (i : item) (p : v3) : res atom :=
  bind (get (i_occ i)) (fun occ => bind (get mass_norm) (fun mn =>
  bind (get (i_uiso i)) (fun u => bind (get (i_uaniso i)) (fun ua => make_atom (i_ion i) p occ mcell mn u ua)))).
(** material.py:223-239, no space group: defaults filled in entry by entry. *)
Fixpoint plain_atoms (mcell : R) (mass_norm : option bool) (l : list item) : res (list atom) :=
  match l with
  | [] => Ok []
  | i :: r => bind (atom_of mcell mass_norm (with_uaniso (with_uiso i)) (i_pos i)) (fun a =>
              bind (plain_atoms mcell mass_norm r) (fun r' => Ok (a :: r')))
  end.
(** material.py:207-222, with a space group.  Lines 212 and 214 test [item], the loop variable left over from
    line 198, i.e. the last entry of the composition; [last_has] tells whether it has 'Uaniso' (by then every
    entry has 'occupancy').  When the loop reaches that last entry itself the test is still the one of before,
    since only this entry's own turn changes it.  (One dictionary object used for two entries is not modelled.) *)
Fixpoint group_atoms (g : group) (last_has : bool) (mcell : R) (mass_norm : option bool) (l : list item) : res (list atom) :=
  match l with
  | [] => Ok []
  | i :: r =>
      let i' := with_uiso i in
      let i'' := if last_has then i' else set_uaniso i' in
      bind (map_res (atom_of mcell mass_norm i'') (symmetrize_real g (i_pos i))) (fun a =>
      bind (group_atoms g last_has mcell mass_norm r) (fun r' => Ok (a ++ r')%list))
  end.
Definition has_uaniso (i : item) : bool := match i_uaniso i with Some _ => true | None => false end.

(** The crystal dictionary; absent keys are [None].  [c_sample] holds mosaic, vmosaic, u, v, dir as opaque values. *)
Record crystal := mkC { c_formula_units : option R; c_composition : list item; c_lattice : option lattice;
  c_wavelength : option R; c_group : option symbol_arg; c_mass_norm : option bool; c_magnetic : bool }.
Record material := mkMat { mu : R; m_cell : R; m_atoms : list atom; m_wavelength : R; m_lattice : lattice }.
(** material.py:192-266.  'magnetic_unit_cell' makes line 242 read the absent key 'magnetic_cell'. *)
Definition make_material (c : crystal) : res material :=
  let fu := match c_formula_units c with Some f => f | None => 1 end in
  bind (mu_cell (c_composition c)) (fun m =>
  let items := map with_occ (c_composition c) in
  let mcell := m * fu in
  bind (match c_group c with
        | Some s => bind (space_group s) (fun g =>
            group_atoms g (has_uaniso (last items (mkItem EmptyString (V 0 0 0) None None None))) mcell (c_mass_norm c) items)
        | None => plain_atoms mcell (c_mass_norm c) items
        end) (fun atoms =>
  if c_magnetic c then Err KeyError
  else match c_lattice c with
       | None => Err UnboundLocalError
       | Some l => Ok (mkMat m mcell atoms (match c_wavelength c with Some w => w | None => 2359 / 1000 end) l)
       end)).

(** ** Nuclear structure factor *)
(** get_two_theta (lattice.py:362-382) also at the origin, where numpy's d-spacing 1/0 is inf and the angle 0. *)
Definition two_theta_np (l : lattice) (hkl : v3) (wavelength : R) : option R :=
  if Req_EM_T (form (Gstar l) hkl hkl) 0 then Some 0 else get_two_theta l hkl wavelength.
(** structure_factors.py:55-56: both displacement factors, evaluated at the atom's position. *)
Definition debye_waller (l : lattice) (wavelength : R) (a : atom) : option R :=
  if Req_EM_T wavelength 0 then None else
  match two_theta_np l (a_pos a) wavelength with
  | None => None
  | Some tth => Some (exp (- 8 * PI ^ 2 * a_uiso a * sin (rad (tth / 2)) ^ 2 / wavelength ^ 2) *
                     exp (- dot (a_pos a) (mv (a_uaniso a) (a_pos a))))
  end.
(** structure_factors.py:50-58, the term of one atom and the sum; nan spreads to the sum. *)
Definition nuc_term (l : lattice) (wavelength : R) (hkl : v3) (a : atom) : option cx :=
  match debye_waller l wavelength a with
  | None => None
  | Some d => Some (cscal d (cmul (cscal (a_occ a) (a_b a)) (cis (2 * PI * dot hkl (a_pos a)))))
  end.
Fixpoint nuc_sum (l : lattice) (wavelength : R) (hkl : v3) (atoms : list atom) : option cx :=
  match atoms with
  | [] => Some c0
  | a :: r => match nuc_term l wavelength hkl a, nuc_sum l wavelength hkl r with
              | Some x, Some y => Some (cadd x y)
              | _, _ => None
              end
  end.
Definition calc_nuc_str_fac (m : material) (hkl : v3) : option cx := nuc_sum (m_lattice m) (m_wavelength m) hkl (m_atoms m).

(** ** Cross sections *)
(** material.py:271-278: sums over the atoms; a null cross section raises TypeError. *)
Fixpoint sum_res (l : list (option R)) : res R :=
  match l with
  | [] => Ok 0
  | None :: _ => Err TypeError
  | Some x :: r => bind (sum_res r) (fun y => Ok (x + y))
  end.
Definition oadd (x y : option R) : option R := match x, y with Some a, Some b => Some (a + b) | _, _ => None end.
Definition omul (k : R) (x : option R) : option R := match x with Some a => Some (k * a) | None => None end.
Definition total_scattering_cross_section (m : material) : res R := sum_res (map (fun a => oadd (a_coh a) (a_inc a)) (m_atoms m)).
(** material.py:280-294, constants.py:93. *)
Definition avogadro : R := 6022140857 * 10 ^ 14.
Definition N_atoms (m : material) (mass : R) : R := avogadro * mass / mu m.
(** material.py:343-351; the logarithm of a non-positive transmission and the root of a negative quotient are nan or inf. *)
Definition sigma_T (m : material) (energy : R) : res R :=
  bind (sum_res (map (fun a => omul (a_occ a) (a_coh a)) (m_atoms m))) (fun coh =>
  bind (sum_res (map (fun a => omul (a_occ a) (a_inc a)) (m_atoms m))) (fun inc =>
  bind (sum_res (map (fun a => omul (a_occ a) (a_abs a)) (m_atoms m))) (fun ab =>
  Ok ((coh + inc + ab * sqrt (253 / 10 / energy)) / volume (m_lattice m))))).
Definition calc_optimal_thickness (m : material) (energy transmission : R) : res R :=
  bind (sigma_T m energy) (fun s => Ok (- ln transmission / s)).
(** material.py:368-376; no mass given is [None]. *)
Fixpoint incoh_sum (l : lattice) (w : R) (atoms : list atom) : res (option R) :=
  match atoms with
  | [] => Ok (Some 0)
  | a :: r =>
      match a_inc a with
      | None => Err TypeError
      | Some x =>
          bind (incoh_sum l w r) (fun s =>
          Ok (if Req_EM_T w 0 then None else
              match two_theta_np l (a_pos a) w, s with
              | Some tth, Some y => Some (x * exp (- 8 * PI ^ 2 * a_uiso a * sin (rad (tth / 2)) ^ 2 / w ^ 2) + y)
              | _, _ => None
              end))
      end
  end.
Definition calc_incoh_elas_xs (m : material) (mass : option R) : res (option R) :=
  bind (incoh_sum (m_lattice m) (m_wavelength m) (m_atoms m)) (fun s =>
  Ok (match s with
      | None => None
      | Some x => Some (match mass with Some g => N_atoms m g / (4 * PI) * x | None => x / (4 * PI) end)
      end)).

(** ** Magnetic form factor *)
Definition ion_of (ion : string) : option magnetic := find (fun m => String.eqb (m_ion m) ion) magnetic_table.
(** structure_factors.py:83-89: an unknown ion is a KeyError, which the handler for ValueError does not catch. *)
Definition magnetic_ion (ion : string) : res magnetic := match ion_of ion with Some m => Ok m | None => Err KeyError end.
Definition coef (l : list Q) (n : nat) : R := Q2R (nth n l 0%Q).
(** structure_factors.py:131-133. *)
Definition three (l : list Q) (x : R) : R :=
  coef l 0 * exp (- coef l 1 * x ^ 2) + coef l 2 * exp (- coef l 3 * x ^ 2) + coef l 4 * exp (- coef l 5 * x ^ 2) + coef l 6.
(** structure_factors.py:126-147 for a number (or each entry of an array) q: form factor, j0, j2, j4. *)
Record form_factor := mkFF { ff : R; fj0 : R; fj2 : R; fj4 : R }.
Definition mag_point (m : magnetic) (g q : R) : form_factor :=
  let x := q / 4 / PI in
  let j0 := three (m_j0 m) x in
  let j2 := x ^ 2 * three (m_j2 m) x in
  let j4 := x ^ 2 * three (m_j4 m) x in
  mkFF (j0 + (2 / g - 1) * j2) j0 j2 j4.
(** The argument q: a number, an array or a list. *)
Inductive q_arg := QNum (q : R) | QArray (q : list R) | QList (q : list R).
(** structure_factors.py:91-150 with q given; dividing a list is a TypeError, 2/0 a ZeroDivisionError; g defaults to 2. *)
Definition calc_mag_form_fac (m : magnetic) (q : q_arg) (g : option R) : res (list form_factor) :=
  let g := match g with Some g => g | None => 2 end in
  match q with
  | QList _ => Err TypeError
  | QNum x => if Req_EM_T g 0 then Err ZeroDivisionError else Ok [mag_point m g x]
  | QArray l => if Req_EM_T g 0 then Err ZeroDivisionError else Ok (map (mag_point m g) l)
  end.
