(** The window of the resolution calculator: MainWindow, /repo/neutronpy/gui.py:50-242, with the widgets of ui/resolution.ui.  A widget is its name and
    the text it shows; drawing, layout and fonts are left out. *)
From Coq Require Import String Ascii List ZArith Reals.
From Verif Require Import Base EnergyModel DescribeModel.
From Verif Require ToolsModel.
Import ListNotations.
Local Open Scope string_scope.
Local Open Scope list_scope.

Definition form := string -> string.
Inductive gval := GNum (x : R) | GNums (l : list R) | GStr (s : string).
(** The attributes of the instrument, named as in 'instrument.sample.mosaic', as far as they have been assigned. *)
Definition attrs := list (string * gval).
(** Python's float of a text ([None]: ValueError), the numbers of scipy, and what calc_resolution, calc_projections and
    description_string make of an instrument and a point, or the exception they raise. *)
Record world := mkWorld { num : string -> option R; phys : consts; picture : Type; calculate : attrs -> list R -> res picture }.

(** str.split(',') *)
Fixpoint split_comma (s : string) : list string :=
  match s with
  | EmptyString => [EmptyString]
  | String c s => if Ascii.eqb c "," then EmptyString :: split_comma s
                  else match split_comma s with [] => [String c EmptyString] | t :: r => String c t :: r end
  end.
Definition float (w : world) (s : string) : res R := match num w s with Some x => Ok x | None => Err ValueError end.
Definition floats (w : world) (s : string) : res (list R) := map_res (float w) (split_comma s).
Definition pick (k : string) (l : list (string * R)) : res gval := match ToolsModel.lookup k l with Some x => Ok (GNum x) | None => Err KeyError end.
(** gui.py:68-74 *)
Definition dirs : list (string * R) := [("Clockwise", 1%R); ("Counter-Clockwise", (-1)%R)].
Definition infins : list (string * R) := [("ki", 1%R); ("kf", (-1)%R)].
Definition methods : list (string * R) := [("Cooper-Nathans", 0%R); ("Popovici", 1%R)].
Definition moncors : list (string * R) := [("On", 1%R); ("Off", 0%R)].
Definition energies (w : world) (x : R) : res (list (string * R)) :=
  bind (energy_of (phys w) QWavelength x) (fun a => bind (energy_of (phys w) QWavevector x) (fun b =>
  Ok [("energy (meV)", x); ("wavelength (A)", a); ("wave vector (A-1)", b)])).

(** One statement of load_instrument. *)
Inductive task :=
| One (attr widget : string)                       (* float(widget.text()) *)
| Many (attr widget : string)                      (* [float(i) for i in widget.text().split(',')] *)
| Three (a b c widget : string)                    (* the same, unpacked *)
| Choice (attr widget : string) (l : list (string * R))
| Energy (attr widget : string)                    (* edrop_dict *)
| Lower (attr widget : string)
| Crystal (attr widget : string)                   (* 101-106, 114-118 *)
| Unless (attr test widget : string).              (* if test.text() != 'None' *)
(** gui.py:83-151, in order. *)
Definition tasks : list task :=
  [Three "sample.a" "sample.b" "sample.c" "abc_input"; Three "sample.alpha" "sample.beta" "sample.gamma" "abg_input";
   One "sample.height" "sample_height_input"; One "sample.width" "sample_width_input"; One "sample.depth" "sample_depth_input";
   Many "sample.u" "sample_u_input"; Many "sample.v" "sample_v_input"; Choice "sample.dir" "sample_dir_select" dirs;
   One "sample.mosaic" "sample_mosaic_input"; One "sample.vmosaic" "sample_vmosaic_input"; Lower "sample.shape_type" "sample_shape_dropdown";
   Crystal "mono.tau" "mono_select_dropdown"; One "mono.mosaic" "mono_mosaic_input"; One "mono.vmosaic" "mono_vmosaic_input"; Choice "mono.dir" "mono_dir_select" dirs;
   One "mono.height" "mono_height_input"; One "mono.width" "mono_width_input"; One "mono.depth" "mono_depth_input";
   Crystal "ana.tau" "ana_select_dropdown"; One "ana.mosaic" "ana_mosaic_input"; One "ana.vmosaic" "ana_vmosaic_input"; Choice "ana.dir" "ana_dir_select" dirs;
   One "ana.height" "ana_height_input"; One "ana.width" "ana_width_input"; One "ana.depth" "ana_depth_input";
   Energy "efixed" "energy_dropdown"; Choice "infin" "fixed_kikf_dropdown" infins; Many "hcol" "hcols_input"; Many "vcol" "vcols_input"; Many "arms" "arms_input";
   One "guide.height" "guide_height_input"; One "guide.width" "guide_width_input"; One "detector.height" "detector_height_input"; One "detector.width" "detector_width_input";
   Choice "moncor" "moncor_dropdown" moncors; Choice "method" "method_dropdown" methods;
   Unless "mono.rh" "mono_hcurve_input" "mono_hcurve_input"; Unless "mono.rv" "mono_vcurve_input" "mono_vcurve_input";
   Unless "ana.rh" "ana_hcurve_input" "ana_hcurve_input"; Unless "ana.rh" "mono_vcurve_input" "ana_vcurve_input"].
(** What a statement assigns.  The name of a crystal is looked up where self is the window, so that GetTau of an unknown one is None, which the
    property tau of the crystal cannot use (AttributeError); float of a widget is a TypeError.  The text put beside the choice (105-106) is not
    read anywhere and left out. *)
Definition effect (w : world) (e : list (string * R)) (f : form) (t : task) : res attrs :=
  match t with
  | One a i => bind (float w (f i)) (fun x => Ok [(a, GNum x)])
  | Many a i => bind (floats w (f i)) (fun l => Ok [(a, GNums l)])
  | Three a b c i => bind (floats w (f i)) (fun l => match l with [x; y; z] => Ok [(a, GNum x); (b, GNum y); (c, GNum z)] | _ => Err ValueError end)
  | Choice a i l => bind (pick (f i) l) (fun v => Ok [(a, v)])
  | Energy a i => bind (pick (f i) e) (fun v => Ok [(a, v)])
  | Lower a i => Ok [(a, GStr (ToolsModel.lower (f i)))]
  | Crystal a i =>
      if String.eqb (f i) "Custom" then Err TypeError
      else bind (ToolsModel.get_tau ToolsModel.COtherSelf (ToolsModel.TName (f i))) (fun o => match o with Some x => if Req_EM_T x 0 then Err ZeroDivisionError else Ok [(a, GNum x)] | None => Err AttributeError end)
  | Unless a u i => if String.eqb (f u) "None" then Ok [] else bind (float w (f i)) (fun x => Ok [(a, GNum x)])
  end.
Fixpoint perform (w : world) (e : list (string * R)) (f : form) (l : list task) (m : attrs) : res attrs :=
  match l with [] => Ok m | t :: l => bind (effect w e f t) (fun n => perform w e f l (m ++ n)) end.
(** instrument.x reads the last assignment. *)
Definition attribute (a : string) (m : attrs) : option gval := ToolsModel.lookup a (rev m).

(** The window: what is shown, the table of energies made when it opened, and the last picture with the instrument and point it is of. *)
Record window (w : world) := mkWindow { shown : form; table : list (string * R); drawn : option (attrs * list R * picture w) }.
Arguments mkWindow {w}. Arguments shown {w}. Arguments table {w}. Arguments drawn {w}.
(** load_instrument, gui.py:80-177: the instrument starts from Instrument(); an exception of a slot leaves the picture (newer PyQt ends the program instead,
    unless sys.excepthook is set; the statements then hold up to there). *)
Definition loaded (w : world) (s : window w) : res (attrs * list R * picture w) :=
  bind (perform w (table s) (shown s) tasks []) (fun m => bind (floats w (shown s "q_input")) (fun q => bind (calculate w m q) (fun p => Ok (m, q, p)))).
Definition load (w : world) (s : window w) : window w := match loaded w s with Ok d => mkWindow (shown s) (table s) (Some d) | Err _ => s end.
(** gui.py:56-78: an exception here, also of load_instrument, and there is no window. *)
Definition open_ (w : world) (f : form) : res (window w) :=
  bind (float w (f "energy_input")) (fun x => bind (energies w x) (fun e =>
  let s := mkWindow f e None in bind (loaded w s) (fun d => Ok (mkWindow f e (Some d))))).
(** gui.py:179-228 *)
Definition connected : list string :=
  ["method_dropdown"; "mono_dir_select"; "sample_dir_select"; "ana_dir_select"; "mono_select_dropdown"; "ana_select_dropdown"; "moncor_dropdown"; "fixed_kikf_dropdown";
   "energy_input"; "mono_select_input"; "mono_mosaic_input"; "mono_vmosaic_input"; "mono_height_input"; "mono_width_input"; "mono_depth_input"; "mono_hcurve_input"; "mono_vcurve_input";
   "ana_select_input"; "ana_mosaic_input"; "ana_vmosaic_input"; "ana_height_input"; "ana_width_input"; "ana_depth_input"; "ana_hcurve_input"; "ana_vcurve_input";
   "abc_input"; "abg_input"; "sample_mosaic_input"; "sample_vmosaic_input"; "sample_height_input"; "sample_width_input"; "sample_depth_input"; "sample_u_input"; "sample_v_input"; "sample_shape_dropdown";
   "hcols_input"; "vcols_input"; "arms_input"; "guide_height_input"; "guide_width_input"; "detector_height_input"; "detector_width_input"].
(** The user enters a text in a widget, or chooses another one of a list. *)
Definition enter (w : world) (s : window w) (ev : string * string) : window w :=
  let s' := mkWindow (fun i => if String.eqb i (fst ev) then snd ev else shown s i) (table s) (drawn s) in
  if mem (fst ev) connected then load w s' else s'.
Definition session (w : world) (s : window w) (evs : list (string * string)) : window w := fold_left (enter w) evs s.
