(** What repr shows of a component, and what Python makes of that text when it is run: neutronpy/instrument/monochromator.py, analyzer.py, detector.py,
    goniometer.py, instrument.py, tas_instrument.py, tof_instrument.py, takin.py and neutronpy/crystal/sample.py, lattice.py, atom.py. *)
From Coq Require Import String List Arith Bool Reals.
From Verif Require Import Base LinAlg EnergyModel LatticeModel ToolsModel CompModel.
Import ListNotations.
Local Open Scope string_scope.

(** The text of one argument, by what it is the text of.  str of a number can be read back as that number; str of a text has no quotes, and is taken to be
    neither a number nor a name the program knows (as with PG(002), rectangular, disk); a list has commas and an array has not; an object is shown in some
    other way that is no expression. *)
Inductive text := TNone | TNumber (x : R) | TQuoted (s : string) | TBare (s : string) | TList (l : list R) | TArray (l : list R) | TLines.
(** What the interpreter takes the text for; [None]: a SyntaxError or a NameError. *)
Definition read (t : text) : option value :=
  match t with
  | TNone => Some NoneV
  | TNumber x => Some (Num x)
  | TQuoted s => Some (Str s)
  | TBare _ => None
  | TList l => Some (Vec l)
  | TArray [] => Some (Vec [])
  | TArray [x] => Some (Vec [x])
  | TArray _ => None
  | TLines => None
  end.
(** str of an attribute; the sequences of a sample are arrays. *)
Definition show (v : value) : text := match v with NoneV => TNone | Num x => TNumber x | Str s => TBare s | Vec l => TArray l end.

(** A printed call: the positional arguments and the ones with names.  An empty list of the latter leaves ", " at the end, which Python accepts. *)
Record call := mkCall { c_args : list text; c_named : list (string * text) }.
Fixpoint read_all (l : list text) : option (list value) :=
  match l with [] => Some [] | t :: r => match read t, read_all r with Some v, Some m => Some (v :: m) | _, _ => None end end.
Fixpoint read_named (l : list (string * text)) : option (list (string * value)) :=
  match l with [] => Some [] | (k, t) :: r => match read t, read_named r with Some v, Some m => Some ((k, v) :: m) | _, _ => None end end.

(** Python's matching of arguments with parameters: positional ones in order, then the named ones; too many, an unknown name, a parameter given twice
    or a required one not given is a TypeError.  [params]: the parameters with their defaults ([None]: required). *)
Fixpoint positional (params : list (string * option value)) (args : list value) : res (list (string * value)) :=
  match args, params with
  | [], _ => Ok []
  | _ :: _, [] => Err TypeError
  | v :: args, (k, _) :: params => bind (positional params args) (fun m => Ok ((k, v) :: m))
  end.
Definition given {A} (k : string) (l : list (string * A)) : bool := mem k (map fst l).
Fixpoint named (params : list (string * option value)) (got l : list (string * value)) : res (list (string * value)) :=
  match l with
  | [] => Ok got
  | (k, v) :: r => if given k got then Err TypeError else if given k params then named params (List.app got [(k, v)]) r else Err TypeError
  end.
Fixpoint complete (params : list (string * option value)) (got : list (string * value)) : res (list value) :=
  match params with
  | [] => Ok []
  | (k, d) :: r => match lookup k got, d with
                   | Some v, _ => bind (complete r got) (fun m => Ok (v :: m))
                   | None, Some v => bind (complete r got) (fun m => Ok (v :: m))
                   | None, None => Err TypeError
                   end
  end.
Definition arguments (params : list (string * option value)) (args : list value) (kw : list (string * value)) : res (list value) :=
  bind (positional params args) (fun got => bind (named params got kw) (fun got => complete params got)).
(** Running the text of a call; [None]: the text is not Python, or names nothing. *)
Definition run {A} (params : list (string * option value)) (make : list value -> res A) (c : call) : option (res A) :=
  match read_all (c_args c), read_named (c_named c) with
  | Some args, Some kw => Some (bind (arguments params args kw) make)
  | _, _ => None
  end.

(** The printed pairs: attributes that are there and not None.  getattr with a default hides AttributeErrors; the attributes here have no other errors. *)
Definition pairs (get : string -> res value) (ks : list string) : list (string * text) :=
  flat_map (fun k => match get k with Ok NoneV => [] | Ok v => [(k, show v)] | Err _ => [] end) ks.
(** The positional ones must be there. *)
Definition texts (get : string -> res value) (ks : list string) : res (list text) := map_res (fun k => bind (get k) (fun v => Ok (show v))) ks.

(** ** Monochromator, analyzer: monochromator.py:53, 71-76; analyzer.py:65, 75-80 *)
Definition mono_repr (o : obj) : res call :=
  bind (texts (fun k => mono_get k o) ["tau"; "mosaic"]) (fun args =>
  Ok (mkCall args (pairs (fun k => mono_get k o) ["direct"; "vmosaic"; "height"; "width"; "depth"; "rh"; "rv"]))).
Definition mono_params : list (string * option value) :=
  [("tau", None); ("mosaic", None); ("direct", Some (Num (-1))); ("vmosaic", Some NoneV); ("height", Some NoneV); ("width", Some NoneV); ("depth", Some NoneV); ("rh", Some NoneV); ("rv", Some NoneV)].
Definition mono_make (l : list value) : res obj :=
  match l with [tau; mosaic; direct; vmosaic; height; width; depth; rh; rv] => mono_init CMonochromator tau mosaic direct vmosaic height width depth rh rv | _ => Err TypeError end.
Definition ana_repr (o : obj) : res call :=
  bind (texts (fun k => mono_get k o) ["tau"; "mosaic"]) (fun args =>
  Ok (mkCall args (pairs (fun k => mono_get k o) ["direct"; "vmosaic"; "height"; "width"; "depth"; "rh"; "rv"; "horifoc"; "thickness"; "Q"]))).
Definition ana_params : list (string * option value) := List.app mono_params [("horifoc", Some (Num (-1))); ("thickness", Some NoneV); ("Q", Some NoneV)].
Definition ana_make (l : list value) : res obj :=
  match l with
  | [tau; mosaic; direct; vmosaic; height; width; depth; rh; rv; horifoc; thickness; q] => ana_init CAnalyzer tau mosaic direct vmosaic height width depth rh rv horifoc thickness q
  | _ => Err TypeError
  end.

(** ** Sample: crystal/sample.py:118-119, 143-148.  The attribute of the shape is called shape_type, and there is none called shape. *)
Definition sample_repr (o : obj) : res call :=
  bind (texts (fun k => sample_get k o) ["a"; "b"; "c"; "alpha"; "beta"; "gamma"]) (fun args =>
  Ok (mkCall args (pairs (fun k => sample_get k o) ["u"; "v"; "mosaic"; "vmosaic"; "direct"; "width"; "height"; "depth"; "shape"]))).
Definition sample_params : list (string * option value) :=
  [("a", None); ("b", None); ("c", None); ("alpha", None); ("beta", None); ("gamma", None); ("u", Some NoneV); ("v", Some NoneV); ("mosaic", Some NoneV); ("vmosaic", Some NoneV);
   ("direct", Some (Num 1)); ("width", Some NoneV); ("height", Some NoneV); ("depth", Some NoneV); ("shape", Some (Str "rectangular")); ("distance", Some NoneV)].
(** Cell parameters are numbers. *)
Definition sample_make (l : list value) : res obj :=
  match l with
  | [Num a; Num b; Num c; Num alpha; Num beta; Num gamma; u; v; mosaic; vmosaic; direct; width; height; depth; shape; distance] =>
      Ok (sample_init a b c alpha beta gamma u v mosaic vmosaic direct width height depth shape distance)
  | _ => Err TypeError
  end.
(** crystal/lattice.py:77-82. *)
Definition lattice_repr (o : obj) : res call := bind (texts (fun k => sample_get k o) ["a"; "b"; "c"; "alpha"; "beta"; "gamma"]) (fun args => Ok (mkCall args [])).
Definition lattice_params : list (string * option value) := [("a", None); ("b", None); ("c", None); ("alpha", None); ("beta", None); ("gamma", None)].
Definition lattice_make (l : list value) : res obj :=
  match l with
  | [Num a; Num b; Num c; Num alpha; Num beta; Num gamma] => Ok (put "abg" (Vec [alpha; beta; gamma]) (put "abc" (Vec [a; b; c]) []))
  | _ => Err TypeError
  end.

(** ** Goniometer: goniometer.py:33-47.  The seven attributes are whatever was given, by their texts. *)
Definition gonio_attrs : list string := ["u"; "theta_u"; "v"; "theta_v"; "sgu"; "sgl"; "omega"].
Definition gonio_repr (attrs : list text) : call := mkCall attrs [].
Definition gonio_params : list (string * option value) := List.app (map (fun k => (k, None)) ["u"; "theta_u"; "v"; "theta_v"; "sgu"; "sgl"]) [("omega", Some (Num 0))].
(** The attributes stored. *)
Definition gonio_make (l : list value) : res (list value) := Ok l.

(** ** Detector: detector.py:62-80.  There is no attribute resolution, which is shown as None; the other two are shown as None when they are not there. *)
Definition detector_repr (shape width height radius : text) (orientation dead_angles : option text) : call :=
  mkCall [shape; width; height; radius]
         [("resolution", TNone); ("orientation", match orientation with Some t => t | None => TNone end); ("dead_angles", match dead_angles with Some t => t | None => TNone end)].
Definition detector_params : list (string * option value) :=
  [("shape", None); ("width", None); ("height", None); ("radius", None); ("hpixels", None); ("vpixels", None); ("tau", Some (Num (1 / 10))); ("thickness", Some (Num 1)); ("orientation", Some NoneV); ("dead_angles", Some NoneV)].

(** ** Atoms: crystal/atom.py:37, 61-62, 83, 89-90 *)
Definition atom_repr (ion : string) : call := mkCall [TQuoted ion] [].
Definition atom_params : list (string * option value) :=
  [("ion", None); ("pos", None); ("occupancy", Some (Num 1)); ("Mcell", Some NoneV); ("massNorm", Some (Num 0)); ("Uiso", Some (Num 0)); ("Uaniso", Some (Vec [0; 0; 0; 0; 0; 0; 0; 0; 0]%R))].
Definition magnetic_atom_params : list (string * option value) := [("ion", None); ("pos", None); ("moment", None); ("occupancy", None)].

(** ** Instruments: instrument.py:31-61, tas_instrument.py:96-126, tof_instrument.py:77-115, takin.py:16-40 *)
(** The class that Instrument turns into; [Bare]: none, for an unknown type or engine. *)
Inductive kind := Tas (takin : bool) | Tof (takin : bool) | Bare (type engine : string).
(** A built instrument: its kind and its fixed or incident energy, if it has one.  The other arguments are left out, and so is the sorting of choppers. *)
Record instr := mkInstr { i_kind : kind; i_energy : option value }.
Definition instr_repr (i : instr) : call :=
  match i_kind i with
  | Tas false => mkCall [TQuoted "tas"] [("engine", TQuoted "neutronpy"); ("efixed", match i_energy i with Some v => show v | None => TNone end)]
  | Tas true => mkCall [TQuoted "tas"] [("engine", TQuoted "takin")]
  | Tof false => mkCall [TQuoted "tof"] [("engine", TQuoted "neutronpy"); ("ei", TLines)]
  | Tof true => mkCall [TQuoted "tof"] [("engine", TQuoted "takin")]
  | Bare t e => mkCall [TQuoted t] [("engine", TQuoted e)]
  end.
(** The class: the type and the engine are looked for among the named arguments alone. *)
Definition kind_of (kw : list (string * value)) : kind :=
  let t := match lookup "instrument_type" kw with Some v => v | None => Str "tas" end in
  let e := match lookup "engine" kw with Some v => v | None => Str "neutronpy" end in
  match t, e with
  | Str t, Str e =>
      if String.eqb t "tas" then if String.eqb e "neutronpy" then Tas false else if String.eqb e "takin" then Tas true else Bare t e
      else if String.eqb t "tof" then if String.eqb e "neutronpy" then Tof false else if String.eqb e "takin" then Tof true else Bare t e
      else Bare t e
  | _, _ => Bare "" ""
  end.
(** All arguments are handed on, with type and engine; other names become attributes.  The first argument of both classes is the energy. *)
Definition first_of (name : string) (default : value) (most : nat) (args : list value) (kw : list (string * value)) : res value :=
  if Nat.ltb most (List.length args) then Err TypeError
  else match args, lookup name kw with
       | _ :: _, Some _ => Err TypeError
       | v :: _, None => Ok v
       | [], Some v => Ok v
       | [], None => Ok default
       end.
Definition instr_make (args : list value) (kw : list (string * value)) : res instr :=
  match kind_of kw with
  | Tas t => bind (first_of "efixed" (Num (147 / 10)) 8 args kw) (fun e => Ok (mkInstr (Tas t) (Some e)))
  | Tof false => bind (first_of "ei" (Num 3) 7 args kw) (fun e => match e with Num _ => Ok (mkInstr (Tof false) (Some e)) | _ => Err TypeError end)
  | Tof true => Ok (mkInstr (Tof true) None)
  | Bare t e => Ok (mkInstr (Bare t e) None)
  end.
Definition instr_run (c : call) : option (res instr) :=
  match read_all (c_args c), read_named (c_named c) with Some args, Some kw => Some (instr_make args kw) | _, _ => None end.
