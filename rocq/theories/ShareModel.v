(** Which objects triple-axis instruments share: TripleAxisInstrument.__init__ and its properties,
    /repo/neutronpy/instrument/tas_instrument.py:91-123, 209-213, 259-263, 366-392, 409-433, over components that are referred to by their place
    in a heap.  Attributes kept under names of properties (u, v, mono, ...) have the underscore of the instance dictionary. *)
From Coq Require Import String List ZArith Reals Arith.
From Verif Require Import Base LinAlg EnergyModel LatticeModel ToolsModel CompModel.
Import ListNotations.
Local Open Scope string_scope.
Local Open Scope list_scope.

(** The properties of an instrument that are components. *)
Inductive slot := SMono | SAna | SSample | SDetector | SMonitor | SGuide.
Definition slot_eqb (s t : slot) : bool :=
  match s, t with SMono, SMono | SAna, SAna | SSample, SSample | SDetector, SDetector | SMonitor, SMonitor | SGuide, SGuide => true | _, _ => false end.
(** [at_ s] is the place of the component; the other attributes are [plain]. *)
Record inst := mkInst { at_ : slot -> nat; plain : obj }.
Record world := mkWorld { heap : list obj; insts : list inst }.
Definition empty : world := mkWorld [] [].

(** The arguments of the constructor besides the sample, tas_instrument.py:91-92; [a_extra] are keyword arguments naming attributes
    that are not components (efixed, method, arms, infin, ...). *)
Record args := mkArgs { a_efixed : value; a_hcol : value; a_vcol : value; a_mono : value; a_mm : value; a_ana : value; a_am : value; a_extra : list (string * value) }.
(** tas_instrument.py:94-97, 118-120 *)
Definition default_sample : obj := sample_init 6 7 8 90 90 90 (Vec [1; 0; 0]%R) (Vec [0; 1; 0]%R) NoneV NoneV (Num 1) NoneV NoneV NoneV (Str "rectangular") NoneV.
Definition dummy (name : string) : obj := [("name", Str name)].
(** tas_instrument.py:110-114, 122-123 *)
Definition made_mono (a : args) : res obj := mono_init CMonochromator (a_mono a) (a_mm a) (Num (-1)) NoneV NoneV NoneV NoneV NoneV NoneV.
Definition made_ana (a : args) : res obj := ana_init CAnalyzer (a_ana a) (a_am a) (Num (-1)) NoneV NoneV NoneV NoneV NoneV NoneV (Num (-1)) NoneV NoneV.
Definition made_plain (a : args) : obj :=
  fold_left (fun o e => put (fst e) (snd e) o) (a_extra a) (put "_efixed" (a_efixed a) (put "_vcol" (a_vcol a) (put "_hcol" (a_hcol a) []))).

Inductive op :=
| Component (o : obj)                                  (* a Monochromator, Sample, ... made by the user *)
| Create (a : args) (sample : option nat)              (* Instrument(..., sample=...) *)
| Hand (i : nat) (s : slot) (c : nat)                  (* instrument.sample = c *)
| Assign (i : nat) (s : slot) (k : string) (v : value) (* instrument.sample.k = v *)
| Touch (c : nat) (k : string) (v : value)             (* c.k = v *)
| Plain (i : nat) (k : string) (v : value).            (* instrument.efixed = v *)
(** tas_instrument.py:379-381, 390-392 *)
Definition orient1 (i : nat) (v : value) : op := Assign i SSample "_u" v.
Definition orient2 (i : nat) (v : value) : op := Assign i SSample "_v" v.

Fixpoint set_nth {A} (n : nat) (x : A) (l : list A) : list A :=
  match l, n with [], _ => [] | _ :: l, O => x :: l | y :: l, S n => y :: set_nth n x l end.
Definition write (c : nat) (k : string) (v : value) (h : list obj) : list obj := match nth_error h c with Some o => set_nth c (put k v o) h | None => h end.
Definition five (b : nat) (sample : nat) (s : slot) : nat := match s with SMono => b | SAna => b + 1 | SDetector => b + 2 | SMonitor => b + 3 | SGuide => b + 4 | SSample => sample end.
(** An operation that raises leaves everything as it was: the components made before are not reachable, and orient1 and orient2 are given
    the vectors the sample has (tas_instrument.py:116-117), so that only a sample without them fails. *)
Definition step (w : world) (o : op) : res world :=
  match o with
  | Component o => Ok (mkWorld (heap w ++ [o]) (insts w))
  | Create a sample =>
      bind (made_mono a) (fun m => bind (made_ana a) (fun an =>
      let b := List.length (heap w) in
      let h := heap w ++ [m; an; dummy "Detector"; dummy "Monitor"; dummy "Guide"] in
      match sample with
      | None => Ok (mkWorld (h ++ [default_sample]) (insts w ++ [mkInst (five b (b + 5)) (made_plain a)]))
      | Some c =>
          match nth_error (heap w) c with
          | None => Err NameError
          | Some o => bind (get "_u" o) (fun u => bind (get "_v" o) (fun v =>
              Ok (mkWorld (write c "_v" v (write c "_u" u h)) (insts w ++ [mkInst (five b c) (made_plain a)]))))
          end
      end))
  | Hand i s c =>
      match nth_error (insts w) i, nth_error (heap w) c with
      | Some x, Some _ => Ok (mkWorld (heap w) (set_nth i (mkInst (fun t => if slot_eqb t s then c else at_ x t) (plain x)) (insts w)))
      | _, _ => Err NameError
      end
  | Assign i s k v => match nth_error (insts w) i with Some x => Ok (mkWorld (write (at_ x s) k v (heap w)) (insts w)) | None => Err NameError end
  | Touch c k v => match nth_error (heap w) c with Some _ => Ok (mkWorld (write c k v (heap w)) (insts w)) | None => Err NameError end
  | Plain i k v => match nth_error (insts w) i with Some x => Ok (mkWorld (heap w) (set_nth i (mkInst (at_ x) (put k v (plain x))) (insts w))) | None => Err NameError end
  end.
Definition perform (w : world) (o : op) : world := match step w o with Ok w => w | Err _ => w end.
Definition run (h : list op) : world := fold_left perform h empty.

(** instrument.sample.k and instrument.efixed *)
Definition read (w : world) (i : nat) (s : slot) (k : string) : res value :=
  match nth_error (insts w) i with
  | Some x => match nth_error (heap w) (at_ x s) with Some o => get k o | None => Err NameError end
  | None => Err NameError
  end.
Definition read_plain (w : world) (i : nat) (k : string) : res value := match nth_error (insts w) i with Some x => get k (plain x) | None => Err NameError end.
