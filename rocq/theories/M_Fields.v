(** Field containers and the selection of fields
    (dream/config.py:57-126, dream/solver.py:407-413,
    dream/compressible/formulations/conservative.py:341-380, 854-880). *)
From Coq Require Import String List Bool Arith.
From Verif Require Import Base Dict.
Import ListNotations.
Local Open Scope string_scope.
Local Open Scope list_scope.

Section Fields.
(** Values that [ngs.CF] accepts; the wrapping itself is not represented (dream/config.py:105-106). *)
Context {V : Type}.

(** [symbols] of the class: symbol to quantity name (dream/config.py:93-98); [attrs]: the quantity descriptors
    Python finds for an attribute, by their name (dream/config.py:57-73). *)
Variables symbols attrs : dict string.

(** The key under which a value is stored (dream/config.py:108-109). *)
Definition canon (key : string) : string := match dget symbols key with Some n => n | None => key end.

(** [fields[key] = value] (dream/config.py:104-111); [None] is no value for [ngs.CF] and raises. *)
Definition set_item (data : dict V) (key : string) (v : option V) : dict V * option exn :=
  match v with Some v => (dset data (canon key) v, None) | None => (data, Some TypeError) end.

(** [fields.symbol = value] (dream/config.py:75-77).  An attribute that is no quantity is an ordinary
    attribute of the object and no field. *)
Definition set_attr (data : dict V) (symbol : string) (v : option V) : dict V * option exn :=
  match dget attrs symbol, v with
  | Some name, Some v => set_item data name (Some v)
  | _, _ => (data, None)
  end.

(** [fields.symbol] (dream/config.py:70-73): None if there is no such field. *)
Definition get_attr (data : dict V) (symbol : string) : result (option V) :=
  match dget attrs symbol with Some name => Ok (dget data name) | None => Err AttributeError end.

(** [fields[key]] (dream/config.py:113-114). *)
Definition get_item (data : dict V) (key : string) : result V :=
  match dget data key with Some v => Ok v | None => Err KeyError end.

(** [del fields[key]], [del fields.symbol] (dream/config.py:79-80, 116-117). *)
Definition del_item (data : dict V) (key : string) : dict V * option exn :=
  match dget data key with Some _ => (ddel data key, None) | None => (data, Some KeyError) end.
(** [del fields.symbol] (dream/config.py:79-80). *)
Definition del_attr (data : dict V) (symbol : string) : dict V * option exn :=
  match dget attrs symbol with Some name => del_item data name | None => (data, Some AttributeError) end.

(** [fields.update(...)] and the constructor (dream/config.py:100-102; [MutableMapping.update] stores item by
    item), stopped by the first exception. *)
Fixpoint update (data : dict V) (items : list (string * option V)) : dict V * option exn :=
  match items with
  | [] => (data, None)
  | (k, v) :: rest => match set_item data k v with (d, None) => update d rest | r => r end
  end.

(** Statements on a container (dream/config.py:57-126); exceptions are caught by the caller. *)
Inductive fop := SetItem (key : string) (v : option V) | SetAttr (symbol : string) (v : option V)
  | DelItem (key : string) | DelAttr (symbol : string) | Update (items : list (string * option V)).
(** One statement (dream/config.py:57-126). *)
Definition fstep (data : dict V) (o : fop) : dict V :=
  fst match o with
      | SetItem k v => set_item data k v
      | SetAttr s v => set_attr data s v
      | DelItem k => del_item data k
      | DelAttr s => del_attr data s
      | Update l => update data l
      end.
(** A sequence of statements (dream/config.py:57-126). *)
Definition frun (data : dict V) (ops : list fop) : dict V := fold_left fstep ops data.

(** [get_fields] of the finite element method (conservative.py:854-880).  [u]: the fields that can be
    provided, [quantities]: the selection.  Result: the fields and what is left of the selection. *)
Definition default_selection : dict bool := [("rho", true); ("u", true); ("p", true); ("T", true)].

(** One pass of the loop (conservative.py:864-878). *)
Definition select_one (u : dict V) (acc : dict V * dict bool) (sv : string * bool) : dict V * dict bool :=
  let '(fields, quantities) := acc in
  let '(symbol, value) := sv in
  if value then
    let name := canon symbol in
    match dget u name with
    | None => acc
    | Some x =>
        (fst (set_item fields name (Some x)),
         match dget quantities symbol with
         | Some _ => ddel quantities symbol
         | None => match dget quantities name with Some _ => ddel quantities name | None => quantities end
         end)
    end
  else acc.

(** [get_fields]: the selection is completed by the defaults and gone through in order
    (dream/compressible/formulations/conservative.py:854-880). *)
Definition get_fields (u : dict V) (quantities : dict bool) : dict V * dict bool :=
  fold_left (select_one u) (fold_left (fun d kv => dset d (fst kv) (snd kv)) quantities default_selection) ([], quantities).

(** [SolverConfiguration.get_fields] (dream/solver.py:407-413): the fields and the names logged as not
    predefined. *)
Definition solver_get_fields (u : dict V) (quantities : dict bool) : dict V * list string :=
  let '(fields, rest) := get_fields u quantities in (fields, dkeys rest).

(** [get_dimensionful_state] (dream/compressible/solver.py:197-210) with the product of values. *)
Definition dimensionful_state (times : V -> V -> V) (ref u : dict V) : dict V :=
  fold_left (fun d kv => match dget ref (fst kv) with Some r => fst (set_item d (fst kv) (Some (times (snd kv) r))) | None => d end) u [].
End Fields.
Arguments fop V : clear implicits.

(** Symbols of a subclass (dream/config.py:93-98): its own quantities, overridden by inherited ones. *)
Definition subclass_symbols (own inherited : dict string) : dict string :=
  fold_left (fun d kv => dset d (fst kv) (snd kv)) inherited own.
(** Descriptors of a subclass (Python attribute lookup; dream/config.py:57-73): its own ones come first. *)
Definition subclass_attrs (own inherited : dict string) : dict string :=
  fold_left (fun d kv => dset d (fst kv) (snd kv)) own inherited.

(** [flowfields] (dream/compressible/config.py:29-69). *)
Definition flow_symbols : dict string := subclass_symbols
  [("rho", "density"); ("u", "velocity"); ("rho_u", "momentum"); ("p", "pressure"); ("T", "temperature"); ("rho_E", "energy");
   ("E", "specific_energy"); ("rho_Ei", "inner_energy"); ("Ei", "specific_inner_energy"); ("rho_Ek", "kinetic_energy");
   ("Ek", "specific_kinetic_energy"); ("rho_H", "enthalpy"); ("H", "specific_enthalpy"); ("c", "speed_of_sound");
   ("grad_rho", "density_gradient"); ("grad_u", "velocity_gradient"); ("grad_rho_u", "momentum_gradient"); ("grad_p", "pressure_gradient");
   ("grad_T", "temperature_gradient"); ("grad_rho_E", "energy_gradient"); ("grad_E", "specific_energy_gradient");
   ("grad_rho_Ei", "inner_energy_gradient"); ("grad_Ei", "specific_inner_energy_gradient"); ("grad_rho_Ek", "kinetic_energy_gradient");
   ("grad_Ek", "specific_kinetic_energy_gradient"); ("grad_rho_H", "enthalpy_gradient"); ("grad_H", "specific_enthalpy_gradient");
   ("grad_c", "speed_of_sound_gradient"); ("eps", "strain_rate_tensor")] [].

(** [dimensionfulfields] (dream/compressible/config.py:72-79). *)
Definition dimensionful_symbols : dict string := subclass_symbols
  [("L", "length"); ("rho", "density"); ("rho_u", "momentum"); ("u", "velocity"); ("c", "speed_of_sound"); ("T", "temperature");
   ("p", "pressure")] [].

(** Quantities provided for a grid function (conservative.py:341-380). *)
Definition conservative_quantities : list string :=
  ["rho"; "rho_u"; "rho_E"; "u"; "rho_Ek"; "rho_Ei"; "p"; "T"; "c";
   "grad_rho"; "grad_rho_u"; "grad_rho_E"; "grad_u"; "grad_rho_Ek"; "grad_rho_Ei"; "grad_p"; "grad_T"].
(** The container a conservative state is turned into: the assignments in that order
    (dream/compressible/formulations/conservative.py:346-378). *)
Definition conservative_fields {V} (value : string -> V) : dict V :=
  fold_left (fun d s => fst (set_attr flow_symbols flow_symbols d s (Some (value s)))) conservative_quantities [].
