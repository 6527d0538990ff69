(** Specification vocabulary for what an assignment to an option stores. *)
From Coq Require Import String List Bool ZArith QArith.
From Verif Require Import Base Dict M_Config M_Classes S_Config.
Import ListNotations.
Local Open Scope string_scope.
Local Open Scope list_scope.

(** The number that a value is: integers, floats, and truth values as 0 and 1. *)
Inductive is_number : val atom -> Q -> Prop :=
| number_int z : is_number (VAtom (AInt z)) (inject_Z z)
| number_float q : is_number (VAtom (AFloat q)) q
| number_true : is_number (VBool true) 1
| number_false : is_number (VBool false) 0.

(** [z] is the number [q] without what is behind the decimal point. *)
Definition whole_part (q : Q) (z : Z) : Prop :=
  (0 <= q -> inject_Z z <= q /\ q < inject_Z z + 1)%Q /\ (q <= 0 -> inject_Z z - 1 < q /\ q <= inject_Z z)%Q.

(** The assignment stores [w] under [name] and changes nothing else. *)
Definition stores (c : cfg atom) (name : string) (next : nat) (o : out atom) (w : val atom) : Prop :=
  exists c', o = (c', next, None) /\ differs_only_at c c' name /\ dget (cfg_data c') name = Some (SPlain w).

(** The assignment raises [e] and changes nothing. *)
Definition refuses (c : cfg atom) (next : nat) (o : out atom) (e : exn) : Prop := o = (c, next, Some e).

(** Options by class that hold whole numbers. *)
Definition integer_options : list (string * string) :=
  [("BonusIntegrationOrder", "vol"); ("BonusIntegrationOrder", "bnd"); ("BonusIntegrationOrder", "bbnd"); ("BonusIntegrationOrder", "bbbnd");
   ("UmfpackNonlinearSolver", "max_iterations"); ("PardisoNonlinearSolver", "max_iterations");
   ("PseudoTimeSteppingConfig", "increment_at"); ("PseudoTimeSteppingConfig", "increment_factor"); ("ConservativeFiniteElementMethod", "order")].

(** Options that hold positive whole numbers. *)
Definition rate_options : list (string * string) :=
  [("VTKStream", "rate"); ("GridfunctionStream", "rate"); ("GridfunctionStream", "time_level_rate")].

(** Options that hold any number, and options that hold positive numbers. *)
Definition float_options : list (string * string) :=
  [("NewtonsMethod", "damping_factor"); ("PseudoTimeSteppingConfig", "max_time_step"); ("HLLEM", "theta_0")].
Definition positive_options : list (string * string) :=
  [("UmfpackNonlinearSolver", "convergence_criterion"); ("PardisoNonlinearSolver", "convergence_criterion")].

(** Options that are on or off. *)
Definition truth_options : list (string * string) :=
  [("Compile", "realcompile"); ("Compile", "wait"); ("Compile", "keep_files"); ("Optimizations", "static_condensation");
   ("SettingsStream", "pickle"); ("SettingsStream", "txt"); ("SettingsStream", "yaml")].

(** What Python counts as false: nothing, zero and everything empty. *)
Inductive is_nothing : val atom -> Prop :=
| nothing_none : is_nothing (VAtom ANone)
| nothing_false : is_nothing (VBool false)
| nothing_int : is_nothing (VAtom (AInt 0))
| nothing_float q : (q == 0)%Q -> is_nothing (VAtom (AFloat q))
| nothing_tuple : is_nothing (VAtom (ATuple []))
| nothing_fields : is_nothing (VAtom (AFields []))
| nothing_text : is_nothing (VStr "")
| nothing_dict : is_nothing (VDict [])
| nothing_options cls r m : is_nothing (VInst (Cfg cls r m [])).

(** Options that are parameters of the equations, with the numbers they take. *)
Definition parameter_options : list (string * string * (Q -> Prop)) :=
  [("CompressibleFlowSolver", "mach_number", fun q => (0 <= q)%Q); ("CompressibleFlowSolver", "reynolds_number", fun q => (0 < q)%Q);
   ("CompressibleFlowSolver", "prandtl_number", fun q => (0 < q)%Q); ("IdealGas", "heat_capacity_ratio", fun _ => True);
   ("Timer", "step", fun _ => True); ("Timer", "t", fun _ => True)].

(** The assignment sets the parameter object [id] stored under [name] to [w] and changes nothing else. *)
Definition sets (c : cfg atom) (name : string) (id : nat) (next : nat) (o : out atom) (w : val atom) : Prop :=
  exists c', o = (c', next, None) /\ differs_only_at c c' name /\ dget (cfg_data c') name = Some (SParam id w).

(** File names of the streams, with the name that stands for None. *)
Definition filename_options : list (string * string) :=
  [("MeshStream", "mesh"); ("SettingsStream", "settings"); ("VTKStream", "vtk"); ("GridfunctionStream", "gfu"); ("LogStream", "dream"); ("SensorStream", "sensor")].
