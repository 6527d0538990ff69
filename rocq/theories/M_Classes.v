(** The configuration classes of the compressible flow solver as a class table
    (dream/time.py, dream/solver.py, dream/io.py, dream/compressible/). *)
From Coq Require Import String List Bool Arith ZArith QArith.
From Verif Require Import Base Dict M_Config.
Import ListNotations.
Local Open Scope string_scope.
Local Open Scope list_scope.

(** Plain Python values held by options: None, int, float, tuples of numbers and field containers.
    Floating-point numbers are represented by rationals. *)
Inductive atom := ANone | AInt (z : Z) | AFloat (q : Q) | ATuple (l : list Q) | AFields (d : dict Q).
(** What an option may hold (dream/config.py:134-187), over these plain values. *)
Notation value := (val atom).

(** Numbers as rationals; [bool] is a number in Python. *)
Definition number (v : value) : option Q :=
  match v with
  | VAtom (AInt z) => Some (inject_Z z)
  | VAtom (AFloat q) => Some q
  | VBool b => Some (if b then 1 else 0)%Q
  | _ => None
  end.

(** [int(x)], e.g. dream/solver.py:19-21.  Numerals given as strings are not modelled: every
    string is rejected with ValueError. *)
Definition to_int (v : value) : result value :=
  match v with
  | VAtom (AInt z) => Ok (VAtom (AInt z))
  | VAtom (AFloat q) => Ok (VAtom (AInt (Z.quot (Qnum q) (Zpos (Qden q)))))
  | VBool b => Ok (VAtom (AInt (if b then 1 else 0)%Z))
  | VStr _ => Err ValueError
  | _ => Err TypeError
  end.

(** [float(x)], e.g. dream/time.py:345-347; strings as above. *)
Definition to_float (v : value) : result value :=
  match v with
  | VStr _ => Err ValueError
  | _ => match number v with Some q => Ok (VAtom (AFloat q)) | None => Err TypeError end
  end.

(** [bool(x)], e.g. dream/solver.py:42-44. *)
Definition to_bool (v : value) : result value :=
  Ok (VBool match v with
    | VAtom ANone => false
    | VAtom (AInt z) => negb (Z.eqb z 0)
    | VAtom (AFloat q) => negb (Z.eqb (Qnum q) 0)
    | VAtom (ATuple l) => match l with [] => false | _ => true end
    | VAtom (AFields l) => match l with [] => false | _ => true end
    | VBool b => b
    | VStr s => negb (String.eqb s "")
    | VDict d => match d with [] => false | _ => true end
    | VInst c => match cfg_data c with [] => false | _ => true end
    end).

(** Setter functions that return their argument, e.g. dream/compressible/viscosity.py:44-50. *)
Definition keep (v : value) : result value := Ok v.

(** The same for a parameter (dream/time.py:31-38, dream/compressible/eos.py:93-95): [ngs.Parameter]
    (dream/config.py:202, 210) holds a float and takes numbers only. *)
Definition to_parameter (v : value) : result value :=
  match number v with Some q => Ok (VAtom (AFloat q)) | None => Err TypeError end.

(** [if x < bound: raise ValueError] respectively [<=] (dream/compressible/solver.py:50-53, 64-67,
    84-87); comparing a non-number raises TypeError.  The value ends up in an [ngs.Parameter]. *)
Definition reject_below (strict : bool) (v : value) : result value :=
  match number v with
  | None => Err TypeError
  | Some q => if (if strict then Qle_bool q 0 else negb (Qle_bool 0 q)) then Err ValueError else Ok (VAtom (AFloat q))
  end.

(** [convergence_criterion] (dream/solver.py:167-171). *)
Definition to_positive_float (v : value) : result value :=
  match number v with
  | None => Err TypeError
  | Some q => if Qle_bool q 0 then Err ValueError else Ok (VAtom (AFloat q))
  end.

(** [rate], [time_level_rate] (dream/io.py:284-289, 358-372). *)
Definition to_rate (v : value) : result value :=
  let* w := to_int v in
  match w with VAtom (AInt z) => if Z.leb z 0 then Err ValueError else Ok w | _ => Err TypeError end.

(** [interval] (dream/time.py:19-29).  Only tuples of numbers are accepted here; other iterables of two
    numbers (lists, arrays) count as tuples, anything else is rejected with TypeError. *)
Definition to_interval (v : value) : result value :=
  match v with
  | VAtom (ATuple [s; e]) =>
      if negb (Qle_bool 0 s) || negb (Qle_bool 0 e) then Err ValueError
      else if Qle_bool e s then Err ValueError else Ok v
  | VAtom (ATuple _) => Err ValueError
  | _ => Err TypeError
  end.

(** [info] (dream/solver.py:347-357). *)
Definition to_info (v : value) : result value :=
  match v with
  | VAtom ANone => Ok (VDict [])
  | VDict d => Ok v
  | _ => Err ValueError
  end.

(** [filename] of a stream with class name [name] (dream/io.py:151-155). *)
Definition to_filename (name : string) (v : value) : result value :=
  match v with VAtom ANone => Ok (VStr name) | _ => Ok v end.

(** Fields given as a dictionary or a field container; values that are no numbers are rejected by
    [ngs.CF] (dream/config.py:104-111).  A key with dots is one key here. *)
Definition field_list (v : value) : option (list (string * Q)) :=
  match v with
  | VAtom (AFields d) => Some d
  | VDict d =>
      fold_right (fun kv acc => match number (snd kv), acc with
        | Some q, Some l => Some ((String.concat "." (fst kv), q) :: l)
        | _, _ => None
        end) (Some []) d
  | _ => None
  end.

(** Symbols of [dimensionfulfields] (dream/compressible/config.py:72-79); other keys are kept
    (dream/config.py:108-109). *)
Definition dimensionful_name (k : string) : string :=
  match dget [("L", "length"); ("rho", "density"); ("rho_u", "momentum"); ("u", "velocity"); ("c", "speed_of_sound");
              ("T", "temperature"); ("p", "pressure")] k with Some n => n | None => k end.

(** [dimensionful_values] (dream/compressible/scaling.py:17-27): the given fields on top of the reference
    values.  The dotted update [dimensionful_values.L=...] of the stored container
    (dream/config.py:373-374) is not modelled: the table treats containers as plain values. *)
Definition reference_values : dict Q :=
  [("length", 1%Q); ("density", (1293 # 1000)%Q); ("velocity", 1%Q); ("speed_of_sound", 343%Q);
   ("temperature", (29315 # 100)%Q); ("pressure", 101325%Q)].
(** The setter of the reference values (dream/compressible/scaling.py:17-27); numbers are stored as given. *)
Definition to_dimensionful (v : value) : result value :=
  match v with
  | VAtom ANone => Ok (VAtom (AFields reference_values))
  | _ => match field_list v with
      | Some l => Ok (VAtom (AFields (fold_left (fun r kv => dset r (dimensionful_name (fst kv)) (snd kv)) l reference_values)))
      | None => Err TypeError
      end
  end.

(** [fields] of the VTK stream (dream/io.py:299-303): a container without symbols. *)
Definition to_fields (v : value) : result value :=
  match v with
  | VAtom ANone => Ok (VAtom (AFields []))
  | _ => match field_list v with
      | Some l => Ok (VAtom (AFields (fold_left (fun r kv => dset r (fst kv) (snd kv)) l [])))
      | None => Err TypeError
      end
  end.

(** Literals of the table below: a float default such as [1e-8] (dream/solver.py:167). *)
Definition fl (q : Q) : value := VAtom (AFloat q).
(** An integer default such as [10] (dream/solver.py:163). *)
Definition int (z : Z) : value := VAtom (AInt z).
(** The default [None] (dream/mesh.py:396). *)
Definition none : value := VAtom ANone.

(** A class without getter checks ([fget] of dream/config.py:162-163 is [None] for all its options). *)
Definition plain_class (name : string) (bases : list string) (opts : list (string * kind atom)) : class atom :=
  mk_class name bases opts (fun _ _ => false).

(** dream/solver.py:16-76 *)
Definition solver_parts : dict (class atom) :=
  [("BonusIntegrationOrder", plain_class "bonusintegrationorder" ["BonusIntegrationOrder"]
      [("vol", KPlain (int 0) to_int); ("bnd", KPlain (int 0) to_int); ("bbnd", KPlain (int 0) to_int); ("bbbnd", KPlain (int 0) to_int)]);
   ("Compile", plain_class "compile" ["Compile"]
      [("realcompile", KPlain (VBool true) to_bool); ("wait", KPlain (VBool false) to_bool); ("keep_files", KPlain (VBool false) to_bool)]);
   ("Optimizations", plain_class "optimizations" ["Optimizations"]
      [("compile", KUnique "Compile"); ("static_condensation", KPlain (VBool false) to_bool); ("bonus_int_order", KUnique "BonusIntegrationOrder")]);
   (** dream/solver.py:108-123 *)
   ("UmfpackLinearSolver", plain_class "umfpack" ["UmfpackLinearSolver"; "DirectLinearSolver"; "LinearSolver"; "Solver"] []);
   ("PardisoLinearSolver", plain_class "pardiso" ["PardisoLinearSolver"; "DirectLinearSolver"; "LinearSolver"; "Solver"] []);
   (** dream/solver.py:141-152 *)
   ("NewtonsMethod", plain_class "newton" ["NewtonsMethod"; "NonlinearMethod"] [("damping_factor", KPlain (int 1) to_float)]);
   (** dream/solver.py:155-171, 256-263 *)
   ("UmfpackNonlinearSolver", plain_class "umfpack" ["UmfpackNonlinearSolver"; "DirectNonlinearSolver"; "NonlinearSolver"; "Solver"]
      [("method", KInterface "NonlinearMethod" "NewtonsMethod"); ("max_iterations", KPlain (int 10) to_int);
       ("convergence_criterion", KPlain (fl (1 # 100000000)) to_positive_float)]);
   ("PardisoNonlinearSolver", plain_class "pardiso" ["PardisoNonlinearSolver"; "DirectNonlinearSolver"; "NonlinearSolver"; "Solver"]
      [("method", KInterface "NonlinearMethod" "NewtonsMethod"); ("max_iterations", KPlain (int 10) to_int);
       ("convergence_criterion", KPlain (fl (1 # 100000000)) to_positive_float)])].

(** dream/time.py:17-38, 169-190, 233-287, 332-355; the label digits kept by the timer besides its
    options are part of M_Timer.v. *)
Definition time_parts : dict (class atom) :=
  [("Timer", plain_class "timer" ["Timer"]
      [("interval", KPlain (VAtom (ATuple [0%Q; 1%Q])) to_interval); ("step", KParam (fl (1 # 10000)) to_parameter); ("t", KParam (fl 0) to_parameter)]);
   ("ImplicitEuler", plain_class "implicit_euler" ["ImplicitEuler"; "ImplicitSchemes"; "TimeSchemes"] []);
   ("BDF2", plain_class "bdf2" ["BDF2"; "ImplicitSchemes"; "TimeSchemes"] []);
   ("StationaryConfig", plain_class "stationary" ["StationaryConfig"; "TimeConfig"] []);
   ("TransientConfig", plain_class "transient" ["TransientConfig"; "TimeConfig"]
      [("scheme", KInterface "TimeSchemes" "ImplicitEuler"); ("timer", KUnique "Timer")]);
   ("PseudoTimeSteppingConfig", plain_class "pseudo_time_stepping" ["PseudoTimeSteppingConfig"; "TimeConfig"]
      [("scheme", KInterface "TimeSchemes" "ImplicitEuler"); ("timer", KUnique "Timer"); ("max_time_step", KPlain (fl 1) to_float);
       ("increment_at", KPlain (int 10) to_int); ("increment_factor", KPlain (int 10) to_int)])].

(** dream/compressible/: riemann_solver.py:21-120, viscosity.py:23-50, eos.py:88-96, scaling.py:17-96,
    formulations/conservative.py:63-76, 276-278, 393-395, 815-826 with [order] of dream/solver.py:272-274. *)
Definition flow_parts : dict (class atom) :=
  [("Upwind", plain_class "upwind" ["Upwind"; "RiemannSolver"] []);
   ("LaxFriedrich", plain_class "lax_friedrich" ["LaxFriedrich"; "RiemannSolver"] []);
   ("Roe", plain_class "roe" ["Roe"; "RiemannSolver"] []);
   ("HLL", plain_class "hll" ["HLL"; "RiemannSolver"] []);
   ("HLLEM", plain_class "hllem" ["HLLEM"; "RiemannSolver"] [("theta_0", KPlain (fl (1 # 100000000)) to_float)]);
   ("Inviscid", plain_class "inviscid" ["Inviscid"; "DynamicViscosity"] []);
   ("Constant", plain_class "constant" ["Constant"; "DynamicViscosity"] []);
   ("Sutherland", plain_class "sutherland" ["Sutherland"; "DynamicViscosity"]
      [("measurement_temperature", KPlain (fl (1104 # 10)) keep); ("measurement_viscosity", KPlain (fl (1716 # 100000000)) keep)]);
   ("IdealGas", plain_class "ideal" ["IdealGas"; "EquationOfState"] [("heat_capacity_ratio", KParam (fl (14 # 10)) to_parameter)]);
   ("Aerodynamic", plain_class "aerodynamic" ["Aerodynamic"; "Scaling"] [("dimensionful_values", KPlain none to_dimensionful)]);
   ("Acoustic", plain_class "acoustic" ["Acoustic"; "Scaling"] [("dimensionful_values", KPlain none to_dimensionful)]);
   ("Aeroacoustic", plain_class "aeroacoustic" ["Aeroacoustic"; "Scaling"] [("dimensionful_values", KPlain none to_dimensionful)]);
   ("Inactive", plain_class "inactive" ["Inactive"; "MixedMethod"] []);
   ("StrainHeat", plain_class "strain_heat" ["StrainHeat"; "MixedMethod"] []);
   ("Gradient", plain_class "gradient" ["Gradient"; "MixedMethod"] []);
   ("HDG", plain_class "hdg" ["HDG"; "ConservativeMethod"] []);
   ("ConservativeFiniteElementMethod", plain_class "conservative" ["ConservativeFiniteElementMethod"; "CompressibleFiniteElement"; "FiniteElementMethod"]
      [("method", KInterface "ConservativeMethod" "HDG"); ("mixed_method", KInterface "MixedMethod" "Inactive"); ("order", KPlain (int 2) to_int)])].

(** dream/io.py:137-155, 173-210, 280-300, 354-372, 461-510, 525-565, 856-888.  Folder options are part of
    M_Path.v, sensors of M_Header.v, log handlers of M_Stream.v; here folders have no options, log streams
    and sensor streams only their file name, and levels and regions are plain values. *)
Definition io_parts : dict (class atom) :=
  [("SingleFolders", plain_class "single" ["SingleFolders"; "IOFolders"] []);
   ("BenchmarkFolders", plain_class "benchmark" ["BenchmarkFolders"; "IOFolders"] []);
   ("MeshStream", plain_class "mesh" ["MeshStream"; "Stream"] [("filename", KPlain none (to_filename "mesh"))]);
   ("SettingsStream", plain_class "settings" ["SettingsStream"; "Stream"]
      [("pickle", KPlain (VBool true) to_bool); ("txt", KPlain (VBool true) to_bool); ("yaml", KPlain (VBool false) to_bool);
       ("filename", KPlain none (to_filename "settings"))]);
   ("VTKStream", plain_class "vtk" ["VTKStream"; "Stream"]
      [("rate", KPlain (int 1) to_rate); ("subdivision", KPlain (int 2) keep); ("region", KPlain none keep); ("fields", KPlain none to_fields); ("filename", KPlain none (to_filename "vtk"))]);
   ("GridfunctionStream", plain_class "gfu" ["GridfunctionStream"; "Stream"]
      [("rate", KPlain (int 1) to_rate); ("time_level_rate", KPlain (int 100) to_rate); ("filename", KPlain none (to_filename "gfu"))]);
   ("LogStream", plain_class "dream" ["LogStream"; "Stream"] [("filename", KPlain none (to_filename "dream"))]);
   ("SensorStream", plain_class "sensor" ["SensorStream"; "Stream"] [("filename", KPlain none (to_filename "sensor"))]);
   ("IOConfiguration", plain_class "io" ["IOConfiguration"]
      [("log", KSwitch "LogStream" true); ("ngsmesh", KSwitch "MeshStream" false); ("gfu", KSwitch "GridfunctionStream" false);
       ("settings", KSwitch "SettingsStream" false); ("vtk", KSwitch "VTKStream" false); ("sensor", KSwitch "SensorStream" false);
       ("folders", KInterface "IOFolders" "SingleFolders")])].

(** Getter checks of the Reynolds and Prandtl numbers (dream/compressible/solver.py:70-73, 90-93). *)
Definition flow_hidden (f : string -> option string) (name : string) : bool :=
  (String.eqb name "reynolds_number" || String.eqb name "prandtl_number") &&
  match f "dynamic_viscosity" with Some k => String.eqb k "Inviscid" | None => false end.

(** [CompressibleFlowSolver] (dream/compressible/solver.py:21-130) with the options of
    [SolverConfiguration] (dream/solver.py:327-357); [io] tells whether its [io] option is part of it. *)
Definition flow_solver (io : bool) : class atom :=
  mk_class "compressible" ["CompressibleFlowSolver"; "SolverConfiguration"]
    ([("fem", KInterface "CompressibleFiniteElement" "ConservativeFiniteElementMethod");
      ("mach_number", KParam (fl (3 # 10)) (reject_below false));
      ("reynolds_number", KParam (int 150) (reject_below true));
      ("prandtl_number", KParam (fl (72 # 100)) (reject_below true));
      ("equation_of_state", KInterface "EquationOfState" "IdealGas");
      ("dynamic_viscosity", KInterface "DynamicViscosity" "Inviscid");
      ("scaling", KInterface "Scaling" "Aerodynamic");
      ("riemann_solver", KInterface "RiemannSolver" "LaxFriedrich");
      ("time", KInterface "TimeConfig" "StationaryConfig");
      ("linear_solver", KInterface "LinearSolver" "UmfpackLinearSolver");
      ("nonlinear_solver", KInterface "NonlinearSolver" "UmfpackNonlinearSolver");
      ("optimizations", KUnique "Optimizations")]
     ++ (if io then [("io", KUnique "IOConfiguration")] else [])
     ++ [("info", KPlain none to_info)]) flow_hidden.

(** All configuration classes by name (dream/compressible/solver.py:21-130 and the classes of the tables above); [io]
    says whether the configuration of the streams is included. *)
Definition repo_classes (io : bool) : dict (class atom) :=
  ("CompressibleFlowSolver", flow_solver io) :: solver_parts ++ time_parts ++ flow_parts ++ io_parts.

(** Keywords of the interfaces: names and aliases, in order of definition (dream/config.py:471-476). *)
Definition repo_registry : dict (dict string) :=
  [("TimeSchemes", [("implicit_euler", "ImplicitEuler"); ("ie", "ImplicitEuler"); ("bdf2", "BDF2")]);
   ("TimeConfig", [("stationary", "StationaryConfig"); ("transient", "TransientConfig"); ("pseudo_time_stepping", "PseudoTimeSteppingConfig"); ("pseudo", "PseudoTimeSteppingConfig")]);
   ("LinearSolver", [("umfpack", "UmfpackLinearSolver"); ("pardiso", "PardisoLinearSolver")]);
   ("NonlinearMethod", [("newton", "NewtonsMethod")]);
   ("NonlinearSolver", [("umfpack", "UmfpackNonlinearSolver"); ("pardiso", "PardisoNonlinearSolver")]);
   ("CompressibleFiniteElement", [("conservative", "ConservativeFiniteElementMethod")]);
   ("ConservativeMethod", [("hdg", "HDG")]);
   ("MixedMethod", [("inactive", "Inactive"); ("strain_heat", "StrainHeat"); ("gradient", "Gradient")]);
   ("RiemannSolver", [("upwind", "Upwind"); ("lax_friedrich", "LaxFriedrich"); ("lf", "LaxFriedrich"); ("roe", "Roe"); ("hll", "HLL"); ("hllem", "HLLEM")]);
   ("DynamicViscosity", [("inviscid", "Inviscid"); ("euler", "Inviscid"); ("constant", "Constant"); ("sutherland", "Sutherland")]);
   ("EquationOfState", [("ideal", "IdealGas"); ("perfect", "IdealGas")]);
   ("Scaling", [("aerodynamic", "Aerodynamic"); ("acoustic", "Acoustic"); ("aeroacoustic", "Aeroacoustic")]);
   ("IOFolders", [("single", "SingleFolders"); ("benchmark", "BenchmarkFolders")])].

(** Nesting of default configurations in the repository: solver, time, timer (dream/solver.py:309-356,
    dream/time.py:277-330). *)
Definition repo_depth : nat := 5.
