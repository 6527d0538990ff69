(** Registration of configuration classes under keywords (dream/config.py:305-340, 456-478). *)
From Coq Require Import String Ascii List Bool Arith.
From Verif Require Import Base Dict.
Import ListNotations.
Local Open Scope string_scope.
Local Open Scope list_scope.

(** [str.lower] (dream/config.py:419, 473) for ASCII letters; other characters are kept. *)
Definition lower_ascii (a : ascii) : ascii :=
  let n := nat_of_ascii a in if Nat.leb 65 n && Nat.leb n 90 then ascii_of_nat (n + 32) else a.
(** [str.lower] (Python; used in dream/config.py:419, 473). *)
Fixpoint lower (s : string) : string :=
  match s with EmptyString => EmptyString | String a r => String (lower_ascii a) (lower r) end.

(** A class statement deriving from [InterfaceConfiguration] (no base given) or from the class defined
    by an earlier statement (its position), with the attributes in its body and the keywords
    [is_interface] and [skip] (dream/config.py:463). *)
Inductive role := Interface | Skip | Concrete.
(** A class statement (dream/config.py:456-478). *)
Record definition := mk_def { d_base : option nat; d_name : option string; d_aliases : option (list string); d_role : role }.

(** Attributes of a class as seen by lookup along its bases: [name], [aliases], [tree]
    (dream/config.py:458-461; the annotations there define no attributes, and the name of
    [InterfaceConfiguration] comes from dream/config.py:417-419). *)
Record info := mk_info { i_name : string; i_aliases : option (list string); i_tree : option nat }.
(** [InterfaceConfiguration] itself (dream/config.py:417-419, 456-461). *)
Definition root_info : info := mk_info "interfaceconfiguration" None None.

(** What is left of a class statement: its class unless it raised, and the leafs of the tree it created
    (dream/config.py:307-309, 468). *)
Record entry := mk_entry { e_info : option info; e_leafs : dict nat }.
(** The statements executed so far (Python; dream/config.py:463-478). *)
Definition state := list entry.

(** The attributes of the base; a base whose class statement raised does not exist (NameError in
    Python, represented by AttributeError) (dream/config.py:463). *)
Definition base_info (s : state) (b : option nat) : result info :=
  match b with
  | None => Ok root_info
  | Some i => match nth_error s i with Some (mk_entry (Some x) _) => Ok x | _ => Err AttributeError end
  end.

(** The registration loop (dream/config.py:471-476) on the leafs of the tree. *)
Fixpoint register (leafs : dict nat) (id : nat) (names : list string) : dict nat * option exn :=
  match names with
  | [] => (leafs, None)
  | n :: rest =>
      match dget leafs (lower n) with
      | Some _ => (leafs, Some ValueError)
      | None => register (dset leafs (lower n) id) id rest
      end
  end.

(** The leafs of the tree created by statement [t] (dream/config.py:326-327, 476). *)
Definition leafs (s : state) (t : nat) : dict nat := match nth_error s t with Some e => e_leafs e | None => [] end.
(** Replacing the leafs of a tree (dream/config.py:330-331). *)
Fixpoint set_leafs (s : state) (t : nat) (d : dict nat) : state :=
  match s, t with
  | [], _ => []
  | e :: s, O => mk_entry (e_info e) d :: s
  | e :: s, S t => e :: set_leafs s t d
  end.

(** One class statement (dream/config.py:463-478 and 417-419). *)
Definition define (s : state) (d : definition) : state * option exn :=
  match base_info s (d_base d) with
  | Err e => (s ++ [mk_entry None []], Some e)
  | Ok b =>
      let name := match d_name d with Some n => n | None => i_name b end in
      let aliases := match d_aliases d with Some l => Some l | None => i_aliases b end in
      let done al tr := mk_entry (Some (mk_info (lower name) al tr)) [] in
      match d_role d with
      | Skip => (s ++ [done aliases (i_tree b)], None)
      | Interface => (s ++ [done (Some []) (Some (length s))], None)
      | Concrete =>
          match aliases, i_tree b with
          | Some l, Some t =>
              let '(leafs', e) := register (leafs s t) (length s) (name :: l) in
              (set_leafs s t leafs' ++ [match e with None => done aliases (i_tree b) | Some _ => mk_entry None [] end], e)
          | _, _ => (s ++ [mk_entry None []], Some AttributeError)
          end
      end
  end.

(** A sequence of class statements; failing ones are caught (dream/config.py:463-478). *)
Fixpoint define_all (s : state) (ds : list definition) : state :=
  match ds with [] => s | d :: rest => define_all (fst (define s d)) rest end.

(** Lookup of a keyword (dream/config.py:311-321). *)
Definition lookup (s : state) (t : nat) (keyword : string) : result nat :=
  match dget (leafs s t) keyword with Some c => Ok c | None => Err TypeError end.

(** The class statements of the repository with the names of the classes: dream/time.py, dream/io.py, dream/solver.py,
    dream/compressible/ in the order of their imports (lines as in the tables of M_Classes.v) (dream/time.py:68-332,
    dream/io.py:102-134, dream/solver.py:78-307, dream/compressible/scaling.py:13-113,
    dream/compressible/viscosity.py:11-62, dream/compressible/riemann_solver.py:13-151,
    dream/compressible/eos.py:13-759, dream/compressible/formulations/conservative.py:27-893). *)
Definition repo_statements : list (string * definition) :=
  [(** dream/time.py *)
   ("TimeSchemes", mk_def None None None Interface);
   ("ImplicitSchemes", mk_def (Some 0) None None Skip);
   ("ImplicitEuler", mk_def (Some 1) (Some "implicit_euler") (Some ["ie"]) Concrete);
   ("BDF2", mk_def (Some 1) (Some "bdf2") None Concrete);
   ("TimeConfig", mk_def None None None Interface);
   ("StationaryConfig", mk_def (Some 4) (Some "stationary") None Concrete);
   ("TransientConfig", mk_def (Some 4) (Some "transient") None Concrete);
   ("PseudoTimeSteppingConfig", mk_def (Some 4) (Some "pseudo_time_stepping") (Some ["pseudo"]) Concrete);
   (** dream/io.py *)
   ("IOFolders", mk_def None None None Interface);
   ("SingleFolders", mk_def (Some 8) (Some "single") None Concrete);
   ("BenchmarkFolders", mk_def (Some 8) (Some "benchmark") None Concrete);
   ("Stream", mk_def None None None Interface);
   ("MeshStream", mk_def (Some 11) (Some "mesh") None Concrete);
   ("SettingsStream", mk_def (Some 11) (Some "settings") None Concrete);
   ("VTKStream", mk_def (Some 11) (Some "vtk") None Concrete);
   ("GridfunctionStream", mk_def (Some 11) (Some "gfu") None Concrete);
   ("LogStream", mk_def (Some 11) (Some "dream") None Concrete);
   ("SensorStream", mk_def (Some 11) (Some "sensor") None Concrete);
   (** dream/solver.py *)
   ("Solver", mk_def None None None Interface);
   ("LinearSolver", mk_def (Some 18) None None Interface);
   ("DirectLinearSolver", mk_def (Some 19) None None Skip);
   ("UmfpackLinearSolver", mk_def (Some 20) (Some "umfpack") None Concrete);
   ("PardisoLinearSolver", mk_def (Some 20) (Some "pardiso") None Concrete);
   ("NonlinearMethod", mk_def None None None Interface);
   ("NewtonsMethod", mk_def (Some 23) (Some "newton") None Concrete);
   ("NonlinearSolver", mk_def (Some 18) None None Interface);
   ("DirectNonlinearSolver", mk_def (Some 25) None None Skip);
   ("UmfpackNonlinearSolver", mk_def (Some 26) (Some "umfpack") None Concrete);
   ("PardisoNonlinearSolver", mk_def (Some 26) (Some "pardiso") None Concrete);
   ("FiniteElementMethod", mk_def None None None Interface);
   ("SolverConfiguration", mk_def None None None Interface);
   (** dream/compressible/config.py *)
   ("CompressibleFiniteElement", mk_def (Some 29) None None Interface);
   (** dream/compressible/eos.py *)
   ("EquationOfState", mk_def None None None Interface);
   ("IdealGas", mk_def (Some 32) (Some "ideal") (Some ["perfect"]) Concrete);
   (** dream/compressible/viscosity.py *)
   ("DynamicViscosity", mk_def None None None Interface);
   ("Inviscid", mk_def (Some 34) (Some "inviscid") (Some ["euler"]) Concrete);
   ("Constant", mk_def (Some 34) (Some "constant") None Concrete);
   ("Sutherland", mk_def (Some 34) (Some "sutherland") None Concrete);
   (** dream/compressible/scaling.py *)
   ("Scaling", mk_def None None None Interface);
   ("Aerodynamic", mk_def (Some 38) (Some "aerodynamic") None Concrete);
   ("Acoustic", mk_def (Some 38) (Some "acoustic") None Concrete);
   ("Aeroacoustic", mk_def (Some 38) (Some "aeroacoustic") None Concrete);
   (** dream/compressible/riemann_solver.py *)
   ("RiemannSolver", mk_def None None None Interface);
   ("Upwind", mk_def (Some 42) (Some "upwind") None Concrete);
   ("LaxFriedrich", mk_def (Some 42) (Some "lax_friedrich") (Some ["lf"]) Concrete);
   ("Roe", mk_def (Some 42) (Some "roe") None Concrete);
   ("HLL", mk_def (Some 42) (Some "hll") None Concrete);
   ("HLLEM", mk_def (Some 42) (Some "hllem") None Concrete);
   (** dream/compressible/formulations/conservative.py *)
   ("MixedMethod", mk_def None None None Interface);
   ("Inactive", mk_def (Some 48) (Some "inactive") None Concrete);
   ("StrainHeat", mk_def (Some 48) (Some "strain_heat") None Concrete);
   ("Gradient", mk_def (Some 48) (Some "gradient") None Concrete);
   ("ConservativeMethod", mk_def None None None Interface);
   ("HDG", mk_def (Some 52) (Some "hdg") None Concrete);
   ("ConservativeFiniteElementMethod", mk_def (Some 31) (Some "conservative") None Concrete);
   (** dream/compressible/solver.py *)
   ("CompressibleFlowSolver", mk_def (Some 30) (Some "compressible") None Concrete)].
