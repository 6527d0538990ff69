(** Boundary and domain conditions (dream/mesh.py:19-32, 247-577, dream/solver.py:415-419,
    dream/compressible/formulations/conservative.py:464-518, dream/compressible/config.py:82-267). *)
From Coq Require Import String List Bool Arith Ascii.
From Verif Require Import Base Dict.
Import ListNotations.
Local Open Scope string_scope.
Local Open Scope list_scope.

(** [str.split("|")] (Python built-in, used in dream/mesh.py:27-28 and 534-535). *)
Definition bar : ascii := "|"%char.
(** [str.split("|")] (Python built-in, used in dream/mesh.py:27-28 and 534-535). *)
Fixpoint split_bar (s : string) : list string :=
  match s with
  | EmptyString => [""]
  | String c r =>
      if Ascii.eqb c bar then "" :: split_bar r
      else match split_bar r with h :: t => String c h :: t | [] => [String c ""] end
  end.

(** [get_pattern_from_sequence] of a list (dream/mesh.py:19-22). *)
Definition join_bar (l : list string) : string := String.concat "|" l.

(** Base class of each condition class (dream/mesh.py:247-477, dream/compressible/config.py:82-264). *)
Definition parents : dict string :=
  [("Initial", "Condition"); ("Perturbation", "Condition"); ("Force", "Condition"); ("Buffer", "Condition");
   ("GridDeformation", "Buffer"); ("SpongeLayer", "Buffer"); ("PSpongeLayer", "SpongeLayer"); ("Periodic", "Condition");
   ("FarField", "Condition"); ("Outflow", "Condition"); ("CBC", "Condition"); ("GRCBC", "CBC"); ("NSCBC", "CBC");
   ("InviscidWall", "Condition"); ("Symmetry", "Condition"); ("IsothermalWall", "Condition"); ("AdiabaticWall", "Condition");
   ("PML", "Condition")].

(** [issubclass] (Python built-in) along the table; its depth is at most its length. *)
Fixpoint subclass_fuel (fuel : nat) (a b : string) : bool :=
  String.eqb a b ||
  match fuel with
  | 0 => false
  | S k => match dget parents a with Some p => subclass_fuel k p b | None => false end
  end.
(** [isinstance] on the classes of the conditions (Python; used in dream/mesh.py:488, 499, 586-592). *)
Definition subclass (a b : string) : bool := subclass_fuel (length parents) a b.

(** [name] of each class (dream/mesh.py:264-477, dream/compressible/config.py:84-264); classes without
    a name of their own inherit "condition", the lower-cased name of the base class (dream/config.py:417-419). *)
Definition class_names : dict string :=
  [("Condition", "condition"); ("Initial", "initial"); ("Perturbation", "perturbation"); ("Force", "force"); ("Buffer", "condition");
   ("GridDeformation", "grid_deformation"); ("SpongeLayer", "sponge_layer"); ("PSpongeLayer", "psponge_layer");
   ("Periodic", "periodic"); ("FarField", "farfield"); ("Outflow", "outflow"); ("CBC", "cbc"); ("GRCBC", "grcbc");
   ("NSCBC", "nscbc"); ("InviscidWall", "inviscid_wall"); ("Symmetry", "symmetry"); ("IsothermalWall", "isothermal_wall");
   ("AdiabaticWall", "adiabatic_wall"); ("PML", "pml")].

(** Selectable boundary conditions (dream/compressible/config.py:256). *)
Definition bcs_options : list string :=
  ["FarField"; "Outflow"; "GRCBC"; "NSCBC"; "InviscidWall"; "Symmetry"; "IsothermalWall"; "AdiabaticWall"; "Periodic"].
(** Selectable domain conditions (dream/compressible/config.py:267). *)
Definition dcs_options : list string :=
  ["PML"; "Force"; "Perturbation"; "Initial"; "GridDeformation"; "PSpongeLayer"; "SpongeLayer"].

(** A condition object: who created it and its class; equality is identity (dream/mesh.py:251-258). *)
Inductive ident := User (n : nat) | Auto (n : nat).
(** A condition object (dream/mesh.py:247-262). *)
Record cond := mk_cond { c_id : ident; c_class : string }.

(** Equality of objects (dream/mesh.py:254-255). *)
Definition ident_eqb (a b : ident) : bool :=
  match a, b with User m, User n | Auto m, Auto n => Nat.eqb m n | _, _ => false end.
(** Equality of condition objects is identity (dream/mesh.py:247-262); the class is a function of the identity. *)
Definition cond_eqb (a b : cond) : bool := ident_eqb (c_id a) (c_id b) && String.eqb (c_class a) (c_class b).

(** [isinstance(c, kind)] (Python built-in). *)
Definition is_kind (c : cond) (kind : string) : bool := subclass (c_class c) kind.

(** Name of a condition (dream/config.py:417-419). *)
Definition cond_name (c : cond) : string := match dget class_names (c_class c) with Some n => n | None => "" end.

(** [Conditions] (dream/mesh.py:480-485): conditions per region, the options by keyword, the number of
    conditions created by keyword, and the objects that were given the mesh. *)
Record conditions := mk_conds { k_data : dict (list cond); k_options : dict string; k_next : nat; k_meshed : list cond }.

(** [Conditions.__init__] (dream/mesh.py:482-485) on the distinct region names (dream/mesh.py:560, 583). *)
Definition init (regions : list string) (options : list string) : conditions :=
  mk_conds (dict_of (map (fun r => (r, [])) regions))
           (dict_of (map (fun o => (match dget class_names o with Some n => n | None => "" end, o)) options)) 0 [].

(** Left hand side of an assignment: a string or a sequence of names (dream/mesh.py:534-535). *)
Inductive pattern := PStr (s : string) | PSeq (l : list string).
(** The names in a pattern (dream/mesh.py:534-535). *)
Definition pattern_names (p : pattern) : list string := match p with PStr s => split_bar s | PSeq l => l end.

(** Right hand side: a keyword, a condition, anything else (dream/mesh.py:524-532). *)
Inductive assigned_value := AKey (s : string) | AObj (c : cond) | AOther.

(** [get_regions_from_pattern] (dream/mesh.py:25-32). *)
Definition regions_from_pattern (d : dict (list cond)) (names : list string) : list string :=
  filter (fun r => match dget d r with Some _ => true | None => false end) names.

(** [self.data[region].append(condition)] (dream/mesh.py:543). *)
Definition append_to (c : cond) (d : dict (list cond)) (r : string) : dict (list cond) :=
  match dget d r with Some l => dset d r (l ++ [c]) | None => d end.

(** [Conditions.__setitem__] (dream/mesh.py:522-550); warnings are not represented. *)
Definition assign (k : conditions) (p : pattern) (v : assigned_value) : conditions * option exn :=
  let attach (k : conditions) (c : cond) : conditions * option exn :=
    let regions := regions_from_pattern (k_data k) (pattern_names p) in
    (mk_conds (fold_left (append_to c) regions (k_data k)) (k_options k) (k_next k)
              (match regions with [] => k_meshed k | _ => c :: k_meshed k end), None) in
  match v with
  | AKey s =>
      match dget (k_options k) s with
      | None => (k, Some ValueError)
      | Some cls => attach (mk_conds (k_data k) (k_options k) (S (k_next k)) (k_meshed k)) (mk_cond (Auto (k_next k)) cls)
      end
  | AObj c => attach k c
  | AOther => (k, Some TypeError)
  end.

(** [clear] (dream/mesh.py:519-520). *)
Definition clear (k : conditions) : conditions :=
  mk_conds (map (fun rl => (fst rl, [])) (k_data k)) (k_options k) (k_next k) (k_meshed k).

(** [del conditions[region]] ([UserDict], dream/mesh.py:480). *)
Definition remove (k : conditions) (r : string) : conditions * option exn :=
  match dget (k_data k) r with
  | Some _ => (mk_conds (ddel (k_data k) r) (k_options k) (k_next k) (k_meshed k), None)
  | None => (k, Some KeyError)
  end.

(** Statements; exceptions are caught by the caller (dream/mesh.py:519-550). *)
Inductive op := Assign (p : pattern) (v : assigned_value) | Clear | Remove (r : string).
(** One statement; an exception leaves what was stored before it (dream/mesh.py:519-550). *)
Definition step (k : conditions) (o : op) : conditions :=
  match o with Assign p v => fst (assign k p v) | Clear => clear k | Remove r => fst (remove k r) end.
(** A sequence of statements (dream/mesh.py:519-550). *)
Definition run (k : conditions) (ops : list op) : conditions := fold_left step ops k.

(** [get_region] (dream/mesh.py:487-491). *)
Definition get_region (k : conditions) (kinds : list string) : list string :=
  map fst (filter (fun rl => existsb (fun c => existsb (is_kind c) kinds) (snd rl)) (k_data k)).
(** [get_region(..., as_pattern=True)] (dream/mesh.py:19-22, 489-490). *)
Definition get_region_pattern (k : conditions) (kinds : list string) : string := join_bar (get_region k kinds).

(** The queried kind: a class or a keyword (dream/mesh.py:493-496, 504-507). *)
Inductive query := QClass (c : string) | QKey (s : string).
(** The class of a queried kind (dream/mesh.py:495-496, 506-507). *)
Definition resolve (k : conditions) (q : query) : result string :=
  match q with QClass c => Ok c | QKey s => match dget (k_options k) s with Some c => Ok c | None => Err KeyError end end.

(** [has_condition] (dream/mesh.py:493-502). *)
Definition has_condition (k : conditions) (q : query) : result bool :=
  let* kind := resolve k q in Ok (existsb (fun rl => existsb (fun c => is_kind c kind) (snd rl)) (k_data k)).

(** Regions of a condition in [to_pattern] (dream/mesh.py:514). *)
Definition regions_of (d : dict (list cond)) (c : cond) : list string :=
  map fst (filter (fun rl => existsb (cond_eqb c) (snd rl)) d).

(** [to_pattern] (dream/mesh.py:504-517); [order]: the iteration order of the set of conditions. *)
Definition to_pattern (k : conditions) (order : list cond) : dict cond :=
  fold_left (fun d c => dset d (join_bar (regions_of (k_data k) c)) c) order [].

(** The members of that set, with repetitions (dream/mesh.py:510-511). *)
Definition members (k : conditions) (kind : string) : list cond :=
  filter (fun c => is_kind c kind) (concat (map snd (k_data k))).

(** [get_domain_boundaries], [get_periodic_boundaries] (dream/mesh.py:562-577). *)
Definition domain_boundaries (k : conditions) : list string :=
  map fst (filter (fun rl => negb (existsb (fun c => is_kind c "Periodic") (snd rl)) &&
                             match snd rl with [] => false | _ => true end) (k_data k)).
(** [get_periodic_boundaries] (dream/mesh.py:562-563). *)
Definition periodic_boundaries (k : conditions) : list string := get_region k ["Periodic"].

(** [get_psponge_layers], [get_sponge_layers], [get_grid_deformations] (dream/mesh.py:585-592). *)
Definition layers (test : cond -> bool) (k : conditions) : dict cond :=
  dict_of (concat (map (fun rl => map (fun c => (fst rl, c)) (filter test (snd rl))) (k_data k))).
(** [get_psponge_layers] (dream/mesh.py:585-586). *)
Definition psponge_layers : conditions -> dict cond := layers (fun c => is_kind c "PSpongeLayer").
(** [get_sponge_layers] (dream/mesh.py:588-589). *)
Definition sponge_layers : conditions -> dict cond := layers (fun c => is_kind c "SpongeLayer" && negb (is_kind c "PSpongeLayer")).
(** [get_grid_deformations] (dream/mesh.py:591-592). *)
Definition grid_deformations : conditions -> dict cond := layers (fun c => is_kind c "GridDeformation").

(** [SolverConfiguration.set_boundary_conditions] (dream/solver.py:415-419); the hook of the finite element method does
    nothing (dream/compressible/config.py:24-26). *)
Definition set_boundary_conditions (mesh_is_periodic : bool) (k : conditions) : result unit :=
  let* h := has_condition k (QClass "Periodic") in
  if mesh_is_periodic && negb h then Err ValueError else Ok tt.

(** Terms of the variational form contributed by conditions (conservative.py:520-729). *)
Inductive formulation := FFarField | FCbc | FOutflow | FInviscidWall | FIsothermalWall | FAdiabaticWall | FSponge | FPSponge.

Section Forms.
(** Whether the fields or functions the formulation reads have been set; otherwise reading them raises ValueError
    (dream/compressible/config.py:92-95, 117-120, 135-138, 243-246, dream/mesh.py:307-310, 400-403). *)
Variable ready : cond -> bool.
(** Whether the mixed method is [StrainHeat] (conservative.py:666-667). *)
Variable strain_heat : bool.

(** One pass of the loop over boundaries (conservative.py:470-496). *)
Definition boundary_term (c : cond) : result (option formulation) :=
  let filled f := if ready c then Ok (Some f) else Err ValueError in
  if is_kind c "FarField" then filled FFarField
  else if is_kind c "CBC" then filled FCbc
  else if is_kind c "Outflow" then filled FOutflow
  else if is_kind c "InviscidWall" || is_kind c "Symmetry" then Ok (Some FInviscidWall)
  else if is_kind c "IsothermalWall" then filled FIsothermalWall
  else if is_kind c "Periodic" then Ok None
  else if is_kind c "AdiabaticWall" then (if strain_heat then Ok (Some FAdiabaticWall) else Err NotImplementedError)
  else Err TypeError.

(** One pass of the loop over domains (conservative.py:504-518). *)
Definition domain_term (c : cond) : result (option formulation) :=
  let filled f := if ready c then Ok (Some f) else Err ValueError in
  if is_kind c "SpongeLayer" then filled FSponge
  else if is_kind c "PSpongeLayer" then filled FPSponge
  else if is_kind c "Initial" then Ok None
  else Err TypeError.

(** Key of the term in the form (e.g. conservative.py:546). *)
Definition term_key (c : cond) (regions : string) : string := cond_name c ++ "_" ++ regions.

(** [add_boundary_conditions], [add_domain_conditions] (conservative.py:464-518). *)
Fixpoint add_terms (term : cond -> result (option formulation)) (items : dict cond)
  (blf : dict (formulation * string * cond)) : result (dict (formulation * string * cond)) :=
  match items with
  | [] => Ok blf
  | (regions, c) :: rest =>
      let* t := term c in
      match t with
      | None => add_terms term rest blf
      | Some f => add_terms term rest (dset blf (term_key c regions) (f, regions, c))
      end
  end.
End Forms.
