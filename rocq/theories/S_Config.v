(** Specification vocabulary for configurations. *)
From Coq Require Import String List Bool Arith.
From Verif Require Import Base Dict M_Config.
Import ListNotations.
Local Open Scope list_scope.

Section Spec.
Context {A : Type}.
Implicit Types c s t : cfg A.

(** [reaches c s]: [s] is [c] or a sub-configuration of [c] at any depth. *)
Inductive reaches : cfg A -> cfg A -> Prop :=
| reaches_self : forall c, reaches c c
| reaches_sub : forall cls r m data k s s', In (k, SSub s) data -> reaches s s' -> reaches (Cfg cls r m data) s'.

(** Every configuration in the tree refers to the root and the mesh of the top. *)
Definition shares_root_and_mesh c : Prop := forall s, reaches c s -> cfg_root s = cfg_root c /\ cfg_mesh s = cfg_mesh c.

(** [c'] is [c] except possibly for what is stored under [name]. *)
Definition differs_only_at c c' (name : string) : Prop :=
  cfg_class c' = cfg_class c /\ cfg_root c' = cfg_root c /\ cfg_mesh c' = cfg_mesh c /\
  forall n, n <> name -> dget (cfg_data c') n = dget (cfg_data c) n.

(** The value of an option after a sequence of assigned values, rejected ones skipped. *)
Fixpoint last_valid (valid : val A -> result (val A)) (start : val A) (newest_first : list (val A)) : val A :=
  match newest_first with
  | [] => start
  | v :: older => match valid v with Ok w => w | Err _ => last_valid valid start older end
  end.

(** Identities of the parameter objects in a configuration and below. *)
Definition uses_param c (id : nat) : Prop := exists s name v, reaches c s /\ In (name, SParam id v) (cfg_data s).

(** A statement on the sub-configuration stored under [p]. *)
Definition below (p : string) (o : op A) : op A :=
  match o with
  | OAssign path name v => OAssign (p :: path) name v
  | OUpdate path kw => OUpdate (p :: path) kw
  | OClear path => OClear (p :: path)
  end.

(** ** Keyword arguments with dotted keys *)

(** Entries without a dot, and the entries below one name with the name removed. *)
Definition singles (kw : kwargs A) : list (string * val A) :=
  flat_map (fun pv => match fst pv with [n] => [(n, snd pv)] | _ => [] end) kw.
Definition below_name (n : string) (kw : kwargs A) : kwargs A :=
  flat_map (fun pv => match fst pv with k :: a :: args => if String.eqb k n then [(a :: args, snd pv)] else [] | _ => [] end) kw.

(** Names with dotted entries, in the order of their first occurrence. *)
Fixpoint dotted_names (kw : kwargs A) : list string :=
  match kw with
  | [] => []
  | (k :: _ :: _, _) :: r => k :: filter (fun n => negb (String.eqb k n)) (dotted_names r)
  | _ :: r => dotted_names r
  end.

(** The script that keyword arguments stand for: [cfg.n = v] for every key without a dot, and
    [cfg.n.update(...)] with everything below one name; names that are not known are left out. *)
Definition assignments (known : string -> bool) (kw : kwargs A) : list (op A) :=
  map (fun nv => OAssign [] (fst nv) (snd nv)) (filter (fun nv => known (fst nv)) (singles kw)).
Definition nested_updates (known : string -> bool) (kw : kwargs A) : list (op A) :=
  map (fun n => OUpdate [n] (below_name n kw)) (filter known (dotted_names kw)).

(** No dotted key stands before the keyword of its parent. *)
Definition keyword_first (kw : kwargs A) : Prop :=
  forall l1 l2 n args v, kw = l1 ++ (n :: args, v) :: l2 -> args <> [] -> ~ In [n] (map fst l2).

(** Every key has at least one segment and no key occurs twice (Python dict keys). *)
Definition proper_keys (kw : kwargs A) : Prop := NoDup (map fst kw) /\ ~ In [] (map fst kw).

(** All entries of [kw] below the name [k]; the entries whose first name is known. *)
Definition under (k : string) (kw : kwargs A) : kwargs A := map (fun pv => (k :: fst pv, snd pv)) kw.
Definition known_part (known : string -> bool) (kw : kwargs A) : kwargs A :=
  filter (fun pv => match fst pv with n :: _ => known n | [] => false end) kw.

(** ** Configurations a class table describes *)

Variable classes : dict (class A).
Variable registry : dict (dict string).

(** Dotted keys lead into sub-configurations (or streams), not into options holding a value. *)
Definition no_plain c (n : string) : Prop := forall v, ~ In (n, SPlain v) (cfg_data c).
Definition nests_below_subs c (kw : kwargs A) : Prop :=
  forall n a args v, In (n :: a :: args, v) kw -> no_plain c n /\ forall d fs, find_kind classes (cfg_class c) n <> Some (KPlain d fs).

(** [setting c path v]: the option at [path] below [c] can be read and has the value [v]; for a
    sub-configuration the keyword of its class. *)
Inductive setting : cfg A -> list string -> val A -> Prop :=
| setting_plain : forall cls r m data k v, In (k, SPlain v) data -> hidden classes cls data k = false ->
    setting (Cfg cls r m data) [k] v
| setting_param : forall cls r m data k id v, In (k, SParam id v) data -> hidden classes cls data k = false ->
    setting (Cfg cls r m data) [k] v
| setting_class : forall cls r m data k s C, In (k, SSub s) data -> hidden classes cls data k = false ->
    dget classes (cfg_class s) = Some C -> setting (Cfg cls r m data) [k] (VStr (k_name C))
| setting_below : forall cls r m data k s path v, In (k, SSub s) data -> hidden classes cls data k = false ->
    setting s path v -> setting (Cfg cls r m data) (k :: path) v.

(** The options of the class are all there, in order; plain values and parameters are accepted by
    their own setters unchanged; sub-configurations are of the declared class or, for keyword
    interfaces, of the class registered under their own name.  No stream switches. *)
Inductive conforms : cfg A -> Prop :=
| conforms_cfg : forall cls r m data C,
    dget classes cls = Some C -> map fst data = map fst (k_opts C) ->
    (forall k sl, In (k, sl) data -> exists kd, dget (k_opts C) k = Some kd /\ slot_conforms kd sl) ->
    conforms (Cfg cls r m data)
with slot_conforms : kind A -> slot A -> Prop :=
| plain_conforms : forall d fset v, fset v = Ok v -> slot_conforms (KPlain d fset) (SPlain v)
| param_conforms : forall d fset id v, fset v = Ok v -> slot_conforms (KParam d fset) (SParam id v)
| unique_conforms : forall cls s, cfg_class s = cls -> conforms s -> slot_conforms (KUnique cls) (SSub s)
| interface_conforms : forall iface cls s tree C, conforms s ->
    dget classes (cfg_class s) = Some C -> dget registry iface = Some tree ->
    dget tree (k_name C) = Some (cfg_class s) -> slot_conforms (KInterface iface cls) (SSub s).

(** A configuration with default settings only: every option holds what its setter makes of the
    default, sub-configurations are of the default class and have default settings. *)
Inductive has_defaults : cfg A -> Prop :=
| defaults_cfg : forall cls r m data C, dget classes cls = Some C ->
    (forall name k, In (name, k) (k_opts C) -> option_default k (dget data name)) -> has_defaults (Cfg cls r m data)
with option_default : kind A -> option (slot A) -> Prop :=
| default_plain : forall d fset v, fset d = Ok v -> option_default (KPlain d fset) (Some (SPlain v))
| default_param : forall d fset id v, fset d = Ok v -> option_default (KParam d fset) (Some (SParam id v))
| default_unique : forall cls s, cfg_class s = cls -> has_defaults s -> option_default (KUnique cls) (Some (SSub s))
| default_interface : forall iface cls s, cfg_class s = cls -> has_defaults s -> option_default (KInterface iface cls) (Some (SSub s))
| default_on : forall cls s, cfg_class s = cls -> has_defaults s -> option_default (KSwitch cls true) (Some (SSub s))
| default_off : forall cls, option_default (KSwitch cls false) None.

(** Every plain option and every parameter of a configuration and below holds a value its setter
    produced; options holding dictionaries are left out, their contents may be merged. *)
Definition accepted_values c : Prop := forall s name v d fset, reaches c s ->
  find_kind classes (cfg_class s) name = Some (KPlain d fset) \/ find_kind classes (cfg_class s) name = Some (KParam d fset) ->
  In (name, SPlain v) (cfg_data s) \/ (exists id, In (name, SParam id v) (cfg_data s)) ->
  (forall e, v <> VDict e) -> exists u, fset u = Ok v.

(** Values and statements all of whose configuration instances have this property. *)
Inductive accepted_value : val A -> Prop :=
| accepted_atom : forall a, accepted_value (VAtom a)
| accepted_bool : forall b, accepted_value (VBool b)
| accepted_str : forall x, accepted_value (VStr x)
| accepted_dict : forall d, (forall k v, In (k, v) d -> accepted_value v) -> accepted_value (VDict d)
| accepted_inst : forall t, accepted_values t -> accepted_value (VInst t).
Definition accepted_statement (o : op A) : Prop :=
  match o with
  | OAssign _ _ v => accepted_value v
  | OUpdate _ kw => forall k v, In (k, v) kw -> accepted_value v
  | OClear _ => True
  end.

(** Requirements on a class table. *)
Record good_table : Prop := {
  (** option names of a class are distinct *)
  gt_distinct : forall cls C, dget classes cls = Some C -> NoDup (map fst (k_opts C));
  (** a setter accepts the values it produced *)
  gt_idempotent : forall cls C n d fset, dget classes cls = Some C ->
    (In (n, KPlain d fset) (k_opts C) \/ In (n, KParam d fset) (k_opts C)) -> forall v w, fset v = Ok w -> fset w = Ok w;
  (** registered classes do not derive from each other, and derive from themselves *)
  gt_leaves : forall iface tree a1 (c1 : string) a2 (c2 : string) C2, dget registry iface = Some tree ->
    dget tree a1 = Some c1 -> dget tree a2 = Some c2 -> dget classes c2 = Some C2 -> In c1 (k_bases C2) -> c1 = c2;
  (** getter checks concern parameters and plain options and only look at the classes of sub-configurations *)
  gt_hidden : forall cls C f n, dget classes cls = Some C -> k_hidden C f n = true ->
    exists d fset, dget (k_opts C) n = Some (KPlain d fset) \/ dget (k_opts C) n = Some (KParam d fset);
  gt_hidden_ext : forall cls C f g n, dget classes cls = Some C -> (forall x, f x = g x) -> k_hidden C f n = k_hidden C g n }.

(** A set of classes that only uses options, interfaces and classes of the set and no stream switches;
    registered classes stand under their own name; dictionaries are accepted by options holding
    dictionaries; sub-configuration classes that are not keyword interfaces have no subclasses. *)
Record closed_classes (S : string -> Prop) : Prop := {
  cc_known : forall cls, S cls -> exists C, dget classes cls = Some C;
  cc_unique : forall cls C n u, S cls -> dget classes cls = Some C -> In (n, KUnique u) (k_opts C) -> S u;
  cc_interface : forall cls C n iface d, S cls -> dget classes cls = Some C -> In (n, KInterface iface d) (k_opts C) ->
    exists tree, dget registry iface = Some tree /\
      (forall a k, dget tree a = Some k -> S k /\ exists Ck, dget classes k = Some Ck /\ dget tree (k_name Ck) = Some k) /\
      exists Cd, dget classes d = Some Cd /\ dget tree (k_name Cd) = Some d;
  cc_no_switch : forall cls C n u b, S cls -> dget classes cls = Some C -> ~ In (n, KSwitch u b) (k_opts C);
  cc_dicts : forall cls C n d fset, S cls -> dget classes cls = Some C -> In (n, KPlain d fset) (k_opts C) ->
    forall e e', fset (VDict e) = Ok (VDict e) -> fset (VDict e') = Ok (VDict e');
  cc_final : forall cls C n u k Ck, S cls -> dget classes cls = Some C -> In (n, KUnique u) (k_opts C) ->
    dget classes k = Some Ck -> In u (k_bases Ck) -> k = u }.

(** Values whose configuration instances conform and are of registered classes. *)
Inductive good_value (S : string -> Prop) : val A -> Prop :=
| good_atom : forall a, good_value S (VAtom a)
| good_bool : forall b, good_value S (VBool b)
| good_str : forall x, good_value S (VStr x)
| good_dict : forall d, (forall k v, In (k, v) d -> good_value S v) -> good_value S (VDict d)
| good_inst : forall t C, conforms t -> S (cfg_class t) -> dget classes (cfg_class t) = Some C ->
    (forall iface tree, dget registry iface = Some tree -> In iface (k_bases C) -> dget tree (k_name C) = Some (cfg_class t)) ->
    good_value S (VInst t).
Definition good_statement (S : string -> Prop) (o : op A) : Prop :=
  match o with
  | OAssign _ _ v => good_value S v
  | OUpdate _ kw => forall k v, In (k, v) kw -> good_value S v
  | OClear _ => True
  end.
End Spec.
