(** Model of the configuration system (dream/config.py:134-453): options, keyword
    interfaces, sub-configurations, nested updates and flattened trees.
    Configurations are trees: a sub-configuration object that is shared by two parents is
    not represented here (see M_Heap.v for sharing). *)
From Coq Require Import String List Bool Arith.
From Verif Require Import Base Dict.
Import ListNotations.
Local Open Scope string_scope.
Local Open Scope list_scope.

Section Config.
(** Other Python values: numbers, None, tuples, functions, ... *)
Context {A : Type}.

(** A configuration object (dream/config.py:423-432): its class, the identity of its root
    configuration [cfg], the identity of its mesh, and [data] in insertion order.
    A stored option is a plain value, an [ngs.Parameter] object (identity and current value,
    dream/config.py:190-210) or a sub-configuration.
    A Python value that may be assigned: keys of dictionaries are split at the dots
    (dream/config.py:359), so a key is the list of its segments. *)
Inductive cfg := Cfg (cls : string) (root mesh : nat) (data : list (string * slot))
(** The stored options (dream/config.py:172, 190-210, 225, 279). *)
with slot := SPlain (v : val) | SParam (id : nat) (v : val) | SSub (c : cfg)
(** The values a user may assign (dream/config.py:217-250, 271-299). *)
with val := VAtom (a : A) | VBool (b : bool) | VStr (s : string) | VDict (d : list (list string * val)) | VInst (c : cfg).

(** Keyword arguments of [update] (dream/config.py:352). *)
Definition kwargs := list (list string * val).

(** The descriptors (dream/config.py:134-302, dream/io.py:68-88) with default and setter
    function; for sub-configurations the class of the default, for keyword interfaces also
    the interface whose registry is used.  Setter functions are pure here. *)
Inductive kind :=
| KPlain (default : val) (fset : val -> result val)
| KParam (default : val) (fset : val -> result val)
| KUnique (cls : string)
| KInterface (iface cls : string)
| KSwitch (cls : string) (default : bool).

(** A configuration class: [name] (lower case, dream/config.py:417-419), the class itself and
    all its bases, its options in the order of [cfgs] (dream/config.py:412-415), and its getter
    checks (dream/config.py:162-163): whether reading an option raises, as a function of
    the classes of the stored sub-configurations. *)
Record class := mk_class {
  k_name : string; k_bases : list string; k_opts : list (string * kind);
  k_hidden : (string -> option string) -> string -> bool }.

(** All classes by Python class name, and the registries of the interfaces
    (dream/config.py:305-340): keyword to class. *)
Variable classes : dict class.
(** The registries by interface (dream/config.py:305-340). *)
Variable registry : dict (dict string).
(** Bound on the nesting of default configurations (Python's recursion limit). *)
Variable depth : nat.

(** [type(cfg)] (dream/config.py:343-350). *)
Definition cfg_class (c : cfg) : string := match c with Cfg k _ _ _ => k end.
(** [cfg.data] (dream/config.py:406). *)
Definition cfg_data (c : cfg) : list (string * slot) := match c with Cfg _ _ _ d => d end.
(** [cfg.cfg] (dream/config.py:428). *)
Definition cfg_root (c : cfg) : nat := match c with Cfg _ r _ _ => r end.
(** [cfg.mesh] (dream/config.py:429). *)
Definition cfg_mesh (c : cfg) : nat := match c with Cfg _ _ m _ => m end.
(** The same object with other [data] (dream/config.py:172, 225). *)
Definition with_data (c : cfg) (d : list (string * slot)) : cfg := match c with Cfg k r m _ => Cfg k r m d end.

(** [type(self).name] (dream/config.py:388). *)
Definition class_name (k : string) : string := match dget classes k with Some C => k_name C | None => "" end.

(** [isinstance(value, cls)] (Python; used in dream/config.py:219, 273, 283). *)
Definition is_instance (c : cfg) (cls : string) : bool :=
  match dget classes (cfg_class c) with
  | Some C => existsb (String.eqb cls) (k_bases C)
  | None => false
  end.

(** One step of [clear] (dream/config.py:405-408): the [reset] of one option on the partially
    filled [data] (dream/config.py:186-187, 204-210, 255-256; dream/io.py:70-81).  [inst] builds a
    default sub-configuration; [next] is the next parameter identity. *)
Definition reset_option (inst : string -> nat -> result (cfg * nat)) (acc : result (list (string * slot) * nat))
    (nk : string * kind) : result (list (string * slot) * nat) :=
  let* dn := acc in
  let '(data, next) := dn in
  let '(name, k) := nk in
  match k with
  | KPlain d fset => let* v := fset d in Ok (dset data name (SPlain v), next)
  | KParam d fset => let* v := fset d in Ok (dset data name (SParam next v), S next)
  | KUnique c | KInterface _ c | KSwitch c true =>
      let* sn := inst c next in Ok (dset data name (SSub (fst sn)), snd sn)
  | KSwitch _ false => Ok (data, next)
  end.

(** [cls(cfg=root, mesh=mesh)] without keyword arguments (dream/config.py:423-432). *)
Fixpoint instantiate (fuel : nat) (cls : string) (root mesh next : nat) : result (cfg * nat) :=
  match fuel with
  | O => Err NonTermination
  | S k =>
      match dget classes cls with
      | None => Err KeyError
      | Some C =>
          let* dn := fold_left (reset_option (fun c n => instantiate k c root mesh n)) (k_opts C) (Ok ([], next)) in
          Ok (Cfg cls root mesh (fst dn), snd dn)
      end
  end.

(** [value.cfg = ...; value.mesh = ...] and [update_subconfigurations_recursively]
    (dream/config.py:219-222, 258-264).  Options declared with [@configuration] hold no
    configurations in the repository, so only sub-configurations are visited. *)
Fixpoint relabel (root mesh : nat) (c : cfg) : cfg :=
  match c with
  | Cfg cls _ _ data =>
      Cfg cls root mesh (map (fun ks => match ks with
        | (k, SSub s) => (k, SSub (relabel root mesh s))
        | _ => ks
        end) data)
  end.

(** The descriptor of an option of a class ([cfgs], dream/config.py:412-415). *)
Definition find_kind (cls name : string) : option kind :=
  match dget classes cls with Some C => dget (k_opts C) name | None => None end.

(** State of a configuration after a statement, the next parameter identity and the exception (Python; the statements
    are those of dream/config.py:168-172, 352-374). *)
Definition out : Type := cfg * nat * option exn.

(** A fresh default instance stored under [name] (dream/config.py:230, 284; dream/io.py:79). *)
Definition store_fresh (c : cfg) (name cls : string) (next : nat) : out :=
  match instantiate depth cls (cfg_root c) (cfg_mesh c) next with
  | Ok (s, next') => (with_data c (dset (cfg_data c) name (SSub s)), next', None)
  | Err e => (c, next, Some e)
  end.

(** An instance stored under [name] (dream/config.py:219-225, 273-279). *)
Definition store_instance (c : cfg) (name : string) (t : cfg) (next : nat) : out :=
  (with_data c (dset (cfg_data c) name (SSub (relabel (cfg_root c) (cfg_mesh c) t))), next, None).

(** [cfg.data[name].update(...)] (dream/config.py:237-238, 286-287): the sub-configuration keeps whatever
    it did before an exception. *)
Definition update_sub (upd : cfg -> kwargs -> nat -> out) (c : cfg) (name : string) (d : kwargs) (next : nat) : out :=
  match dget (cfg_data c) name with
  | Some (SSub s) => let '(s', next', e) := upd s d next in (with_data c (dset (cfg_data c) name (SSub s')), next', e)
  | _ => (c, next, Some KeyError)
  end.

(** [setattr(cfg, name, v)]: the [__set__] of the descriptor (dream/config.py:168-172, 194-202,
    217-253, 271-302; dream/io.py:70-81); [upd] is [update] of sub-configurations.  Other
    attributes are not options and change nothing that is stored. *)
Definition set_option (upd : cfg -> kwargs -> nat -> out) (c : cfg) (name : string) (v : val) (next : nat) : out :=
  match find_kind (cfg_class c) name with
  | None => (c, next, None)
  | Some (KPlain _ fset) =>
      match fset v with
      | Ok v' => (with_data c (dset (cfg_data c) name (SPlain v')), next, None)
      | Err e => (c, next, Some e)
      end
  | Some (KParam _ fset) =>
      match fset v with
      | Ok v' =>
          match dget (cfg_data c) name with
          | Some (SParam id _) => (with_data c (dset (cfg_data c) name (SParam id v')), next, None)
          | _ => (c, next, Some KeyError)
          end
      | Err e => (c, next, Some e)
      end
  | Some (KUnique cls) =>
      match v with
      | VInst t => if is_instance t cls then store_instance c name t next else (c, next, Some TypeError)
      | VStr s => if String.eqb s (class_name cls) then store_fresh c name cls next else (c, next, Some TypeError)
      | VDict d => update_sub upd c name d next
      | _ => (c, next, Some TypeError)
      end
  | Some (KInterface iface _) =>
      match v with
      | VInst t => if is_instance t iface then store_instance c name t next else (c, next, Some TypeError)
      | VStr s =>
          match dget registry iface with
          | None => (c, next, Some TypeError)
          | Some tree =>
              match dget tree s with
              | None => (c, next, Some TypeError)
              | Some cls =>
                  match dget (cfg_data c) name with
                  | Some (SSub cur) => if is_instance cur cls then (c, next, None) else store_fresh c name cls next
                  | _ => (c, next, Some KeyError)
                  end
              end
          end
      | VDict d => update_sub upd c name d next
      | _ => (c, next, Some TypeError)
      end
  | Some (KSwitch cls _) =>
      let v := match v with VStr s => if String.eqb s name then VBool true else v | _ => v end in
      match v with
      | VBool true => store_fresh c name cls next
      | VBool false => (with_data c (ddel (cfg_data c) name), next, None)
      | _ => (c, next, Some ValueError)
      end
  end.

(** ** Nested updates (dream/config.py:352-374) *)

(** Equality of keys; a dotted key equals another iff all segments do (Python dictionaries with the keys of
    dream/config.py:359). *)
Fixpoint key_eqb (a b : list string) : bool :=
  match a, b with
  | [], [] => true
  | x :: a, y :: b => String.eqb x y && key_eqb a b
  | _, _ => false
  end.

(** Python dict operations on keyword arguments. *)
Fixpoint kget (d : kwargs) (k : list string) : option val :=
  match d with [] => None | (k', v) :: d => if key_eqb k k' then Some v else kget d k end.
(** [kwargs[k] = v] (Python; used in dream/config.py:364): a new key goes to the end. *)
Fixpoint kset (d : kwargs) (k : list string) (v : val) : kwargs :=
  match d with [] => [(k, v)] | (k', v') :: d => if key_eqb k k' then (k', v) :: d else (k', v') :: kset d k v end.
(** [kwargs.pop(k)] (Python; used in dream/config.py:362-368). *)
Fixpoint kdel (d : kwargs) (k : list string) : kwargs :=
  match d with [] => [] | (k', v') :: d => if key_eqb k k' then d else (k', v') :: kdel d k end.

(** [key in self] (dream/config.py:449-450). *)
Definition stored (c : cfg) (name : string) : bool :=
  match dget (cfg_data c) name with Some _ => true | None => false end.

(** [kwargs[key_][".".join(args)] = value] (dream/config.py:366): item assignment on whatever was
    passed for [key_]; a configuration instance takes it as an attribute assignment
    (dream/config.py:434-435). *)
Definition set_item (upd : cfg -> kwargs -> nat -> out) (target : val) (args : list string) (v : val) (next : nat)
    : result val * nat :=
  match target with
  | VDict e => (Ok (VDict (kset e args v)), next)
  | VInst t =>
      match args with
      | [a] => let '(t', next', e) := set_option upd t a v next in
               (match e with None => Ok (VInst t') | Some x => Err x end, next')
      | _ => (Ok target, next)
      end
  | _ => (Err TypeError, next)
  end.

(** One pass of the first loop (dream/config.py:357-371) for the key [key] with value [v]. *)
Definition update_key (upd : cfg -> kwargs -> nat -> out) (c : cfg) (kw : kwargs) (key : list string) (next : nat)
    : cfg * kwargs * nat * option exn :=
  match kget kw key, key with
  | Some v, name :: args =>
      if stored c name then
        match args with
        | [] => let '(c', next', e) := set_option upd c name v next in (c', kdel kw key, next', e)
        | _ :: _ =>
            let kw' := kdel kw key in
            match kget kw [name] with
            | None => (c, kset kw' [name] (VDict [(args, v)]), next, None)
            | Some target =>
                match set_item upd target args v next with
                | (Ok t', next') => (c, kset kw' [name] t', next', None)
                | (Err e, next') => (c, kw', next', Some e)
                end
            end
        end
      else (c, kdel kw key, next, None)
  | _, _ => (c, kw, next, None)
  end.

(** The first loop over the keys present at its beginning (dream/config.py:357-371). *)
Fixpoint update_keys (upd : cfg -> kwargs -> nat -> out) (c : cfg) (kw : kwargs) (keys : list (list string)) (next : nat)
    : cfg * kwargs * nat * option exn :=
  match keys with
  | [] => (c, kw, next, None)
  | key :: rest =>
      match update_key upd c kw key next with
      | (c', kw', next', None) => update_keys upd c' kw' rest next'
      | r => r
      end
  end.

(** [self[key].update(value)] (dream/config.py:373-374) for one remaining key.  Reading a
    parameter or a plain value and calling [update] raises AttributeError unless the plain value is a
    dictionary; getter checks concern parameters only and are subsumed. *)
Definition update_item (upd : cfg -> kwargs -> nat -> out) (c : cfg) (key : list string) (v : val) (next : nat) : out :=
  match key with
  | [name] =>
      match dget (cfg_data c) name, v with
      | Some (SSub _), VDict d => update_sub upd c name d next
      | Some (SPlain (VDict e)), VDict d =>
          (with_data c (dset (cfg_data c) name (SPlain (VDict (fold_left (fun e pv => kset e (fst pv) (snd pv)) d e)))), next, None)
      | Some (SSub _), _ => (c, next, Some TypeError)
      | _, _ => (c, next, Some AttributeError)
      end
  | _ => (c, next, Some AttributeError)
  end.

(** The second loop (dream/config.py:373-374). *)
Fixpoint update_items (upd : cfg -> kwargs -> nat -> out) (c : cfg) (kw : kwargs) (next : nat) : out :=
  match kw with
  | [] => (c, next, None)
  | (key, v) :: rest =>
      match update_item upd c key v next with
      | (c', next', None) => update_items upd c' rest next'
      | r => r
      end
  end.

(** [UniqueConfiguration.update] (dream/config.py:352-374).  [fuel] bounds the nesting of
    dictionaries and dotted keys; see [update_fuel_enough] in L_Config.v. *)
Fixpoint update_fuel (fuel : nat) (c : cfg) (kw : kwargs) (next : nat) : out :=
  match fuel with
  | O => (c, next, Some NonTermination)
  | S k =>
      match update_keys (update_fuel k) c kw (map fst kw) next with
      | (c', kw', next', None) => update_items (update_fuel k) c' kw' next'
      | (c', _, next', Some e) => (c', next', Some e)
      end
  end.

(** Nesting depth of a value: segments of keys along the deepest path (bounds the recursion of dream/config.py:373-374
    and 238). *)
Fixpoint vdepth (v : val) : nat :=
  match v with
  | VDict d => fold_right Nat.max 0 (map (fun pv => match pv with (p, w) => length p + vdepth w end) d)
  | _ => 0
  end.

(** The same for keyword arguments (bounds the recursion of dream/config.py:352-374). *)
Definition kdepth (kw : kwargs) : nat := vdepth (VDict kw).

(** [cfg.update(...)] as the user calls it (dream/config.py:352-374). *)
Definition update (c : cfg) (kw : kwargs) (next : nat) : out := update_fuel (S (kdepth kw)) c kw next.
(** [cfg.name = v] as the user writes it (dream/config.py:168-172, 217-253, 271-302). *)
Definition assign (c : cfg) (name : string) (v : val) (next : nat) : out := set_option update c name v next.

(** A statement on the sub-configuration reached by a chain of attributes
    ([cfg.a.b.name = v], [cfg.a.b.update(...)]; reading an option is dream/config.py:158-165). *)
Fixpoint at_path (f : cfg -> nat -> out) (c : cfg) (path : list string) (next : nat) : out :=
  match path with
  | [] => f c next
  | p :: rest =>
      match dget (cfg_data c) p with
      | Some (SSub s) =>
          let '(s', next', e) := at_path f s rest next in
          (with_data c (dset (cfg_data c) p (SSub s')), next', e)
      | _ => (c, next, Some AttributeError)
      end
  end.

(** [clear] of an existing configuration (dream/config.py:405-408).  If a default is rejected the
    configuration is left without options; not modelled further. *)
Definition clear (c : cfg) (next : nat) : out :=
  match instantiate depth (cfg_class c) (cfg_root c) (cfg_mesh c) next with
  | Ok (c', next') => (c', next', None)
  | Err e => (with_data c [], next, Some e)
  end.

(** Statements of a script that handles its exceptions: assignment to an option, [update] or [clear] of the
    configuration at [path] (dream/config.py:168-172, 352-374, 405-408). *)
Inductive op :=
| OAssign (path : list string) (name : string) (v : val)
| OUpdate (path : list string) (kw : kwargs)
| OClear (path : list string).

(** One statement (dream/config.py:168-172, 352-374, 405-408); the path is read with [getattr]
    (dream/config.py:437-438). *)
Definition step (c : cfg) (next : nat) (o : op) : out :=
  match o with
  | OAssign path name v => at_path (fun s n => assign s name v n) c path next
  | OUpdate path kw => at_path (fun s n => update s kw n) c path next
  | OClear path => at_path clear c path next
  end.

(** A sequence of statements; exceptions are caught and the script goes on (Python; the statements are those of
    dream/config.py:352-408). *)
Fixpoint run (c : cfg) (next : nat) (ops : list op) : cfg * nat :=
  match ops with
  | [] => (c, next)
  | o :: rest => let '(c', next', _) := step c next o in run c' next' rest
  end.

(** The same statements in a script that does not handle exceptions: it stops at the first one (Python; the statements
    are those of dream/config.py:352-408). *)
Fixpoint run_stop (c : cfg) (next : nat) (ops : list op) : out :=
  match ops with
  | [] => (c, next, None)
  | o :: rest => match step c next o with (c', next', None) => run_stop c' next' rest | r => r end
  end.

(** ** Flattened tree (dream/config.py:376-403) *)

(** Class of a stored sub-configuration, for the getter checks (dream/config.py:383-386). *)
Definition sub_class (data : list (string * slot)) (name : string) : option string :=
  match dget data name with Some (SSub s) => Some (cfg_class s) | _ => None end.

(** Whether reading an option raises (dream/config.py:162-163). *)
Definition hidden (cls : string) (data : list (string * slot)) (name : string) : bool :=
  match dget classes cls with Some C => k_hidden C (sub_class data) name | None => false end.

(** [to_tree]: keys are distinct, so storing into the result dictionary appends (dream/config.py:376-403). *)
Fixpoint to_tree (c : cfg) : kwargs :=
  match c with
  | Cfg cls _ _ data =>
      flat_map (fun ks => match ks with (k, s) =>
        if hidden cls data k then []
        else match s with
             | SPlain v => [([k], v)]
             | SParam _ v => [([k], v)]
             | SSub sub => ([k], VStr (class_name (cfg_class sub))) :: map (fun pv => (k :: fst pv, snd pv)) (to_tree sub)
             end
        end) data
  end.

End Config.
Arguments cfg A : clear implicits.
Arguments slot A : clear implicits.
Arguments val A : clear implicits.
Arguments kwargs A : clear implicits.
Arguments kind A : clear implicits.
Arguments class A : clear implicits.
Arguments out A : clear implicits.
Arguments op A : clear implicits.
