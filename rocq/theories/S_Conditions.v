(** Vocabulary for the statements about boundary and domain conditions. *)
From Coq Require Import String List Bool Arith Ascii Permutation.
From Verif Require Import Base Dict M_Conditions.
Import ListNotations.
Local Open Scope string_scope.
Local Open Scope list_scope.

(** Derived classes. *)
Inductive isa : string -> string -> Prop :=
| isa_refl a : isa a a
| isa_step a p b : dget parents a = Some p -> isa p b -> isa a b.

(** The condition is attached to the region. *)
Definition carries (k : conditions) (r : string) (c : cond) : Prop := exists l, dget (k_data k) r = Some l /\ In c l.

(** How often a name is mentioned. *)
Fixpoint mentions (r : string) (names : list string) : nat :=
  match names with [] => 0 | n :: rest => if String.eqb r n then S (mentions r rest) else mentions r rest end.

(** The names of a string pattern: none contains the separator, and joined by it they give the string. *)
Fixpoint has_bar (s : string) : Prop := match s with EmptyString => False | String c r => c = bar \/ has_bar r end.
Definition names_of (p : pattern) (names : list string) : Prop :=
  match p with
  | PStr s => names <> [] /\ (forall n, In n names -> ~ has_bar n) /\ String.concat "|" names = s
  | PSeq l => names = l
  end.

(** The condition an assignment refers to; a keyword stands for a new object of its class. *)
Definition refers (k : conditions) (v : assigned_value) (c : cond) : Prop :=
  match v with
  | AObj c' => c = c'
  | AKey s => exists cls, dget (k_options k) s = Some cls /\ c = mk_cond (Auto (k_next k)) cls
  | AOther => False
  end.

(** Per-region view of a history: the conditions of one region ([None]: the region does not exist), and the number
    of conditions created so far. *)
Definition region_step (options : dict string) (r : string) (st : option (list cond) * nat) (o : op) : option (list cond) * nat :=
  let '(l, n) := st in
  match o with
  | Clear => (option_map (fun _ => []) l, n)
  | Remove r' => ((if String.eqb r r' then None else l), n)
  | Assign p v =>
      match v with
      | AObj c => (option_map (fun l => l ++ repeat c (mentions r (pattern_names p))) l, n)
      | AKey s => match dget options s with
                  | Some cls => (option_map (fun l => l ++ repeat (mk_cond (Auto n) cls) (mentions r (pattern_names p))) l, S n)
                  | None => (l, n)
                  end
      | AOther => (l, n)
      end
  end.
Definition region_view options r l ops := fst (fold_left (region_step options r) ops (l, 0)).

(** Objects handed in are the caller's. *)
Definition user_objects (ops : list op) : Prop :=
  forall p c, In (Assign p (AObj c)) ops -> exists n, c_id c = User n.

(** An iteration order of the set of conditions of a kind. *)
Definition iteration_order (k : conditions) (kind : string) (order : list cond) : Prop :=
  NoDup order /\ forall c, In c order <-> isa (c_class c) kind /\ exists r, carries k r c.

(** The regions a condition is attached to, in the order of the regions. *)
Definition attached_to (k : conditions) (c : cond) (rs : list string) : Prop :=
  exists sel, rs = map fst (filter sel (k_data k)) /\
  forall r l, In (r, l) (k_data k) -> (sel (r, l) = true <-> In c l).

(** Formulation of each kind of boundary condition. *)
Inductive boundary_formulation : string -> formulation -> Prop :=
| bf_farfield : boundary_formulation "FarField" FFarField
| bf_cbc : boundary_formulation "CBC" FCbc
| bf_outflow : boundary_formulation "Outflow" FOutflow
| bf_inviscid : boundary_formulation "InviscidWall" FInviscidWall
| bf_symmetry : boundary_formulation "Symmetry" FInviscidWall
| bf_isothermal : boundary_formulation "IsothermalWall" FIsothermalWall
| bf_adiabatic : boundary_formulation "AdiabaticWall" FAdiabaticWall.
