(** Vocabulary for the statements about field containers. *)
From Coq Require Import String List Bool.
From Verif Require Import Base Dict M_Fields.
Import ListNotations.

Section Spec.
Context {V : Type}.
Variable symbols : dict string.

(** The key addresses the quantity of that name: it is its name or one of its symbols. *)
Definition spells (key name : string) : Prop := key = name \/ dget symbols key = Some name.

(** A quantity name is never a symbol at the same time. *)
Definition proper_table : Prop := forall s n, dget symbols s = Some n -> dget symbols n = None.

(** The statement stores [v] as the quantity (and nothing else for it later). *)
Definition writes (o : fop V) (name : string) (v : V) : Prop :=
  match o with
  | SetItem k (Some w) => spells k name /\ w = v
  | SetAttr s (Some w) => dget symbols s = Some name /\ w = v
  | Update l => exists l1 k l2, l = l1 ++ (k, Some v) :: l2 /\ spells k name /\
      (forall k' w, In (k', w) l1 -> w <> None) /\ (forall k' w, In (k', Some w) l2 -> ~ spells k' name)
  | _ => False
  end.

(** The statement has nothing to do with the quantity. *)
Definition leaves (o : fop V) (name : string) : Prop :=
  match o with
  | SetItem k (Some _) => ~ spells k name
  | SetAttr s (Some _) => dget symbols s <> Some name
  | SetItem _ None | SetAttr _ None => True
  | DelItem k => k <> name
  | DelAttr s => dget symbols s <> Some name
  | Update l => forall k w, In (k, Some w) l -> ~ spells k name
  end.

(** The statement deletes the quantity. *)
Definition deletes (o : fop V) (name : string) : Prop :=
  match o with DelItem k => k = name | DelAttr s => dget symbols s = Some name | _ => False end.

(** The symbol or name is asked for by the selection, or it is a default that is not mentioned. *)
Definition asked (q : dict bool) (k : string) : Prop :=
  dget q k = Some true \/ (dget q k = None /\ In k ["rho"; "u"; "p"; "T"]%string).
End Spec.
