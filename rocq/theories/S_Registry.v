(** Specification vocabulary for the keyword registries. *)
From Coq Require Import String Ascii List Bool Arith.
From Verif Require Import M_Registry.
Import ListNotations.
Local Open Scope string_scope.

(** Upper-case ASCII letters. *)
Definition is_upper (a : ascii) : bool := Nat.leb 65 (nat_of_ascii a) && Nat.leb (nat_of_ascii a) 90.
Fixpoint has_upper (s : string) : bool := match s with EmptyString => false | String a r => is_upper a || has_upper r end.

(** Two words that differ at most in the case of letters. *)
Definition same_letter (a b : ascii) : Prop :=
  a = b \/ (is_upper a = true /\ nat_of_ascii b = nat_of_ascii a + 32) \/ (is_upper b = true /\ nat_of_ascii a = nat_of_ascii b + 32).
Fixpoint same_word (s t : string) : Prop :=
  match s, t with
  | EmptyString, EmptyString => True
  | String a s, String b t => same_letter a b /\ same_word s t
  | _, _ => False
  end.

(** The words a class statement asks for, the statement whose tree it belongs to: written in its body
    or taken from its base. *)
Inductive name_of (ds : list definition) : nat -> string -> Prop :=
| name_own : forall i d n, nth_error ds i = Some d -> d_name d = Some n -> name_of ds i n
| name_base : forall i d b n, nth_error ds i = Some d -> d_name d = None -> d_base d = Some b -> name_of ds b n -> name_of ds i n
| name_root : forall i d, nth_error ds i = Some d -> d_name d = None -> d_base d = None -> name_of ds i "interfaceconfiguration".
Inductive alias_of (ds : list definition) : nat -> string -> Prop :=
| alias_own : forall i d l a, nth_error ds i = Some d -> d_role d <> Interface -> d_aliases d = Some l -> In a l -> alias_of ds i a
| alias_base : forall i d b a, nth_error ds i = Some d -> d_role d <> Interface -> d_aliases d = None -> d_base d = Some b -> alias_of ds b a -> alias_of ds i a.
Inductive tree_of (ds : list definition) : nat -> nat -> Prop :=
| tree_own : forall i d, nth_error ds i = Some d -> d_role d = Interface -> tree_of ds i i
| tree_base : forall i d b t, nth_error ds i = Some d -> d_role d <> Interface -> d_base d = Some b -> tree_of ds b t -> tree_of ds i t.
Definition word_of (ds : list definition) (i : nat) (w : string) : Prop := name_of ds i w \/ alias_of ds i w.
