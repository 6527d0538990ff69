(** Specification of the output schedules; independent of the stream models. *)
From Coq Require Import QArith String Ascii List Bool.
Import ListNotations.

(** Counter [i] of [n] time points is due at rate [r]: divisible, or the last. *)
Definition due (r n i : nat) : bool := Nat.eqb (Nat.modulo i r) 0 || Nat.eqb i (n - 1).

(** All time points with their counters. *)
Definition enumerate {A} (l : list A) : list (nat * A) := combine (seq 0 (length l)) l.

(** The time points whose counter satisfies [keep]. *)
Definition select {A} (keep : nat -> bool) (l : list A) : list A :=
  map snd (filter (fun p => keep (fst p)) (enumerate l)).

(** The time points due at rate [r]. *)
Definition due_points {A} (r : nat) (l : list A) : list A := select (due r (length l)) l.

(** [p] is an initial part of [l]. *)
Definition starts_with {A} (p l : list A) : Prop := exists rest, l = p ++ rest.

(** The character [c] does not occur in [s]. *)
Fixpoint free_of (c : ascii) (s : string) : Prop :=
  match s with
  | EmptyString => True
  | String d r => d <> c /\ free_of c r
  end.

(** A formatting of numbers like Python's: equal numbers are written equally,
    different ones differently, and no underscore occurs. *)
Definition number_format (repr : Q -> string) : Prop :=
  (forall a b, (a == b)%Q -> repr a = repr b) /\
  (forall a b, repr a = repr b -> (a == b)%Q) /\
  (forall a, free_of "_"%char (repr a)).

(** [name] is the name [base] followed by an underscore and one more part. *)
Definition one_part (base name : string) : Prop :=
  exists x, free_of "_"%char x /\ name = (base ++ "_" ++ x)%string.

(** Decision of [one_part] (proved correct in L_Load.v): what follows [base]. *)
Fixpoint rest_after (base name : string) : option string :=
  match base, name with
  | EmptyString, _ => Some name
  | String a b, String c n => if Ascii.eqb a c then rest_after b n else None
  | String _ _, EmptyString => None
  end.
Fixpoint has_underscore (s : string) : bool :=
  match s with EmptyString => false | String c r => Ascii.eqb c "_"%char || has_underscore r end.
Definition is_one_part (base name : string) : bool :=
  match rest_after base name with
  | Some (String c x) => Ascii.eqb c "_"%char && negb (has_underscore x)
  | _ => false
  end.

(** Two families of named values with the same names in the same order. *)
Definition same_names {V} (a b : list (string * list (string * V))) : Prop :=
  Forall2 (fun x y => fst x = fst y /\ map fst (snd x) = map fst (snd y)) a b.

(** Proper families: no name twice, level names without underscore. *)
Definition proper_levels {V} (a : list (string * list (string * V))) : Prop :=
  NoDup (map fst a) /\
  Forall (fun fg => NoDup (map fst (snd fg)) /\ Forall (free_of "_"%char) (map fst (snd fg))) a.

(** The documented file names: base name, label, then variable and level. *)
Definition state_file (repr : Q -> string) (base : string) (t : Q) : string :=
  (base ++ "_" ++ repr t)%string.
Definition level_file (repr : Q -> string) (base : string) (t : Q) (variable level : string) : string :=
  (base ++ "_" ++ repr t ++ "_" ++ variable ++ "_" ++ level)%string.
(** One file per level of every variable. *)
Definition all_level_files {V} (repr : Q -> string) (base : string) (t : Q)
    (levels : list (string * list (string * V))) : list (string * V) :=
  flat_map (fun vl => map (fun lv => (level_file repr base t (fst vl) (fst lv), snd lv)) (snd vl)) levels.
