(** Vocabulary for VTK snapshots, scenes and documentation (C90, C91, C92). *)
From Coq Require Import String Ascii List Arith.
From Verif Require Import Base Dict M_Conditions S_Conditions M_Show.
Import ListNotations.
Local Open Scope list_scope.

(** The options in force after steps: those assigned last. *)
Definition region_set (l : list vtk_op) : option string := fold_left (fun r o => match o with VRegion r' => r' | _ => r end) l None.
Definition fields_set (l : list vtk_op) : dict nat := fold_left (fun f o => match o with VFields f' => f' | _ => f end) l [].
(** The steps up to the last opening that found fields: opened there and not closed since. *)
Definition opened_at (before after : list vtk_op) : Prop :=
  fields_set before <> [] /\ ~ In VClose after /\ forall l1 l2, after = l1 ++ VOpen :: l2 -> fields_set (before ++ VOpen :: l1) = [].
(** A material is named by a pattern: by its name between the bars. *)
Definition named (region : option string) (material : string) : Prop :=
  match region with None => True | Some r => In material (split_bar r) end.

(** The drawings that succeed, and the scenes they show. *)
Definition drawn (l : list (result (option nat))) : Prop := forall e, ~ In (Err e) l.
Definition scenes_of (l : list (result (option nat))) : list nat := flat_map (fun x => match x with Ok (Some i) => [i] | _ => [] end) l.

(** The lines of a text. *)
Fixpoint text_lines (s : string) : list string :=
  match s with
  | EmptyString => [EmptyString]
  | String c s => if Ascii.eqb c newline then EmptyString :: text_lines s
                  else match text_lines s with [] => [String c EmptyString] | l :: ls => String c l :: ls end
  end.
Fixpoint one_line (s : string) : Prop := match s with EmptyString => True | String c s => c <> newline /\ one_line s end.
(** A list of lines occurs in a text. *)
Definition occurs (ls : list string) (text : string) : Prop := exists before after, text_lines text = before ++ ls ++ after.
