(** What the output files of a simulation should hold. *)
From Coq Require Import String Ascii List.
From Verif Require Import Base Dict M_Path M_Files.
Import ListNotations.
Local Open Scope string_scope.
Local Open Scope list_scope.

Section Spec.
Context {M T V : Type}.
Notation content := (@content M T V).
Notation fsys := (@fsys M T V).
Notation op := (@op M T V).

(** Folders contain files and folders, files contain nothing. *)
Definition tree (f : fsys) : Prop := f [] = Some Dir /\ forall p x, f (p ++ [x]) <> None -> f p = Some Dir.

Definition holds (f : fsys) (p : folder) (c : content) : Prop := f p = Some (File c).

(** The kinds of saved objects. *)
Inductive kind := KMesh | KPickle | KText | KYaml | KState | KCsv | KLog.
Definition kind_of (c : content) : kind :=
  match c with CMesh _ => KMesh | CTree _ => KPickle | CText _ => KText | CYaml _ => KYaml | CState _ => KState | CRows _ => KCsv | CLog _ => KLog end.

(** The places a save goes to, by kind. *)
Definition place (pl : places) (k : kind) (name : option string) : folder :=
  match k with
  | KMesh => joinpath (pl_root pl) (pl_mesh_name pl ++ ".pickle")%string
  | KPickle => joinpath (pl_settings pl) (match name with Some n => n | None => pl_settings_name pl end ++ ".pickle")%string
  | KText => joinpath (pl_settings pl) (match name with Some n => n | None => pl_settings_name pl end ++ ".txt")%string
  | KYaml => joinpath (pl_settings pl) (match name with Some n => n | None => pl_settings_name pl end ++ ".yaml")%string
  | KState => joinpath (pl_states pl) (match name with Some n => n | None => pl_gfu_name pl end ++ ".ngs")%string
  | KCsv => joinpath (pl_sensors pl) (match name with Some n => n | None => "" end ++ ".csv")%string
  | KLog => joinpath (pl_root pl) (pl_log_name pl ++ ".log")%string
  end.

(** The saves asked for by an operation. *)
Definition asks (o : op) (k : kind) (name : option string) : Prop :=
  match o, k with
  | SaveMesh _, KMesh => name = None
  | SavePickle n _, KPickle | SaveTxt n _, KText | SaveYaml n _ _, KYaml | SaveState n _, KState => name = n
  | SaveSettings p _ _ _ _ _, KPickle => p = true /\ name = None
  | SaveSettings _ x _ _ _ _, KText => x = true /\ name = None
  | SaveSettings _ _ y _ _ _, KYaml => y = true /\ name = None
  | WriteCsv n _, KCsv => name = Some n
  | WriteLog _, KLog => name = None
  | _, _ => False
  end.

(** The operation, at these places, may write this file. *)
Definition may_write (pl : places) (o : op) (p : folder) : Prop := exists k name, asks o k name /\ place pl k name = p.

(** The operations of a history together with the places valid when they run. *)
Fixpoint located (pl : places) (ops : list op) : list (places * op) :=
  match ops with
  | [] => []
  | o :: rest => (pl, o) :: located (match o with Configure pl' => pl' | _ => pl end) rest
  end.

(** No later operation saves an object of this kind to this place. *)
Definition untouched (k : kind) (p : folder) (l : list (places * op)) : Prop :=
  forall pl o name, In (pl, o) l -> asks o k name -> place pl k name <> p.

(** File names without folders. *)
Fixpoint no_slash (s : string) : Prop := match s with EmptyString => True | String c r => c <> "/"%char /\ no_slash r end.
End Spec.
