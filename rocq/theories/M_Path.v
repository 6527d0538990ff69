(** Model of the folder settings (dream/io.py:27-65, 102-134).  An absolute
    path is the list of its components below the file system root
    ([pathlib.PurePosixPath]); [..] is an ordinary component, as in pathlib. *)
From Coq Require Import String List Bool.
From Verif Require Import Base Dict.
Import ListNotations.
Local Open Scope string_scope.

(** The paths stored in [cfg.data] (dream/io.py:46, 49, 65): the components of an absolute path. *)
Definition folder := list string.

(** What a user may assign: [None], an absolute or a relative path (dream/io.py:32-40). *)
Inductive path_value := PNone | PAbs (p : folder) | PRel (p : folder).

(** Equality of paths (pathlib) (Python; used in dream/io.py:57, 62). *)
Fixpoint folder_eqb (a b : folder) : bool :=
  match a, b with
  | [], [] => true
  | x :: a, y :: b => String.eqb x y && folder_eqb a b
  | _, _ => false
  end.

(** [path.is_relative_to(old)] (pathlib) (Python; used in dream/io.py:59). *)
Fixpoint is_relative_to (p old : folder) : bool :=
  match old, p with
  | [], _ => true
  | o :: old', x :: p' => String.eqb x o && is_relative_to p' old'
  | _ :: _, [] => false
  end.

(** [path.parent] (pathlib): the root is its own parent (Python; used in dream/io.py:61, 64). *)
Definition parent (p : folder) : folder := removelast p.

(** [Path(path.name)] (pathlib): no component for the root (Python; used in dream/io.py:60, 63). *)
Definition name_of (p : folder) : folder := match p with [] => [] | _ => [List.last p ""] end.

(** The loop dream/io.py:60-64: walk up from [par] to [old] collecting names.
    At the file system root the walk repeats the same state for ever. [fuel] is
    the length of [par], which shrinks in every other iteration. *)
Fixpoint walk (fuel : nat) (name par old : folder) : result folder :=
  if folder_eqb par old then Ok name
  else match par, fuel with
       | [], _ => Err NonTermination
       | _, O => Err NonTermination
       | _, S k => walk k (name_of par ++ name)%list (parent par) old
       end.

(** The new location of the entry [p] (dream/io.py:57-65). *)
Definition relocate (new old p : folder) : result folder :=
  if folder_eqb p new then Ok p
  else if is_relative_to p old then
    let* name := walk (length (parent p)) (name_of p) (parent p) old in Ok (new ++ name)%list
  else Ok p.

(** The loop over [cfg.data.items()] (dream/io.py:56-65).  Values of existing keys
    are replaced, so every entry is visited once with its old value. *)
Fixpoint relocate_all (new old : folder) (data : dict folder) : dict folder * option exn :=
  match data with
  | [] => ([], None)
  | (k, p) :: rest =>
      match relocate new old p with
      | Err e => ((k, p) :: rest, Some e)
      | Ok p' => let '(r, e) := relocate_all new old rest in ((k, p') :: r, e)
      end
  end.

(** [path.__set__] (dream/io.py:32-65) for the setting [key]; [cwd] is the current
    directory.  [hasattr(cfg, 'root')] reads [cfg.data['root']], a KeyError while no root is stored. *)
Definition path_set (cwd : folder) (data : dict folder) (key : string) (v : path_value) : dict folder * option exn :=
  let old := dget data key in
  match v with
  | PNone => (dset data key cwd, None)
  | PAbs p => (dset data key p, None)
  | PRel p =>
      match dget data "root" with
      | None => (data, Some KeyError)
      | Some root =>
          let new := (root ++ p)%list in
          let data' := dset data key new in
          match old with
          | None => (data', None)
          | Some old => relocate_all new old data'
          end
      end
  end.

(** [IOFolders.clear] (dream/config.py:405-408 with the defaults of dream/io.py:104-121). *)
Definition folders_default (cwd : folder) : dict folder :=
  [("root", cwd); ("states", cwd ++ ["states"]); ("vtk", cwd ++ ["vtk"]);
   ("settings", cwd ++ ["cfg"]); ("sensors", cwd ++ ["sensors"])]%list.

(** Setting all defaults in order on an empty configuration (dream/config.py:405-408). *)
Definition folders_clear (cwd : folder) : dict folder * option exn :=
  fold_left (fun st kv => match st with (d, None) => path_set cwd d (fst kv) (snd kv) | _ => st end)
    [("root", PNone); ("states", PRel ["states"]); ("vtk", PRel ["vtk"]);
     ("settings", PRel ["cfg"]); ("sensors", PRel ["sensors"])]
    ([], None).
