(** Configuration objects with identity: an instance may be stored in several parents
    (dream/config.py:217-302).  Only the references [cfg] and [mesh] and the stored
    sub-configurations are represented. *)
From Coq Require Import String List Bool Arith.
From Verif Require Import Base Dict.
Import ListNotations.
Local Open Scope list_scope.

(** A configuration object (dream/config.py:423-432): the identity of [cfg], of [mesh], and the
    identities of the sub-configurations in [data]. *)
Record obj := mk_obj { o_root : nat; o_mesh : nat; o_subs : dict nat }.

(** The object with identity [i] is the [i]-th one ever created (dream/config.py:423-432). *)
Definition heap := list obj.

(** Attribute writes on one object (dream/config.py:220-221, 262-263). *)
Fixpoint write (h : heap) (i : nat) (o : obj) : heap :=
  match h, i with
  | [], _ => []
  | _ :: h, O => o :: h
  | x :: h, S i => x :: write h i o
  end.

(** [value.cfg = ...; value.mesh = ...; update_subconfigurations_recursively(value)]
    (dream/config.py:219-222, 258-264).  [fuel] is Python's recursion limit. *)
Fixpoint visit (fuel : nat) (h : heap) (i root mesh : nat) : result heap :=
  match fuel with
  | O => Err NonTermination
  | S k =>
      match nth_error h i with
      | None => Err KeyError
      | Some o =>
          fold_left (fun acc kj => let* h := acc in visit k h (snd kj) root mesh) (o_subs o)
            (Ok (write h i (mk_obj root mesh (o_subs o))))
      end
  end.

(** Statements: a new configuration with itself as root (dream/config.py:425-429), a fresh default
    instance stored in a parent (dream/config.py:230, 255-256, 284), an instance stored in a
    parent (dream/config.py:219-225, 273-279), a removed option (dream/config.py:174-175). *)
Inductive hop := HNew (mesh : nat) | HDefault (p : nat) (name : string) | HAttach (p : nat) (name : string) (ch : nat) | HDel (p : nat) (name : string).

(** One statement (dream/config.py:174-175, 217-225, 255-264, 271-279, 423-432). *)
Definition hstep (limit : nat) (h : heap) (o : hop) : result heap :=
  match o with
  | HNew m => Ok (h ++ [mk_obj (length h) m []])
  | HDefault p name =>
      match nth_error h p with
      | None => Err KeyError
      | Some x => Ok (write h p (mk_obj (o_root x) (o_mesh x) (dset (o_subs x) name (length h))) ++ [mk_obj (o_root x) (o_mesh x) []])
      end
  | HAttach p name ch =>
      match nth_error h p with
      | None => Err KeyError
      | Some x =>
          let* h' := visit limit h ch (o_root x) (o_mesh x) in
          match nth_error h' p with
          | None => Err KeyError
          | Some y => Ok (write h' p (mk_obj (o_root y) (o_mesh y) (dset (o_subs y) name ch)))
          end
      end
  | HDel p name =>
      match nth_error h p with
      | None => Err KeyError
      | Some x => Ok (write h p (mk_obj (o_root x) (o_mesh x) (ddel (o_subs x) name)))
      end
  end.

(** A script of such statements (dream/config.py:217-302), stopped by the first exception. *)
Fixpoint hrun (limit : nat) (h : heap) (ops : list hop) : result heap :=
  match ops with
  | [] => Ok h
  | o :: rest => let* h' := hstep limit h o in hrun limit h' rest
  end.
