(** Lemmas on sensor headers. *)
From Coq Require Import String List Bool Arith QArith Lia.
From Verif Require Import Base M_Header S_Header.
Import ListNotations.
Local Open Scope nat_scope.
Local Open Scope list_scope.

Lemma times_flat_map : forall {A B} (x : list A) (l : list B), times x (length l) = flat_map (fun _ => x) l.
Proof. intros A B x l. unfold times. induction l as [|b l IH]; cbn; [reflexivity|]. rewrite IH. reflexivity. Qed.

Lemma map_flat_map : forall {A B C} (g : B -> C) (f : A -> list B) l,
  map g (flat_map f l) = flat_map (fun x => map g (f x)) l.
Proof. induction l as [|a l IH]; cbn; [reflexivity|]. rewrite map_app, IH. reflexivity. Qed.

Lemma map_const_seq : forall {A} (x : A) n s, map (fun _ => x) (seq s n) = repeat x n.
Proof. induction n as [|n IH]; intros s; cbn; [reflexivity|]. rewrite IH. reflexivity. Qed.

Lemma repeat_app_nat : forall {A} (x : A) a b, repeat x (a + b) = repeat x a ++ repeat x b.
Proof. induction a as [|a IH]; intros b; cbn; [reflexivity|]. rewrite IH. reflexivity. Qed.

Lemma flat_map_repeat : forall {A} (x : A) (fs : fields),
  flat_map (fun f => repeat x (shape_dim (snd f))) fs = repeat x (total_dim fs).
Proof.
  intros A x. induction fs as [|f fs IH]; [reflexivity|]. unfold total_dim in *. cbn. rewrite repeat_app_nat, IH. reflexivity.
Qed.

Section H.
Context {Loc Val : Type}.
Implicit Types (locs : list Loc) (fs : fields).

Lemma header_locs : forall locs fs, map col_loc (columns locs fs) = flat_map (fun l => repeat l (total_dim fs)) locs.
Proof.
  intros locs fs. unfold columns. rewrite map_flat_map. apply flat_map_ext. intros l.
  rewrite map_flat_map, <- flat_map_repeat. apply flat_map_ext. intros f. rewrite map_map. cbn. apply map_const_seq.
Qed.

Lemma header_fields : forall locs fs,
  map col_field (columns locs fs) = times (flat_map (fun f => repeat (fst f) (shape_dim (snd f))) fs) (length locs).
Proof.
  intros locs fs. rewrite times_flat_map. unfold columns. rewrite map_flat_map. apply flat_map_ext. intros l.
  rewrite map_flat_map. apply flat_map_ext. intros f. rewrite map_map. cbn. apply map_const_seq.
Qed.

Lemma header_components : forall names (label : list nat -> nat -> component) locs fs,
  Forall (fun f => names (snd f) = map (label (snd f)) (seq 0 (shape_dim (snd f)))) fs ->
  map (fun c => label (col_dims c) (col_index c)) (columns locs fs) =
  times (flat_map (fun f => names (snd f)) fs) (length locs).
Proof.
  intros names label locs fs H. rewrite times_flat_map. unfold columns. rewrite map_flat_map. apply flat_map_ext. intros l.
  rewrite map_flat_map. induction H as [|f fs Hf H IH]; [reflexivity|]. cbn [flat_map]. rewrite IH, Hf, map_map. reflexivity.
Qed.

Lemma measure_columns : forall (value : Loc -> string -> nat -> Val) locs fs,
  measure value fs locs = map (fun c => value (col_loc c) (col_field c) (col_index c)) (columns locs fs).
Proof.
  intros value locs fs. unfold measure, columns. rewrite map_flat_map, flat_map_concat_map. f_equal.
  apply map_ext. intros l. unfold measure_at. rewrite map_flat_map. apply flat_map_ext. intros f. rewrite map_map. reflexivity.
Qed.

Lemma names_nameable : forall s, nameable s -> get_components_name s = map (component_label s) (seq 0 (shape_dim s)).
Proof.
  intros [|n [|m [|k s]]] H.
  - reflexivity.
  - cbn [get_components_name component_label shape_dim fold_right]. rewrite Nat.mul_1_r.
    destruct (Nat.leb_spec n 3).
    + destruct n as [|[|[|[|n]]]]; try lia; reflexivity.
    + apply map_ext. intros k. unfold component_label. destruct (Nat.leb_spec n 3); [lia | reflexivity].
  - cbn [get_components_name component_label shape_dim fold_right]. rewrite Nat.mul_1_r. cbn in H.
    destruct (Nat.leb_spec (n * m) 9) as [L|L].
    + destruct (H L) as [[-> ->]|[-> ->]]; reflexivity.
    + apply map_ext. intros k. unfold component_label. destruct (Nat.leb_spec (n * m) 9); [lia | reflexivity].
  - reflexivity.
Qed.

Lemma stream_header_aligned : forall names label stationary locs fs,
  Forall (fun f => names (snd f) = map (label (snd f)) (seq 0 (shape_dim (snd f)))) fs ->
  stream_header names stationary locs fs =
  Ok (map col_loc (columns locs fs), map col_field (columns locs fs),
      map (fun c => label (col_dims c) (col_index c)) (columns locs fs),
      if stationary then None else Some (length (columns locs fs))).
Proof.
  intros names label stationary locs fs H. unfold stream_header, located_header, base_header.
  rewrite <- header_locs, <- header_fields, <- (header_components names label) by exact H.
  rewrite !map_length, Nat.eqb_refl. reflexivity.
Qed.

Lemma L2_aligned : forall fs, Forall (fun f => get_components_name_L2 (snd f) =
    map ((fun _ _ => CName "L2") (snd f)) (seq 0 (shape_dim (snd f)))) (L2_fields fs).
Proof. intros fs. unfold L2_fields. induction fs as [|f fs IH]; constructor; [reflexivity | exact IH]. Qed.

(** A small matrix that is neither 2x2 nor of 9 entries gets too many names. *)
Lemma names_too_long : forall s, shape_dim s <= length (get_components_name s).
Proof.
  intros [|n [|m [|k s]]].
  - cbn. lia.
  - cbn [get_components_name shape_dim fold_right]. destruct (Nat.leb_spec n 3).
    + destruct n as [|[|[|[|n]]]]; cbn; lia.
    + rewrite map_length, seq_length. lia.
  - cbn [get_components_name shape_dim fold_right]. destruct (Nat.leb_spec (n * m) 9).
    + destruct (Nat.eqb_spec n 2), (Nat.eqb_spec m 2); subst; cbn; lia.
    + rewrite map_length, seq_length. lia.
  - cbn [get_components_name]. rewrite map_length, seq_length. lia.
Qed.

Lemma times_length : forall {A} (l : list A) n, length (times l n) = n * length l.
Proof. intros A l n. unfold times. induction n as [|n IH]; cbn; [reflexivity|]. rewrite app_length, IH. reflexivity. Qed.

Lemma header_rejected : forall stationary locs fs f m n, locs <> [] -> In (f, [m; n]) fs ->
  m * n < 9 -> ~ (m = 2 /\ n = 2) ->
  stream_header get_components_name stationary locs fs = Err ValueError.
Proof.
  intros stationary locs fs f m n NL I L N. unfold stream_header, located_header, base_header.
  rewrite !times_length.
  assert (B : length (flat_map (fun f => repeat (fst f) (shape_dim (snd f))) fs) <
              length (flat_map (fun f => get_components_name (snd f)) fs)).
  { assert (W : forall gs : fields, length (flat_map (fun f => repeat (fst f) (shape_dim (snd f))) gs) <=
              length (flat_map (fun f => get_components_name (snd f)) gs)).
    { induction gs as [|g gs IHg]; cbn; [lia|]. rewrite !app_length, repeat_length. pose proof (names_too_long (snd g)). lia. }
    induction fs as [|g fs IH]; [contradiction|]. cbn. rewrite !app_length, repeat_length.
    destruct I as [->|I].
    - specialize (W fs). cbn [snd shape_dim fold_right get_components_name].
      assert (length (if m * n <=? 9 then if (m =? 2) && (n =? 2) then
          map CName [nth 0 MATRIX_COMPONENT ""; nth 1 MATRIX_COMPONENT ""; nth 3 MATRIX_COMPONENT ""; nth 4 MATRIX_COMPONENT ""]%string
          else map CName MATRIX_COMPONENT else map CNum (seq 0 (m * n))) = 9).
      { destruct (Nat.leb_spec (m * n) 9); [|lia]. destruct (Nat.eqb_spec m 2), (Nat.eqb_spec n 2); cbn; try reflexivity. tauto. }
      rewrite H. lia.
    - specialize (IH I). pose proof (names_too_long (snd g)). lia. }
  destruct locs as [|l locs]; [contradiction|]. cbn [length].
  set (a := length (flat_map (fun f => get_components_name (snd f)) fs)) in *.
  set (b := length (flat_map (fun f => repeat (fst f) (shape_dim (snd f))) fs)) in *.
  destruct (Nat.eqb_spec (S (length locs) * a) (S (length locs) * b)) as [E|E].
  - exfalso. apply Nat.mul_cancel_l in E; lia.
  - rewrite andb_false_r. reflexivity.
Qed.

End H.
