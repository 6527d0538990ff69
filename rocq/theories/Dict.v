(** Python dictionaries with string keys as association lists in insertion
    order: assigning an existing key replaces its value in place, a new key is
    appended.  (Python semantics, no particular code in /repo.) *)
From Coq Require Import String List Bool Arith Lia.
Import ListNotations.

Section Dict.
Context {V : Type}.

Definition dict := list (string * V).

(** [d.get(k)] (Python built-in). *)
Fixpoint dget (d : dict) (k : string) : option V :=
  match d with
  | [] => None
  | (k', v) :: r => if String.eqb k k' then Some v else dget r k
  end.

(** [d[k] = v] (Python built-in). *)
Fixpoint dset (d : dict) (k : string) (v : V) : dict :=
  match d with
  | [] => [(k, v)]
  | (k', v') :: r => if String.eqb k k' then (k', v) :: r else (k', v') :: dset r k v
  end.

(** [d.pop(k, None)] as far as the dictionary is concerned (Python built-in). *)
Fixpoint ddel (d : dict) (k : string) : dict :=
  match d with
  | [] => []
  | (k', v') :: r => if String.eqb k k' then r else (k', v') :: ddel r k
  end.

(** [d.keys()] (Python built-in). *)
Definition dkeys (d : dict) : list string := map fst d.

(** [{k: v for k, v in l}] (Python built-in): later entries win. *)
Definition dict_of (l : list (string * V)) : dict :=
  fold_left (fun d kv => dset d (fst kv) (snd kv)) l [].

Lemma dget_dset_same : forall d k v, dget (dset d k v) k = Some v.
Proof.
  induction d as [|[k' v'] d IH]; intros k v; cbn.
  - rewrite String.eqb_refl. reflexivity.
  - destruct (String.eqb k k') eqn:E; cbn; rewrite E; [reflexivity | apply IH].
Qed.

Lemma dget_dset_other : forall d k k' v, k <> k' -> dget (dset d k v) k' = dget d k'.
Proof.
  induction d as [|[k0 v0] d IH]; intros k k' v H; cbn.
  - destruct (String.eqb k' k) eqn:E; [apply String.eqb_eq in E; congruence | reflexivity].
  - destruct (String.eqb k k0) eqn:E; cbn.
    + apply String.eqb_eq in E. subst k0.
      destruct (String.eqb k' k) eqn:E'; [apply String.eqb_eq in E'; congruence | reflexivity].
    + destruct (String.eqb k' k0); [reflexivity | apply IH; exact H].
Qed.

Lemma dget_dset : forall d k v k',
  dget (dset d k v) k' = if String.eqb k' k then Some v else dget d k'.
Proof.
  intros d k v k'. destruct (String.eqb k' k) eqn:E.
  - apply String.eqb_eq in E. subst. apply dget_dset_same.
  - apply String.eqb_neq in E. apply dget_dset_other. congruence.
Qed.

Lemma dget_Some_In : forall d k v, dget d k = Some v -> In (k, v) d.
Proof.
  induction d as [|[k0 v0] d IH]; intros k v H; cbn in *; [discriminate|].
  destruct (String.eqb k k0) eqn:E.
  - apply String.eqb_eq in E. inversion H; subst. left; reflexivity.
  - right. apply IH. exact H.
Qed.

Lemma dget_None_not_In : forall d k, dget d k = None <-> ~ In k (dkeys d).
Proof.
  induction d as [|[k0 v0] d IH]; intros k; cbn; [tauto|].
  destruct (String.eqb k k0) eqn:E.
  - apply String.eqb_eq in E. split; [discriminate | intros H; exfalso; apply H; left; congruence].
  - apply String.eqb_neq in E. rewrite IH. unfold dkeys. split; intros H; [intros [C|C]; [congruence | tauto] | tauto].
Qed.

Lemma dget_In_keys : forall d k v, dget d k = Some v -> In k (dkeys d).
Proof.
  intros d k v H. apply dget_Some_In in H. apply (in_map fst) in H. exact H.
Qed.

Lemma In_keys_dget : forall d k, In k (dkeys d) -> exists v, dget d k = Some v.
Proof.
  intros d k H. destruct (dget d k) eqn:E; [eexists; reflexivity|].
  apply dget_None_not_In in E. contradiction.
Qed.

Lemma NoDup_In_dget : forall d k v, NoDup (dkeys d) -> In (k, v) d -> dget d k = Some v.
Proof.
  induction d as [|[k0 v0] d IH]; intros k v N I; cbn in *; [contradiction|].
  inversion N; subst. destruct I as [I|I].
  - inversion I; subst. rewrite String.eqb_refl. reflexivity.
  - destruct (String.eqb k k0) eqn:E; [|apply IH; assumption].
    apply String.eqb_eq in E. subst. exfalso. apply H1. apply (in_map fst) in I. exact I.
Qed.

Lemma dkeys_dset_present : forall d k v, In k (dkeys d) -> dkeys (dset d k v) = dkeys d.
Proof.
  induction d as [|[k0 v0] d IH]; intros k v H; cbn in *; [contradiction|].
  destruct (String.eqb k k0) eqn:E; cbn; [reflexivity|].
  apply String.eqb_neq in E. destruct H as [H|H]; [congruence|].
  f_equal. apply IH. exact H.
Qed.

Lemma dkeys_dset_absent : forall d k v, ~ In k (dkeys d) -> dset d k v = d ++ [(k, v)].
Proof.
  induction d as [|[k0 v0] d IH]; intros k v H; cbn in *; [reflexivity|].
  destruct (String.eqb k k0) eqn:E.
  - apply String.eqb_eq in E. exfalso. apply H. left. congruence.
  - f_equal. apply IH. tauto.
Qed.

Lemma In_dkeys_dset : forall d k v k', In k' (dkeys (dset d k v)) <-> k' = k \/ In k' (dkeys d).
Proof.
  intros d k v k'. destruct (in_dec string_dec k (dkeys d)) as [H|H].
  - rewrite dkeys_dset_present by exact H. split; [tauto | intros [->|?]; assumption].
  - rewrite dkeys_dset_absent by exact H. unfold dkeys. rewrite map_app, in_app_iff. cbn.
    split; [intros [?|[?|[]]]; [tauto | left; congruence] | intros [->|?]; tauto].
Qed.

Lemma NoDup_dkeys_dset : forall d k v, NoDup (dkeys d) -> NoDup (dkeys (dset d k v)).
Proof.
  intros d k v N. destruct (in_dec string_dec k (dkeys d)) as [H|H].
  - rewrite dkeys_dset_present by exact H. exact N.
  - rewrite dkeys_dset_absent by exact H. unfold dkeys in *. rewrite map_app. cbn.
    apply NoDup_Add with (a := k) (l := map fst d); [|split; assumption].
    pose proof (Add_app k (map fst d) []) as A. rewrite app_nil_r in A. exact A.
Qed.

Lemma length_dset_present : forall d k v, In k (dkeys d) -> length (dset d k v) = length d.
Proof.
  intros d k v H. pose proof (dkeys_dset_present d k v H) as E.
  apply (f_equal (@length string)) in E. unfold dkeys in E. rewrite !map_length in E. exact E.
Qed.

Lemma dict_of_fold_get : forall l d k,
  dget (fold_left (fun d kv => dset d (fst kv) (snd kv)) l d) k =
  match dget (rev l) k with Some v => Some v | None => dget d k end.
Proof.
  induction l as [|[k0 v0] l IH]; intros d k; cbn [fold_left fst snd rev]; [reflexivity|].
  rewrite IH.
  assert (A : forall (a b : dict), dget (a ++ b) k = match dget a k with Some v => Some v | None => dget b k end).
  { induction a as [|[ka va] a IHa]; intros b; cbn; [reflexivity|].
    destruct (String.eqb k ka); [reflexivity | apply IHa]. }
  rewrite A. destruct (dget (rev l) k); [reflexivity|].
  rewrite dget_dset. cbn. destruct (String.eqb k k0); reflexivity.
Qed.

Lemma dict_of_nodup : forall l, NoDup (map fst l) -> dict_of l = l.
Proof.
  intros l N. unfold dict_of.
  assert (G : forall l d, NoDup (map fst (d ++ l)) ->
     fold_left (fun d kv => dset d (fst kv) (snd kv)) l d = d ++ l).
  { clear. induction l as [|[k v] l IH]; intros d N; cbn.
    - rewrite app_nil_r. reflexivity.
    - assert (Hk : ~ In k (dkeys d)).
      { rewrite map_app in N. cbn in N. apply NoDup_remove_2 in N. intros C. apply N. apply in_app_iff. left. exact C. }
      rewrite dkeys_dset_absent by exact Hk. rewrite IH.
      + rewrite <- app_assoc. reflexivity.
      + rewrite <- app_assoc. exact N. }
  apply (G l []). exact N.
Qed.

End Dict.

Arguments dict V : clear implicits.
