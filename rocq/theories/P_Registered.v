(** Theorems about the sensors of a stream (C93). *)
From Coq Require Import String List Bool Arith Lia.
From Verif Require Import Base Dict M_Registered S_Registered.
Import ListNotations.
Local Open Scope string_scope.
Local Open Scope list_scope.

(** ** Dictionaries of dictionaries *)

Lemma del_other {V} (d : @dict V) k k' : k <> k' -> dget (ddel d k) k' = dget d k'.
Proof.
  intros N. induction d as [|[a v] d IH]; [reflexivity|]. cbn [ddel dget]. destruct (String.eqb_spec k a) as [->|E].
  - destruct (String.eqb_spec k' a) as [->|]; [contradiction | reflexivity].
  - cbn [dget]. rewrite IH. reflexivity.
Qed.

Lemma del_keys {V} (d : @dict V) k x : In x (dkeys (ddel d k)) -> In x (dkeys d).
Proof. induction d as [|[a v] d IH]; [intros []|]. cbn. destruct (String.eqb k a); cbn; intuition. Qed.

Lemma del_nodup {V} (d : @dict V) k : NoDup (dkeys d) -> NoDup (dkeys (ddel d k)).
Proof.
  induction d as [|[a v] d IH]; intros N; [constructor|]. inversion N as [|x y N1 N2]; subst. cbn. destruct (String.eqb k a); [exact N2|].
  cbn. constructor; [|apply IH, N2]. intros I. apply N1. apply (del_keys d k), I.
Qed.

Lemma del_same {V} (d : @dict V) k : NoDup (dkeys d) -> dget (ddel d k) k = None.
Proof.
  induction d as [|[a v] d IH]; intros N; [reflexivity|]. inversion N as [|x y N1 N2]; subst. cbn [ddel]. destruct (String.eqb_spec k a) as [->|E].
  - apply dget_None_not_In, N1.
  - cbn [dget]. destruct (String.eqb_spec k a); [contradiction | apply IH, N2].
Qed.

Definition fine (t : sensor_table) : Prop := NoDup (dkeys t) /\ forall k d, dget t k = Some d -> NoDup (dkeys d).
Definition look (t : sensor_table) (k n : string) : option nat := match dget t k with Some d => dget d n | None => None end.

Lemma fine_set t k d : fine t -> NoDup (dkeys d) -> fine (dset t k d).
Proof.
  intros [A B] N. split; [apply NoDup_dkeys_dset, A|]. intros k' d' H. rewrite dget_dset in H. destruct (String.eqb k' k); [injection H as <-; exact N | exact (B k' d' H)].
Qed.

Lemma fine_sensor_set k n i t : fine t -> fine (sensor_set k n i t).
Proof.
  intros F. unfold sensor_set. assert (G : fine match dget t k with None => dset t k [] | Some _ => t end).
  { destruct (dget t k); [exact F|]. apply fine_set; [exact F | constructor]. }
  revert G. generalize (match dget t k with None => dset t k [] | Some _ => t end). intros t' G. destruct n as [n|]; [|exact G].
  destruct (dget t' k) as [d|] eqn:E; [|exact G]. apply fine_set; [exact G|]. apply NoDup_dkeys_dset. exact (proj2 G k d E).
Qed.

Lemma fine_clear : fine sensor_clear.
Proof.
  unfold sensor_clear. assert (H : fine []) by (split; [constructor|]; intros k d H; discriminate).
  revert H. generalize (@nil (string * @dict nat)). intros t. revert t. induction sensor_kinds as [|k l IH]; intros t F; [exact F|]. cbn [fold_left]. apply IH, fine_sensor_set, F.
Qed.

Lemma fine_step t o : fine t -> fine (sensor_step t o).
Proof.
  intros F. destruct o as [k n i|k|k|k n|]; cbn [sensor_step]; try (apply fine_sensor_set, F); [| |apply fine_clear].
  - unfold sensor_delete. destruct (dget t k) eqn:E; [|exact F]. cbn [fst]. destruct F as [A B]. split; [apply del_nodup, A|].
    intros k' d' H. destruct (string_dec k k') as [<-|N]; [rewrite (del_same t k A) in H; discriminate|]. rewrite (del_other t k k' N) in H. exact (B k' d' H).
  - unfold sensor_pop. destruct (dget t k) as [d|] eqn:E; [|exact F]. destruct (dget d n); [|exact F]. cbn [fst]. apply fine_set; [exact F|]. apply del_nodup. exact (proj2 F k d E).
Qed.

Lemma fine_run l : fine (sensor_run l).
Proof.
  unfold sensor_run. pose proof fine_clear as F. revert F. generalize sensor_clear as t. induction l as [|o l IH]; intros t F; [exact F|]. cbn [fold_left]. apply IH, fine_step, F.
Qed.

Lemma clear_known k d : dget sensor_clear k = Some d -> d = [].
Proof. change sensor_clear with [("point", @nil (string * nat)); ("domain", []); ("domain_L2", []); ("boundary", []); ("boundary_L2", [])]. cbn [dget]. repeat (destruct (String.eqb k _); [intros H; injection H as <-; reflexivity|]). discriminate. Qed.

Lemma set_kind k n i t k' : dget (sensor_set k n i t) k' =
  if String.eqb k' k then Some (match n with Some n => dset (match dget t k with Some d => d | None => [] end) n i | None => match dget t k with Some d => d | None => [] end end) else dget t k'.
Proof.
  unfold sensor_set. destruct (dget t k) as [d|] eqn:E.
  - destruct n as [n|]; [rewrite E, dget_dset; reflexivity|]. destruct (String.eqb_spec k' k) as [->|]; [exact E | reflexivity].
  - destruct n as [n|]; [rewrite dget_dset_same, !dget_dset; destruct (String.eqb k' k); reflexivity | apply dget_dset].
Qed.

(** What a statement does to the sensor under a kind and a name. *)
Lemma look_step t o k n : fine t ->
  (forall i, o = RName k n i -> look (sensor_step t o) k n = Some i) /\
  (replaces k n o -> (forall i, o <> RName k n i) -> look (sensor_step t o) k n = None) /\
  (~ replaces k n o -> look (sensor_step t o) k n = look t k n).
Proof.
  intros F. destruct o as [k' n' i'|k'|k'|k' n'|]; cbn [replaces sensor_step]; (split; [|split]).
  - intros i E. injection E as -> -> ->. unfold look. rewrite set_kind, String.eqb_refl. apply dget_dset_same.
  - intros [-> ->] H. exfalso. apply (H i'). reflexivity.
  - intros H. unfold look. rewrite set_kind. destruct (String.eqb_spec k k') as [->|]; [|reflexivity]. assert (N : n' <> n) by (intros ->; apply H; split; reflexivity).
    rewrite dget_dset_other by exact N. destruct (dget t k'); reflexivity.
  - discriminate.
  - intros [].
  - intros _. unfold look. rewrite set_kind. destruct (String.eqb_spec k k') as [->|]; [|reflexivity]. destruct (dget t k'); reflexivity.
  - discriminate.
  - intros -> _. unfold look, sensor_delete. destruct (dget t k) eqn:E; cbn [fst]; [rewrite (del_same t k (proj1 F)) | rewrite E]; reflexivity.
  - intros N. unfold look, sensor_delete. destruct (dget t k') eqn:E; cbn [fst]; [rewrite (del_other t k' k N)|]; reflexivity.
  - discriminate.
  - intros [-> ->] _. unfold look, sensor_pop. destruct (dget t k) as [d|] eqn:E; cbn [fst]; [|rewrite E; reflexivity].
    destruct (dget d n) eqn:E2; cbn [fst]; [|rewrite E; exact E2]. rewrite dget_dset_same. apply del_same. exact (proj2 F k d E).
  - intros N. unfold look, sensor_pop. destruct (dget t k') as [d|] eqn:E; cbn [fst]; [|reflexivity]. destruct (dget d n') eqn:E2; cbn [fst]; [|reflexivity].
    rewrite dget_dset. destruct (String.eqb_spec k k') as [->|]; [|reflexivity]. rewrite E. apply del_other. intros ->. apply N. split; reflexivity.
  - discriminate.
  - intros _ _. unfold look. destruct (dget sensor_clear k) as [d|] eqn:E; [|reflexivity]. rewrite (clear_known k d E). reflexivity.
  - intros H. exfalso. apply H. exact I.
Qed.

Lemma split_last {A} (l : list A) o l1 x l2 : l ++ [o] = l1 ++ x :: l2 -> (o = x /\ l1 = l /\ l2 = []) \/ exists l3, l2 = l3 ++ [o] /\ l = l1 ++ x :: l3.
Proof.
  intros E. destruct l2 as [|y l2] using rev_ind.
  - apply app_inj_tail in E. destruct E as [-> ->]. left. repeat split.
  - clear IHl2. change (l1 ++ x :: l2 ++ [y]) with (l1 ++ (x :: l2) ++ [y]) in E. rewrite app_assoc in E. apply app_inj_tail in E. destruct E as [-> ->]. right. exists l2. split; reflexivity.
Qed.

Lemma replaces_dec k n o : replaces k n o \/ ~ replaces k n o.
Proof.
  destruct o as [k' n' i|k'|k'|k' n'|]; cbn; try tauto; try (destruct (string_dec k' k); [|tauto]); try (destruct (string_dec n' n)); tauto.
Qed.

Lemma place l k n i : look (sensor_run l) k n = Some i <-> in_place l k n i.
Proof.
  induction l as [|o l IH] using rev_ind.
  - split.
    + unfold look. cbn [sensor_run fold_left]. destruct (dget sensor_clear k) as [d|] eqn:E; [|discriminate]. rewrite (clear_known k d E). discriminate.
    + intros (l1 & l2 & E & _). destruct l1; discriminate.
  - assert (R : sensor_run (l ++ [o]) = sensor_step (sensor_run l) o) by (unfold sensor_run; rewrite fold_left_app; reflexivity). rewrite R.
    destruct (look_step (sensor_run l) o k n (fine_run l)) as (S1 & S2 & S3). split.
    + intros H. destruct (replaces_dec k n o) as [P|P].
      * assert (X : exists j, o = RName k n j).
        { destruct o as [k' n' j|k'|k'|k' n'|]; cbn in P.
          - destruct P as [-> ->]. exists j. reflexivity.
          - contradiction.
          - rewrite (S2 P) in H by discriminate. discriminate.
          - rewrite (S2 P) in H by discriminate. discriminate.
          - rewrite (S2 P) in H by discriminate. discriminate. }
        destruct X as (j & ->). rewrite (S1 j eq_refl) in H. injection H as ->. exists l, []. split; [reflexivity | intros o' []].
      * rewrite (S3 P) in H. apply IH in H. destruct H as (l1 & l2 & -> & N). exists l1, (l2 ++ [o]). split; [rewrite <- app_assoc; reflexivity|].
        intros o' I. apply in_app_or in I. destruct I as [I|[<-|[]]]; [exact (N o' I) | exact P].
    + intros (l1 & l2 & E & N). apply split_last in E. destruct E as [(-> & -> & ->)|(l3 & -> & E)]; [apply (S1 i eq_refl)|].
      rewrite S3 by (apply N, in_or_app; right; left; reflexivity). apply IH. exists l1, l3. split; [exact E|]. intros o' I. apply N, in_or_app. left. exact I.
Qed.

(** ** C93 *)

Lemma collected kinds t os : collect kinds t = Ok os -> os = concat (map (fun k => map snd (match dget t k with Some d => d | None => [] end)) kinds) /\ forall k, In k kinds -> exists d, dget t k = Some d.
Proof.
  revert os. induction kinds as [|k ks IH]; intros os H; cbn [collect] in H; [injection H as <-; split; [reflexivity | intros k []]|].
  destruct (dget t k) as [d|] eqn:E; [|discriminate]. destruct (collect ks t) as [rest|] eqn:C; [|discriminate]. cbn [bind] in H. injection H as <-.
  destruct (IH rest eq_refl) as [-> K]. cbn [map concat]. rewrite E. split; [reflexivity|]. intros k' [<-|I]; [exists d; exact E | apply K, I].
Qed.

(** A stream opens kind by kind exactly the sensors in place, one for every name. *)
Theorem c93_opened : forall l os, sensors_opened (sensor_run l) = Ok os -> exists given : string -> list (string * nat),
  os = concat (map (fun k => map snd (given k)) ["point"; "domain"; "domain_L2"; "boundary"; "boundary_L2"]) /\
  forall k, In k ["point"; "domain"; "domain_L2"; "boundary"; "boundary_L2"] -> NoDup (map fst (given k)) /\ forall n i, In (n, i) (given k) <-> in_place l k n i.
Proof.
  intros l os H. apply collected in H. destruct H as [E K]. exists (fun k => match dget (sensor_run l) k with Some d => d | None => [] end). split; [exact E|].
  intros k I. destruct (K k I) as (d & D). rewrite D. pose proof (proj2 (fine_run l) k d D) as N. split; [exact N|]. intros n i. rewrite <- place. unfold look. rewrite D. split.
  - apply NoDup_In_dget, N.
  - apply dget_Some_In.
Qed.
Print Assumptions c93_opened.

Lemma gone_kind l k : In k sensor_kinds -> (dget (sensor_run l) k = None <-> gone l k).
Proof.
  intros K. assert (C : dget sensor_clear k <> None).
  { change sensor_clear with [("point", @nil (string * nat)); ("domain", []); ("domain_L2", []); ("boundary", []); ("boundary_L2", [])]. cbn in K. intuition (subst; discriminate). }
  induction l as [|o l IH] using rev_ind.
  - split; [intros H; contradiction|]. intros (l1 & l2 & E & _). destruct l1; discriminate.
  - assert (R : sensor_run (l ++ [o]) = sensor_step (sensor_run l) o) by (unfold sensor_run; rewrite fold_left_app; reflexivity). rewrite R.
    assert (P : forall Q : Prop, (Q <-> gone l k) -> (match o with RName k' _ _ => k' <> k | RNoName k' => k' <> k | RClear => False | RDelete k' => k' <> k | _ => True end) -> (Q <-> gone (l ++ [o]) k)).
    { intros Q HQ Ho. rewrite HQ. split.
      - intros (l1 & l2 & -> & N). exists l1, (l2 ++ [o]). split; [rewrite <- app_assoc; reflexivity|]. intros o' I. apply in_app_or in I. destruct I as [I|[<-|[]]]; [exact (N o' I)|]. destruct o; tauto.
      - intros (l1 & l2 & E & N). apply split_last in E. destruct E as [(-> & _)|(l3 & -> & ->)]; [contradiction|]. exists l1, l3. split; [reflexivity|]. intros o' I. apply N, in_or_app. left. exact I. }
    assert (Q : (match o with RName k' _ _ => k' = k | RNoName k' => k' = k | RClear => True | _ => False end) -> ~ gone (l ++ [o]) k).
    { intros Ho (l1 & l2 & E & N). apply split_last in E. destruct E as [(-> & _)|(l3 & -> & _)]; [contradiction|]. assert (Io : In o (l3 ++ [o])) by (apply in_or_app; right; left; reflexivity). specialize (N o Io). destruct o; tauto. }
    destruct o as [k' n' i|k'|k'|k' n'|]; cbn [sensor_step].
    + rewrite set_kind. destruct (String.eqb_spec k k') as [->|D]; [split; [discriminate | intros G; exfalso; exact (Q eq_refl G)]|]. apply P; [exact IH | intros Z; apply D; symmetry; exact Z].
    + rewrite set_kind. destruct (String.eqb_spec k k') as [->|D]; [split; [discriminate | intros G; exfalso; exact (Q eq_refl G)]|]. apply P; [exact IH | intros Z; apply D; symmetry; exact Z].
    + destruct (string_dec k' k) as [->|D].
      * split; [intros _; exists l, []; split; [reflexivity | intros o' []]|]. intros _. unfold sensor_delete. destruct (dget (sensor_run l) k) eqn:E; cbn [fst]; [apply del_same, fine_run | exact E].
      * apply P; [|exact D]. rewrite <- IH. unfold sensor_delete. destruct (dget (sensor_run l) k') eqn:E; cbn [fst]; [rewrite (del_other _ k' k D)|]; reflexivity.
    + apply P; [|exact I]. rewrite <- IH. unfold sensor_pop. destruct (dget (sensor_run l) k') as [d|] eqn:E; cbn [fst]; [|reflexivity]. destruct (dget d n'); cbn [fst]; [|reflexivity].
      rewrite dget_dset. destruct (String.eqb_spec k k') as [->|]; [rewrite E; split; discriminate | reflexivity].
    + split; [intros H; contradiction | intros G; exfalso; exact (Q I G)].
Qed.

(** Opening fails exactly if a kind was deleted and not assigned since. *)
Theorem c93_fails : forall l, (exists e, sensors_opened (sensor_run l) = Err e) <-> exists k, In k ["point"; "domain"; "domain_L2"; "boundary"; "boundary_L2"] /\ gone l k.
Proof.
  intros l.
  assert (A : forall kinds, (exists e, collect kinds (sensor_run l) = Err e) <-> exists k, In k kinds /\ dget (sensor_run l) k = None).
  { induction kinds as [|k ks IH]; [split; [intros (e & H); discriminate | intros (k & [] & _)]|]. cbn [collect]. destruct (dget (sensor_run l) k) as [d|] eqn:E.
    - split.
      + intros (e & H). destruct (collect ks (sensor_run l)) as [r|x] eqn:C; [discriminate|]. destruct (proj1 IH (ex_intro _ x eq_refl)) as (k' & I & N). exists k'. split; [right; exact I | exact N].
      + intros (k' & [<-|I] & N); [congruence|]. destruct (proj2 IH (ex_intro _ k' (conj I N))) as (e & C). rewrite C. exists e. reflexivity.
    - split; [intros _; exists k; split; [left; reflexivity | exact E] | intros _; exists KeyError; reflexivity]. }
  unfold sensors_opened. rewrite A. split; intros (k & I & N); exists k; (split; [exact I|]); apply (gone_kind l k I), N.
Qed.
Print Assumptions c93_fails.

(** The full claim that a stored configuration brings its sensors back is false: it holds dictionaries of sensors, no names, and
    assigning these adds none. *)
Theorem c93_restore_refuted : forall kinds, sensors_opened (sensor_run (map RNoName kinds)) = Ok [].
Proof.
  intros kinds. assert (N : forall k, In k sensor_kinds -> ~ gone (map RNoName kinds) k).
  { intros k _ (l1 & l2 & E & _). assert (I : In (RDelete k) (map RNoName kinds)) by (rewrite E; apply in_or_app; right; left; reflexivity). apply in_map_iff in I. destruct I as (x & X & _). discriminate. }
  destruct (sensors_opened (sensor_run (map RNoName kinds))) as [os|e] eqn:E.
  - destruct (c93_opened _ _ E) as (given & -> & G). f_equal.
    assert (Z : forall k, In k ["point"; "domain"; "domain_L2"; "boundary"; "boundary_L2"] -> given k = []).
    { intros k K. destruct (given k) as [|[n i] r] eqn:Q; [reflexivity|]. exfalso. assert (P : in_place (map RNoName kinds) k n i) by (apply (G k K); rewrite Q; left; reflexivity).
      destruct P as (l1 & l2 & P & _). assert (I : In (RName k n i) (map RNoName kinds)) by (rewrite P; apply in_or_app; right; left; reflexivity). apply in_map_iff in I. destruct I as (x & X & _). discriminate. }
    cbn [map concat]. rewrite !Z by (cbn; tauto). reflexivity.
  - exfalso. destruct (proj1 (c93_fails _) (ex_intro _ e E)) as (k & K & D). exact (N k K D).
Qed.
Print Assumptions c93_restore_refuted.

Example c93_example :
  let l := [RName "boundary" "drag" 1; RName "point" "probe" 2; RName "boundary" "lift" 3; RName "boundary" "drag" 4; RNoName "point"; RPop "boundary" "lift"; RDelete "domain"; RName "domain" "mass" 5] in
  sensors_opened (sensor_run l) = Ok [2; 5; 4] /\ sensors_opened (sensor_run (l ++ [RDelete "point"])) = Err KeyError.
Proof. split; reflexivity. Qed.
