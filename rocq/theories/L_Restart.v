(** Lemmas on restarts. *)
From Coq Require Import String Ascii List Bool QArith ZArith Arith Lia.
From Verif Require Import Base Dict M_Timer S_Timer M_Run S_Run L_Run M_IO S_IO L_IO L_Store L_Load M_Scheme M_Float M_Restart S_Restart.
Import ListNotations.
Local Open Scope nat_scope.
Local Open Scope list_scope.

(** ** Marching *)
Section March.
Context {V : Type}.
Variable tl : list string.
Hypothesis K : known_scheme tl.

Lemma known_update : forall (g : dict V) v, map fst g = tl ->
  exists g', update_levels tl (dset g "n+1" v) = Ok g' /\ map fst g' = tl.
Proof.
  intros g v E. destruct K as [-> | ->].
  - destruct g as [|[k1 a] [|[k2 b] [|]]]; try discriminate E. injection E as -> ->.
    eexists. split; reflexivity.
  - destruct g as [|[k1 a] [|[k2 b] [|[k3 c] [|]]]]; try discriminate E. injection E as -> -> ->.
    eexists. split; reflexivity.
Qed.

Lemma step_ok : forall (g : dict (dict V)) sol, has_levels tl g ->
  exists g', transient_step tl g sol = Ok g' /\ has_levels tl g' /\ same_variables g' g.
Proof.
  intros g sol [N F]. unfold transient_step, scheme_update, solver_writes, same_variables, has_levels.
  assert (G : exists g', for_variables (fun _ g => update_levels tl g)
      (map (fun vg => (fst vg, dset (snd vg) "n+1" (sol (fst vg)))) g) = Ok g' /\
      Forall (fun x => map fst (snd x) = tl) g' /\ map fst g' = map fst g).
  { clear N. induction F as [|[var x] g E F IH]; [exists []; repeat split; constructor|].
    destruct IH as (g' & E1 & E2 & E3). cbn [snd] in E.
    destruct (known_update x (sol var) E) as (x' & X1 & X2).
    exists ((var, x') :: g'). cbn [map for_variables fst snd]. rewrite X1. cbn [bind]. rewrite E1. cbn [bind].
    repeat split; [constructor; assumption|cbn; now rewrite E3]. }
  destruct G as (g' & E1 & E2 & E3). exists g'. split; [exact E1|]. split; [split; [|exact E2]|exact E3].
  exact (eq_ind_r (@NoDup string) N E3).
Qed.

Variable solve : double -> memory V -> dict V * (string -> V).

Lemma advance_ok : forall t m, has_levels tl (levels m) ->
  exists m', advance solve tl t m = Ok m' /\ has_levels tl (levels m') /\ same_variables (levels m') (levels m).
Proof.
  intros t m H. unfold advance. destruct (solve t m) as [rest sol].
  destruct (step_ok (levels m) sol H) as (g & E & H1 & H2). rewrite E. cbn [bind].
  eexists. split; [reflexivity|]. split; assumption.
Qed.

Lemma march_ok : forall ts m, has_levels tl (levels m) ->
  exists l, march solve tl ts m = Ok l /\ length l = length ts /\
    Forall (fun x => has_levels tl (levels x) /\ same_variables (levels x) (levels m)) l.
Proof.
  induction ts as [|t ts IH]; intros m H; [exists []; repeat split; constructor|].
  destruct (advance_ok t m H) as (m' & E & H1 & H2). destruct (IH m' H1) as (l & El & Ll & Fl).
  exists (m' :: l). cbn [march]. rewrite E. cbn [bind]. rewrite El. cbn [bind].
  split; [reflexivity|]. split; [cbn; now rewrite Ll|]. constructor; [split; assumption|].
  eapply Forall_impl; [|exact Fl]. intros x [X1 X2]. split; [exact X1|]. unfold same_variables in *. congruence.
Qed.

Lemma march_timeless : timeless solve -> forall ts ts' m, length ts = length ts' ->
  march solve tl ts m = march solve tl ts' m.
Proof.
  intro T. induction ts as [|t ts IH]; intros [|t' ts'] m L; try discriminate L; [reflexivity|].
  cbn [march]. unfold advance. rewrite (T t t' m). destruct (solve t' m) as [rest sol].
  destruct (transient_step tl (levels m) sol) as [g|e]; [|reflexivity]. cbn [bind].
  rewrite (IH ts') by now injection L. reflexivity.
Qed.

Lemma march_app : forall ts ts' m l l', march solve tl ts m = Ok l ->
  march solve tl ts' (last l m) = Ok l' -> march solve tl (ts ++ ts') m = Ok (l ++ l').
Proof.
  induction ts as [|t ts IH]; intros ts' m l l' E E'.
  - injection E as <-. exact E'.
  - cbn [march app] in *. destruct (advance solve tl t m) as [m'|e]; [|discriminate E]. cbn [bind] in *.
    destruct (march solve tl ts m') as [k|e] eqn:Ek; [|discriminate E]. cbn [bind] in E. injection E as <-.
    assert (Lk : last (m' :: k) m = last k m').
    { clear. destruct k as [|x k]; [reflexivity|]. cbn [last]. revert x. induction k as [|y k IH]; intro x; [reflexivity|]. cbn [last] in *. apply IH. }
    rewrite Lk in E'. rewrite (IH ts' m' k l' Ek E'). reflexivity.
Qed.

Lemma march_split : forall ts ts' m l, march solve tl (ts ++ ts') m = Ok l ->
  exists a b, march solve tl ts m = Ok a /\ march solve tl ts' (last a m) = Ok b /\ l = a ++ b.
Proof.
  induction ts as [|t ts IH]; intros ts' m l E.
  - exists [], l. split; [reflexivity|]. split; [exact E|reflexivity].
  - cbn [march app] in *. destruct (advance solve tl t m) as [m'|e]; [|discriminate E]. cbn [bind] in *.
    destruct (march solve tl (ts ++ ts') m') as [k|e] eqn:Ek; [|discriminate E]. cbn [bind] in E. injection E as <-.
    destruct (IH ts' m' k Ek) as (a & b & Ea & Eb & ->).
    exists (m' :: a), b. rewrite Ea. cbn [bind]. split; [reflexivity|]. split; [|reflexivity].
    assert (La : last (m' :: a) m = last a m').
    { clear. destruct a as [|x a]; [reflexivity|]. cbn [last]. revert x. induction a as [|y a IH]; intro x; [reflexivity|]. cbn [last] in *. apply IH. }
    rewrite La. exact Eb.
Qed.

Lemma march_length : forall ts m l, march solve tl ts m = Ok l -> length l = length ts.
Proof.
  induction ts as [|t ts IH]; intros m l E; [injection E as <-; reflexivity|].
  cbn [march] in E. destruct (advance solve tl t m) as [m'|e]; [|discriminate E]. cbn [bind] in E.
  destruct (march solve tl ts m') as [k|e] eqn:Ek; [|discriminate E]. cbn [bind] in E. injection E as <-.
  cbn. now rewrite (IH _ _ Ek).
Qed.

Lemma march_firstn : forall n ts m l, march solve tl ts m = Ok l -> n <= length ts ->
  march solve tl (firstn n ts) m = Ok (firstn n l) /\
  march solve tl (skipn n ts) (last (firstn n l) m) = Ok (skipn n l).
Proof.
  intros n ts m l E N. rewrite <- (firstn_skipn n ts) in E.
  destruct (march_split _ _ _ _ E) as (a & b & Ea & Eb & ->).
  assert (La : length a = n). { rewrite (march_length _ _ _ Ea), firstn_length. lia. }
  assert (F1 : firstn n (a ++ b) = a) by (rewrite <- La, firstn_app, Nat.sub_diag, firstn_all; apply app_nil_r).
  assert (F2 : skipn n (a ++ b) = b) by (rewrite <- La, skipn_app, Nat.sub_diag, skipn_all; reflexivity).
  rewrite F1, F2.
  split; [exact Ea|exact Eb].
Qed.
End March.

(** ** What the streams see *)
Section Visible.
Context {V : Type}.
Variable tl : list string.
Hypothesis K : known_scheme tl.

Lemma known_free : Forall (free_of "_"%char) tl /\ NoDup tl.
Proof.
  destruct K as [-> | ->]; (split; [repeat constructor; cbn; try discriminate|]);
    repeat (constructor; [cbn; intros H; repeat destruct H as [H|H]; try discriminate H; exact H|]); constructor.
Qed.

Lemma visible_names : forall (m : memory V),
  map fst (g_levels (visible m)) = map fst (levels m) /\
  (Forall (fun x => map fst (snd x) = tl) (levels m) -> Forall (fun x => map fst (snd x) = tl) (g_levels (visible m))).
Proof.
  intro m. unfold visible. cbn [g_levels]. split.
  - rewrite map_map. reflexivity.
  - intro F. apply Forall_forall. intros x I. apply in_map_iff in I. destruct I as ([v g] & <- & I).
    rewrite Forall_forall in F. specialize (F _ I). cbn [fst snd] in *. rewrite map_map. cbn [fst]. rewrite <- F.
    apply map_ext. reflexivity.
Qed.

Lemma visible_proper : forall (m : memory V), has_levels tl (levels m) -> proper_levels (g_levels (visible m)).
Proof.
  intros m [N F]. destruct (visible_names m) as [E1 E2]. specialize (E2 F). destruct known_free as [U D].
  split; [exact (eq_ind_r (@NoDup string) N E1)|]. eapply Forall_impl; [|exact E2]. intros x E. cbn beta in E. split.
  - exact (eq_ind_r (@NoDup string) D E).
  - exact (eq_ind_r (Forall (free_of "_"%char)) U E).
Qed.

Lemma names_part : forall g : dict V, map fst (map (fun lv => (fst lv, Part (snd lv))) g) = map fst g.
Proof. induction g as [|[l v] g IH]; [reflexivity|]. cbn [map fst]. now rewrite IH. Qed.

Lemma visible_same : forall (m m' : memory V), has_levels tl (levels m) -> has_levels tl (levels m') ->
  same_variables (levels m') (levels m) -> same_names (g_levels (visible m')) (g_levels (visible m)).
Proof.
  intros m m' [_ F] [_ F'] E. unfold same_names, visible. cbn [g_levels]. unfold same_variables in E.
  revert F E. generalize (levels m) as g. induction F' as [|[v x] g' X F' IH]; intros g F E.
  - destruct g; [constructor|discriminate E].
  - destruct g as [|[v1 y] g]; [discriminate E|]. cbn [map fst] in E. injection E as -> E.
    apply Forall_cons_iff in F. destruct F as [Y F2]. cbn [map fst snd] in *. constructor; [|now apply IH].
    split; [reflexivity|].
    exact (eq_trans (names_part x) (eq_trans (eq_trans X (eq_sym Y)) (eq_sym (names_part y)))).
Qed.

Lemma parts_visible : forall g : dict V, parts_of (map (fun lv => (fst lv, Part (snd lv))) g) = Ok g.
Proof. induction g as [|[l v] g IH]; [reflexivity|]. cbn [map parts_of fst snd part_of bind]. rewrite IH. reflexivity. Qed.

Lemma all_parts_visible : forall m : memory V, all_parts_of (g_levels (visible m)) = Ok (levels m).
Proof.
  intro m. unfold visible. cbn [g_levels]. induction (levels m) as [|[v g] l IH]; [reflexivity|].
  cbn [map all_parts_of fst snd]. rewrite parts_visible. cbn [bind]. rewrite IH. reflexivity.
Qed.

Lemma dset_same : forall (g : dict V) k v, dget g k = Some v -> dset g k v = g.
Proof.
  induction g as [|[k' v'] g IH]; intros k v E; [discriminate E|]. cbn in *.
  destruct (String.eqb k k'); [injection E as <-; reflexivity|]. now rewrite IH.
Qed.

Lemma known_current : forall g : dict V, map fst g = tl -> exists v, dget g "n+1" = Some v.
Proof.
  intros g E. destruct K as [-> | ->].
  - destruct g as [|[k1 a] [|[k2 b] [|]]]; try discriminate E. injection E as -> ->. eexists. reflexivity.
  - destruct g as [|[k1 a] [|[k2 b] [|[k3 c] [|]]]]; try discriminate E. injection E as -> -> ->. eexists. reflexivity.
Qed.

Lemma dget_map_fst : forall {A B} (f : string * A -> B) (g : list (string * A)) k x, NoDup (map fst g) -> In (k, x) g ->
  dget (map (fun vg => (fst vg, f vg)) g) k = Some (f (k, x)).
Proof.
  induction g as [|[k0 x0] g IH]; intros k x N I; [destruct I|]. cbn [map fst dget] in *. inversion N as [|? ? N1 N2]; subst.
  destruct I as [E|I].
  - injection E as -> ->. rewrite String.eqb_refl. reflexivity.
  - destruct (String.eqb_spec k k0) as [->|D]; [|now apply IH].
    contradiction N1. apply in_map_iff. exists (k0, x). split; [reflexivity|exact I].
Qed.

(** Writing the current components back into the levels they were read from. *)
Lemma state_same : forall g : dict (dict V), has_levels tl g ->
  map (fun vg => match dget (map (fun vg => (fst vg, dget (snd vg) "n+1")) g) (fst vg) with
                 | Some (Some v) => (fst vg, dset (snd vg) "n+1" v)
                 | _ => vg
                 end) g = g.
Proof.
  intros g [N F]. transitivity (map (fun x : string * dict V => x) g); [|apply map_id]. apply map_ext_in. intros [k x] I.
  pose proof (dget_map_fst (fun vg : string * dict V => dget (snd vg) "n+1") g k x N I) as H. cbn [fst snd] in *.
  rewrite Forall_forall in F. specialize (F _ I). cbn [snd] in F.
  destruct (known_current x F) as [v E]. rewrite E in H.
  match goal with |- match ?d with _ => _ end = _ => replace d with (Some (Some v)) by (symmetry; exact H) end.
  rewrite (dset_same x _ v E). reflexivity.
Qed.
End Visible.

(** ** Files of a killed run *)
Section Killed.
Context {C : Type}.
Variable repr : Q -> string.
Hypothesis RF : number_format repr.
Variable fn : string.

Lemma combine_seq_firstn : forall {A} (l : list A) k n, n <= length l ->
  combine (seq k n) (firstn n l) = firstn n (combine (seq k (length l)) l).
Proof.
  induction l as [|x l IH]; intros k n H; cbn in H; [replace n with 0 by lia; reflexivity|].
  destruct n as [|n]; [reflexivity|]. cbn [seq firstn combine length]. f_equal. apply IH. lia.
Qed.

Lemma combine_firstn_both : forall {A B} (l : list A) (r : list B) n,
  combine (firstn n l) (firstn n r) = firstn n (combine l r).
Proof.
  induction l as [|x l IH]; intros r n; [destruct n; reflexivity|].
  destruct n as [|n]; [reflexivity|]. destruct r as [|y r]; [reflexivity|]. cbn. f_equal. apply IH.
Qed.

Lemma observe_sols_extra : forall (h : gstate C -> run_event -> list (string * C)) tr s sols extra, saving_only h ->
  length (filter (fun e => match e with RSolve _ => true | RSolverStep _ => true | _ => false end) tr) <= length sols ->
  observe h s (sols ++ extra) tr = observe h s sols tr.
Proof.
  intros h. induction tr as [|e tr IH]; intros s sols extra SO L; [reflexivity|].
  destruct e; cbn [filter] in L;
    try (cbn [observe]; f_equal; apply IH; assumption);
    (destruct sols as [|x sols]; cbn [length] in L; [lia|]; cbn [observe app]; apply IH; [assumption|lia]).
Qed.

(** What a run has written when counter [i] is saved. *)
Lemma safe_writes : forall r q re t0 ls (sols : list (gstate C)) s i, i < length ls -> length ls = length sols ->
  observe (gfu_handler repr fn r q) s sols (until_saved re t0 ls i) =
  (levels_write repr fn (t0, s) ++ [state_write repr fn (t0, s)]) ++
  flat_map (fun p => (if divides q (fst p) then levels_write repr fn (snd p) else []) ++
                     (if divides r (fst p) then [state_write repr fn (snd p)] else []))
           (firstn (S i) (enumerate (combine ls sols))).
Proof.
  intros r q re t0 ls sols s i I L. unfold until_saved.
  assert (P : observe (gfu_handler repr fn r q) s sols
     ([RPreSave (Some t0)] ++ concat (map (fun p => time_point_events (fst p) (snd p))
              (combine (seq 0 (S i)) (firstn (S i) ls)))) =
     gfu_handler repr fn r q s (RPreSave (Some t0)) ++
     flat_map (fun p => gfu_handler repr fn r q (snd (snd p)) (RInSave (fst (snd p)) (fst p)))
       (combine (seq 0 (S i)) (combine (firstn (S i) ls) (firstn (S i) sols)))).
  { cbn [app observe]. f_equal.
    rewrite <- (firstn_skipn (S i) sols) at 1.
    assert (L1 : length (firstn (S i) ls) = S i) by (rewrite firstn_length; lia).
    assert (L2 : length (firstn (S i) sols) = S i) by (rewrite firstn_length; lia).
    rewrite observe_sols_extra.
    - pose proof (observe_points (gfu_handler repr fn r q) (gfu_saving repr fn r q) (firstn (S i) ls) (firstn (S i) sols) 0 s []
        (eq_trans L1 (eq_sym L2))) as OP.
      rewrite !app_nil_r, L1 in OP. exact OP.
    - apply gfu_saving.
    - rewrite L2. clear - L1. revert L1. generalize (firstn (S i) ls) as l. generalize (S i) as n. generalize 0 as k.
      intros k n; revert k. induction n as [|n IH]; intros k l L1; [cbn; lia|].
      destruct l as [|x l]; [discriminate L1|]. cbn [seq combine map concat app time_point_events filter fst snd length].
      apply le_n_S. apply IH. now injection L1. }
  assert (E : forall x, observe (gfu_handler repr fn r q) s sols ((if re then [RAssemble] else []) ++ [ROpen; RPreSave (Some t0)] ++ x) =
     observe (gfu_handler repr fn r q) s sols ([RPreSave (Some t0)] ++ x)) by (intro x; destruct re; reflexivity).
  rewrite E, P. f_equal.
  - cbn [gfu_handler]. unfold gfu_pre, gfu_in. rewrite !divides_0. reflexivity.
  - rewrite combine_firstn_both. unfold enumerate.
    rewrite <- (combine_seq_firstn (combine ls sols) 0 (S i)) by (rewrite combine_length; lia).
    apply flat_map_ext. intros [k [t x]]. reflexivity.
Qed.

Lemma killed_writes : forall r q re t0 ls (sols : list (gstate C)) s i done, ls <> [] -> length ls = length sols -> i < length ls ->
  killed_after (observe (gfu_handler repr fn r q) s sols (until_saved re t0 ls i)) done
    (observe (gfu_handler repr fn r q) s sols (run_trace (transient_run no_faults re t0 (Ok ls)))) ->
  exists rest, done = (levels_write repr fn (t0, s) ++ [state_write repr fn (t0, s)]) ++ rest /\
    (forall w, In w rest -> In w (later_writes repr fn r q ls sols s)) /\
    (forall j p w, j <= i -> nth_error (combine ls sols) j = Some p ->
       (w = state_write repr fn p /\ divides r j = true) \/ (In w (levels_write repr fn p) /\ divides q j = true) -> In w rest).
Proof.
  intros r q re t0 ls sols s i done N L I [[x X] [y Y]].
  rewrite safe_writes in X by assumption. rewrite (run_writes repr fn r q re t0 ls sols s N L) in Y.
  set (pre := levels_write repr fn (t0, s) ++ [state_write repr fn (t0, s)]) in *.
  set (mid := flat_map _ (firstn (S i) _)) in *.
  exists (mid ++ x). rewrite app_assoc. split; [exact X|]. split.
  - intros w Iw. rewrite X, <- !app_assoc in Y. apply app_inv_head in Y. rewrite Y.
    rewrite app_assoc. apply in_app_iff. left. exact Iw.
  - intros j p w J E H. apply in_app_iff. left. unfold mid. apply in_flat_map. exists (j, p). split.
    + assert (Ej : nth_error (enumerate (combine ls sols)) j = Some (j, p)).
      { unfold enumerate. clear - E.
        assert (G : forall (l : list (Q * gstate C)) b k, nth_error l k = Some p -> nth_error (combine (seq b (length l)) l) k = Some (b + k, p)).
        { induction l as [|z l IH]; intros b k H; [destruct k; discriminate H|]. destruct k as [|k].
          - injection H as ->. cbn. now rewrite Nat.add_0_r.
          - cbn [length seq combine nth_error]. rewrite (IH (S b) k H). f_equal. f_equal. lia. }
        exact (G (combine ls sols) 0 j E). }
      apply nth_error_In with (n := j).
      rewrite <- Ej. rewrite <- (firstn_skipn (S i) (enumerate (combine ls sols))) at 2.
      rewrite nth_error_app1; [reflexivity|]. rewrite firstn_length.
      assert (length (enumerate (combine ls sols)) = length ls).
      { unfold enumerate. rewrite combine_length, seq_length, combine_length. lia. }
      lia.
    + cbn [fst snd]. apply in_app_iff. destruct H as [[-> D]|[H D]]; rewrite D; [right; left; reflexivity|left; exact H].
Qed.

Lemma killed_state : forall (fs : dict C) r q re t0 ls (sols : list (gstate C)) s i j t x done,
  ls <> [] -> length ls = length sols -> distinct ls -> i < length ls -> j <= i ->
  killed_after (observe (gfu_handler repr fn r q) s sols (until_saved re t0 ls i)) done
    (observe (gfu_handler repr fn r q) s sols (run_trace (transient_run no_faults re t0 (Ok ls)))) ->
  nth_error ls j = Some t -> nth_error sols j = Some x -> divides r j = true ->
  load_routine repr (write_all fs done) fn (Some t) = Ok (g_gfu x).
Proof.
  intros fs r q re t0 ls sols s i j t x done N L D I J Kd Ht Hx Hd.
  assert (E : nth_error (combine ls sols) j = Some (t, x)).
  { clear - Ht Hx. revert ls sols Ht Hx. induction j as [|j IH]; intros [|a ls] [|b sols] Ht Hx; cbn in *; try discriminate.
    - congruence.
    - apply IH; assumption. }
  destruct (killed_writes r q re t0 ls sols s i done N L I Kd) as (rest & -> & Sub & Has).
  rewrite write_all_app. unfold load_routine, load_gridfunction.
  rewrite (write_all_consistent _ _ _ (g_gfu x)); [reflexivity| |].
  - apply (Has j (t, x)); [exact J|exact E|]. left. split; [reflexivity|exact Hd].
  - intros v' Iv. apply Sub in Iv. apply later_writes_In in Iv; [|assumption..].
    destruct Iv as (k & [t' x'] & E' & [[H _]|[H _]]).
    + injection H as H1 H2. apply append_cancel in H1. cbn in H1. injection H1 as H1.
      apply RF in H1. destruct (same_point ls sols j k (t, x) (t', x') D E E' H1) as [_ H3].
      injection H3 as <- <-. exact H2.
    + apply levels_write_In in H. destruct H as (f & g & l & w & _ & _ & H). injection H as H _.
      exfalso. exact (level_state_differ repr RF fn _ _ _ _ (eq_sym H)).
Qed.

Lemma killed_levels : forall (fs : dict C) r q re t0 ls (sols : list (gstate C)) s i t x template done,
  ls <> [] -> length ls = length sols -> distinct ls -> Forall (fun x => proper_levels (g_levels x)) sols ->
  killed_after (observe (gfu_handler repr fn r q) s sols (until_saved re t0 ls i)) done
    (observe (gfu_handler repr fn r q) s sols (run_trace (transient_run no_faults re t0 (Ok ls)))) ->
  nth_error ls i = Some t -> nth_error sols i = Some x -> divides q i = true ->
  same_names template (g_levels x) ->
  load_time_levels repr (write_all fs done) fn t template = Ok (g_levels x).
Proof.
  intros fs r q re t0 ls sols s i t x template done N L D P Kd Ht Hx Hq S.
  assert (E : nth_error (combine ls sols) i = Some (t, x)).
  { clear - Ht Hx. revert ls sols Ht Hx. induction i as [|j IH]; intros [|a ls] [|b sols] Ht Hx; cbn in *; try discriminate.
    - congruence.
    - apply IH; assumption. }
  assert (I : i < length ls) by (apply nth_error_Some; rewrite Ht; discriminate).
  destruct (killed_writes r q re t0 ls sols s i done N L I Kd) as (rest & -> & Sub & Has).
  rewrite Forall_forall in P. assert (Px : proper_levels (g_levels x)) by (apply P; eapply nth_error_In; exact Hx).
  apply load_time_levels_ok; [exact S|]. intros f g l v H1 H2.
  rewrite write_all_app. apply write_all_consistent.
  - apply (Has i (t, x)); [lia|exact E|]. right. split; [|exact Hq].
    apply levels_write_In. exists f, g, l, v. repeat split; assumption.
  - intros v' Iv. apply Sub in Iv. apply later_writes_In in Iv; [|assumption..].
    destruct Iv as (j & [t' x'] & E' & [[H _]|[H _]]).
    + injection H as H _. exfalso. exact (level_state_differ repr RF fn _ _ _ _ H).
    + apply levels_write_In in H. cbn [fst snd] in H. destruct H as (f' & g' & l' & w & H3 & H4 & H). injection H as H ->.
      assert (Px' : proper_levels (g_levels x')).
      { apply P. eapply nth_error_In. apply (proj2 (combine_nth _ _ _ _ _ E')). }
      destruct (levels_consistent repr RF fn t t' _ _ f g l v f' g' l' w Px Px' H1 H2 H3 H4 H) as (Ct & _ & _ & R).
      destruct (same_point ls sols i j (t, x) (t', x') D E E' Ct) as [_ H5]. injection H5 as _ <-.
      symmetry. apply R. reflexivity.
Qed.
End Killed.

(** ** Files of a run over existing files *)
Section Over.
Context {C : Type}.
Variable repr : Q -> string.
Hypothesis RF : number_format repr.
Variable fn : string.

Lemma later_names : forall r q ls (sols : list (gstate C)) s t v, ls <> [] -> length ls = length sols ->
  In (state_name repr fn (Some t), v) (later_writes repr fn r q ls sols s) ->
  exists j t', nth_error ls j = Some t' /\ (t == t')%Q.
Proof.
  intros r q ls sols s t v N L I. apply later_writes_In in I; [|assumption..].
  destruct I as (j & [t' x'] & E' & [[E Hj]|[I _]]).
  - injection E as E _. apply append_cancel in E. cbn in E. injection E as E. apply RF in E. cbn in E.
    destruct (combine_nth _ _ _ _ _ E') as [E1 _]. exists j, t'. split; assumption.
  - apply levels_write_In in I. destruct I as (f & g & l & w & _ & _ & E). injection E as E _.
    exfalso. exact (level_state_differ repr RF fn _ _ _ _ (eq_sym E)).
Qed.

(** A state file of another time is left alone. *)
Lemma untouched_state : forall (fs : dict C) r q re t0 ls (sols : list (gstate C)) s t, ls <> [] -> length ls = length sols ->
  ~ (t0 == t)%Q -> Forall (fun l => ~ (t == l)%Q) ls ->
  load_routine repr (write_all fs (observe (gfu_handler repr fn r q) s sols
      (run_trace (transient_run no_faults re t0 (Ok ls))))) fn (Some t) = load_routine repr fs fn (Some t).
Proof.
  intros fs r q re t0 ls sols s t N L H0 F. rewrite run_writes by assumption.
  unfold load_routine, load_gridfunction. rewrite write_all_other; [reflexivity|].
  intros I. apply in_map_iff in I. destruct I as [[n v] [E I]]. cbn in E. subst n.
  apply in_app_iff in I. destruct I as [I|I].
  - apply in_app_iff in I. destruct I as [I|[I|[]]].
    + apply levels_write_In in I. destruct I as (f & g & l & w & _ & _ & E). injection E as E _.
      exact (level_state_differ repr RF fn _ _ _ _ (eq_sym E)).
    + injection I as E _. apply append_cancel in E. cbn in E. injection E as E. apply RF in E. apply H0. exact E.
  - destruct (later_names r q ls sols s t v N L I) as (j & t' & E1 & E2).
    rewrite Forall_forall in F. exact (F t' (nth_error_In _ _ E1) E2).
Qed.

(** Some of the writes of a run, among them those before its first step. *)
Lemma first_state : forall (fs : dict C) r q t0 ls (sols : list (gstate C)) s rest, ls <> [] -> length ls = length sols ->
  Forall (fun l => ~ (t0 == l)%Q) ls -> (forall w, In w rest -> In w (later_writes repr fn r q ls sols s)) ->
  load_routine repr (write_all fs ((levels_write repr fn (t0, s) ++ [state_write repr fn (t0, s)]) ++ rest)) fn (Some t0) = Ok (g_gfu s).
Proof.
  intros fs r q t0 ls sols s rest N L F Sub. unfold load_routine, load_gridfunction.
  rewrite write_all_app, write_all_other.
  - rewrite (write_all_consistent _ _ _ (g_gfu s)); [reflexivity| |].
    + apply in_app_iff. right. left. reflexivity.
    + intros v I. apply in_app_iff in I. destruct I as [I|[I|[]]].
      * apply levels_write_In in I. destruct I as (f & g & l & w & _ & _ & E). injection E as E _.
        exfalso. exact (level_state_differ repr RF fn _ _ _ _ (eq_sym E)).
      * unfold state_write in I. cbn [fst snd] in I. congruence.
  - intros I. apply in_map_iff in I. destruct I as [[n v] [E I]]. cbn in E. subst n. apply Sub in I.
    destruct (later_names r q ls sols s t0 v N L I) as (j & t' & E1 & E2).
    rewrite Forall_forall in F. exact (F t' (nth_error_In _ _ E1) E2).
Qed.
End Over.
