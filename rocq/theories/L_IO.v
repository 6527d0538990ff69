(** Lemmas on the output schedules. *)
From Coq Require Import QArith String Ascii List Bool Arith Lia.
From Verif Require Import Base Dict M_Timer S_Timer M_Run S_Run L_Run M_IO S_IO.
Import ListNotations.
Local Open Scope nat_scope.
Local Open Scope list_scope.

(** *** enumerate / select *)

Lemma combine_app : forall {A B} (a a' : list A) (b b' : list B), length a = length b ->
  combine (a ++ a') (b ++ b') = combine a b ++ combine a' b'.
Proof.
  induction a as [|x a IH]; intros a' [|y b] b' H; cbn in *; try discriminate; [reflexivity|].
  f_equal. apply IH. lia.
Qed.

Lemma enumerate_snoc : forall {A} (l : list A) x, enumerate (l ++ [x]) = enumerate l ++ [(length l, x)].
Proof.
  intros A l x. unfold enumerate. rewrite app_length. cbn [length].
  rewrite Nat.add_1_r, seq_S. cbn [Nat.add].
  rewrite combine_app by apply seq_length. reflexivity.
Qed.

Lemma enumerate_In : forall {A} (l : list A) i x, In (i, x) (enumerate l) <-> nth_error l i = Some x.
Proof.
  intros A l. induction l as [|y l IH] using rev_ind; intros i x.
  - cbn. split; [contradiction | destruct i; discriminate].
  - rewrite enumerate_snoc, in_app_iff, IH. cbn. split.
    + intros [H|[H|[]]].
      * rewrite nth_error_app1; [exact H|]. apply nth_error_Some. congruence.
      * injection H as <- <-. rewrite nth_error_app2, Nat.sub_diag by lia. reflexivity.
    + intros H. destruct (Nat.lt_ge_cases i (length l)) as [L|L].
      * left. rewrite nth_error_app1 in H by exact L. exact H.
      * right. left. rewrite nth_error_app2 in H by exact L.
        destruct (i - length l) as [|[|k]] eqn:E; cbn in H; try discriminate.
        injection H as <-. f_equal. lia.
Qed.

Lemma flat_map_app : forall {A B} (f : A -> list B) l l', flat_map f (l ++ l') = flat_map f l ++ flat_map f l'.
Proof. induction l as [|x l IH]; intros l'; cbn; [reflexivity|]. rewrite IH, app_assoc. reflexivity. Qed.

Lemma flat_map_select : forall {A B} (keep : nat -> bool) (f : A -> list B) (l : list A),
  flat_map (fun p => if keep (fst p) then f (snd p) else []) (enumerate l) = flat_map f (select keep l).
Proof.
  intros A B keep f l. unfold select.
  induction (enumerate l) as [|[i x] e IH]; [reflexivity|].
  cbn [flat_map filter fst snd]. destruct (keep i); cbn [map flat_map snd]; rewrite IH; reflexivity.
Qed.

Lemma select_snoc : forall {A} keep (l : list A) x,
  select keep (l ++ [x]) = select keep l ++ (if keep (length l) then [x] else []).
Proof.
  intros. unfold select. rewrite enumerate_snoc, filter_app, map_app. cbn.
  destruct (keep (length l)); reflexivity.
Qed.

Lemma select_ext : forall {A} k1 k2 (l : list A), (forall i, i < length l -> k1 i = k2 i) ->
  select k1 l = select k2 l.
Proof.
  intros A k1 k2 l H. induction l as [|x l IH] using rev_ind; [reflexivity|].
  rewrite !select_snoc. rewrite app_length in H. cbn in H.
  rewrite IH by (intros; apply H; lia). rewrite (H (length l)) by lia. reflexivity.
Qed.

Lemma divides_due : forall r n i, i < n - 1 -> divides r i = due r n i.
Proof.
  intros r n i H. unfold divides, due. destruct (Nat.eqb_spec i (n - 1)); [lia|].
  rewrite orb_false_r. reflexivity.
Qed.

Lemma due_points_snoc : forall {A} r (l : list A) x,
  due_points r (l ++ [x]) = select (divides r) l ++ [x].
Proof.
  intros A r l x. unfold due_points. rewrite select_snoc, app_length. cbn [length].
  f_equal.
  - apply select_ext. intros i H. symmetry. apply divides_due. lia.
  - unfold due. replace (length l =? length l + 1 - 1) with true; [rewrite orb_true_r; reflexivity|].
    symmetry. apply Nat.eqb_eq. lia.
Qed.

Lemma due_points_In : forall {A} r (l : list A) x,
  In x (due_points r l) <-> exists i, nth_error l i = Some x /\ due r (length l) i = true.
Proof.
  intros A r l x. unfold due_points, select. rewrite in_map_iff. split.
  - intros [[i y] [<- H]]. apply filter_In in H. destruct H as [H D]. exists i. split; [|exact D].
    apply enumerate_In. exact H.
  - intros [i [H D]]. exists (i, x). split; [reflexivity|]. apply filter_In. split; [|exact D].
    apply enumerate_In. exact H.
Qed.

(** *** Observing a run *)

(** A handler that only reacts to the three saving events. *)
Definition saving_only {S Out} (h : S -> run_event -> list Out) : Prop :=
  forall s e, match e with RPreSave _ | RInSave _ _ | RPostSave _ _ => True | _ => h s e = [] end.

Section Observe.
Context {S Out : Type}.
Variable h : S -> run_event -> list Out.
Hypothesis HS : saving_only h.

Lemma observe_points : forall ls sols it s rest, length ls = length sols ->
  observe h s sols (concat (map (fun p => time_point_events (fst p) (snd p)) (combine (seq it (length ls)) ls)) ++ rest) =
  flat_map (fun p => h (snd (snd p)) (RInSave (fst (snd p)) (fst p)))
           (combine (seq it (length ls)) (combine ls sols)) ++
  observe h (List.last sols s) [] rest.
Proof.
  induction ls as [|t ls IH]; intros [|x sols] it s rest H; cbn in H; try discriminate; [reflexivity|].
  cbn [length seq combine map concat time_point_events app fst snd observe flat_map].
  rewrite (HS x RShift), (HS x (RYield (Some t))), (HS x RRedraw). cbn [app].
  rewrite IH by lia. rewrite <- app_assoc. f_equal. f_equal. f_equal.
  clear. revert x. destruct sols as [|y sols]; intros x; [reflexivity|].
  cbn [List.last]. revert y. induction sols as [|z sols IH]; intros y; [reflexivity|]. apply IH.
Qed.

Lemma observe_transient : forall re t0 ls tl sols s, length ls = length sols ->
  observe h s sols (transient_expected re t0 ls tl) =
  h s (RPreSave (Some t0)) ++
  flat_map (fun p => h (snd (snd p)) (RInSave (fst (snd p)) (fst p))) (enumerate (combine ls sols)) ++
  h (List.last sols s) (RPostSave (Some tl) (length ls - 1)).
Proof.
  intros re t0 ls tl sols s H. unfold transient_expected.
  assert (E : observe h s sols ((if re then [RAssemble] else []) ++ [ROpen; RPreSave (Some t0)] ++
     concat (map (fun p => time_point_events (fst p) (snd p)) (combine (seq 0 (length ls)) ls)) ++
     [RPostSave (Some tl) (length ls - 1); RClose]) =
     h s (RPreSave (Some t0)) ++ observe h s sols (concat (map (fun p => time_point_events (fst p) (snd p)) (combine (seq 0 (length ls)) ls)) ++
     [RPostSave (Some tl) (length ls - 1); RClose])).
  { destruct re; cbn [app observe]; destruct sols; rewrite ?(HS s RAssemble), (HS s ROpen); reflexivity. }
  rewrite E, observe_points by exact H. cbn [observe]. rewrite (HS _ RClose), app_nil_r.
  unfold enumerate. rewrite combine_length, <- H, Nat.min_id. reflexivity.
Qed.

Lemma observe_app : forall p q s sols,
  exists s' sols', observe h s sols (p ++ q) = observe h s sols p ++ observe h s' sols' q.
Proof.
  induction p as [|e p IH]; intros q s sols; cbn [app].
  - exists s, sols. reflexivity.
  - cbn [observe].
    destruct e, sols as [|x xs];
      try (destruct (IH q x xs) as [s' [l' E]]; exists s', l'; exact E);
      match goal with
      | |- context [observe h s ?l (p ++ q)] =>
          destruct (IH q s l) as [s' [l' E]]; exists s', l'; rewrite E, app_assoc; reflexivity
      end.
Qed.

End Observe.

(** *** The last element *)

Lemma last_snoc : forall {A} (l : list A) x d, List.last (l ++ [x]) d = x.
Proof. intros. apply List.last_last. Qed.

(** Both lists end in the last time point and the last state. *)
Lemma snoc_pair : forall {A B} (ls : list A) (sols : list B), ls <> [] -> length ls = length sols ->
  exists ls' sols' t x, ls = ls' ++ [t] /\ sols = sols' ++ [x] /\ length ls' = length sols'.
Proof.
  intros A B ls sols N H.
  destruct (exists_last N) as [ls' [t E]]. subst ls.
  assert (N' : sols <> []). { intros ->. rewrite app_length in H. cbn in H. lia. }
  destruct (exists_last N') as [sols' [x E]]. subst sols.
  exists ls', sols', t, x. rewrite !app_length in H. cbn in H. repeat split; lia.
Qed.

(** The schedule of a handler that writes at multiples of [r] and at the end. *)
Lemma schedule : forall {S Out} (h : S -> run_event -> list Out) (out : Q * S -> list Out) r,
  saving_only h ->
  (forall s t i, h s (RInSave t i) = if divides r i then out (t, s) else []) ->
  (forall s t i, h s (RPostSave (Some t) i) = if negb (divides r i) then out (t, s) else []) ->
  forall re t0 ls sols s, ls <> [] -> length ls = length sols ->
  observe h s sols (run_trace (transient_run no_faults re t0 (Ok ls))) =
  h s (RPreSave (Some t0)) ++ flat_map out (due_points r (combine ls sols)).
Proof.
  intros S Out h out r HS HI HP re t0 ls sols s N L.
  rewrite (proj1 (transient_complete re t0 ls N)).
  rewrite (observe_transient h HS) by exact L. f_equal.
  destruct (snoc_pair ls sols N L) as (ls' & sols' & t & x & -> & -> & L').
  rewrite combine_app by exact L'. cbn [combine].
  rewrite due_points_snoc, !flat_map_app. rewrite enumerate_snoc, flat_map_app. cbn [flat_map fst snd].
  rewrite !last_snoc, HI, HP, !app_nil_r.
  rewrite (flat_map_ext _ (fun p => if divides r (fst p) then out (snd p) else [])).
  2:{ intros [i [u y]]. cbn [fst snd]. apply HI. }
  rewrite flat_map_select, <- app_assoc. f_equal.
  rewrite combine_length, app_length, <- L', Nat.min_id. cbn [length].
  replace (length ls' + 1 - 1) with (length ls') by lia.
  destruct (divides r (length ls')); cbn [negb app]; rewrite ?app_nil_r; reflexivity.
Qed.

Lemma flat_map_singleton : forall {A B} (f : A -> B) l, flat_map (fun x => [f x]) l = map f l.
Proof. induction l as [|x l IH]; cbn; [reflexivity | rewrite IH; reflexivity]. Qed.

Lemma vtk_saving : forall {S} r, saving_only (@vtk_handler S r).
Proof. intros S r s e. destruct e; exact I || reflexivity. Qed.

Lemma vtk_schedule : forall {S} r re t0 ls (sols : list S) s, ls <> [] -> length ls = length sols ->
  observe (vtk_handler r) s sols (run_trace (transient_run no_faults re t0 (Ok ls))) =
  (t0, s) :: due_points r (combine ls sols).
Proof.
  intros S r re t0 ls sols s N L.
  rewrite (fun A B => schedule (vtk_handler r) (fun p => [p]) r (vtk_saving r) A B re t0 ls sols s N L) by
    (intros s' t i; unfold vtk_handler, vtk_in, vtk_post; destruct (divides r i); reflexivity).
  cbn. f_equal. rewrite (flat_map_singleton (fun x => x)), map_id. reflexivity.
Qed.

(** Rows of one sensor among several with pairwise different names. *)
Lemma rows_of_sensor : forall {S} (f : sensor -> list (row S)) sensors x,
  (forall y r, In r (f y) -> row_sensor r = se_name y) ->
  NoDup (map se_name sensors) -> In x sensors ->
  filter (fun r => String.eqb (row_sensor r) (se_name x)) (flat_map f sensors) = f x.
Proof.
  intros S f sensors x F. induction sensors as [|y l IH]; intros ND I; [contradiction|].
  cbn [flat_map map] in *. apply NoDup_cons_iff in ND. destruct ND as [NI ND].
  rewrite filter_app.
  assert (K : forall z, se_name z <> se_name x -> filter (fun r => String.eqb (row_sensor r) (se_name x)) (f z) = []).
  { intros z D. specialize (F z). induction (f z) as [|r rs IHr]; [reflexivity|].
    cbn. rewrite (F r) by (left; reflexivity).
    destruct (String.eqb_spec (se_name z) (se_name x)); [contradiction|]. apply IHr. intros. apply F. right. assumption. }
  assert (Same : filter (fun r => String.eqb (row_sensor r) (se_name x)) (f x) = f x).
  { clear IH; specialize (F x). induction (f x) as [|r rs IHr]; [reflexivity|].
    cbn. rewrite (F r) by (left; reflexivity). rewrite String.eqb_refl. rewrite IHr by (intros r0 Hr0; apply F; right; exact Hr0). reflexivity. }
  destruct I as [->|I].
  - rewrite Same. rewrite <- (app_nil_r (f x)) at 2. f_equal.
    clear IH. induction l as [|z l IHl]; [reflexivity|]. cbn [flat_map map] in *.
    rewrite filter_app. rewrite K by (intros E; apply NI; left; exact E). cbn.
    apply IHl; [intros C; apply NI; right; exact C | apply NoDup_cons_iff in ND; tauto].
  - rewrite K by (intros E; apply NI; rewrite E; apply in_map; exact I). cbn. apply IH; assumption.
Qed.

(** Filtering commutes with observing. *)
Lemma observe_filter : forall {S Out} (h : S -> run_event -> list Out) p tr s sols,
  filter p (observe h s sols tr) = observe (fun s e => filter p (h s e)) s sols tr.
Proof.
  intros S Out h p. induction tr as [|e tr IH]; intros s sols; [reflexivity|].
  cbn [observe]. destruct e, sols; rewrite ?filter_app; rewrite IH; reflexivity.
Qed.

Lemma observe_ext : forall {S Out} (h h' : S -> run_event -> list Out), (forall s e, h s e = h' s e) ->
  forall tr s sols, observe h s sols tr = observe h' s sols tr.
Proof.
  intros S Out h h' E. induction tr as [|e tr IH]; intros s sols; [reflexivity|].
  cbn [observe]. destruct e, sols; rewrite ?E; rewrite IH; reflexivity.
Qed.

Lemma sensor_handler_names : forall {S} (x : sensor) (s : S) e r,
  In r (sensor_handler true [x] s e) -> row_sensor r = se_name x.
Proof.
  intros S x s e r H. destruct e; cbn in H; try contradiction.
  - destruct H as [<-|[]]. reflexivity.
  - rewrite app_nil_r in H. destruct (divides (se_rate x) it); cbn in H; [destruct H as [<-|[]]; reflexivity | contradiction].
  - rewrite app_nil_r in H. destruct t as [t|].
    + destruct (negb (divides (se_rate x) it)); cbn in H; [destruct H as [<-|[]]; reflexivity | contradiction].
    + cbn in H. destruct H as [<-|[]]. reflexivity.
Qed.

Lemma sensor_handler_flat : forall {S} sensors (s : S) e,
  sensor_handler true sensors s e = flat_map (fun x => sensor_handler true [x] s e) sensors.
Proof.
  intros S sensors s e.
  destruct e; try (induction sensors as [|y l IH]; [reflexivity | exact IH]).
  all: unfold sensor_handler, sensor_pre, sensor_in, sensor_post; apply flat_map_ext; intros a; cbn; rewrite ?app_nil_r; reflexivity.
Qed.

Lemma sensor_saving : forall {S} c xs, saving_only (@sensor_handler S c xs).
Proof. intros S c xs s e. destruct e; exact I || reflexivity. Qed.

Lemma sensor_schedule : forall {S} sensors x re t0 ls (sols : list S) s,
  NoDup (map se_name sensors) -> In x sensors -> ls <> [] -> length ls = length sols ->
  filter (fun r => String.eqb (row_sensor r) (se_name x))
    (observe (sensor_handler true sensors) s sols (run_trace (transient_run no_faults re t0 (Ok ls)))) =
  map (fun p => mk_row (se_name x) (Some (fst p)) (snd p)) ((t0, s) :: due_points (se_rate x) (combine ls sols)).
Proof.
  intros S sensors x re t0 ls sols s ND I N L. rewrite observe_filter.
  rewrite (observe_ext _ (sensor_handler true [x])).
  2:{ intros s' e. rewrite sensor_handler_flat.
      apply (rows_of_sensor (fun y => sensor_handler true [y] s' e)); [|assumption..].
      intros y r. apply sensor_handler_names. }
  rewrite (fun A B => schedule (sensor_handler true [x]) (fun p => [mk_row (se_name x) (Some (fst p)) (snd p)]) (se_rate x)
             (sensor_saving true [x]) A B re t0 ls sols s N L) by
    (intros; cbn; rewrite ?app_nil_r; reflexivity).
  cbn [app sensor_handler sensor_pre flat_map map fst snd]. apply (f_equal (cons _)).
  apply (flat_map_singleton (fun p => mk_row (se_name x) (Some (fst p)) (snd p))).
Qed.

(** Without CSV output no row is written. *)
Lemma sensor_no_csv : forall {S} sensors tr (s : S) sols,
  observe (sensor_handler false sensors) s sols tr = [].
Proof.
  intros S sensors tr s sols. rewrite (observe_ext _ (fun _ _ => [])).
  - revert s sols. induction tr as [|e tr IH]; intros s sols; [reflexivity|]. cbn. destruct e, sols; apply IH.
  - assert (G : forall f : sensor -> list (row S), (forall y, f y = []) -> flat_map f sensors = []).
    { intros f F. induction sensors as [|y l IH]; [reflexivity|]. cbn. rewrite F. exact IH. }
    intros s' e. destruct e; try reflexivity; apply G; intros y; try destruct t;
      try destruct (divides (se_rate y) it); reflexivity.
Qed.

(** What an interrupted run wrote is an initial part of what the complete run writes. *)
Lemma observe_prefix : forall {S Out} (h : S -> run_event -> list Out), saving_only h ->
  forall p l s sols, initial_part p l -> starts_with (observe h s sols p) (observe h s sols l).
Proof.
  intros S Out h HS p l s sols [rest ->].
  destruct (observe_app h p rest s sols) as [s' [l' E]]. rewrite E. eexists; reflexivity.
Qed.

Lemma observe_close : forall {S Out} (h : S -> run_event -> list Out), saving_only h ->
  forall p s sols, observe h s sols (p ++ [RClose]) = observe h s sols p.
Proof.
  intros S Out h HS p s sols. destruct (observe_app h p [RClose] s sols) as [s' [l' E]].
  rewrite E. cbn. rewrite (HS s' RClose). destruct l'; cbn; rewrite app_nil_r; reflexivity.
Qed.

Lemma interrupted_outputs : forall {S Out} (h : S -> run_event -> list Out), saving_only h ->
  forall faults re t0 ls s sols,
  starts_with (observe h s sols (run_trace (transient_run faults re t0 ls)))
              (observe h s sols (run_trace (transient_run no_faults re t0 ls))).
Proof.
  intros S Out h HS faults re t0 ls s sols.
  assert (Nil : forall a, observe h s sols a = [] -> forall b, starts_with (observe h s sols a) b).
  { intros a E b. rewrite E. exists b. reflexivity. }
  destruct (transient_faults faults re t0 ls) as [[E _]|[[E _]|(b & bq & E & E' & D)]].
  - rewrite E. apply Nil. destruct re; cbn; rewrite ?(HS s RAssemble); destruct sols; reflexivity.
  - rewrite E. apply Nil. destruct re; cbn; rewrite ?(HS s RAssemble), (HS s ROpen); destruct sols; reflexivity.
  - rewrite E, E'.
    rewrite !app_comm_cons, !app_assoc, !(observe_close h HS).
    apply (observe_prefix h HS).
    destruct D as [[-> _]|[D _]]; [exists []; rewrite app_nil_r; reflexivity|].
    destruct D as [rest ->]. exists rest. rewrite <- app_assoc. reflexivity.
Qed.
