(** Proofs about runs. *)
From Coq Require Import List Bool QArith Lia Arith.
From Verif Require Import Base M_Run S_Run.
Import ListNotations.

(** ** fault-free runs *)

Lemma act_nf : forall e n, act no_faults e n = ([e], S n, Ok tt).
Proof. reflexivity. Qed.

Definition counters (it : nat) (ls : list Q) : list run_event :=
  concat (map (fun p => time_point_events (fst p) (snd p)) (combine (seq it (length ls)) ls)).

Lemma transient_loop_nf : forall ls it last n,
  exists n', transient_loop no_faults it ls last n =
    (counters it ls, n', Ok (match ls with [] => last | _ => Some (List.last ls 0%Q, (it + length ls - 1)%nat) end)).
Proof.
  induction ls as [|t ls IH]; intros it last n; cbn [transient_loop].
  - exists n. reflexivity.
  - unfold seqp. rewrite !act_nf. cbn [app].
    match goal with |- context [transient_loop no_faults (S it) ls ?L ?N] =>
      destruct (IH (S it) L N) as [n' E]; exists n'; rewrite E end.
    unfold counters. cbn [length seq combine map concat fst snd time_point_events app].
    f_equal. f_equal.
    destruct ls as [|t' ls]; cbn [length]; f_equal.
    + cbn. f_equal. lia.
    + f_equal. lia.
Qed.

Lemma transient_complete : forall reassemble t0 ls, ls <> [] ->
  run_trace (transient_run no_faults reassemble t0 (Ok ls))
    = transient_expected reassemble t0 ls (List.last ls 0%Q) /\
  run_outcome (transient_run no_faults reassemble t0 (Ok ls)) = Ok tt.
Proof.
  intros reassemble t0 ls Hne.
  unfold run_trace, run_outcome, transient_run, transient_expected.
  destruct reassemble.
  - unfold with_io. unfold seqp. rewrite !act_nf. cbn [app].
    match goal with |- context [transient_loop no_faults 0 ls None ?N] =>
      destruct (transient_loop_nf ls 0 None N) as [n' E]; rewrite E end.
    destruct ls as [|t ls]; [congruence|]. rewrite act_nf. cbn [fst snd app]. split; [|reflexivity].
    unfold counters. rewrite <- !app_assoc. reflexivity.
  - unfold with_io. unfold seqp, ret. rewrite !act_nf. cbn [app].
    match goal with |- context [transient_loop no_faults 0 ls None ?N] =>
      destruct (transient_loop_nf ls 0 None N) as [n' E]; rewrite E end.
    destruct ls as [|t ls]; [congruence|]. rewrite act_nf. cbn [fst snd app]. split; [|reflexivity].
    unfold counters. rewrite <- !app_assoc. reflexivity.
Qed.

Lemma transient_empty : forall reassemble t0,
  run_trace (transient_run no_faults reassemble t0 (Ok [])) =
    (if reassemble then [RAssemble] else []) ++ [ROpen; RPreSave (Some t0); RClose] /\
  run_outcome (transient_run no_faults reassemble t0 (Ok [])) = Err UnboundLocalError.
Proof. intros [|] t0; split; reflexivity. Qed.

Lemma transient_timer_error : forall reassemble t0 e,
  run_trace (transient_run no_faults reassemble t0 (Err e)) =
    (if reassemble then [RAssemble] else []) ++ [ROpen; RPreSave (Some t0); RClose] /\
  run_outcome (transient_run no_faults reassemble t0 (Err e)) = Err e.
Proof. intros [|] t0 e; split; reflexivity. Qed.

Lemma pseudo_loop_nf : forall k it n,
  exists n', pseudo_loop no_faults it k n =
    (concat (map (fun it => [RShift; RUpdateStep it; RRedraw; RSolverStep it]) (seq it k)), n', Ok tt).
Proof.
  induction k as [|k IH]; intros it n; cbn [pseudo_loop].
  - exists n. reflexivity.
  - unfold seqp. rewrite !act_nf. cbn [app].
    match goal with |- context [pseudo_loop no_faults (S it) k ?N] =>
      destruct (IH (S it) N) as [n' E]; exists n'; rewrite E end.
    reflexivity.
Qed.

Lemma pseudo_complete : forall reassemble t k,
  run_trace (pseudo_run no_faults reassemble t k) = pseudo_expected reassemble t k /\
  run_outcome (pseudo_run no_faults reassemble t k) = Ok tt.
Proof.
  intros reassemble t k. unfold run_trace, run_outcome, pseudo_run, pseudo_expected.
  destruct reassemble; unfold with_io, seqp, ret; rewrite !act_nf; cbn [app];
    match goal with |- context [pseudo_loop no_faults 0 k ?N] =>
      destruct (pseudo_loop_nf k 0 N) as [n' E]; rewrite E end;
    rewrite !act_nf; cbn [fst snd app]; (split; [|reflexivity]); rewrite <- !app_assoc; reflexivity.
Qed.

Lemma stationary_fails : forall reassemble,
  run_trace (stationary_run no_faults reassemble) =
    (if reassemble then [RAssemble] else []) ++ [ROpen; RPreSave None; RClose] /\
  run_outcome (stationary_run no_faults reassemble) = Err AttributeError.
Proof. intros [|]; split; reflexivity. Qed.

(** ** runs with faults: the trace is an initial part of the fault-free one *)

(** [p] under faults behaves like a truncation of [q], its fault-free version:
    either it is never hit, or it stops inside. *)
Definition truncates {A} (p q : prog A) : Prop := forall n,
  let '(tr, n', r) := p n in
  let '(tq, nq, rq) := q n in
  (tr = tq /\ n' = nq /\ r = rq) \/
  (initial_part tr tq /\ tr <> [] /\ exists e, r = Err e).

Lemma initial_refl : forall {A} (l : list A), initial_part l l.
Proof. intros A l. exists []. rewrite app_nil_r. reflexivity. Qed.

Lemma initial_app : forall {A} (p l r : list A), initial_part p l -> initial_part p (l ++ r).
Proof. intros A p l r [s ->]. exists (s ++ r). rewrite app_assoc. reflexivity. Qed.

Lemma initial_app_l : forall {A} (a p l : list A), initial_part p l -> initial_part (a ++ p) (a ++ l).
Proof. intros A a p l [s ->]. exists s. rewrite app_assoc. reflexivity. Qed.

Lemma truncates_refl : forall {A} (p : prog A), truncates p p.
Proof. intros A p n. destruct (p n) as [[tr n'] r]. left. auto. Qed.

Lemma truncates_act : forall faults e, truncates (act faults e) (act no_faults e).
Proof.
  intros faults e n. unfold act, no_faults. destruct (faults n) as [x|].
  - right. split; [apply initial_refl|]. split; [discriminate|]. eexists; reflexivity.
  - left. auto.
Qed.

Lemma truncates_seqp : forall {A B} (p p' : prog A) (f f' : A -> prog B),
  truncates p p' -> (forall a, truncates (f a) (f' a)) -> truncates (seqp p f) (seqp p' f').
Proof.
  intros A B p p' f f' Hp Hf n. unfold seqp.
  specialize (Hp n). destruct (p n) as [[tr n1] r]. destruct (p' n) as [[tq nq] rq].
  destruct Hp as [[-> [-> ->]] | [Hpre [Hne [e ->]]]].
  - destruct rq as [a|e]; [|left; auto].
    specialize (Hf a nq). destruct (f a nq) as [[tr2 n2] r2]. destruct (f' a nq) as [[tq2 nq2] rq2].
    destruct Hf as [[-> [-> ->]] | [Hpre [Hne [e ->]]]]; [left; auto|].
    right. split; [apply initial_app_l; exact Hpre|]. split; [destruct tq; [exact Hne | discriminate]|].
    eexists; reflexivity.
  - destruct rq as [a|e'].
    + destruct (f' a nq) as [[tq2 nq2] rq2]. right. split; [apply initial_app; exact Hpre|].
      split; [exact Hne|]. eexists; reflexivity.
    + right. split; [exact Hpre|]. split; [exact Hne|]. eexists; reflexivity.
Qed.

Lemma truncates_transient_loop : forall faults ls it last,
  truncates (transient_loop faults it ls last) (transient_loop no_faults it ls last).
Proof.
  intros faults. induction ls as [|t ls IH]; intros it last; cbn [transient_loop].
  - apply truncates_refl.
  - repeat (apply truncates_seqp; [apply truncates_act | intros _]). apply IH.
Qed.

Lemma truncates_pseudo_loop : forall faults k it,
  truncates (pseudo_loop faults it k) (pseudo_loop no_faults it k).
Proof.
  intros faults. induction k as [|k IH]; intros it; cbn [pseudo_loop].
  - apply truncates_refl.
  - repeat (apply truncates_seqp; [apply truncates_act | intros _]). apply IH.
Qed.

(** The body of a with-statement is truncated, closing happens nevertheless. *)
Lemma with_io_faults : forall {A} faults (body body' : prog A),
  truncates body body' ->
  forall n, let '(tr, _, r) := with_io faults body n in
            let '(tq, _, rq) := with_io no_faults body' n in
  (tr = [ROpen] /\ exists e, r = Err e) \/
  (exists b bq, tr = ROpen :: b ++ [RClose] /\ tq = ROpen :: bq ++ [RClose] /\
     ((b = bq /\ r = rq) \/ (initial_part b bq /\ exists e, r = Err e))).
Proof.
  intros A faults body body' Hb n. unfold with_io, seqp. rewrite act_nf. unfold act.
  destruct (faults n) as [x|].
  - destruct (body' (S n)) as [[tq nq] rq]. left. split; [reflexivity | eexists; reflexivity].
  - specialize (Hb (S n)). destruct (body (S n)) as [[tr n'] r]. destruct (body' (S n)) as [[tq nq] rq].
    right. exists tr, tq. split; [reflexivity|]. split; [reflexivity|].
    destruct Hb as [[-> [_ ->]] | [Hpre [_ [e ->]]]]; [left; auto | right; split; [exact Hpre | eexists; reflexivity]].
Qed.

(** Generic statement for a routine [assemble?; with io: body]. *)
Lemma routine_faults : forall {A} faults (reassemble : bool) (body body' : prog A),
  truncates body body' ->
  let run := seqp (if reassemble then act faults RAssemble else ret tt) (fun _ => with_io faults body) in
  let ideal := seqp (if reassemble then act no_faults RAssemble else ret tt) (fun _ => with_io no_faults body') in
  let pre := if reassemble then [RAssemble] else [] in
  (run_trace run = pre /\ exists e, run_outcome run = Err e) \/
  (run_trace run = pre ++ [ROpen] /\ exists e, run_outcome run = Err e) \/
  (exists b bq, run_trace run = pre ++ ROpen :: b ++ [RClose] /\
     run_trace ideal = pre ++ ROpen :: bq ++ [RClose] /\
     ((b = bq /\ run_outcome run = run_outcome ideal) \/
      (initial_part b bq /\ exists e, run_outcome run = Err e))).
Proof.
  intros A faults reassemble body body' Hb. cbv zeta.
  pose proof (fun n => with_io_faults faults body body' Hb n) as W.
  unfold run_trace, run_outcome, seqp. destruct reassemble.
  - rewrite act_nf.
    destruct (faults 0%nat) as [x|] eqn:F0.
    + left. cbn. unfold act. rewrite F0. split; [reflexivity | eexists; reflexivity].
    + specialize (W 1%nat). unfold act. rewrite F0.
      destruct (with_io faults body 1%nat) as [[tr n'] r]. destruct (with_io no_faults body' 1%nat) as [[tq nq] rq].
      cbn [fst snd app]. destruct W as [[-> He] | [b [bq [-> [-> H]]]]]; [right; left | right; right].
      * split; [reflexivity | exact He].
      * exists b, bq. auto.
  - specialize (W 0%nat). unfold ret.
    destruct (with_io faults body 0%nat) as [[tr n'] r]. destruct (with_io no_faults body' 0%nat) as [[tq nq] rq].
    cbn [fst snd app]. destruct W as [[-> He] | [b [bq [-> [-> H]]]]]; [right; left | right; right].
    + split; [reflexivity | exact He].
    + exists b, bq. auto.
Qed.

Lemma transient_faults : forall faults reassemble t0 ls,
  let run := transient_run faults reassemble t0 ls in
  let ideal := transient_run no_faults reassemble t0 ls in
  let pre := if reassemble then [RAssemble] else [] in
  (run_trace run = pre /\ exists e, run_outcome run = Err e) \/
  (run_trace run = pre ++ [ROpen] /\ exists e, run_outcome run = Err e) \/
  (exists b bq, run_trace run = pre ++ ROpen :: b ++ [RClose] /\
     run_trace ideal = pre ++ ROpen :: bq ++ [RClose] /\
     ((b = bq /\ run_outcome run = run_outcome ideal) \/
      (initial_part b bq /\ exists e, run_outcome run = Err e))).
Proof.
  intros faults reassemble t0 ls. unfold transient_run. apply routine_faults.
  apply truncates_seqp; [apply truncates_act | intros _].
  destruct ls as [ls|e]; [|apply truncates_refl].
  apply truncates_seqp; [apply truncates_transient_loop|].
  intros [[t it]|]; [apply truncates_act | apply truncates_refl].
Qed.

Lemma pseudo_faults : forall faults reassemble t k,
  let run := pseudo_run faults reassemble t k in
  let ideal := pseudo_run no_faults reassemble t k in
  let pre := if reassemble then [RAssemble] else [] in
  (run_trace run = pre /\ exists e, run_outcome run = Err e) \/
  (run_trace run = pre ++ [ROpen] /\ exists e, run_outcome run = Err e) \/
  (exists b bq, run_trace run = pre ++ ROpen :: b ++ [RClose] /\
     run_trace ideal = pre ++ ROpen :: bq ++ [RClose] /\
     ((b = bq /\ run_outcome run = run_outcome ideal) \/
      (initial_part b bq /\ exists e, run_outcome run = Err e))).
Proof.
  intros faults reassemble t k. unfold pseudo_run. apply routine_faults.
  repeat first [apply truncates_act | apply truncates_pseudo_loop | apply truncates_seqp; [| intros _]].
Qed.

(** The consumer of a complete run sees exactly the labels. *)
Lemma yields_app : forall a b, yields (a ++ b) = yields a ++ yields b.
Proof. intros a b. unfold yields. apply flat_map_app. Qed.

Lemma transient_yields : forall reassemble t0 ls tl,
  yields (transient_expected reassemble t0 ls tl) = map Some ls.
Proof.
  intros reassemble t0 ls tl. unfold transient_expected. rewrite !yields_app.
  assert (E : yields (if reassemble then [RAssemble] else []) = []) by (destruct reassemble; reflexivity).
  rewrite E. cbn [yields flat_map app].
  change (yields [RPostSave (Some tl) (length ls - 1); RClose]) with (@nil (option Q)). rewrite app_nil_r.
  generalize 0%nat. induction ls as [|t ls IH]; intros k; [reflexivity|].
  cbn [length seq combine map concat]. rewrite yields_app. rewrite IH. reflexivity.
Qed.
