(** Proofs about the stored time levels. *)
From Coq Require Import String List Bool Arith Lia.
From Verif Require Import Base Dict M_Scheme S_Scheme.
Import ListNotations.
Local Open Scope string_scope.

Section Levels.
Context {V : Type}.
Implicit Types (vals : list V).

(** ** association lists built by [combine] *)

Lemma dget_combine : forall (keys : list string) vals p k,
  NoDup keys -> length vals = length keys -> nth_error keys p = Some k ->
  dget (combine keys vals) k = nth_error vals p.
Proof.
  induction keys as [|k0 keys IH]; intros vals p k N L H; [destruct p; discriminate|].
  destruct vals as [|v vals]; [discriminate|]. inversion N; subst.
  destruct p as [|p]; cbn in *.
  - inversion H; subst. rewrite String.eqb_refl. reflexivity.
  - destruct (String.eqb k k0) eqn:E.
    + apply String.eqb_eq in E. subst. exfalso. apply H2. eapply nth_error_In; eassumption.
    + apply IH; [assumption | lia | assumption].
Qed.

(** Replace the value at position [p]. *)
Fixpoint set_nth (p : nat) (v : V) (vals : list V) : list V :=
  match vals, p with
  | [], _ => []
  | _ :: r, O => v :: r
  | x :: r, S p => x :: set_nth p v r
  end.

Lemma set_nth_length : forall vals p v, length (set_nth p v vals) = length vals.
Proof. induction vals; intros [|p] v; cbn; auto. Qed.

Lemma nth_error_set_nth : forall vals p q v, (p < length vals)%nat ->
  nth_error (set_nth p v vals) q = if Nat.eqb q p then Some v else nth_error vals q.
Proof.
  induction vals as [|x vals IH]; intros p q v L; cbn in *; [lia|].
  destruct p as [|p]; destruct q as [|q]; cbn; auto.
  apply IH. lia.
Qed.

Lemma dset_combine : forall (keys : list string) vals p k v,
  NoDup keys -> length vals = length keys -> nth_error keys p = Some k ->
  dset (combine keys vals) k v = combine keys (set_nth p v vals).
Proof.
  induction keys as [|k0 keys IH]; intros vals p k v N L H; [destruct p; discriminate|].
  destruct vals as [|x vals]; [discriminate|]. inversion N; subst.
  destruct p as [|p]; cbn in *.
  - inversion H; subst. rewrite String.eqb_refl. reflexivity.
  - destruct (String.eqb k k0) eqn:E.
    + apply String.eqb_eq in E. subst. exfalso. apply H2. eapply nth_error_In; eassumption.
    + f_equal. apply IH; [assumption | lia | assumption].
Qed.

Lemma map_fst_combine : forall {A B} (a : list A) (b : list B),
  length b = length a -> map fst (combine a b) = a.
Proof.
  induction a as [|x a IH]; intros [|y b] L; cbn in *; try reflexivity; try discriminate.
  f_equal. apply IH. lia.
Qed.

Lemma removelast_length : forall {A} (l : list A), length (removelast l) = (length l - 1)%nat.
Proof.
  induction l as [|x [|y l] IH]; [reflexivity | reflexivity |].
  change (removelast (x :: y :: l)) with (x :: removelast (y :: l)). cbn in *. lia.
Qed.

Lemma nth_error_removelast : forall {A} (l : list A) i,
  (i < length l - 1)%nat -> nth_error (removelast l) i = nth_error l i.
Proof.
  induction l as [|x [|y l] IH]; intros i H; cbn in H; [lia | lia |].
  change (removelast (x :: y :: l)) with (x :: removelast (y :: l)).
  destruct i; cbn; [reflexivity|]. apply IH. cbn. lia.
Qed.

Lemma nth_error_tl : forall {A} (l : list A) i, nth_error (tl l) i = nth_error l (S i).
Proof. intros A [|x l] i; cbn; [destruct i; reflexivity | reflexivity]. Qed.

(** ** copying levels *)

Lemma copy_level_combine : forall keys vals p q old new v,
  NoDup keys -> length vals = length keys ->
  nth_error keys p = Some old -> nth_error keys q = Some new -> nth_error vals q = Some v ->
  copy_level (combine keys vals) old new = Ok (combine keys (set_nth p v vals)).
Proof.
  intros keys vals p q old new v N L Ho Hn Hv. unfold copy_level.
  rewrite (dget_combine keys vals q new N L Hn), Hv.
  rewrite (dget_combine keys vals p old N L Ho).
  assert (Hp : (p < length vals)%nat) by (rewrite L; apply nth_error_Some; rewrite Ho; discriminate).
  destruct (nth_error vals p) eqn:E; [|apply nth_error_None in E; lia].
  rewrite (dset_combine keys vals p old v N L Ho). reflexivity.
Qed.

(** Values after the first [i] copies of an update. *)
Lemma update_prefix : forall keys vals i,
  NoDup keys -> length vals = length keys -> (i <= length keys - 1)%nat ->
  exists vals', length vals' = length keys /\
    fold_left (fun r on => let* g := r in copy_level g (fst on) (snd on))
      (firstn i (combine (removelast keys) (tl keys))) (Ok (combine keys vals))
      = Ok (combine keys vals') /\
    forall p, nth_error vals' p = if Nat.ltb p i then nth_error vals (S p) else nth_error vals p.
Proof.
  intros keys vals i N L. induction i as [|i IH]; intros Hi.
  - exists vals. split; [exact L|]. split; [reflexivity|]. intros p. reflexivity.
  - destruct IH as [vals' [L' [E Hv]]]; [lia|].
    assert (Hlen : (i < length (combine (removelast keys) (tl keys)))%nat).
    { rewrite combine_length, removelast_length. destruct keys; cbn in *; lia. }
    assert (Ho : exists old, nth_error keys i = Some old).
    { destruct (nth_error keys i) eqn:X; [eexists; reflexivity | apply nth_error_None in X; lia]. }
    assert (Hn : exists new, nth_error keys (S i) = Some new).
    { destruct (nth_error keys (S i)) eqn:X; [eexists; reflexivity | apply nth_error_None in X; lia]. }
    assert (Hx : exists v, nth_error vals (S i) = Some v).
    { destruct (nth_error vals (S i)) eqn:X; [eexists; reflexivity | apply nth_error_None in X; lia]. }
    destruct Ho as [old Ho], Hn as [new Hn], Hx as [v Hx].
    assert (Hc : nth_error (combine (removelast keys) (tl keys)) i = Some (old, new)).
    { assert (G : forall (a b : list string) i x y, nth_error a i = Some x -> nth_error b i = Some y ->
                 nth_error (combine a b) i = Some (x, y)).
      { clear. induction a; intros [|b0 b] [|i] x y Ha Hb; cbn in *; try discriminate.
        - inversion Ha; inversion Hb; reflexivity.
        - apply IHa; assumption. }
      apply G; [rewrite nth_error_removelast by lia; exact Ho | rewrite nth_error_tl; exact Hn]. }
    assert (Hf : firstn (S i) (combine (removelast keys) (tl keys)) =
                 (firstn i (combine (removelast keys) (tl keys)) ++ [(old, new)])%list).
    { clear - Hc. revert i Hc. generalize (combine (removelast keys) (tl keys)).
      induction l as [|x l IH]; intros [|i] H; cbn in *; try discriminate.
      - inversion H; reflexivity.
      - f_equal. apply IH. exact H. }
    assert (Hv' : nth_error vals' (S i) = Some v).
    { rewrite Hv. assert (X : Nat.ltb (S i) i = false) by (apply Nat.ltb_ge; lia). rewrite X. exact Hx. }
    exists (set_nth i v vals'). split; [rewrite set_nth_length; exact L'|]. split.
    + rewrite Hf, fold_left_app, E. cbn [fold_left fst snd bind].
      apply (copy_level_combine keys vals' i (S i) old new v N L' Ho Hn Hv').
    + intros p. rewrite nth_error_set_nth by lia.
      destruct (Nat.eqb p i) eqn:X.
      * apply Nat.eqb_eq in X. subst p.
        assert (Y : Nat.ltb i (S i) = true) by (apply Nat.ltb_lt; lia). rewrite Y. symmetry; exact Hx.
      * apply Nat.eqb_neq in X. rewrite Hv.
        destruct (Nat.ltb p i) eqn:Y1; destruct (Nat.ltb p (S i)) eqn:Y2; try reflexivity;
          [apply Nat.ltb_lt in Y1; apply Nat.ltb_ge in Y2; lia | apply Nat.ltb_ge in Y1; apply Nat.ltb_lt in Y2; lia].
Qed.

Lemma update_levels_combine : forall keys vals,
  NoDup keys -> length vals = length keys ->
  exists vals', length vals' = length keys /\
    update_levels keys (combine keys vals) = Ok (combine keys vals') /\
    forall p, nth_error vals' p = if Nat.ltb p (length keys - 1) then nth_error vals (S p) else nth_error vals p.
Proof.
  intros keys vals N L.
  destruct (update_prefix keys vals (length keys - 1) N L ltac:(lia)) as [vals' [L' [E H]]].
  exists vals'. split; [exact L'|]. split; [|exact H].
  unfold update_levels. rewrite firstn_all2 in E; [exact E|].
  rewrite combine_length, removelast_length. destruct keys; cbn; lia.
Qed.

(** ** initial conditions *)

Lemma set_initial_prefix : forall keys vals i v,
  NoDup keys -> length vals = length keys -> (i <= length keys - 1)%nat ->
  nth_error keys (length keys - 1) = Some "n+1" ->
  nth_error vals (length keys - 1) = Some v ->
  exists vals', length vals' = length keys /\
    fold_left (fun r old => let* g := r in copy_level g old "n+1")
      (firstn i (removelast keys)) (Ok (combine keys vals)) = Ok (combine keys vals') /\
    forall p, nth_error vals' p = if Nat.ltb p i then Some v else nth_error vals p.
Proof.
  intros keys vals i v N L Hi Hlast Hval. revert Hi. induction i as [|i IH]; intros Hi.
  - exists vals. split; [exact L|]. split; [reflexivity|]. intros p. reflexivity.
  - destruct IH as [vals' [L' [E Hv]]]; [lia|].
    assert (Ho : exists old, nth_error keys i = Some old).
    { destruct (nth_error keys i) eqn:X; [eexists; reflexivity | apply nth_error_None in X; lia]. }
    destruct Ho as [old Ho].
    assert (Hf : firstn (S i) (removelast keys) = (firstn i (removelast keys) ++ [old])%list).
    { assert (Hc : nth_error (removelast keys) i = Some old) by (rewrite nth_error_removelast by lia; exact Ho).
      clear - Hc. revert i Hc. generalize (removelast keys).
      induction l as [|x l IH]; intros [|i] H; cbn in *; try discriminate.
      - inversion H; reflexivity.
      - f_equal. apply IH. exact H. }
    assert (Hv' : nth_error vals' (length keys - 1) = Some v).
    { rewrite Hv. assert (X : Nat.ltb (length keys - 1) i = false) by (apply Nat.ltb_ge; lia). rewrite X. exact Hval. }
    exists (set_nth i v vals'). split; [rewrite set_nth_length; exact L'|]. split.
    + rewrite Hf, fold_left_app, E. cbn [fold_left bind].
      apply (copy_level_combine keys vals' i (length keys - 1) old "n+1" v N L' Ho Hlast Hv').
    + intros p. rewrite nth_error_set_nth by lia.
      destruct (Nat.eqb p i) eqn:X.
      * apply Nat.eqb_eq in X. subst p.
        assert (Y : Nat.ltb i (S i) = true) by (apply Nat.ltb_lt; lia). rewrite Y. reflexivity.
      * apply Nat.eqb_neq in X. rewrite Hv.
        destruct (Nat.ltb p i) eqn:Y1; destruct (Nat.ltb p (S i)) eqn:Y2; try reflexivity;
          [apply Nat.ltb_lt in Y1; apply Nat.ltb_ge in Y2; lia | apply Nat.ltb_ge in Y1; apply Nat.ltb_lt in Y2; lia].
Qed.

Lemma nth_error_ext : forall {A} (a b : list A), (forall i, nth_error a i = nth_error b i) -> a = b.
Proof.
  induction a as [|x a IH]; intros [|y b] H; [reflexivity | specialize (H 0%nat); discriminate | specialize (H 0%nat); discriminate |].
  f_equal; [specialize (H 0%nat); cbn in H; congruence|].
  apply IH. intros i. exact (H (S i)).
Qed.

Lemma nth_error_repeat : forall {A} (x : A) n i, nth_error (repeat x n) i = if Nat.ltb i n then Some x else None.
Proof.
  intros A x. induction n; intros [|i]; cbn; try reflexivity. rewrite IHn. reflexivity.
Qed.

Lemma start_levels : forall keys (zero v : V),
  NoDup keys -> keys <> [] -> nth_error keys (length keys - 1) = Some "n+1" ->
  set_initial_levels (init_levels keys zero v) = Ok (combine keys (repeat v (length keys))).
Proof.
  intros keys zero v N Hne Hlast.
  set (vals := (map (fun _ => zero) (removelast keys) ++ [v])%list).
  assert (L : length vals = length keys).
  { unfold vals. rewrite app_length, map_length, removelast_length. destruct keys; [congruence | cbn; lia]. }
  unfold init_levels. fold vals.
  rewrite dict_of_nodup by (rewrite map_fst_combine by exact L; exact N).
  unfold set_initial_levels. unfold dkeys. rewrite map_fst_combine by exact L.
  assert (Hval : nth_error vals (length keys - 1) = Some v).
  { unfold vals. rewrite nth_error_app2 by (rewrite map_length, removelast_length; lia).
    rewrite map_length, removelast_length, Nat.sub_diag. reflexivity. }
  destruct (set_initial_prefix keys vals (length keys - 1) v N L ltac:(lia) Hlast Hval) as [vals' [L' [E H]]].
  rewrite firstn_all2 in E by (rewrite removelast_length; lia).
  etransitivity; [exact E|]. f_equal. f_equal. apply nth_error_ext. intros i.
  rewrite H, nth_error_repeat.
  destruct (Nat.ltb i (length keys - 1)) eqn:X; destruct (Nat.ltb i (length keys)) eqn:Y; try reflexivity.
  - apply Nat.ltb_lt in X. apply Nat.ltb_ge in Y. lia.
  - apply Nat.ltb_ge in X. apply Nat.ltb_lt in Y. replace i with (length keys - 1)%nat by lia. exact Hval.
  - apply Nat.ltb_ge in Y. apply nth_error_None. lia.
Qed.

(** ** runs *)

(** Every variable has all levels, with the values [f var p]. *)
Definition holds (keys : list string) (vars : list string) (f : string -> nat -> V) (gfus : dict (dict V)) : Prop :=
  dkeys gfus = vars /\
  forall var g, In (var, g) gfus ->
    exists vals, length vals = length keys /\ g = combine keys vals /\
      forall p, (p < length keys)%nat -> nth_error vals p = Some (f var p).

Lemma for_variables_holds : forall (op : string -> dict V -> result (dict V)) keys vars f f' gfus,
  (forall var vals, length vals = length keys ->
     (forall p, (p < length keys)%nat -> nth_error vals p = Some (f var p)) ->
     exists vals', length vals' = length keys /\ op var (combine keys vals) = Ok (combine keys vals') /\
       (forall p, (p < length keys)%nat -> nth_error vals' p = Some (f' var p))) ->
  holds keys vars f gfus ->
  exists gfus', for_variables op gfus = Ok gfus' /\ holds keys vars f' gfus'.
Proof.
  intros op keys vars f f' gfus Hop. revert vars.
  induction gfus as [|[v g] gfus IH]; intros vars [Hk Hg].
  - exists []. split; [reflexivity|]. split; [exact Hk | intros ? ? []].
  - cbn in Hk. destruct vars as [|v0 vars]; [discriminate|]. inversion Hk; subst.
    destruct (Hg v0 g (or_introl eq_refl)) as [vals [L [-> Hv]]].
    destruct (Hop v0 vals L Hv) as [vals' [L' [E Hv']]].
    destruct (IH (dkeys gfus)) as [gfus' [E' [Hk' Hh']]].
    { split; [reflexivity|]. intros var g' Hin. apply Hg. right; exact Hin. }
    exists ((v0, combine keys vals') :: gfus'). cbn. rewrite E. cbn. rewrite E'. cbn. split; [reflexivity|].
    split; [cbn; f_equal; exact Hk'|].
    intros var g' [C|C]; [inversion C; subst; exists vals'; auto | apply Hh'; exact C].
Qed.

Lemma solver_writes_holds : forall keys vars f gfus sol,
  NoDup keys -> keys <> [] -> nth_error keys (length keys - 1) = Some "n+1" ->
  holds keys vars f gfus ->
  holds keys vars (fun var p => if Nat.eqb p (length keys - 1) then sol var else f var p)
        (solver_writes sol gfus).
Proof.
  intros keys vars f gfus sol N Hne Hlast [Hk Hg]. split.
  - unfold solver_writes, dkeys. rewrite map_map. cbn. exact Hk.
  - intros var g Hin. unfold solver_writes in Hin. apply in_map_iff in Hin.
    destruct Hin as [[v0 g0] [E Hin]]. cbn in E. inversion E; subst.
    destruct (Hg _ _ Hin) as [vals [L [-> Hv]]].
    assert (0 < length keys)%nat by (destruct keys; [congruence | cbn; lia]).
    exists (set_nth (length keys - 1) (sol var) vals). split; [rewrite set_nth_length; exact L|].
    split; [apply dset_combine; assumption|].
    intros p Hp. rewrite nth_error_set_nth by lia. destruct (Nat.eqb p (length keys - 1)); [reflexivity | apply Hv; exact Hp].
Qed.

Lemma scheme_update_holds : forall keys vars f gfus,
  NoDup keys -> holds keys vars f gfus ->
  exists gfus', scheme_update keys gfus = Ok gfus' /\
    holds keys vars (fun var p => if Nat.ltb p (length keys - 1) then f var (S p) else f var p) gfus'.
Proof.
  intros keys vars f gfus N H. unfold scheme_update.
  apply (for_variables_holds _ keys vars f); [|exact H].
  intros var vals L Hv. destruct (update_levels_combine keys vals N L) as [vals' [L' [E Hv']]].
  exists vals'. split; [exact L'|]. split; [exact E|]. intros p Hp. rewrite Hv'.
  destruct (Nat.ltb p (length keys - 1)) eqn:X; apply Hv; [apply Nat.ltb_lt in X; lia | exact Hp].
Qed.

Lemma scheme_start_holds : forall keys (zero : V) (cfg : dict V),
  NoDup keys -> keys <> [] -> nth_error keys (length keys - 1) = Some "n+1" ->
  NoDup (dkeys cfg) ->
  exists gfus, scheme_start keys zero cfg = Ok gfus /\
    dkeys gfus = dkeys cfg /\
    forall init, (forall var v, dget cfg var = Some v -> init var = v) ->
      holds keys (dkeys cfg) (fun var _ => init var) gfus.
Proof.
  intros keys zero cfg N Hne Hlast Nv.
  unfold scheme_start, scheme_set_initial, scheme_initialize.
  exists (map (fun vg => (fst vg, combine keys (repeat (snd vg) (length keys)))) cfg).
  split; [|split].
  - clear Nv. induction cfg as [|[v x] cfg IH]; [reflexivity|].
    cbn [map for_variables fst snd]. rewrite start_levels by assumption. cbn [bind].
    rewrite IH. reflexivity.
  - unfold dkeys. rewrite map_map. reflexivity.
  - intros init Hinit. split; [unfold dkeys; rewrite map_map; reflexivity|].
    intros var g Hin. apply in_map_iff in Hin. destruct Hin as [[v x] [E Hin]]. cbn in E. inversion E; subst.
    exists (repeat x (length keys)). split; [apply repeat_length|]. split; [reflexivity|].
    intros p Hp. rewrite nth_error_repeat. apply Nat.ltb_lt in Hp. rewrite Hp. f_equal.
    symmetry. apply Hinit. apply NoDup_In_dget; assumption.
Qed.

Lemma holds_ext : forall keys vars f f' gfus,
  (forall var p, (p < length keys)%nat -> f var p = f' var p) ->
  holds keys vars f gfus -> holds keys vars f' gfus.
Proof.
  intros keys vars f f' gfus E [Hk Hg]. split; [exact Hk|].
  intros var g Hin. destruct (Hg _ _ Hin) as [vals [L [-> Hv]]]. exists vals.
  split; [exact L|]. split; [reflexivity|]. intros p Hp. rewrite <- E by exact Hp. apply Hv; exact Hp.
Qed.

Lemma solution_snoc : forall (init : V) l x k,
  solution init (l ++ [x]) k = if Nat.leb k (length l) then solution init l k else if Nat.eqb k (S (length l)) then x else init.
Proof.
  intros init l x [|k]; cbn [solution]; [reflexivity|].
  destruct (Nat.leb (S k) (length l)) eqn:E.
  - apply Nat.leb_le in E. apply app_nth1. lia.
  - apply Nat.leb_gt in E. destruct (Nat.eqb (S k) (S (length l))) eqn:E2.
    + apply Nat.eqb_eq in E2. rewrite app_nth2 by lia. replace (k - length l)%nat with 0%nat by lia. reflexivity.
    + apply Nat.eqb_neq in E2. apply nth_overflow. rewrite app_length. cbn. lia.
Qed.

Lemma solution_le : forall (init : V) l x k,
  (k <= length l)%nat -> solution init (l ++ [x]) k = solution init l k.
Proof.
  intros init l x k H. rewrite solution_snoc. apply Nat.leb_le in H. rewrite H. reflexivity.
Qed.

Lemma solution_new : forall (init : V) l x, solution init (l ++ [x]) (S (length l)) = x.
Proof.
  intros init l x. rewrite solution_snoc.
  assert (E : Nat.leb (S (length l)) (length l) = false) by (apply Nat.leb_gt; lia).
  rewrite E, Nat.eqb_refl. reflexivity.
Qed.

(** Transient run: level [p] (of [m+2] levels) holds solution [k-(m-p)]. *)
Lemma transient_holds : forall keys m (zero : V) (cfg : dict V) init sols,
  NoDup keys -> length keys = S (S m) -> nth_error keys (S m) = Some "n+1" ->
  NoDup (dkeys cfg) -> (forall var v, dget cfg var = Some v -> init var = v) ->
  exists g0 gfus, scheme_start keys zero cfg = Ok g0 /\
    iterate_steps (transient_step keys) g0 sols = Ok gfus /\
    holds keys (dkeys cfg)
      (fun var p => solution (init var) (map (fun s => s var) sols) (length sols - (m - p))) gfus.
Proof.
  intros keys m zero cfg init sols N L Hlast Nv Hinit.
  assert (Hne : keys <> []) by (destruct keys; [discriminate | discriminate]).
  assert (HL : (length keys - 1 = S m)%nat) by lia.
  assert (Hlast' : nth_error keys (length keys - 1) = Some "n+1") by (rewrite HL; exact Hlast).
  destruct (scheme_start_holds keys zero cfg N Hne Hlast' Nv) as [g0 [E0 [_ H0]]].
  specialize (H0 init Hinit). exists g0.
  induction sols as [|sol sols IH] using rev_ind.
  - exists g0. split; [exact E0|]. split; [reflexivity|]. cbn. exact H0.
  - destruct IH as [gfus [_ [E H]]].
    unfold iterate_steps in *. rewrite fold_left_app, E. cbn [fold_left bind]. unfold transient_step.
    pose proof (solver_writes_holds keys _ _ gfus sol N Hne Hlast' H) as Hw.
    destruct (scheme_update_holds keys _ _ _ N Hw) as [gfus' [E' H']].
    exists gfus'. split; [exact E0|]. split; [exact E'|].
    eapply holds_ext; [|exact H'].
    intros var p Hp. cbn beta. rewrite map_app. cbn [map]. rewrite app_length. cbn [length].
    rewrite HL.
    set (l := map (fun s : string -> V => s var) sols). assert (Hl : length l = length sols) by apply map_length.
    destruct (Nat.ltb p (S m)) eqn:X.
    + apply Nat.ltb_lt in X. destruct (Nat.eqb (S p) (S m)) eqn:Y.
      * apply Nat.eqb_eq in Y. replace (length sols + 1 - (m - p))%nat with (S (length l)) by lia.
        rewrite solution_new. reflexivity.
      * apply Nat.eqb_neq in Y. rewrite solution_le by lia. f_equal. lia.
    + apply Nat.ltb_ge in X. assert (p = S m) by lia. subst p. rewrite Nat.eqb_refl.
      replace (length sols + 1 - (m - S m))%nat with (S (length l)) by lia. rewrite solution_new. reflexivity.
Qed.

(** Pseudo run: after [k] iterations level 'n+1' holds iterate [k] and level
    [p <= m] the iterate [k-1-(m-p)]. *)
Lemma pseudo_holds : forall keys m (zero : V) (cfg : dict V) init sols,
  NoDup keys -> length keys = S (S m) -> nth_error keys (S m) = Some "n+1" ->
  NoDup (dkeys cfg) -> (forall var v, dget cfg var = Some v -> init var = v) ->
  exists g0 gfus, scheme_start keys zero cfg = Ok g0 /\
    iterate_steps (pseudo_step keys) g0 sols = Ok gfus /\
    holds keys (dkeys cfg)
      (fun var p => solution (init var) (map (fun s => s var) sols) (length sols - (S m - p))) gfus.
Proof.
  intros keys m zero cfg init sols N L Hlast Nv Hinit.
  assert (Hne : keys <> []) by (destruct keys; [discriminate | discriminate]).
  assert (HL : (length keys - 1 = S m)%nat) by lia.
  assert (Hlast' : nth_error keys (length keys - 1) = Some "n+1") by (rewrite HL; exact Hlast).
  destruct (scheme_start_holds keys zero cfg N Hne Hlast' Nv) as [g0 [E0 [_ H0]]].
  specialize (H0 init Hinit). exists g0.
  induction sols as [|sol sols IH] using rev_ind.
  - exists g0. split; [exact E0|]. split; [reflexivity|]. cbn. exact H0.
  - destruct IH as [gfus [_ [E H]]].
    unfold iterate_steps in *. rewrite fold_left_app, E. cbn [fold_left bind]. unfold pseudo_step.
    destruct (scheme_update_holds keys _ _ _ N H) as [gfus' [E' H']]. rewrite E'. cbn [bind].
    pose proof (solver_writes_holds keys _ _ gfus' sol N Hne Hlast' H') as Hw.
    eexists. split; [exact E0|]. split; [reflexivity|].
    eapply holds_ext; [|exact Hw].
    intros var p Hp. cbn beta. rewrite map_app. cbn [map]. rewrite app_length. cbn [length].
    rewrite HL.
    set (l := map (fun s : string -> V => s var) sols). assert (Hl : length l = length sols) by apply map_length.
    destruct (Nat.eqb p (S m)) eqn:Y.
    + apply Nat.eqb_eq in Y. subst p. replace (length sols + 1 - (S m - S m))%nat with (S (length l)) by lia.
      rewrite solution_new. reflexivity.
    + apply Nat.eqb_neq in Y. destruct (Nat.ltb p (S m)) eqn:X; [|apply Nat.ltb_ge in X; lia].
      apply Nat.ltb_lt in X. rewrite solution_le by lia. f_equal. lia.
Qed.

(** What a level of a variable contains. *)
Lemma holds_read : forall keys vars f gfus var p level,
  NoDup keys -> holds keys vars f gfus -> In var vars -> nth_error keys p = Some level ->
  exists g, dget gfus var = Some g /\ dget g level = Some (f var p).
Proof.
  intros keys vars f gfus var p level N [Hk Hg] Hin Hp.
  rewrite <- Hk in Hin. destruct (In_keys_dget gfus var Hin) as [g Hd].
  exists g. split; [exact Hd|].
  destruct (Hg var g (dget_Some_In _ _ _ Hd)) as [vals [L [-> Hv]]].
  rewrite (dget_combine keys vals p level N L Hp). apply Hv.
  apply nth_error_Some. rewrite Hp. discriminate.
Qed.

End Levels.


(** The statements used for C04. *)
Lemma transient_levels : forall {V} levels m (zero : V) (start : dict V) sols,
  NoDup levels -> length levels = S (S m) -> nth_error levels (S m) = Some "n+1" ->
  NoDup (dkeys start) ->
  exists g0 g, scheme_start levels zero start = Ok g0 /\
    iterate_steps (transient_step levels) g0 sols = Ok g /\
    forall var u0 p level, dget start var = Some u0 -> nth_error levels p = Some level ->
      exists gv, dget g var = Some gv /\
        dget gv level = Some (solution u0 (map (fun s => s var) sols) (length sols - (m - p))).
Proof.
  intros V levels m zero start sols N L Hl Nv.
    set (init := fun var => match dget start var with Some v => v | None => zero end).
    assert (Hinit : forall var v, dget start var = Some v -> init var = v).
    { intros var v H. unfold init. rewrite H. reflexivity. }
    destruct (transient_holds levels m zero start init sols N L Hl Nv Hinit) as [g0 [g [E0 [E H]]]].
    exists g0, g. split; [exact E0|]. split; [exact E|].
    intros var u0 p level Hu Hp. rewrite <- (Hinit _ _ Hu).
    exact (holds_read levels (dkeys start) _ g var p level N H (dget_In_keys _ _ _ Hu) Hp).
Qed.

Lemma pseudo_levels : forall {V} levels m (zero : V) (start : dict V) sols,
  NoDup levels -> length levels = S (S m) -> nth_error levels (S m) = Some "n+1" ->
  NoDup (dkeys start) ->
  exists g0 g, scheme_start levels zero start = Ok g0 /\
    iterate_steps (pseudo_step levels) g0 sols = Ok g /\
    forall var u0 p level, dget start var = Some u0 -> nth_error levels p = Some level ->
      exists gv, dget g var = Some gv /\
        dget gv level = Some (solution u0 (map (fun s => s var) sols) (length sols - (S m - p))).
Proof.
  intros V levels m zero start sols N L Hl Nv.
  set (init := fun var => match dget start var with Some v => v | None => zero end).
  assert (Hinit : forall var v, dget start var = Some v -> init var = v).
  { intros var v H. unfold init. rewrite H. reflexivity. }
  destruct (pseudo_holds levels m zero start init sols N L Hl Nv Hinit) as [g0 [g [E0 [E H]]]].
  exists g0, g. split; [exact E0|]. split; [exact E|].
  intros var u0 p level Hu Hp. rewrite <- (Hinit _ _ Hu).
  exact (holds_read levels (dkeys start) _ g var p level N H (dget_In_keys _ _ _ Hu) Hp).
Qed.

Lemma NoDup_ie : NoDup ie_levels.
Proof. unfold ie_levels. repeat constructor; cbn; intuition discriminate. Qed.
Lemma NoDup_bdf2 : NoDup bdf2_levels.
Proof. unfold bdf2_levels. repeat constructor; cbn; intuition discriminate. Qed.

Lemma ie_transient : forall {V} (zero : V) (start : dict V) sols,
  NoDup (dkeys start) ->
  exists g0 g, scheme_start ie_levels zero start = Ok g0 /\
    iterate_steps (transient_step ie_levels) g0 sols = Ok g /\
    forall var u0, dget start var = Some u0 ->
      exists gv, dget g var = Some gv /\
        dget gv "n" = Some (solution u0 (map (fun s => s var) sols) (length sols)) /\
        dget gv "n+1" = Some (solution u0 (map (fun s => s var) sols) (length sols)).
Proof.
  intros V zero start sols Nv.
  destruct (transient_levels ie_levels 0 zero start sols NoDup_ie eq_refl eq_refl Nv) as [g0 [g [E0 [E H]]]].
  exists g0, g. split; [exact E0|]. split; [exact E|]. intros var u0 Hu.
  destruct (H var u0 0%nat "n" Hu eq_refl) as [gv [Hg H0]].
  destruct (H var u0 1%nat "n+1" Hu eq_refl) as [gv' [Hg' H1]].
  rewrite Hg in Hg'. inversion Hg'; subst gv'. exists gv. split; [exact Hg|].
  rewrite Nat.sub_0_r in *. split; assumption.
Qed.

Lemma bdf2_transient : forall {V} (zero : V) (start : dict V) sols,
  NoDup (dkeys start) ->
  exists g0 g, scheme_start bdf2_levels zero start = Ok g0 /\
    iterate_steps (transient_step bdf2_levels) g0 sols = Ok g /\
    forall var u0, dget start var = Some u0 ->
      exists gv, dget g var = Some gv /\
        dget gv "n-1" = Some (solution u0 (map (fun s => s var) sols) (length sols - 1)) /\
        dget gv "n" = Some (solution u0 (map (fun s => s var) sols) (length sols)) /\
        dget gv "n+1" = Some (solution u0 (map (fun s => s var) sols) (length sols)).
Proof.
  intros V zero start sols Nv.
  destruct (transient_levels bdf2_levels 1 zero start sols NoDup_bdf2 eq_refl eq_refl Nv) as [g0 [g [E0 [E H]]]].
  exists g0, g. split; [exact E0|]. split; [exact E|]. intros var u0 Hu.
  destruct (H var u0 0%nat "n-1" Hu eq_refl) as [gv [Hg H0]].
  destruct (H var u0 1%nat "n" Hu eq_refl) as [gv' [Hg' H1]].
  destruct (H var u0 2%nat "n+1" Hu eq_refl) as [gv'' [Hg'' H2]].
  rewrite Hg in Hg', Hg''. inversion Hg'; inversion Hg''; subst gv' gv''. exists gv. split; [exact Hg|].
  cbn [Nat.sub] in *. rewrite Nat.sub_0_r in *. auto.
Qed.
