(** Lemmas on loading saved runs and time levels. *)
From Coq Require Import QArith String Ascii List Bool Arith Lia Lqa.
From Verif Require Import Base Dict S_Timer M_Timer L_Timer M_Run S_Run L_Run M_IO S_IO L_IO L_Store.
Import ListNotations.
Local Open Scope nat_scope.
Local Open Scope list_scope.

Lemma rest_after_spec : forall b n x, rest_after b n = Some x <-> n = (b ++ x)%string.
Proof.
  induction b as [|a b IH]; intros n x; cbn; [split; congruence|].
  destruct n as [|c n]; [split; discriminate|].
  destruct (Ascii.eqb_spec a c) as [->|D].
  - rewrite IH. split; [intros ->; reflexivity | intros E; injection E; tauto].
  - split; [discriminate | intros E; injection E; congruence].
Qed.

Lemma has_underscore_free : forall s, has_underscore s = false <-> free_of "_"%char s.
Proof. induction s as [|c s IH]; cbn; [tauto|]. rewrite orb_false_iff, IH, Ascii.eqb_neq. tauto. Qed.

Lemma is_one_part_spec : forall b n, is_one_part b n = true <-> one_part b n.
Proof.
  intros b n. unfold is_one_part, one_part. split.
  - destruct (rest_after b n) as [[|c x]|] eqn:E; try discriminate.
    intros H. apply andb_true_iff in H. destruct H as [H1 H2].
    apply Ascii.eqb_eq in H1. subst c. apply negb_true_iff, has_underscore_free in H2.
    exists x. split; [exact H2|]. apply rest_after_spec. exact E.
  - intros [x [F E]]. apply rest_after_spec in E. cbn in E. rewrite E. cbn.
    apply has_underscore_free in F. rewrite F. reflexivity.
Qed.

Section Load.
Context {V : Type}.
Variable repr : Q -> string.
Hypothesis RF : number_format repr.
Variable fn : string.


Notation state_write := (state_write repr fn).
Notation levels_write := (levels_write repr fn).

Lemma levels_write_In : forall (p : Q * gstate V) (w : string * V), In w (levels_write p) <->
  exists f g l v, In (f, g) (g_levels (snd p)) /\ In (l, v) g /\ w = (level_name repr fn (fst p) f l, v).
Proof.
  intros p w. unfold L_Store.levels_write, level_writes. rewrite in_flat_map. split.
  - intros [[f g] [H1 H2]]. apply in_map_iff in H2. destruct H2 as [[l v] [<- H2]].
    exists f, g, l, v. repeat split; assumption.
  - intros (f & g & l & v & H1 & H2 & ->). exists (f, g). split; [exact H1|].
    apply in_map_iff. exists (l, v). split; [reflexivity | exact H2].
Qed.

(** The writes of a run after the pre routine. *)
Definition later_writes r q ls (sols : list (gstate V)) s : list (string * V) :=
  flat_map (fun p => (if divides q (fst p) then levels_write (snd p) else []) ++
                     (if divides r (fst p) then [state_write (snd p)] else [])) (enumerate (combine ls sols)) ++
  gfu_handler repr fn r q (List.last sols s) (RPostSave (Some (List.last ls 0%Q)) (length ls - 1)).

Lemma last_pair : forall ls (sols : list (gstate V)) s, ls <> [] -> length ls = length sols ->
  nth_error (combine ls sols) (length ls - 1) = Some (List.last ls 0%Q, List.last sols s).
Proof.
  intros ls sols s N L. destruct (snoc_pair ls sols N L) as (ls' & sols' & t & x & -> & -> & L').
  rewrite combine_app by exact L'. rewrite !last_snoc, app_length. cbn.
  replace (length ls' + 1 - 1) with (length (combine ls' sols')) by (rewrite combine_length; lia).
  rewrite nth_error_app2, Nat.sub_diag by lia. reflexivity.
Qed.

Lemma divides_0 : forall n, divides n 0 = true.
Proof. intros [|n]; [reflexivity|]. unfold divides. rewrite Nat.mod_0_l by lia. reflexivity. Qed.

Lemma later_writes_In : forall r q ls (sols : list (gstate V)) s w, ls <> [] -> length ls = length sols ->
  In w (later_writes r q ls sols s) <->
  exists i p, nth_error (combine ls sols) i = Some p /\
    ((w = state_write p /\ due r (length ls) i = true) \/
     (In w (levels_write p) /\ (divides q i = true \/ (i = length ls - 1 /\ divides r i = false)))).
Proof.
  intros r q ls sols s w N L. unfold later_writes. rewrite in_app_iff, in_flat_map.
  assert (HP : In w (gfu_handler repr fn r q (List.last sols s) (RPostSave (Some (List.last ls 0%Q)) (length ls - 1))) <->
    divides r (length ls - 1) = false /\ (w = state_write (List.last ls 0%Q, List.last sols s) \/
      In w (levels_write (List.last ls 0%Q, List.last sols s)))).
  { cbn [gfu_handler]. unfold gfu_post, gfu_in. rewrite !divides_0.
    destruct (divides r (length ls - 1)); cbn [negb]; [split; [contradiction | intros [H _]; discriminate]|].
    rewrite in_app_iff. cbn. unfold L_Store.state_write, L_Store.levels_write. cbn [fst snd].
    split; [intros [H|[H|[]]]; split; auto | intros [_ [H|H]]; auto]. }
  rewrite HP. pose proof (last_pair ls sols s N L) as LP.
  split.
  - intros [[[i p] [E H]]|[D H]].
    + apply enumerate_In in E. exists i, p. split; [exact E|]. cbn [fst snd] in H.
      apply in_app_iff in H. destruct H as [H|H].
      * destruct (divides q i) eqn:Q; [|contradiction]. right. split; [exact H | left; reflexivity].
      * destruct (divides r i) eqn:R; [|contradiction]. destruct H as [<-|[]]. left. split; [reflexivity|].
        unfold due. unfold divides in R. rewrite R. reflexivity.
    + exists (length ls - 1), (List.last ls 0%Q, List.last sols s). split; [exact LP|].
      destruct H as [->|H].
      * left. split; [reflexivity|]. unfold due. rewrite Nat.eqb_refl, orb_true_r. reflexivity.
      * right. split; [exact H|]. right. split; [reflexivity | exact D].
  - intros (i & p & E & [[-> D]|[H D]]).
    + unfold due in D. destruct (divides r i) eqn:R.
      * left. exists (i, p). split; [apply enumerate_In; exact E|]. cbn [fst snd]. rewrite R.
        apply in_app_iff. right. left. reflexivity.
      * unfold divides in R. rewrite R in D. cbn in D. apply Nat.eqb_eq in D. subst i.
        right. split; [exact R|]. left. rewrite LP in E. injection E as <-. reflexivity.
    + destruct D as [D|[-> D]].
      * left. exists (i, p). split; [apply enumerate_In; exact E|]. cbn [fst snd]. rewrite D.
        apply in_app_iff. left. exact H.
      * right. split; [exact D|]. right. rewrite LP in E. injection E as <-. exact H.
Qed.

Lemma run_writes : forall r q re t0 ls (sols : list (gstate V)) s, ls <> [] -> length ls = length sols ->
  observe (gfu_handler repr fn r q) s sols (run_trace (transient_run no_faults re t0 (Ok ls))) =
  (levels_write (t0, s) ++ [state_write (t0, s)]) ++ later_writes r q ls sols s.
Proof.
  intros r q re t0 ls sols s N L. rewrite (gfu_run repr fn) by assumption. f_equal.
  cbn [gfu_handler]. unfold gfu_pre, gfu_in. rewrite !divides_0. reflexivity.
Qed.

Lemma combine_nth : forall {A B} (a : list A) (b : list B) i x y,
  nth_error (combine a b) i = Some (x, y) -> nth_error a i = Some x /\ nth_error b i = Some y.
Proof.
  induction a as [|x0 a IH]; intros [|y0 b] [|i] x y H; cbn in *; try discriminate.
  - injection H as <- <-. split; reflexivity.
  - apply IH. exact H.
Qed.

Lemma same_point : forall ls (sols : list (gstate V)) i j p p', distinct ls ->
  nth_error (combine ls sols) i = Some p -> nth_error (combine ls sols) j = Some p' ->
  (fst p == fst p')%Q -> i = j /\ p = p'.
Proof.
  intros ls sols i j [t x] [t' x'] D E E' H. cbn in H.
  destruct (combine_nth _ _ _ _ _ E) as [E1 _], (combine_nth _ _ _ _ _ E') as [E2 _].
  pose proof (D i j t t' E1 E2 H). subst j. split; [reflexivity | congruence].
Qed.

(** The file of every due time point holds the state of that time point. *)
Lemma saved_state : forall (fs : dict V) r q re t0 ls (sols : list (gstate V)) s i t x, ls <> [] -> length ls = length sols -> distinct ls ->
  nth_error ls i = Some t -> nth_error sols i = Some x -> due r (length ls) i = true ->
  load_routine repr (write_all fs (observe (gfu_handler repr fn r q) s sols
      (run_trace (transient_run no_faults re t0 (Ok ls))))) fn (Some t) = Ok (g_gfu x).
Proof.
  intros fs r q re t0 ls sols s i t x N L D Ht Hx Hd.
  assert (E : nth_error (combine ls sols) i = Some (t, x)).
  { clear - Ht Hx. revert ls sols Ht Hx. induction i as [|i IH]; intros [|a ls] [|b sols] Ht Hx; cbn in *; try discriminate.
    - congruence.
    - apply IH; assumption. }
  rewrite run_writes by assumption. rewrite write_all_app.
  unfold load_routine, load_gridfunction.
  rewrite (write_all_consistent _ _ _ (g_gfu x)); [reflexivity| |].
  - apply later_writes_In; [assumption..|]. exists i, (t, x). split; [exact E|]. left. split; [reflexivity | exact Hd].
  - intros v' I. apply later_writes_In in I; [|assumption..].
    destruct I as (j & [t' x'] & E' & [[H _]|[H _]]).
    + injection H as H1 H2. apply append_cancel in H1. cbn in H1. injection H1 as H1.
      apply RF in H1. destruct (same_point ls sols i j (t, x) (t', x') D E E' H1) as [_ H3].
      injection H3 as <- <-. exact H2.
    + apply levels_write_In in H. destruct H as (f & g & l & w & _ & _ & H). injection H as H _.
      exfalso. exact (level_state_differ repr RF fn _ _ _ _ (eq_sym H)).
Qed.

Lemma load_all : forall (fs : dict V) (vals : list (Q * V)),
  (forall t v, In (t, v) vals -> load_routine repr fs fn (Some t) = Ok v) ->
  load_transient repr fs fn (map fst vals) = (vals, None).
Proof.
  intros fs. induction vals as [|[t v] vals IH]; intros H; [reflexivity|].
  cbn [map fst load_transient]. rewrite (H t v) by (left; reflexivity).
  rewrite IH by (intros; apply H; right; assumption). reflexivity.
Qed.

Lemma map_fst_combine : forall {A B} (a : list A) (b : list B), length a = length b -> map fst (combine a b) = a.
Proof. induction a as [|x a IH]; intros [|y b] H; cbn in *; try discriminate; [reflexivity|]. rewrite IH by lia. reflexivity. Qed.

Lemma replay_rate_1 : forall (fs : dict V) q re t0 ls (sols : list (gstate V)) s, ls <> [] -> length ls = length sols -> distinct ls ->
  load_transient repr (write_all fs (observe (gfu_handler repr fn 1 q) s sols
      (run_trace (transient_run no_faults re t0 (Ok ls))))) fn ls = (combine ls (map (@g_gfu V) sols), None).
Proof.
  intros fs q re t0 ls sols s N L D.
  set (F := write_all _ _).
  assert (E : map fst (combine ls (map (@g_gfu V) sols)) = ls).
  { apply map_fst_combine. rewrite map_length. exact L. }
  rewrite <- E at 1. apply load_all. intros t v H.
  apply In_nth_error in H. destruct H as [i H]. apply combine_nth in H. destruct H as [H1 H2].
  rewrite nth_error_map in H2. destruct (nth_error sols i) as [x|] eqn:Hx; [|discriminate]. injection H2 as <-.
  apply (saved_state fs 1 q re t0 ls sols s i t x); try assumption.
  unfold due. rewrite Nat.mod_1_r. reflexivity.
Qed.

(** A label whose counter is not due has no file. *)
Lemma unsaved_state : forall (fs : dict V) r q re t0 ls (sols : list (gstate V)) s i t, ls <> [] -> length ls = length sols -> distinct ls ->
  nth_error ls i = Some t -> due r (length ls) i = false -> ~ (t0 == t)%Q ->
  dget fs (state_name repr fn (Some t)) = None ->
  load_routine repr (write_all fs (observe (gfu_handler repr fn r q) s sols
      (run_trace (transient_run no_faults re t0 (Ok ls))))) fn (Some t) = Err FileNotFoundError.
Proof.
  intros fs r q re t0 ls sols s i t N L D Ht Hd H0 Hfs.
  rewrite run_writes by assumption.
  unfold load_routine, load_gridfunction. rewrite write_all_other; [rewrite Hfs; reflexivity|].
  intros I. apply in_map_iff in I. destruct I as [[n v] [E I]]. cbn in E. subst n.
  apply in_app_iff in I. destruct I as [I|I].
  - apply in_app_iff in I. destruct I as [I|[I|[]]].
    + apply levels_write_In in I. destruct I as (f & g & l & w & _ & _ & E). injection E as E _.
      exact (level_state_differ repr RF fn _ _ _ _ (eq_sym E)).
    + injection I as E _. apply append_cancel in E. cbn in E. injection E as E. apply RF in E. apply H0. exact E.
  - apply later_writes_In in I; [|assumption..]. destruct I as (j & [t' x'] & E' & [[E Hj]|[I _]]).
    + injection E as E _. apply append_cancel in E. cbn in E. injection E as E. apply RF in E. cbn in E.
      destruct (combine_nth _ _ _ _ _ E') as [E1 _].
      pose proof (D i j t t' Ht E1 E). subst j. congruence.
    + apply levels_write_In in I. destruct I as (f & g & l & w & _ & _ & E). injection E as E _.
      exact (level_state_differ repr RF fn _ _ _ _ (eq_sym E)).
Qed.

(** *** Rates above 1 *)

Lemma label_nth : forall tm stride ls i x, timer_to_array tm false stride = Ok ls -> nth_error ls i = Some x ->
  x = py_round_digits (fst (tm_interval tm) + inject_Z stride * inject_Z (1 + Z.of_nat i) * tm_step tm)%Q (tm_digit tm).
Proof.
  intros tm stride ls i x H E. unfold timer_to_array, timer_start in H.
  destruct (tm_interval tm) as [a b]. cbn [fst].
  destruct (Qeq_bool (inject_Z stride * tm_step tm) 0); [discriminate|].
  cbn [bind] in H. injection H as <-. rewrite map_map in E. cbn [snd] in E.
  rewrite nth_error_map in E.
  destruct (nth_error (zrange 1 _) i) as [z|] eqn:Z1; [|discriminate].
  assert (Hi : (i < Z.to_nat (py_round ((b - a) / (inject_Z stride * tm_step tm)) + 1 - 1))%nat).
  { rewrite <- zrange_length. apply nth_error_Some. congruence. }
  rewrite zrange_nth in Z1 by exact Hi. injection Z1 as <-. cbn in E. injection E as <-. reflexivity.
Qed.

Lemma py_round_digits_comp : forall x y d, (x == y)%Q -> py_round_digits x d = py_round_digits y d.
Proof.
  intros x y d H. unfold py_round_digits. rewrite (py_round_comp (x * pow10 d) (y * pow10 d)); [reflexivity|].
  rewrite H. reflexivity.
Qed.

Lemma array_length : forall tm stride ls, timer_to_array tm false stride = Ok ls ->
  length ls = Z.to_nat (py_round ((snd (tm_interval tm) - fst (tm_interval tm)) / (inject_Z stride * tm_step tm))).
Proof.
  intros tm stride ls H. unfold timer_to_array, timer_start in H.
  destruct (tm_interval tm) as [a b]. cbn [fst snd].
  destruct (Qeq_bool (inject_Z stride * tm_step tm) 0); [discriminate|].
  cbn [bind] in H. injection H as <-. rewrite !map_length, zrange_length. f_equal. lia.
Qed.

Lemma py_round_ge_1 : forall q, (1 <= q)%Q -> (1 <= py_round q)%Z.
Proof.
  intros q H. pose proof (py_round_error q) as E. apply Qabs.Qabs_Qle_condition in E.
  destruct E as [E _].
  assert ((1 # 2) <= inject_Z (py_round q))%Q by lra.
  destruct (Z.le_gt_cases 1 (py_round q)) as [G|G]; [exact G|]. exfalso.
  assert (py_round q <= 0)%Z by lia. rewrite Zle_Qle in H1. change (inject_Z 0) with 0%Q in H1. lra.
Qed.

Lemma replay_rate_above_1 : forall (fs : dict V) tm r n q re t0 ls (sols : list (gstate V)) s lr,
  (0 < tm_step tm)%Q -> 1 < r -> r < n ->
  (snd (tm_interval tm) - fst (tm_interval tm) == inject_Z (Z.of_nat n) * tm_step tm)%Q ->
  timer_to_array tm false 1 = Ok ls -> timer_to_array tm false (Z.of_nat r) = Ok lr ->
  length ls = length sols -> distinct ls ->
  Forall (fun t => ~ t0 == t)%Q ls -> Forall (fun t => dget fs (state_name repr fn (Some t)) = None) ls ->
  load_transient repr (write_all fs (observe (gfu_handler repr fn r q) s sols
      (run_trace (transient_run no_faults re t0 (Ok ls))))) fn lr = ([], Some FileNotFoundError).
Proof.
  intros fs tm r n q re t0 ls sols s lr Hh Hr Hn Hb Hls Hlr L D F0 Ffs.
  pose proof (array_length _ _ _ Hls) as L1. pose proof (array_length _ _ _ Hlr) as L2.
  assert (Ln : length ls = n).
  { rewrite L1. rewrite (py_round_Z _ (Z.of_nat n)); [lia|]. rewrite Hb. change (inject_Z 1) with 1%Q. field. lra. }
  assert (Rpos : (0 < inject_Z (Z.of_nat r))%Q). { change 0%Q with (inject_Z 0). rewrite <- Zlt_Qlt. lia. }
  assert (Lr : 1 <= length lr).
  { rewrite L2. enough (1 <= py_round ((snd (tm_interval tm) - fst (tm_interval tm)) / (inject_Z (Z.of_nat r) * tm_step tm)))%Z by lia.
    apply py_round_ge_1. apply Qle_shift_div_l.
    - apply Qmult_lt_0_compat; assumption.
    - rewrite Hb, Qmult_1_l. apply Qmult_le_compat_r; [|lra]. rewrite <- Zle_Qle. lia. }
  destruct lr as [|x lr]; [cbn in Lr; lia|].
  destruct (nth_error ls (r - 1)) as [y|] eqn:Hy.
  2:{ apply nth_error_None in Hy. lia. }
  assert (E : x = y).
  { rewrite (label_nth tm (Z.of_nat r) (x :: lr) 0 x Hlr eq_refl).
    rewrite (label_nth tm 1 ls (r - 1) y Hls Hy). apply py_round_digits_comp.
    replace (1 + Z.of_nat (r - 1))%Z with (Z.of_nat r) by lia.
    replace (1 + Z.of_nat 0)%Z with 1%Z by lia. change (inject_Z 1) with 1%Q. ring. }
  subst y. cbn [load_transient].
  assert (I : In x ls) by (eapply nth_error_In; exact Hy).
  rewrite (unsaved_state fs r q re t0 ls sols s (r - 1) x).
  - reflexivity.
  - intros ->. destruct r as [|[|r]]; discriminate.
  - exact L.
  - exact D.
  - exact Hy.
  - unfold due. rewrite Nat.mod_small by lia. rewrite Ln.
    destruct (Nat.eqb_spec (r - 1) 0); [lia|]. destruct (Nat.eqb_spec (r - 1) (n - 1)); [lia|]. reflexivity.
  - rewrite Forall_forall in F0. apply F0. exact I.
  - rewrite Forall_forall in Ffs. apply Ffs. exact I.
Qed.

(** *** Time levels *)

Lemma load_levels_of_ok : forall (fs : dict V) t f g g',
  map fst g' = map fst g -> (forall l v, In (l, v) g -> dget fs (level_name repr fn t f l) = Some v) ->
  load_levels_of repr fs fn t f g' = Ok (g : dict V).
Proof.
  intros fs t f g g' E H. revert g' E. induction g as [|[l v] g IH]; intros [|[l' v'] g'] E; cbn in E; try discriminate; [reflexivity|].
  injection E as -> E. cbn [load_levels_of]. unfold load_gridfunction.
  rewrite (H l v) by (left; reflexivity). cbn [bind].
  rewrite IH by (intros; try apply H; try right; assumption). reflexivity.
Qed.

Lemma load_time_levels_ok : forall (fs : dict V) t levels template, same_names template levels ->
  (forall f g l v, In (f, g) levels -> In (l, v) g -> dget fs (level_name repr fn t f l) = Some v) ->
  load_time_levels repr fs fn t template = Ok (levels : dict (dict V)).
Proof.
  intros fs t levels template S. induction S as [|[f' g'] [f g] l' l E S IH]; intros H; [reflexivity|].
  cbn [fst snd] in E. destruct E as [-> E]. cbn [load_time_levels].
  rewrite (load_levels_of_ok fs t f g g' E).
  2:{ intros. eapply H; [left; reflexivity | assumption]. }
  cbn [bind]. rewrite IH by (intros; eapply H; [right; eassumption | assumption]). reflexivity.
Qed.

Lemma NoDup_fst_eq : forall {A} (l : list (string * A)) k a b, NoDup (map fst l) -> In (k, a) l -> In (k, b) l -> a = b.
Proof.
  intros A l k a b N H1 H2. pose proof (NoDup_In_dget l k a N H1). pose proof (NoDup_In_dget l k b N H2). congruence.
Qed.

(** Equal level file names written by one state at one label have one value. *)
Lemma levels_consistent : forall t t' levels levels' f g l v f' g' l' v',
  proper_levels levels -> proper_levels levels' ->
  In (f, g) levels -> In (l, v) g -> In (f', g') levels' -> In (l', v') g' ->
  level_name repr fn t f l = level_name repr fn t' f' l' ->
  (t == t')%Q /\ f = f' /\ l = l' /\ (levels = levels' -> (v : V) = v').
Proof.
  intros t t' levels levels' f g l v f' g' l' v' [N1 P1] [N2 P2] H1 H2 H3 H4 E.
  rewrite Forall_forall in P1, P2.
  destruct (P1 _ H1) as [NG FG]. destruct (P2 _ H3) as [NG' FG']. cbn [snd] in *.
  rewrite Forall_forall in FG, FG'.
  destruct (level_name_inj repr RF fn t t' f f' l l') as (T & -> & ->); [| |exact E|].
  - apply FG. apply (in_map fst) in H2. exact H2.
  - apply FG'. apply (in_map fst) in H4. exact H4.
  - split; [exact T|]. split; [reflexivity|]. split; [reflexivity|]. intros ->.
    pose proof (NoDup_fst_eq levels' f' g g' N2 H1 H3). subst g'.
    exact (NoDup_fst_eq g l' v v' NG H2 H4).
Qed.

(** Later saves under other labels do not matter. *)
Lemma levels_round_trip : forall (fs : dict V) t levels template (saves : list (Q * gstate V * nat * nat * nat)),
  proper_levels levels -> same_names template levels ->
  Forall (fun x => let '(t', s', _, _, _) := x in ~ (t' == t)%Q /\ proper_levels (g_levels s')) saves ->
  load_time_levels repr
    (write_all (write_all fs (level_writes repr fn t levels))
       (flat_map (fun x => let '(t', s', it, r, q) := x in gfu_in repr fn r q s' (Some t') it) saves)) fn t template
  = Ok levels.
Proof.
  intros fs t levels template saves P S F. apply load_time_levels_ok; [exact S|].
  intros f g l v H1 H2. rewrite write_all_other.
  - apply write_all_consistent.
    + apply (levels_write_In (t, mk_gstate v levels)). exists f, g, l, v. repeat split; assumption.
    + intros v' I. apply (levels_write_In (t, mk_gstate v levels)) in I. cbn [fst snd g_levels] in I.
      destruct I as (f' & g' & l' & w & H3 & H4 & E). injection E as E ->.
      destruct (levels_consistent t t levels levels f g l v f' g' l' w P P H1 H2 H3 H4 E) as (_ & _ & _ & R).
      symmetry. apply R. reflexivity.
  - intros I. apply in_map_iff in I. destruct I as [[n w] [E I]]. cbn in E. subst n.
    apply in_flat_map in I. destruct I as [[[[[t' s'] it] r] q] [I1 I2]].
    rewrite Forall_forall in F. specialize (F _ I1). cbn in F. destruct F as [T P'].
    unfold gfu_in in I2. apply in_app_iff in I2. destruct I2 as [I2|I2].
    + destruct (divides q it); [|contradiction].
      apply (levels_write_In (t', s')) in I2. cbn [fst snd] in I2.
      destruct I2 as (f' & g' & l' & w' & H3 & H4 & E). injection E as E ->.
      destruct (levels_consistent t t' levels (g_levels s') f g l v f' g' l' w' P P' H1 H2 H3 H4 E) as (C & _).
      apply T. symmetry. exact C.
    + destruct (divides r it); [|contradiction]. destruct I2 as [I2|[]]. injection I2 as E _.
      exact (level_state_differ repr RF fn _ _ _ _ (eq_sym E)).
Qed.

(** After a run, the levels of every counter divisible by q can be loaded. *)
Lemma levels_after_run : forall (fs : dict V) r q re t0 ls (sols : list (gstate V)) s i t x template,
  ls <> [] -> length ls = length sols -> distinct ls -> Forall (fun x => proper_levels (g_levels x)) sols ->
  nth_error ls i = Some t -> nth_error sols i = Some x ->
  divides q i = true \/ (i = length ls - 1 /\ divides r i = false) ->
  same_names template (g_levels x) ->
  load_time_levels repr (write_all fs (observe (gfu_handler repr fn r q) s sols
      (run_trace (transient_run no_faults re t0 (Ok ls))))) fn t template = Ok (g_levels x).
Proof.
  intros fs r q re t0 ls sols s i t x template N L D P Ht Hx Hq S.
  assert (E : nth_error (combine ls sols) i = Some (t, x)).
  { clear - Ht Hx. revert ls sols Ht Hx. induction i as [|i IH]; intros [|a ls] [|b sols] Ht Hx; cbn in *; try discriminate.
    - congruence.
    - apply IH; assumption. }
  rewrite Forall_forall in P. assert (Px : proper_levels (g_levels x)) by (apply P; eapply nth_error_In; exact Hx).
  apply load_time_levels_ok; [exact S|]. intros f g l v H1 H2.
  rewrite run_writes, write_all_app by assumption.
  apply write_all_consistent.
  - apply later_writes_In; [assumption..|]. exists i, (t, x). split; [exact E|]. right. split; [|exact Hq].
    apply levels_write_In. exists f, g, l, v. repeat split; assumption.
  - intros v' I. apply later_writes_In in I; [|assumption..].
    destruct I as (j & [t' x'] & E' & [[H _]|[H _]]).
    + injection H as H _. exfalso. exact (level_state_differ repr RF fn _ _ _ _ H).
    + apply levels_write_In in H. cbn [fst snd] in H. destruct H as (f' & g' & l' & w & H3 & H4 & H). injection H as H ->.
      assert (Px' : proper_levels (g_levels x')).
      { apply P. eapply nth_error_In. apply (proj2 (combine_nth _ _ _ _ _ E')). }
      destruct (levels_consistent t t' _ _ f g l v f' g' l' w Px Px' H1 H2 H3 H4 H) as (C & _ & _ & R).
      destruct (same_point ls sols i j (t, x) (t', x') D E E' C) as [_ H5]. injection H5 as _ <-.
      symmetry. apply R. reflexivity.
Qed.

(** The levels of a last time point that is neither a multiple of q nor an additional
    last state are not there. *)
Lemma final_levels_missing : forall (fs : dict V) r q re t0 ls (sols : list (gstate V)) s t x f g l v template rest,
  ls <> [] -> length ls = length sols -> distinct ls ->
  Forall (fun x => proper_levels (g_levels x)) (s :: sols) ->
  nth_error ls (length ls - 1) = Some t -> nth_error sols (length ls - 1) = Some x ->
  divides r (length ls - 1) = true -> divides q (length ls - 1) = false ->
  ~ (t0 == t)%Q -> template = (f, (l, v) :: g) :: rest -> free_of "_"%char l ->
  dget fs (level_name repr fn t f l) = None ->
  load_time_levels repr (write_all fs (observe (gfu_handler repr fn r q) s sols
      (run_trace (transient_run no_faults re t0 (Ok ls))))) fn t template = Err FileNotFoundError.
Proof.
  intros fs r q re t0 ls sols s t x f g l v template rest N L D P Ht Hx Hr Hq T0 -> Fl Hfs.
  cbn [load_time_levels load_levels_of]. unfold load_gridfunction at 1.
  rewrite Forall_forall in P.
  assert (NI : forall t' (x' : gstate V) (w : V), proper_levels (g_levels x') -> In (level_name repr fn t f l, w) (levels_write (t', x')) -> (t == t')%Q).
  { intros t' x' w P' I. apply levels_write_In in I. cbn [fst snd] in I.
    destruct I as (f' & g' & l' & w' & H3 & H4 & E). injection E as E _.
    destruct P' as [_ P']. rewrite Forall_forall in P'. destruct (P' _ H3) as [_ Q']. rewrite Forall_forall in Q'.
    destruct (level_name_inj repr RF fn t t' f f' l l' Fl) as [C _]; [|exact E | exact C].
    apply Q'. apply (in_map fst) in H4. exact H4. }
  rewrite run_writes by assumption. rewrite write_all_other; [rewrite Hfs; reflexivity|].
  intros I. apply in_map_iff in I. destruct I as [[n w] [E I]]. cbn in E. subst n.
  apply in_app_iff in I. destruct I as [I|I].
  - apply in_app_iff in I. destruct I as [I|[I|[]]].
    + apply NI in I; [|apply P; left; reflexivity]. apply T0. symmetry. exact I.
    + injection I as E _. exact (level_state_differ repr RF fn _ _ _ _ (eq_sym E)).
  - apply later_writes_In in I; [|assumption..]. destruct I as (j & [t' x'] & E' & [[E _]|[I K]]).
    + injection E as E _. exact (level_state_differ repr RF fn _ _ _ _ E).
    + destruct (combine_nth _ _ _ _ _ E') as [E1 E2].
      apply NI in I; [|apply P; right; eapply nth_error_In; exact E2].
      pose proof (D _ _ _ _ Ht E1 I) as J. subst j. destruct K as [K|[_ K]]; congruence.
Qed.

End Load.
