(** Lemmas on the grid function files: names, schedule, loading. *)
From Coq Require Import QArith String Ascii List Bool Arith Lia.
From Verif Require Import Base Dict M_Timer S_Timer L_Timer M_Run S_Run L_Run M_IO S_IO L_IO.
Import ListNotations.
Local Open Scope nat_scope.
Local Open Scope list_scope.

(** *** Strings *)

Lemma append_cancel : forall a b c : string, (a ++ b = a ++ c)%string -> b = c.
Proof. induction a as [|x a IH]; intros b c H; cbn in H; [exact H|]. injection H as H. apply IH. exact H. Qed.

Lemma append_assoc : forall a b c : string, ((a ++ b) ++ c = a ++ (b ++ c))%string.
Proof. induction a as [|x a IH]; intros b c; cbn; [reflexivity|]. rewrite IH. reflexivity. Qed.

Lemma free_not_split : forall c a x y, free_of c a -> a <> (x ++ String c y)%string.
Proof.
  intros c a x. revert a. induction x as [|d x IH]; intros [|e a] y F E; cbn in *; try discriminate.
  - injection E as E1 E2. subst. destruct F as [F _]. apply F. reflexivity.
  - injection E as E1 E2. apply (IH a y); [apply F | exact E2].
Qed.

Lemma split_first : forall c a b x y, free_of c a -> free_of c b ->
  (a ++ String c x = b ++ String c y)%string -> a = b /\ x = y.
Proof.
  intros c a. induction a as [|d a IH]; intros [|e b] x y FA FB E; cbn in *.
  - injection E as E. split; [reflexivity | exact E].
  - injection E as E1 E2. exfalso. apply (proj1 FB). congruence.
  - injection E as E1 E2. exfalso. apply (proj1 FA). congruence.
  - injection E as E1 E2. destruct (IH b x y (proj2 FA) (proj2 FB) E2) as [-> ->]. subst. split; reflexivity.
Qed.

Lemma split_last : forall c x y a b, free_of c a -> free_of c b ->
  (x ++ String c a = y ++ String c b)%string -> x = y /\ a = b.
Proof.
  intros c x. induction x as [|d x IH]; intros [|e y] a b FA FB E; cbn in *.
  - injection E as E. split; [reflexivity | exact E].
  - injection E as E1 E2. exfalso. exact (free_not_split c a y b FA E2).
  - injection E as E1 E2. exfalso. exact (free_not_split c b x a FB (eq_sym E2)).
  - injection E as E1 E2. destruct (IH y a b FA FB E2) as [-> ->]. subst. split; reflexivity.
Qed.

Section Names.
Context {V : Type}.
Variable repr : Q -> string.
Hypothesis RF : number_format repr.
Variable fn : string.

Lemma state_name_inj : forall t t', state_name repr fn (Some t) = state_name repr fn (Some t') -> (t == t')%Q.
Proof. intros t t' E. apply RF. apply append_cancel in E. apply append_cancel in E. exact E. Qed.

Lemma state_name_eq : forall t t', (t == t')%Q -> state_name repr fn (Some t) = state_name repr fn (Some t').
Proof. intros t t' E. unfold state_name. rewrite (proj1 RF t t' E). reflexivity. Qed.

Lemma level_name_inj : forall t t' f f' l l', free_of "_"%char l -> free_of "_"%char l' ->
  level_name repr fn t f l = level_name repr fn t' f' l' -> (t == t')%Q /\ f = f' /\ l = l'.
Proof.
  intros t t' f f' l l' FL FL' E. unfold level_name in E. apply append_cancel in E. cbn in E. injection E as E.
  destruct RF as (_ & RI & RU).
  destruct (split_first "_"%char _ _ _ _ (RU t) (RU t') E) as [E1 E2].
  destruct (split_last "_"%char _ _ _ _ FL FL' E2) as [-> ->].
  repeat split. apply RI. exact E1.
Qed.

Lemma level_name_eq : forall t t' f l, (t == t')%Q -> level_name repr fn t f l = level_name repr fn t' f l.
Proof. intros t t' f l E. unfold level_name. rewrite (proj1 RF t t' E). reflexivity. Qed.

Lemma state_name_one_part : forall t, one_part fn (state_name repr fn (Some t)).
Proof. intros t. exists (repr t). split; [apply RF | reflexivity]. Qed.

Lemma level_name_not_one_part : forall t f l, ~ one_part fn (level_name repr fn t f l).
Proof.
  intros t f l [x [F E]]. unfold level_name in E. apply append_cancel in E. cbn in E. injection E as E.
  symmetry in E. revert E. apply (free_not_split "_"%char). exact F.
Qed.

Lemma level_state_differ : forall t f l t', level_name repr fn t f l <> state_name repr fn (Some t').
Proof. intros t f l t' E. apply (level_name_not_one_part t f l). rewrite E. apply state_name_one_part. Qed.

(** *** The store *)

Lemma write_all_app : forall fs (a b : list (string * V)), write_all fs (a ++ b) = write_all (write_all fs a) b.
Proof. intros. unfold write_all. apply fold_left_app. Qed.

Lemma write_all_other : forall (ws : list (string * V)) fs n, ~ In n (map fst ws) ->
  dget (write_all fs ws) n = dget fs n.
Proof.
  induction ws as [|[k v] ws IH]; intros fs n H; [reflexivity|]. cbn in *.
  unfold write_all in *. cbn. rewrite IH by tauto. apply dget_dset_other. tauto.
Qed.

(** All writes to [n] in [ws] have the value [v], and there is one. *)
Lemma write_all_consistent : forall (ws : list (string * V)) fs n v, In (n, v) ws ->
  (forall v', In (n, v') ws -> v' = v) -> dget (write_all fs ws) n = Some v.
Proof.
  intros ws. induction ws as [|[k w] ws IH] using rev_ind; intros fs n v I C; [contradiction|].
  rewrite write_all_app. unfold write_all at 1. cbn. rewrite dget_dset.
  destruct (String.eqb_spec n k) as [<-|D].
  - f_equal. apply C. apply in_app_iff. right. left. reflexivity.
  - apply IH.
    + apply in_app_iff in I. destruct I as [I|[I|[]]]; [exact I | congruence].
    + intros v' I'. apply C. apply in_app_iff. left. exact I'.
Qed.

(** *** The files of a complete run *)

Lemma gfu_saving : forall r q, saving_only (@gfu_handler V repr fn r q).
Proof. intros r q s e. destruct e; exact I || reflexivity. Qed.

Definition state_write (p : Q * gstate V) : string * V := (state_name repr fn (Some (fst p)), g_gfu (snd p)).
Definition levels_write (p : Q * gstate V) : list (string * V) := level_writes repr fn (fst p) (g_levels (snd p)).

(** The writes of a complete run, split by counter. *)
Lemma gfu_run : forall r q re t0 ls sols s, ls <> [] -> length ls = length sols ->
  observe (gfu_handler repr fn r q) s sols (run_trace (transient_run no_faults re t0 (Ok ls))) =
  gfu_handler repr fn r q s (RPreSave (Some t0)) ++
  flat_map (fun p => (if divides q (fst p) then levels_write (snd p) else []) ++
                     (if divides r (fst p) then [state_write (snd p)] else [])) (enumerate (combine ls sols)) ++
  gfu_handler repr fn r q (List.last sols s) (RPostSave (Some (List.last ls 0%Q)) (length ls - 1)).
Proof.
  intros r q re t0 ls sols s N L.
  rewrite (proj1 (transient_complete re t0 ls N)), (observe_transient _ (gfu_saving r q)) by exact L.
  reflexivity.
Qed.

Section Kinds.
(** [kind] decides [one_part fn]. *)
Variable kind : string -> bool.
Hypothesis HK : forall n, kind n = true <-> one_part fn n.

Lemma kind_state : forall t, kind (state_name repr fn (Some t)) = true.
Proof. intros t. apply HK. apply state_name_one_part. Qed.

Lemma kind_level : forall t f l, kind (level_name repr fn t f l) = false.
Proof.
  intros t f l. destruct (kind (level_name repr fn t f l)) eqn:E; [|reflexivity].
  apply HK in E. apply level_name_not_one_part in E. contradiction.
Qed.

Lemma filter_levels : forall p,
  filter (fun w => kind (fst w)) (levels_write p) = [] /\
  filter (fun w => negb (kind (fst w))) (levels_write p) = levels_write p.
Proof.
  intros p. unfold levels_write, level_writes. induction (g_levels (snd p)) as [|[f g] l IH]; [split; reflexivity|].
  cbn [flat_map]. rewrite !filter_app. destruct IH as [-> ->]. cbn [fst snd].
  induction g as [|[lv v] g IHg]; [split; reflexivity|].
  cbn. rewrite kind_level. cbn. destruct IHg as [IH1 IH2]. split; [exact IH1|]. f_equal. exact IH2.
Qed.

Lemma filter_state : forall p,
  filter (fun w => kind (fst w)) [state_write p] = [state_write p] /\
  filter (fun w => negb (kind (fst w))) [state_write p] = [].
Proof. intros p. unfold state_write. cbn [filter fst]. rewrite kind_state. split; reflexivity. Qed.

Lemma gfu_filter : forall f r q s e, (f = (fun w : string * V => kind (fst w)) \/ f = (fun w => negb (kind (fst w)))) ->
  filter f (gfu_handler repr fn r q s e) =
  match e with
  | RPreSave (Some t) => filter f (levels_write (t, s)) ++ filter f [state_write (t, s)]
  | RInSave t i => (if divides q i then filter f (levels_write (t, s)) else []) ++
                   (if divides r i then filter f [state_write (t, s)] else [])
  | RPostSave (Some t) i => if negb (divides r i) then filter f (levels_write (t, s)) ++ filter f [state_write (t, s)] else []
  | _ => filter f (gfu_handler repr fn r q s e)
  end.
Proof.
  assert (D0 : forall n, divides n 0 = true). { intros [|n]; [reflexivity|]. unfold divides. rewrite Nat.mod_0_l by lia. reflexivity. }
  intros f r q s e _. destruct e as [| |[t|]| | | | | |t i| |[t|] i|]; try reflexivity;
    cbn [gfu_handler]; unfold gfu_pre, gfu_post, gfu_in; rewrite ?D0.
  - rewrite filter_app. reflexivity.
  - rewrite filter_app. destruct (divides q i), (divides r i); reflexivity.
  - destruct (negb (divides r i)); [|reflexivity]. rewrite filter_app. reflexivity.
Qed.

Lemma gfu_state_schedule : forall r q re t0 ls sols s, ls <> [] -> length ls = length sols ->
  filter (fun w => kind (fst w))
    (observe (gfu_handler repr fn r q) s sols (run_trace (transient_run no_faults re t0 (Ok ls)))) =
  map state_write ((t0, s) :: due_points r (combine ls sols)).
Proof.
  intros r q re t0 ls sols s N L. rewrite observe_filter.
  set (f := fun w : string * V => kind (fst w)).
  rewrite (fun A B C => schedule (fun s e => filter f (gfu_handler repr fn r q s e)) (fun p => [state_write p]) r A B C re t0 ls sols s N L).
  - rewrite (gfu_filter f r q s (RPreSave (Some t0))) by (left; reflexivity).
    unfold f. rewrite (proj1 (filter_levels _)), (proj1 (filter_state _)). cbn [app map].
    apply (f_equal (cons _)). apply flat_map_singleton.
  - intros s' e. destruct e; exact I || reflexivity.
  - intros s' t i. rewrite (gfu_filter f r q s' (RInSave t i)) by (left; reflexivity).
    unfold f. rewrite (proj1 (filter_levels _)), (proj1 (filter_state _)). destruct (divides q i); reflexivity.
  - intros s' t i. rewrite (gfu_filter f r q s' (RPostSave (Some t) i)) by (left; reflexivity).
    unfold f. rewrite (proj1 (filter_levels _)), (proj1 (filter_state _)). reflexivity.
Qed.

Lemma gfu_level_schedule : forall r q re t0 ls sols s, ls <> [] -> length ls = length sols ->
  filter (fun w => negb (kind (fst w)))
    (observe (gfu_handler repr fn r q) s sols (run_trace (transient_run no_faults re t0 (Ok ls)))) =
  flat_map levels_write ((t0, s) :: select (divides q) (combine ls sols) ++
     (if divides r (length ls - 1) then [] else [(List.last ls 0%Q, List.last sols s)])).
Proof.
  intros r q re t0 ls sols s N L. rewrite observe_filter.
  set (f := fun w : string * V => negb (kind (fst w))).
  rewrite (proj1 (transient_complete re t0 ls N)).
  rewrite (observe_transient (fun s e => filter f (gfu_handler repr fn r q s e))).
  - rewrite (gfu_filter f r q s (RPreSave (Some t0))) by (right; reflexivity).
    rewrite (gfu_filter f r q _ (RPostSave _ _)) by (right; reflexivity).
    unfold f at 1 2. rewrite (proj2 (filter_levels _)), (proj2 (filter_state _)), app_nil_r.
    cbn [flat_map]. f_equal. rewrite flat_map_app. f_equal.
    + rewrite <- flat_map_select. apply flat_map_ext. intros [i [t x]]. cbn [fst snd].
      rewrite (gfu_filter f r q x (RInSave t i)) by (right; reflexivity).
      unfold f. rewrite (proj2 (filter_levels _)), (proj2 (filter_state _)).
      destruct (divides q i), (divides r i); cbn [app]; rewrite ?app_nil_r; reflexivity.
    + unfold f. rewrite (proj2 (filter_levels _)), (proj2 (filter_state _)).
      destruct (divides r (length ls - 1)); cbn; rewrite ?app_nil_r; reflexivity.
  - intros s' e. destruct e; exact I || reflexivity.
  - exact L.
Qed.

End Kinds.
End Names.
