(** Lemmas on boundary and domain conditions. *)
From Coq Require Import String List Bool Arith Ascii Lia Permutation.
From Verif Require Import Base Dict L_Stream M_Conditions S_Conditions.
Import ListNotations.
Local Open Scope string_scope.
Local Open Scope list_scope.

(** * Patterns *)

Lemma split_nonempty : forall s, split_bar s <> [].
Proof.
  induction s as [|c s IH]; [discriminate|]. cbn. destruct (Ascii.eqb c bar); [discriminate|].
  destruct (split_bar s); discriminate.
Qed.

Lemma concat_bar_cons : forall n l, l <> [] -> String.concat "|" (n :: l) = (n ++ String bar (String.concat "|" l))%string.
Proof. intros n l H. destruct l as [|m l]; [contradiction | reflexivity]. Qed.

Lemma split_join : forall s, String.concat "|" (split_bar s) = s.
Proof.
  induction s as [|c s IH]; [reflexivity|]. cbn [split_bar]. destruct (Ascii.eqb_spec c bar) as [->|D].
  - rewrite concat_bar_cons by apply split_nonempty. rewrite IH. reflexivity.
  - destruct (split_bar s) as [|h t] eqn:E; [destruct (split_nonempty s E)|].
    destruct t as [|m t]; [cbn in *; congruence|].
    rewrite concat_bar_cons in * by discriminate. rewrite <- IH. reflexivity.
Qed.

Lemma split_no_bar : forall s n, In n (split_bar s) -> ~ has_bar n.
Proof.
  induction s as [|c s IH]; intros n I; cbn in I.
  - destruct I as [<-|[]]. exact (fun H => H).
  - destruct (Ascii.eqb_spec c bar) as [->|D].
    + destruct I as [<-|I]; [exact (fun H => H) | apply IH, I].
    + destruct (split_bar s) as [|h t] eqn:E; [destruct (split_nonempty s E)|].
      destruct I as [<-|I]; [|apply IH; right; exact I].
      cbn. intros [H|H]; [contradiction|]. apply (IH h); [left; reflexivity | exact H].
Qed.

Lemma split_app : forall n s, ~ has_bar n -> split_bar (n ++ String bar s)%string = n :: split_bar s.
Proof.
  induction n as [|c n IH]; intros s H; [reflexivity|]. cbn [append split_bar].
  destruct (Ascii.eqb_spec c bar) as [->|D]; [exfalso; apply H; left; reflexivity|].
  rewrite IH; [reflexivity|]. intros B. apply H. right. exact B.
Qed.

Lemma split_plain : forall n, ~ has_bar n -> split_bar n = [n].
Proof.
  induction n as [|c n IH]; intros H; [reflexivity|]. cbn [split_bar].
  destruct (Ascii.eqb_spec c bar) as [->|D]; [exfalso; apply H; left; reflexivity|].
  rewrite IH; [reflexivity|]. intros B. apply H. right. exact B.
Qed.

Lemma join_split : forall l, l <> [] -> (forall n, In n l -> ~ has_bar n) -> split_bar (String.concat "|" l) = l.
Proof.
  induction l as [|n l IH]; intros H B; [contradiction|]. destruct l as [|m l].
  - apply split_plain, B. left. reflexivity.
  - rewrite concat_bar_cons by discriminate. rewrite split_app by (apply B; left; reflexivity).
    rewrite IH; [reflexivity | discriminate | intros x I; apply B; right; exact I].
Qed.

Lemma names_unique : forall p names, names_of p names <-> (names = pattern_names p).
Proof.
  intros p names. destruct p as [s|l]; cbn; [|reflexivity]. split.
  - intros (N & B & E). rewrite <- E, join_split by assumption. reflexivity.
  - intros ->. split; [apply split_nonempty|]. split; [apply split_no_bar | apply split_join].
Qed.

(** * Classes *)

Fixpoint rank_fuel (fuel : nat) (a : string) : nat :=
  match fuel with 0 => 0 | S k => match dget parents a with Some p => S (rank_fuel k p) | None => 0 end end.
Definition rank (a : string) : nat := rank_fuel 18 a.

Lemma rank_parent : forall a p, dget parents a = Some p -> S (rank p) = rank a /\ rank a <= 3.
Proof.
  assert (H : forallb (fun ap => Nat.eqb (S (rank (snd ap))) (rank (fst ap)) && Nat.leb (rank (fst ap)) 3) parents = true)
    by (vm_compute; reflexivity).
  intros a p G. apply dget_Some_In in G. rewrite forallb_forall in H. specialize (H _ G). cbn [fst snd] in H.
  apply andb_true_iff in H. destruct H as [H1 H2]. apply Nat.eqb_eq in H1. apply Nat.leb_le in H2. split; assumption.
Qed.

Lemma subclass_complete : forall a b, isa a b -> forall k, rank a <= k -> subclass_fuel k a b = true.
Proof.
  induction 1 as [a|a p b G I IH]; intros k R.
  - destruct k; cbn; rewrite String.eqb_refl; reflexivity.
  - destruct (rank_parent _ _ G) as [E _]. destruct k as [|k]; [lia|]. cbn [subclass_fuel].
    rewrite G, IH by lia. apply orb_true_r.
Qed.

Lemma subclass_spec : forall a b, subclass a b = true <-> isa a b.
Proof.
  intros a b. split.
  - unfold subclass. generalize (length parents) as k. intros k. revert a. induction k as [|k IH]; intros a H; cbn [subclass_fuel] in H.
    + rewrite orb_false_r in H. apply String.eqb_eq in H. subst. constructor.
    + apply orb_true_iff in H. destruct H as [H|H]; [apply String.eqb_eq in H; subst; constructor|].
      destruct (dget parents a) as [p|] eqn:G; [|discriminate]. econstructor; [exact G | apply IH, H].
  - intros H. unfold subclass. apply subclass_complete; [exact H|].
    assert (L : length parents = 18) by reflexivity. rewrite L.
    destruct (dget parents a) as [p|] eqn:G; [destruct (rank_parent _ _ G); lia|].
    unfold rank. cbn [rank_fuel]. rewrite G. lia.
Qed.

Lemma isa_trans : forall a b, isa a b -> forall c, isa b c -> isa a c.
Proof. induction 1; intros d H'; [exact H'|]. econstructor; [eassumption | auto]. Qed.

Lemma cond_eqb_spec : forall a b, cond_eqb a b = true <-> a = b.
Proof.
  intros [i c] [j e]. unfold cond_eqb. cbn. rewrite andb_true_iff, String.eqb_eq. split.
  - intros [H ->]. destruct i, j; cbn in H; try discriminate; apply Nat.eqb_eq in H; subst; reflexivity.
  - intros H. injection H as -> ->. split; [destruct j; cbn; apply Nat.eqb_refl | reflexivity].
Qed.

Lemma existsb_cond : forall c l, existsb (cond_eqb c) l = true <-> In c l.
Proof.
  intros c l. rewrite existsb_exists. split.
  - intros (x & I & H). apply cond_eqb_spec in H. subst. exact I.
  - intros I. exists c. split; [exact I | apply cond_eqb_spec; reflexivity].
Qed.

(** * Assignments *)

Lemma dkeys_dset_in : forall V (d : dict V) k v w, dget d k = Some w -> dkeys (dset d k v) = dkeys d.
Proof. intros V d k v w H. apply dkeys_dset_present. eapply dget_In_keys. exact H. Qed.

Lemma append_get : forall c d r x, dget (append_to c d r) x =
  match dget d x with Some l => Some (if String.eqb x r then l ++ [c] else l) | None => None end.
Proof.
  intros c d r x. unfold append_to. destruct (dget d r) as [l|] eqn:E.
  - rewrite dget_dset. destruct (String.eqb_spec x r) as [->|D]; [rewrite E; reflexivity | destruct (dget d x); reflexivity].
  - destruct (String.eqb_spec x r) as [->|D]; [rewrite E; reflexivity | destruct (dget d x); reflexivity].
Qed.

Lemma append_keys : forall c d r, dkeys (append_to c d r) = dkeys d.
Proof. intros c d r. unfold append_to. destruct (dget d r) eqn:E; [eapply dkeys_dset_in; exact E | reflexivity]. Qed.

Lemma attach_keys : forall c rs d, dkeys (fold_left (append_to c) rs d) = dkeys d.
Proof. intros c rs. induction rs as [|r rs IH]; intros d; [reflexivity|]. cbn [fold_left]. rewrite IH. apply append_keys. Qed.

Lemma attach_get : forall c rs d x, dget (fold_left (append_to c) rs d) x =
  match dget d x with Some l => Some (l ++ repeat c (mentions x rs)) | None => None end.
Proof.
  intros c rs. induction rs as [|r rs IH]; intros d x; cbn [fold_left mentions].
  - destruct (dget d x); [cbn; rewrite app_nil_r|]; reflexivity.
  - rewrite IH, append_get. destruct (dget d x) as [l|]; [|reflexivity].
    destruct (String.eqb x r); [|reflexivity]. cbn [repeat]. rewrite <- app_assoc. reflexivity.
Qed.

Lemma mentions_filter : forall x d names, dget d x <> None -> mentions x (regions_from_pattern d names) = mentions x names.
Proof.
  intros x d names H. induction names as [|n names IH]; [reflexivity|]. unfold regions_from_pattern in *. cbn [filter mentions].
  destruct (String.eqb_spec x n) as [<-|D].
  - destruct (dget d x) as [l|]; [|contradiction]. cbn [mentions]. rewrite String.eqb_refl, IH. reflexivity.
  - destruct (dget d n); [|exact IH]. cbn [mentions]. destruct (String.eqb_spec x n); [contradiction | exact IH].
Qed.

Lemma mentions_zero : forall x names, mentions x names = 0 <-> ~ In x names.
Proof.
  intros x names. induction names as [|n names IH]; cbn; [tauto|].
  destruct (String.eqb_spec x n) as [->|D]; [split; [discriminate | intros H; exfalso; apply H; left; reflexivity]|].
  rewrite IH. split; [intros H [C|C]; [congruence | tauto] | tauto].
Qed.

Lemma regions_from_none : forall d names, regions_from_pattern d names = [] <-> forall n, In n names -> dget d n = None.
Proof.
  intros d names. induction names as [|n names IH]; cbn; [split; [intros _ n [] | reflexivity]|].
  destruct (dget d n) eqn:E.
  - split; [discriminate|]. intros H. specialize (H n (or_introl eq_refl)). congruence.
  - rewrite IH. split; intros H; [intros m [<-|I]; [exact E | apply H, I] | intros m I; apply H; right; exact I].
Qed.

Lemma assign_spec : forall k p v c, refers k v c ->
  exists k', assign k p v = (k', None) /\ dkeys (k_data k') = dkeys (k_data k) /\ k_options k' = k_options k /\
  k_next k' = (match v with AKey _ => S (k_next k) | _ => k_next k end) /\
  k_meshed k' = (match regions_from_pattern (k_data k) (pattern_names p) with [] => k_meshed k | _ => c :: k_meshed k end) /\
  forall r, dget (k_data k') r = option_map (fun l => l ++ repeat c (mentions r (pattern_names p))) (dget (k_data k) r).
Proof.
  intros k p v c R.
  assert (G : forall r d, dget (fold_left (append_to c) (regions_from_pattern d (pattern_names p)) d) r =
             option_map (fun l => l ++ repeat c (mentions r (pattern_names p))) (dget d r)).
  { intros r d. rewrite attach_get. destruct (dget d r) as [l|] eqn:E; [|reflexivity]. cbn. rewrite mentions_filter by congruence. reflexivity. }
  destruct v as [s|c'|]; cbn in R.
  - destruct R as (cls & E & ->). unfold assign. rewrite E. eexists. split; [reflexivity|]. cbn.
    split; [apply attach_keys|]. split; [reflexivity|]. split; [reflexivity|]. split; [reflexivity|]. intros r. apply G.
  - subst c'. unfold assign. eexists. split; [reflexivity|]. cbn.
    split; [apply attach_keys|]. split; [reflexivity|]. split; [reflexivity|]. split; [reflexivity|]. intros r. apply G.
  - contradiction.
Qed.

Lemma assign_cases : forall k p v,
  (exists c, refers k v c) \/ (exists e, assign k p v = (k, Some e) /\ (forall c, ~ refers k v c) /\
     e = match v with AKey _ => ValueError | _ => TypeError end).
Proof.
  intros k p v. destruct v as [s|c|]; cbn.
  - destruct (dget (k_options k) s) as [cls|] eqn:E; [left; eexists; eexists; split; [reflexivity | reflexivity]|].
    right. eexists. split; [reflexivity|]. split; [|reflexivity]. intros c (cls & H & _). congruence.
  - left. exists c. reflexivity.
  - right. exists TypeError. split; [reflexivity|]. split; [intros c [] | reflexivity].
Qed.

(** * Invariant *)

Definition wf (k : conditions) : Prop :=
  NoDup (dkeys (k_data k)) /\ forall r l n cls, In (r, l) (k_data k) -> In (mk_cond (Auto n) cls) l -> n < k_next k.

Lemma dkeys_clear : forall (d : dict (list cond)), dkeys (map (fun rl => (fst rl, [])) d : dict (list cond)) = dkeys d.
Proof. intros d. unfold dkeys. rewrite map_map. reflexivity. Qed.

Lemma dget_clear : forall (d : dict (list cond)) r,
  dget (map (fun rl => (fst rl, [])) d : dict (list cond)) r = option_map (fun _ => []) (dget d r).
Proof.
  induction d as [|[k l] d IH]; intros r; [reflexivity|]. cbn. destruct (String.eqb r k); [reflexivity | apply IH].
Qed.

Lemma step_options : forall k o, k_options (step k o) = k_options k.
Proof.
  intros k o. destruct o as [p v| |r]; cbn; [|reflexivity|].
  - destruct (assign_cases k p v) as [[c R]|(e & -> & _)]; [|reflexivity].
    destruct (assign_spec k p v c R) as (k' & -> & _ & E & _). exact E.
  - unfold remove. destruct (dget (k_data k) r); reflexivity.
Qed.

Lemma wf_step : forall k o, wf k -> (forall p c, o = Assign p (AObj c) -> exists n, c_id c = User n) -> wf (step k o).
Proof.
  intros k o [N A] U. destruct o as [p v| |r]; cbn.
  - destruct (assign_cases k p v) as [[c R]|(e & -> & _)]; [|split; assumption].
    destruct (assign_spec k p v c R) as (k' & -> & K & _ & X & _ & G). cbn. split; [rewrite K; exact N|].
    intros r l n cls I J. assert (N' : NoDup (dkeys (k_data k'))) by (rewrite K; exact N).
    apply NoDup_In_dget in I; [|exact N']. rewrite G in I.
    destruct (dget (k_data k) r) as [l0|] eqn:E; [|discriminate]. cbn in I. injection I as <-.
    apply in_app_iff in J. apply dget_Some_In in E. destruct J as [J|J].
    + specialize (A _ _ _ _ E J). rewrite X. destruct v; lia.
    + apply repeat_spec in J. destruct v as [s|c'|]; cbn in R.
      * destruct R as (cls' & _ & ->). injection J as -> ->. rewrite X. lia.
      * subst c'. destruct (U p c eq_refl) as [m M]. rewrite <- J in M. discriminate.
      * contradiction.
  - split; [exact (eq_ind_r (fun x => NoDup x) N (dkeys_clear (k_data k)))|]. intros r l n cls I J. cbn in I. apply in_map_iff in I.
    destruct I as ([r0 l0] & E & _). injection E as _ <-. contradiction.
  - unfold remove. destruct (dget (k_data k) r) as [l0|]; [|split; assumption]. cbn. split; [apply NoDup_ddel, N|].
    intros r' l n cls I J. cbn in *. apply NoDup_In_dget in I; [|apply NoDup_ddel, N].
    destruct (String.eqb_spec r r') as [->|D]; [rewrite dget_ddel_same in I by exact N; discriminate|].
    rewrite dget_ddel_other in I by exact D. apply dget_Some_In in I. eapply A; eassumption.
Qed.

Lemma wf_run : forall ops k, wf k -> user_objects ops -> wf (run k ops).
Proof.
  induction ops as [|o ops IH]; intros k W U; [exact W|]. apply (IH (step k o)).
  - apply wf_step; [exact W|]. intros p c ->. apply (U p c). left. reflexivity.
  - intros p c I. apply (U p c). right. exact I.
Qed.

Lemma fold_dset_empty : forall (l : list string) (d : dict (list cond)),
  (forall r x, dget d r = Some x -> x = []) -> NoDup (dkeys d) ->
  let d' := fold_left (fun d kv => dset d (fst kv) (snd kv)) (map (fun r => (r, [])) l) d in
  NoDup (dkeys d') /\ (forall r x, dget d' r = Some x -> x = []) /\ forall r, In r (dkeys d') <-> In r l \/ In r (dkeys d).
Proof.
  induction l as [|r l IH]; intros d E N; cbn zeta; cbn [map fold_left fst snd].
  - split; [exact N|]. split; [exact E|]. intros r. cbn. tauto.
  - destruct (IH (dset d r [])) as (A & B & C).
    + intros r' x G. rewrite dget_dset in G. destruct (String.eqb r' r); [congruence | eapply E; exact G].
    + apply NoDup_dkeys_dset, N.
    + split; [exact A|]. split; [exact B|]. intros r'. rewrite C. rewrite In_dkeys_dset. cbn. intuition.
Qed.

Lemma init_data : forall regions options r,
  dget (k_data (init regions options)) r = Some [] <-> In r regions.
Proof.
  intros regions options r. destruct (fold_dset_empty regions []) as (A & B & C); [intros ? ? H; discriminate | constructor|].
  split.
  - intros H. apply dget_In_keys in H. apply C in H. destruct H as [H|[]]. exact H.
  - intros I. assert (J : In r (dkeys (k_data (init regions options)))) by (apply C; left; exact I).
    apply In_keys_dget in J. destruct J as [x G]. rewrite G. f_equal. eapply B. exact G.
Qed.

Lemma init_none : forall regions options r, ~ In r regions -> dget (k_data (init regions options)) r = None.
Proof.
  intros regions options r H. destruct (fold_dset_empty regions []) as (A & B & C); [intros ? ? G; discriminate | constructor|].
  apply dget_None_not_In. intros I. apply C in I. destruct I as [I|[]]. contradiction.
Qed.

Lemma wf_init : forall regions options, wf (init regions options).
Proof.
  intros regions options. destruct (fold_dset_empty regions []) as (A & B & C); [intros ? ? H; discriminate | constructor|].
  split; [exact A|]. intros r l n cls I J. apply NoDup_In_dget in I; [|exact A]. apply B in I. subst. contradiction.
Qed.

Lemma run_options : forall ops k, k_options (run k ops) = k_options k.
Proof. induction ops as [|o ops IH]; intros k; [reflexivity|]. unfold run in *. cbn. rewrite IH. apply step_options. Qed.

Lemma region_refines : forall ops k r n, k_next k = n -> NoDup (dkeys (k_data k)) ->
  dget (k_data (run k ops)) r = fst (fold_left (region_step (k_options k) r) ops (dget (k_data k) r, n)).
Proof.
  induction ops as [|o ops IH]; intros k r n E ND; [reflexivity|]. unfold run. cbn [fold_left].
  assert (S1 : (dget (k_data (step k o)) r, k_next (step k o)) = region_step (k_options k) r (dget (k_data k) r, n) o).
  { destruct o as [p v| |r']; cbn.
    - destruct (assign_cases k p v) as [[c R]|(e & -> & NR & _)].
      + destruct (assign_spec k p v c R) as (k' & -> & _ & _ & X & _ & G). cbn. rewrite G, X.
        destruct v as [s|c'|]; cbn in R; [|subst; reflexivity | contradiction].
        destruct R as (cls & -> & ->). subst. reflexivity.
      + cbn. destruct v as [s|c|]; [|exfalso; apply (NR c); reflexivity | rewrite E; reflexivity].
        destruct (dget (k_options k) s) as [cls|] eqn:O; [|rewrite E; reflexivity].
        exfalso. eapply NR. cbn. exists cls. split; [exact O | reflexivity].
    - rewrite dget_clear, E. reflexivity.
    - unfold remove. destruct (dget (k_data k) r') eqn:O; cbn; rewrite E.
      + destruct (String.eqb_spec r r') as [->|D]; [rewrite dget_ddel_same by exact ND; reflexivity|].
        rewrite dget_ddel_other by congruence. reflexivity.
      + destruct (String.eqb_spec r r') as [->|D]; [rewrite O|]; reflexivity. }
  rewrite <- S1. rewrite <- (step_options k o). apply (IH (step k o)); [reflexivity|].
  clear S1 IH. destruct o as [p v| |r']; cbn.
  - destruct (assign_cases k p v) as [[c R]|(e & -> & _)]; [|exact ND].
    destruct (assign_spec k p v c R) as (k' & -> & K & _). cbn. rewrite K. exact ND.
  - exact (eq_ind_r (fun x => NoDup x) ND (dkeys_clear (k_data k))).
  - unfold remove. destruct (dget (k_data k) r'); [apply NoDup_ddel, ND | exact ND].
Qed.

(** * Queries *)

Lemma carries_In : forall k r c, NoDup (dkeys (k_data k)) -> (carries k r c <-> exists l, In (r, l) (k_data k) /\ In c l).
Proof.
  intros k r c N. split; intros (l & H & I); exists l; split; try exact I.
  - apply dget_Some_In, H.
  - apply NoDup_In_dget; assumption.
Qed.

Lemma NoDup_map_filter : forall {A B} (f : A -> B) p l, NoDup (map f l) -> NoDup (map f (filter p l)).
Proof.
  intros A B f p l. induction l as [|a l IH]; intros N; [constructor|]. cbn in *. inversion N as [|x y N1 N2]; subst.
  destruct (p a); [|apply IH, N2]. cbn. constructor; [|apply IH, N2].
  intros I. apply N1. apply in_map_iff in I. destruct I as (b & E & I). apply filter_In in I. rewrite <- E. apply in_map, I.
Qed.

Lemma regions_of_In : forall k c r, NoDup (dkeys (k_data k)) -> (In r (regions_of (k_data k) c) <-> carries k r c).
Proof.
  intros k c r N. rewrite carries_In by exact N. unfold regions_of. rewrite in_map_iff. split.
  - intros ([r' l] & <- & I). apply filter_In in I. destruct I as [I H]. cbn in H. apply existsb_cond in H. exists l. split; assumption.
  - intros (l & I & H). exists (r, l). split; [reflexivity|]. apply filter_In. split; [exact I | apply existsb_cond; exact H].
Qed.

Lemma attached_regions : forall k c rs, attached_to k c rs <-> rs = regions_of (k_data k) c.
Proof.
  intros k c rs. unfold attached_to, regions_of. split.
  - intros (sel & -> & H). f_equal. apply filter_ext_in. intros [r l] I.
    specialize (H r l I). cbn. destruct (sel (r, l)), (existsb (cond_eqb c) l) eqn:E; try reflexivity.
    + assert (X : In c l) by (apply H; reflexivity). apply existsb_cond in X. congruence.
    + apply existsb_cond in E. apply H in E. discriminate.
  - intros ->. eexists. split; [reflexivity|]. intros r l I. cbn. apply existsb_cond.
Qed.

(** * Pattern view *)

Definition pkey (k : conditions) (c : cond) : string := join_bar (regions_of (k_data k) c).

Lemma to_pattern_gen : forall k order d p c,
  dget (fold_left (fun d c => dset d (pkey k c) c) order d) p = Some c ->
  (In c order /\ p = pkey k c) \/ dget d p = Some c.
Proof.
  intros k order. induction order as [|x order IH]; intros d p c H; [right; exact H|]. cbn in H. apply IH in H.
  destruct H as [[I E]|H]; [left; split; [right; exact I | exact E]|].
  rewrite dget_dset in H. destruct (String.eqb_spec p (pkey k x)) as [->|D]; [|right; exact H].
  injection H as ->. left. split; [left|]; reflexivity.
Qed.

Lemma to_pattern_last : forall k order d p,
  dget (fold_left (fun d c => dset d (pkey k c) c) order d) p =
  match find (fun c => String.eqb p (pkey k c)) (rev order) with Some c => Some c | None => dget d p end.
Proof.
  intros k order. induction order as [|x order IH]; intros d p; [reflexivity|]. cbn [fold_left rev]. rewrite IH, dget_dset.
  assert (F : forall l, find (fun c => String.eqb p (pkey k c)) (l ++ [x]) =
    match find (fun c => String.eqb p (pkey k c)) l with Some c => Some c | None => if String.eqb p (pkey k x) then Some x else None end).
  { induction l as [|a l IHl]; cbn; [reflexivity|]. destruct (String.eqb p (pkey k a)); [reflexivity | apply IHl]. }
  rewrite F. destruct (find _ (rev order)); [reflexivity|]. destruct (String.eqb p (pkey k x)); reflexivity.
Qed.

Lemma to_pattern_get : forall k order p,
  dget (to_pattern k order) p = find (fun c => String.eqb p (pkey k c)) (rev order).
Proof. intros k order p. eapply eq_trans; [exact (to_pattern_last k order [] p)|]. cbn. destruct (find _ _); reflexivity. Qed.

Lemma NoDup_to_pattern : forall k order, NoDup (dkeys (to_pattern k order)).
Proof.
  intros k order. unfold to_pattern.
  assert (H : forall l (d : dict cond), NoDup (dkeys d) -> NoDup (dkeys (fold_left (fun d c => dset d (join_bar (regions_of (k_data k) c)) c) l d))).
  { induction l as [|x l IH]; intros d N; [exact N|]. cbn. apply IH, NoDup_dkeys_dset, N. }
  apply H. constructor.
Qed.

Lemma to_pattern_In : forall k order p c, In (p, c) (to_pattern k order) -> In c order /\ p = pkey k c.
Proof.
  intros k order p c I. apply NoDup_In_dget in I; [|apply NoDup_to_pattern]. rewrite to_pattern_get in I.
  apply find_some in I. destruct I as [I E]. apply in_rev in I. apply String.eqb_eq in E. split; assumption.
Qed.

(** Every key has an owner. *)
Lemma to_pattern_covers : forall k order c, In c order -> exists c', In (pkey k c, c') (to_pattern k order) /\ pkey k c' = pkey k c /\ In c' order.
Proof.
  intros k order c I. destruct (find (fun x => String.eqb (pkey k c) (pkey k x)) (rev order)) as [c'|] eqn:F.
  - exists c'. assert (G := to_pattern_get k order (pkey k c)). rewrite F in G. apply dget_Some_In in G.
    apply find_some in F. destruct F as [F E]. apply String.eqb_eq in E. apply in_rev in F. split; [exact G | split; [congruence | exact F]].
  - exfalso. apply in_rev in I. apply (find_none _ _ F) in I. rewrite String.eqb_refl in I. discriminate.
Qed.

Lemma pkey_inj : forall k a b, NoDup (dkeys (k_data k)) -> (forall r, In r (dkeys (k_data k)) -> ~ has_bar r) ->
  (exists r, carries k r a) -> (exists r, carries k r b) -> pkey k a = pkey k b -> regions_of (k_data k) a = regions_of (k_data k) b.
Proof.
  intros k a b N B [ra A] [rb C] E. apply regions_of_In in A; [|exact N]. apply regions_of_In in C; [|exact N].
  assert (H : forall c r, In r (regions_of (k_data k) c) -> ~ has_bar r).
  { intros c r I. apply B. unfold regions_of in I. apply in_map_iff in I. destruct I as (x & <- & I). apply filter_In in I. apply in_map, I. }
  unfold pkey, join_bar in E.
  rewrite <- (join_split (regions_of (k_data k) a)), <- (join_split (regions_of (k_data k) b)), E; [reflexivity | | | |].
  - intros Z. rewrite Z in C. contradiction.
  - apply H.
  - intros Z. rewrite Z in A. contradiction.
  - apply H.
Qed.

(** * Layers *)

Lemma dict_fold_get : forall (B : Type) (cs : list B) r (d : dict B) x,
  dget (fold_left (fun d kv => dset d (fst kv) (snd kv)) (map (fun c => (r, c)) cs) d) x =
  if String.eqb x r then match rev cs with c :: _ => Some c | [] => dget d x end else dget d x.
Proof.
  intros B cs r. induction cs as [|c cs IH]; intros d x; cbn [map fold_left fst snd rev].
  - destruct (String.eqb x r); reflexivity.
  - rewrite IH, dget_dset. destruct (String.eqb x r); [|reflexivity]. destruct (rev cs); reflexivity.
Qed.

Lemma layers_get : forall test k r, NoDup (dkeys (k_data k)) ->
  dget (layers test k) r = match dget (k_data k) r with Some l => match rev (filter test l) with c :: _ => Some c | [] => None end | None => None end.
Proof.
  intros test k r N. unfold layers, dict_of. revert N. generalize (k_data k) as data.
  assert (G : forall data (d : dict cond), NoDup (dkeys data) ->
    dget (fold_left (fun d kv => dset d (fst kv) (snd kv))
            (concat (map (fun rl : string * list cond => map (fun c => (fst rl, c)) (filter test (snd rl))) data)) d) r =
    match dget data r with Some l => match rev (filter test l) with c :: _ => Some c | [] => dget d r end | None => dget d r end).
  { induction data as [|[s l] data IH]; intros d N; [reflexivity|]. cbn [map concat fst snd dget].
    inversion N as [|a b N1 N2]; subst. rewrite fold_left_app. eapply eq_trans; [exact (IH _ N2)|].
    assert (H := dict_fold_get cond (filter test l) s d r). rewrite H.
    destruct (String.eqb_spec r s) as [->|D].
    - apply dget_None_not_In in N1. rewrite N1. reflexivity.
    - destruct (dget data r); reflexivity. }
  intros data N. rewrite G by exact N. cbn. destruct (dget data r) as [l|]; reflexivity.
Qed.

Lemma rev_filter_last : forall (test : cond -> bool) l c,
  (exists t, rev (filter test l) = c :: t) <-> exists l1 l2, l = l1 ++ c :: l2 /\ test c = true /\ forall x, In x l2 -> test x = false.
Proof.
  intros test l c. induction l as [|a l IH] using rev_ind.
  - cbn. split; [intros [t H]; discriminate | intros (l1 & l2 & H & _); destruct l1; discriminate].
  - rewrite filter_app, rev_app_distr. cbn [filter]. destruct (test a) eqn:E; cbn [rev app].
    + split.
      * intros [t H]. injection H as -> _. exists l, []. split; [reflexivity|]. split; [exact E | intros x []].
      * intros (l1 & l2 & H & T & F). destruct l2 as [|b l2] using rev_ind.
        { apply app_inj_tail in H. destruct H as [_ ->]. eexists. reflexivity. }
        { rewrite app_comm_cons, app_assoc in H. apply app_inj_tail in H. destruct H as [_ ->].
          rewrite (F b) in E; [discriminate | apply in_app_iff; right; left; reflexivity]. }
    + rewrite IH. split.
      * intros (l1 & l2 & -> & T & F). exists l1, (l2 ++ [a]). split; [rewrite <- app_assoc; reflexivity|]. split; [exact T|].
        intros x I. apply in_app_iff in I. destruct I as [I|[<-|[]]]; [apply F, I | exact E].
      * intros (l1 & l2 & H & T & F). destruct l2 as [|b l2] using rev_ind.
        { apply app_inj_tail in H. destruct H as [_ ->]. congruence. }
        { rewrite app_comm_cons, app_assoc in H. apply app_inj_tail in H. destruct H as [-> _].
          exists l1, l2. split; [reflexivity|]. split; [exact T|]. intros x I. apply F, in_app_iff. left. exact I. }
Qed.

(** * Terms *)

Lemma isa_members : forall a b, isa a b -> a = b \/ In a (filter (fun x => subclass x b) (dkeys parents)).
Proof.
  intros a b H. destruct (dget parents a) as [p|] eqn:G.
  - right. apply filter_In. split; [eapply dget_In_keys; exact G | apply subclass_spec, H].
  - left. inversion H; subst; [reflexivity | congruence].
Qed.

Definition boundary_classes : list string :=
  ["FarField"; "CBC"; "GRCBC"; "NSCBC"; "Outflow"; "InviscidWall"; "Symmetry"; "IsothermalWall"; "AdiabaticWall"].

(** Classes whose conditions contribute terms. *)
Definition term_classes : list string := boundary_classes ++ ["SpongeLayer"; "PSpongeLayer"].

Lemma kind_members : forall c b, is_kind c b = true -> c_class c = b \/ In (c_class c) (filter (fun x => subclass x b) (dkeys parents)).
Proof. intros c b H. apply isa_members, subclass_spec, H. Qed.

Lemma boundary_term_class : forall ready sh c f, boundary_term ready sh c = Ok (Some f) -> In (c_class c) boundary_classes.
Proof.
  intros ready sh c f. unfold boundary_term.
  repeat match goal with
  | |- context [if is_kind c ?b then _ else _] => let E := fresh "E" in destruct (is_kind c b) eqn:E
  | |- context [if is_kind c ?b || is_kind c ?b' then _ else _] =>
      let E := fresh "E" in let F := fresh "F" in destruct (is_kind c b) eqn:E; [|destruct (is_kind c b') eqn:F]; cbn [orb]
  end; try discriminate; intros _;
  match goal with E : is_kind c _ = true |- _ => apply kind_members in E; vm_compute in E; unfold boundary_classes; cbn; intuition end.
Qed.

Lemma boundary_term_formulation : forall ready sh c f, boundary_term ready sh c = Ok (Some f) ->
  exists K, isa (c_class c) K /\ boundary_formulation K f.
Proof.
  intros ready sh c f. unfold boundary_term.
  repeat match goal with
  | |- context [if is_kind c ?b then _ else _] => let E := fresh "E" in destruct (is_kind c b) eqn:E
  | |- context [if is_kind c ?b || is_kind c ?b' then _ else _] =>
      let E := fresh "E" in let F := fresh "F" in destruct (is_kind c b) eqn:E; [|destruct (is_kind c b') eqn:F]; cbn [orb]
  end; try discriminate; try destruct (ready c); try destruct sh; try discriminate; intros H; injection H as <-;
  match goal with E : is_kind c ?b = true |- _ => exists b; split; [apply subclass_spec, E | constructor] end.
Qed.

Lemma boundary_term_periodic : forall ready sh c, isa (c_class c) "Periodic" <-> boundary_term ready sh c = Ok None.
Proof.
  intros ready sh c. split.
  - intros H. apply isa_members in H. cbn in H. destruct c as [i cls]. cbn in H. destruct H as [->|[<-|[]]]; reflexivity.
  - unfold boundary_term.
    repeat match goal with
    | |- context [if is_kind c ?b then _ else _] => let E := fresh "E" in destruct (is_kind c b) eqn:E
    | |- context [if is_kind c ?b || is_kind c ?b' then _ else _] =>
        let E := fresh "E" in let F := fresh "F" in destruct (is_kind c b) eqn:E; [|destruct (is_kind c b') eqn:F]; cbn [orb]
    end; try destruct (ready c); try destruct sh; try discriminate; intros _; apply subclass_spec; assumption.
Qed.

Lemma append_inj : forall n a b, (n ++ a)%string = (n ++ b)%string -> a = b.
Proof. induction n as [|c n IH]; intros a b H; [exact H|]. injection H as H. apply IH, H. Qed.

Lemma term_key_inj : forall a b ra rb, In (c_class a) term_classes -> In (c_class b) term_classes ->
  term_key a ra = term_key b rb -> ra = rb.
Proof.
  intros [i a] [j b] ra rb A B. cbn in A, B. unfold term_key, cond_name. cbn [c_class].
  repeat (destruct A as [<-|A]; [repeat (destruct B as [<-|B]; [vm_compute; intros H; try discriminate; injection H; auto|]); contradiction|]);
  contradiction.
Qed.

Lemma add_terms_spec : forall term, (forall c f, term c = Ok (Some f) -> In (c_class c) term_classes) ->
  forall items blf blf', NoDup (dkeys items) -> add_terms term items blf = Ok blf' ->
  (forall rs c, In (rs, c) items -> exists t, term c = Ok t /\ forall f, t = Some f -> dget blf' (term_key c rs) = Some (f, rs, c)) /\
  (forall key v, dget blf' key = Some v -> dget blf key = Some v \/
     exists f rs c, In (rs, c) items /\ term c = Ok (Some f) /\ key = term_key c rs /\ v = (f, rs, c)) /\
  (forall key, (forall rs c f, In (rs, c) items -> term c = Ok (Some f) -> key <> term_key c rs) -> dget blf' key = dget blf key).
Proof.
  intros term T items. induction items as [|[rs c] items IH]; intros blf blf' N H.
  - injection H as <-. split; [intros ? ? []|]. split; [auto | reflexivity].
  - cbn in H. unfold bind in H. destruct (term c) as [t|e] eqn:E; [|discriminate]. inversion N as [|x y N1 N2]; subst.
    destruct t as [f|].
    + destruct (IH _ _ N2 H) as (A & B & C). split; [|split].
      * intros rs' c' [I|I]; [|apply A, I]. injection I as <- <-. exists (Some f). split; [exact E|].
        intros f' X. injection X as <-. rewrite C; [apply dget_dset_same|].
        intros rs2 c2 f2 I2 T2 X. apply term_key_inj in X; [|eapply T; exact E | eapply T; exact T2]. subst rs2.
        apply N1. change rs with (fst (rs, c2)). apply in_map, I2.
      * intros key v G. apply B in G. destruct G as [G|(f' & rs' & c' & I & R)].
        { rewrite dget_dset in G. destruct (String.eqb_spec key (term_key c rs)) as [->|D]; [|left; exact G].
          injection G as <-. right. exists f, rs, c. split; [left; reflexivity|]. split; [exact E|]. split; reflexivity. }
        { right. exists f', rs', c'. split; [right; exact I | exact R]. }
      * intros key K. rewrite C; [|intros rs' c' f' I; apply K; right; exact I].
        apply dget_dset_other. intros X. apply (K rs c f); [left; reflexivity | exact E | congruence].
    + destruct (IH _ _ N2 H) as (A & B & C). split; [|split].
      * intros rs' c' [I|I]; [|apply A, I]. injection I as <- <-. exists None. split; [exact E | discriminate].
      * intros key v G. apply B in G. destruct G as [G|(f' & rs' & c' & I & R)]; [left; exact G|].
        right. exists f', rs', c'. split; [right; exact I | exact R].
      * intros key K. apply C. intros rs' c' f' I. apply K. right. exact I.
Qed.

Lemma add_terms_ok : forall term items blf, (forall rs c, In (rs, c) items -> exists t, term c = Ok t) ->
  exists blf', add_terms term items blf = Ok blf'.
Proof.
  intros term items. induction items as [|[rs c] items IH]; intros blf H; [eexists; reflexivity|]. cbn. unfold bind.
  destruct (H rs c (or_introl eq_refl)) as [t ->]. destruct t; apply IH; intros rs' c' I; apply (H rs' c'); right; exact I.
Qed.

Lemma add_terms_err : forall term items blf rs c e, In (rs, c) items -> term c = Err e ->
  exists e', add_terms term items blf = Err e'.
Proof.
  intros term items. induction items as [|[rs0 c0] items IH]; intros blf rs c e I H; [contradiction|]. cbn. unfold bind.
  destruct I as [X|I].
  - injection X as -> ->. rewrite H. eexists. reflexivity.
  - destruct (term c0) as [t|e0]; [|eexists; reflexivity]. destruct t; eapply IH; eassumption.
Qed.
