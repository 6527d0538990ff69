(** Theorems about periodic flows (C89). *)
From Coq Require Import Reals List Arith Bool Lia Lra Permutation FunctionalExtensionality.
From Verif Require Import Base M_Bla M_Flow M_Formulation M_Weak M_Mixed S_Formulation S_Weak S_Contact L_Weak P_Eos P_Boundary P_Riemann P_Stress P_Weak P_Walls P_Unknowns P_Trace P_Uniform P_Positive P_Contact S_Formulation S_Weak S_Contact L_Weak S_Periods.
Import ListNotations.
Open Scope R_scope.
Open Scope list_scope.

(** ** Sums and integrals over copies *)

Lemma inner_add v f g (l : list nat) : inner v (map (fun k => f k + g k) l) = inner v (map f l) + inner v (map g l).
Proof. revert l. induction v as [|a v IH]; intros [|k l]; cbn; try ring. rewrite IH. ring. Qed.

Lemma inner_none v (l : list nat) : inner v (map (fun _ => 0) l) = 0.
Proof. revert l. induction v as [|a v IH]; intros [|k l]; cbn; try reflexivity. rewrite IH. ring. Qed.

Lemma entries_again (T : list R) : forall d, length T = d -> map (fun k => nth k T 0) (seq 0 d) = T.
Proof.
  induction T as [|a T IH]; intros d L; cbn in L; subst d; [reflexivity|]. cbn [seq map nth]. f_equal. rewrite <- seq_shift, map_map. apply IH. reflexivity.
Qed.

Lemma copies_inner K v (T : nat -> list R) d : (forall j, length (T j) = d) ->
  inner v (map (fun k => over_copies K (fun j => nth k (T j) 0)) (seq 0 d)) = over_copies K (fun j => inner v (T j)).
Proof.
  intros L. unfold over_copies. induction (seq 0 (copies K)) as [|j l IH]; cbn [fold_right]; [apply inner_none|].
  rewrite inner_add, IH, (entries_again (T j) d (L j)). reflexivity.
Qed.

Lemma integral_ext q f g : (forall x, f x = g x) -> integral q f = integral q g.
Proof. intros H. induction q as [|[w x] q IH]; [reflexivity|]. cbn. rewrite H, IH. reflexivity. Qed.

Lemma integral_append q1 q2 f : integral (q1 ++ q2) f = let* a := integral q1 f in let* b := integral q2 f in Ok (a + b).
Proof.
  induction q1 as [|[w x] q1 IH]; cbn [app integral bind].
  - destruct (integral q2 f); cbn; [f_equal; ring|reflexivity].
  - destruct (f x); cbn; [|reflexivity]. rewrite IH. destruct (integral q1 f); cbn; [|reflexivity]. destruct (integral q2 f); cbn; [f_equal; ring|reflexivity].
Qed.

Lemma integral_unroll K q (V V' : nat -> result (list R)) (k k' : nat -> R) (T T' : nat -> list R) : (0 < copies K)%nat ->
  (forall x j, V' (at_copy K x j) = V x) -> (forall x j, k' (at_copy K x j) = k x) ->
  (forall x v, inner v (T x) = over_copies K (fun j => inner v (T' (at_copy K x j)))) ->
  integral (unroll K q) (fun p => let* v := V' p in Ok (k' p * inner v (T' p))) = integral q (fun x => let* v := V x in Ok (k x * inner v (T x))).
Proof.
  intros N HV Hk HT. unfold unroll. induction q as [|[w x] q IH]; [reflexivity|]. cbn [map concat fst snd integral]. rewrite integral_append, IH. clear IH.
  set (I := integral q _). specialize (HT x). unfold over_copies in HT. destruct (V x) as [v|e] eqn:E.
  - assert (H : integral (map (fun j => (w, at_copy K x j)) (seq 0 (copies K))) (fun p => let* v := V' p in Ok (k' p * inner v (T' p))) = Ok (w * (k x * inner v (T x)))).
    { rewrite HT. clear HT. induction (seq 0 (copies K)) as [|j l IH]; cbn [map integral fold_right]; [f_equal; ring|]. rewrite HV, Hk, E. cbn [bind]. rewrite IH. cbn [bind]. f_equal. ring. }
    rewrite H. reflexivity.
  - destruct (copies K) as [|n]; [lia|]. cbn [seq map integral bind]. rewrite HV, E. reflexivity.
Qed.

Section Periods.
Variables (s : settings) (K : periods) (m m' : mesh) (r : rules) (u u' : unknowns).
Hypothesis Kn : (0 < copies K)%nat.
Hypothesis Mp : unrolled K m m'.
Hypothesis Up : repeated_flow K u u'.
Variable t : test.
Hypothesis Wf : well_formed (s_dim s) t.

Lemma gather_V x v : inner v (tV (gather K (s_dim s) t) x) = over_copies K (fun j => inner v (tV t (at_copy K x j))).
Proof. apply copies_inner. intros j. apply Wf. Qed.
Lemma gather_Vhat x v : inner v (tVhat (gather K (s_dim s) t) x) = over_copies K (fun j => inner v (tVhat t (at_copy K x j))).
Proof. apply copies_inner. intros j. apply Wf. Qed.
Lemma gather_dV x v : inner v (entries (tdV (gather K (s_dim s) t) x)) = over_copies K (fun j => inner v (entries (tdV t (at_copy K x j)))).
Proof. apply (copies_inner K v (fun j => entries (tdV t (at_copy K x j)))). intros j. apply Wf. Qed.

Lemma unroll_scaled q (V V' : nat -> result (list R)) (k k' : nat -> R) (T T' : nat -> list R) f f' :
  (forall x j, V' (at_copy K x j) = V x) -> (forall x j, k' (at_copy K x j) = k x) ->
  (forall x v, inner v (T x) = over_copies K (fun j => inner v (T' (at_copy K x j)))) ->
  (forall p, f' p = let* v := V' p in Ok (k' p * inner v (T' p))) -> (forall x, f x = let* v := V x in Ok (k x * inner v (T x))) ->
  integral (unroll K q) f' = integral q f.
Proof. intros HV Hk HT F' F. rewrite (integral_ext _ f' _ F'), (integral_ext _ f _ F). apply integral_unroll; assumption. Qed.


Lemma F_copy x j : convection_F s u' (at_copy K x j) = convection_F s u x.
Proof. unfold convection_F. rewrite (proj1 (Up x j)). reflexivity. Qed.
Lemma Fn_copy x j : convection_Fn s m' u' (at_copy K x j) = convection_Fn s m u x.
Proof. unfold convection_Fn. destruct (Up x j) as (-> & -> & _). rewrite (proj1 (Mp x j)). reflexivity. Qed.
Lemma G_copy x j : diffusion_G s u' (at_copy K x j) = diffusion_G s u x.
Proof. unfold diffusion_G. destruct (Up x j) as (-> & _ & ->). reflexivity. Qed.
Lemma Gn_copy x j : diffusion_Gn s m' u' (at_copy K x j) = diffusion_Gn s m u x.
Proof. unfold diffusion_Gn. destruct (Up x j) as (-> & -> & ->). rewrite (proj1 (Mp x j)). reflexivity. Qed.
Lemma mask_copy x j : mask m' (at_copy K x j) = mask m x.
Proof. unfold mask. rewrite (proj2 (Mp x j)). reflexivity. Qed.

Lemma convection_periods : convection_form s m' (unroll K (r_cvol r)) (unroll K (r_cbnd r)) u' t = convection_form s m (r_cvol r) (r_cbnd r) u (gather K (s_dim s) t).
Proof.
  unfold convection_form.
  rewrite (unroll_scaled (r_cvol r) (fun x => let* F := convection_F s u x in Ok (entries F)) (fun x => let* F := convection_F s u' x in Ok (entries F)) (fun _ => -1) (fun _ => -1)
    (fun x => entries (tdV (gather K (s_dim s) t) x)) (fun p => entries (tdV t p)) (fun x => let* F := convection_F s u x in Ok (- inner (entries F) (entries (tdV (gather K (s_dim s) t) x)))));
    [|intros; rewrite F_copy; reflexivity|reflexivity|apply gather_dV|intros p; destruct (convection_F s u' p); cbn [bind]; [f_equal; ring|reflexivity]|intros p; destruct (convection_F s u p); cbn [bind]; [f_equal; ring|reflexivity]].
  rewrite (unroll_scaled (r_cbnd r) (convection_Fn s m u) (convection_Fn s m' u') (fun _ => 1) (fun _ => 1)
    (tV (gather K (s_dim s) t)) (tV t) (fun x => let* F := convection_Fn s m u x in Ok (inner F (tV (gather K (s_dim s) t) x))));
    [|apply Fn_copy|reflexivity|apply gather_V|intros p; destruct (convection_Fn s m' u' p); cbn [bind]; [f_equal; ring|reflexivity]|intros p; destruct (convection_Fn s m u p); cbn [bind]; [f_equal; ring|reflexivity]].
  rewrite (unroll_scaled (r_cbnd r) (convection_Fn s m u) (convection_Fn s m' u') (fun y => - mask m y) (fun y => - mask m' y)
    (tVhat (gather K (s_dim s) t)) (tVhat t) (fun x => let* F := convection_Fn s m u x in Ok (- mask m x * inner F (tVhat (gather K (s_dim s) t) x))));
    [|apply Fn_copy|intros; rewrite mask_copy; reflexivity|apply gather_Vhat|reflexivity|reflexivity].
  reflexivity.
Qed.

Lemma diffusion_periods : diffusion_form s m' (unroll K (r_dvol r)) (unroll K (r_dbnd r)) u' t = diffusion_form s m (r_dvol r) (r_dbnd r) u (gather K (s_dim s) t).
Proof.
  unfold diffusion_form.
  rewrite (unroll_scaled (r_dvol r) (fun x => let* F := diffusion_G s u x in Ok (entries F)) (fun x => let* F := diffusion_G s u' x in Ok (entries F)) (fun _ => 1) (fun _ => 1)
    (fun x => entries (tdV (gather K (s_dim s) t) x)) (fun p => entries (tdV t p)) (fun x => let* F := diffusion_G s u x in Ok (inner (entries F) (entries (tdV (gather K (s_dim s) t) x)))));
    [|intros; rewrite G_copy; reflexivity|reflexivity|apply gather_dV|intros p; destruct (diffusion_G s u' p); cbn [bind]; [f_equal; ring|reflexivity]|intros p; destruct (diffusion_G s u p); cbn [bind]; [f_equal; ring|reflexivity]].
  rewrite (unroll_scaled (r_dbnd r) (diffusion_Gn s m u) (diffusion_Gn s m' u') (fun _ => 1) (fun _ => 1)
    (tV (gather K (s_dim s) t)) (tV t) (fun x => let* F := diffusion_Gn s m u x in Ok (inner F (tV (gather K (s_dim s) t) x))));
    [|apply Gn_copy|reflexivity|apply gather_V|intros p; destruct (diffusion_Gn s m' u' p); cbn [bind]; [f_equal; ring|reflexivity]|intros p; destruct (diffusion_Gn s m u p); cbn [bind]; [f_equal; ring|reflexivity]].
  rewrite (unroll_scaled (r_dbnd r) (diffusion_Gn s m u) (diffusion_Gn s m' u') (mask m) (mask m')
    (tVhat (gather K (s_dim s) t)) (tVhat t) (fun x => let* F := diffusion_Gn s m u x in Ok (mask m x * inner F (tVhat (gather K (s_dim s) t) x))));
    [|apply Gn_copy|apply mask_copy|apply gather_Vhat|reflexivity|reflexivity].
  reflexivity.
Qed.

Lemma boundary_periods bs bs' : Forall2 (repeated_term K) bs bs' -> boundary_form bs' t = boundary_form bs (gather K (s_dim s) t).
Proof.
  intros F. induction F as [|b b' bs bs' [Rb Vb] F IH]; [reflexivity|]. cbn [boundary_form]. rewrite IH, Rb.
  rewrite (unroll_scaled (b_rule b) (b_vector b) (b_vector b') (fun _ => 1) (fun _ => 1)
    (tVhat (gather K (s_dim s) t)) (tVhat t) (fun x => let* v := b_vector b x in Ok (inner v (tVhat (gather K (s_dim s) t) x))));
    [reflexivity|exact Vb|reflexivity|apply gather_Vhat|intros p; destruct (b_vector b' p); cbn [bind]; [f_equal; ring|reflexivity]|intros p; destruct (b_vector b p); cbn [bind]; [f_equal; ring|reflexivity]].
Qed.

Lemma domain_periods ls ls' : Forall2 (repeated_layer K) ls ls' -> domain_form s ls' u' t = domain_form s ls u (gather K (s_dim s) t).
Proof.
  intros F. induction F as [|l l' ls ls' [Rb Vb] F IH]; [reflexivity|]. cbn [domain_form]. rewrite IH, Rb.
  rewrite (unroll_scaled (s_rule l) (fun x => sponge_residual s (s_target l x) (s_function l x) (uU u x)) (fun x => sponge_residual s (s_target l' x) (s_function l' x) (uU u' x)) (fun _ => 1) (fun _ => 1)
    (tV (gather K (s_dim s) t)) (tV t) (fun x => let* v := sponge_residual s (s_target l x) (s_function l x) (uU u x) in Ok (inner v (tV (gather K (s_dim s) t) x))));
    [reflexivity|intros x j; rewrite (proj1 (Vb x j)), (proj2 (Vb x j)), (proj1 (Up x j)); reflexivity|reflexivity|apply gather_V
    |intros p; destruct (sponge_residual s (s_target l' p) (s_function l' p) (uU u' p)); cbn [bind]; [f_equal; ring|reflexivity]|intros p; destruct (sponge_residual s (s_target l p) (s_function l p) (uU u p)); cbn [bind]; [f_equal; ring|reflexivity]].
Qed.

Lemma time_periods sc sc' : repeated_scheme K sc sc' -> time_form sc' (unroll K (r_time r)) u' t = time_form sc (r_time r) u (gather K (s_dim s) t).
Proof.
  intros Ps. unfold time_form.
  apply (unroll_scaled (r_time r) (fun x => Ok (time_derivative sc (uU u x) x)) (fun x => Ok (time_derivative sc' (uU u' x) x)) (fun _ => 1) (fun _ => 1)
    (tV (gather K (s_dim s) t)) (tV t)).
  - intros x j. rewrite (proj1 (Up x j)). destruct sc as [dt n|dt n nm1], sc' as [dt' n'|dt' n' nm1']; cbn in Ps; try contradiction; destruct Ps as [-> Ps]; cbn [time_derivative].
    + rewrite Ps. reflexivity.
    + rewrite (proj1 (Ps x j)), (proj2 (Ps x j)). reflexivity.
  - reflexivity.
  - apply gather_V.
  - intros p. cbn [bind]. f_equal. ring.
  - intros p. cbn [bind]. f_equal. ring.
Qed.
End Periods.

(** The form over all periods is the form over one, with the test function gathered from all of them. *)
Theorem c89_form : forall s K m m' r u u' bs bs' ls ls' sc sc' t, periods_ok K -> unrolled K m m' -> repeated_flow K u u' ->
  Forall2 (repeated_term K) bs bs' -> Forall2 (repeated_layer K) ls ls' -> repeated_scheme K sc sc' -> well_formed (s_dim s) t ->
  weak_form s m' (unroll_rules K r) bs' ls' sc' u' t = weak_form s m r bs ls sc u (gather K (s_dim s) t).
Proof.
  intros s K m m' r u u' bs bs' ls ls' sc sc' t [N _] M U Fb Fl Ps Wf. unfold weak_form. cbn [unroll_rules r_cvol r_cbnd r_dvol r_dbnd r_time].
  rewrite (convection_periods s K m m' r u u' N M U t Wf), (diffusion_periods s K m m' r u u' N M U t Wf), (boundary_periods s K N t Wf bs bs' Fb),
    (domain_periods s K u u' N U t Wf ls ls' Fl), (time_periods s K r u u' N U t Wf sc sc' Ps). reflexivity.
Qed.
Print Assumptions c89_form.

(** ** Spaces of test functions *)

Lemma over_copies_const K a : over_copies K (fun _ => a) = INR (copies K) * a.
Proof.
  assert (A : forall l : list nat, fold_right (fun (_ : nat) b => a + b) 0 l = INR (length l) * a).
  { intros l. induction l as [|j l IH]; [cbn; ring|]. cbn [fold_right length]. rewrite IH, S_INR. ring. }
  unfold over_copies. rewrite A, seq_length. reflexivity.
Qed.

Lemma nth_scaled c l k : nth k (map (Rmult c) l) 0 = c * nth k l 0.
Proof. revert k. induction l as [|a l IH]; intros [|k]; cbn; try ring. apply IH. Qed.

Lemma share K (l : list R) d : periods_ok K -> length l = d -> map (fun k => over_copies K (fun _ => nth k (map (Rmult (/ INR (copies K))) l) 0)) (seq 0 d) = l.
Proof.
  intros [N _] L. transitivity (map (fun k => nth k l 0) (seq 0 d)); [|apply entries_again, L]. apply map_ext. intros k. rewrite over_copies_const, nth_scaled.
  rewrite <- Rmult_assoc, Rinv_r; [ring|]. apply not_0_INR. lia.
Qed.

Lemma gather_spread K d t : periods_ok K -> well_formed d t -> gather K d (spread K t) = t.
Proof.
  intros H Wf. destruct t as [V dV Vh]. unfold gather, spread. cbn [tV tdV tVhat entries]. f_equal; apply functional_extensionality; intros x; destruct (Wf x) as (L1 & L2 & L3 & L4 & L5); cbn [tV tdV tVhat] in *.
  - etransitivity; [|apply (share K (V x) (d + 2) H L1)]. apply map_ext. intros k. unfold over_copies. f_equal. apply functional_extensionality. intros j. rewrite (proj2 H). reflexivity.
  - destruct (dV x) as [rw cl e] eqn:E. cbn [rows cols entries] in *. subst rw cl. f_equal. etransitivity; [|apply (share K e ((d + 2) * d) H L5)]. apply map_ext. intros k. unfold over_copies. f_equal. apply functional_extensionality. intros j. rewrite (proj2 H), E. reflexivity.
  - etransitivity; [|apply (share K (Vh x) (d + 2) H L2)]. apply map_ext. intros k. unfold over_copies. f_equal. apply functional_extensionality. intros j. rewrite (proj2 H). reflexivity.
Qed.

Lemma spread_formed K d t : well_formed d t -> well_formed d (spread K t).
Proof. intros Wf p. destruct (Wf (below K p)) as (L1 & L2 & L3 & L4 & L5). unfold spread. cbn. rewrite !map_length. repeat split; assumption. Qed.

Lemma gather_formed K d t : well_formed d (gather K d t).
Proof. intros x. unfold gather. cbn. rewrite !map_length, !seq_length. repeat split. Qed.

Lemma copies_permuted K (f : nat -> R) p : Permutation (map p (seq 0 (copies K))) (seq 0 (copies K)) -> over_copies K (fun j => f (p j)) = over_copies K f.
Proof.
  unfold over_copies. intros P. transitivity (fold_right (fun j a => f j + a) 0 (map p (seq 0 (copies K)))).
  - generalize (seq 0 (copies K)). intros l. induction l as [|j l IH]; [reflexivity|]. cbn. rewrite IH. reflexivity.
  - revert P. generalize (map p (seq 0 (copies K))) (seq 0 (copies K)). intros k k' P. induction P as [|x l l' _ IH|x y l|l l' l2 _ IH1 _ IH2]; cbn; [reflexivity|rewrite IH; reflexivity|ring|rewrite IH1; exact IH2].
Qed.

(** Facet functions with one value per facet of all copies gather to functions with one value per facet of the domain, where
    periodic boundaries are identified; the functions of the domain spread to functions of all copies that gather to them. *)
Theorem c89_spaces : forall K twin twin' d t, periods_ok K -> glued K twin twin' ->
  (single_valued twin' t -> well_formed d (gather K d t) /\ single_valued twin (gather K d t)) /\
  (well_formed d t -> single_valued twin t -> well_formed d (spread K t) /\ single_valued twin' (spread K t) /\ gather K d (spread K t) = t).
Proof.
  intros K twin twin' d t H [B (next & G)]. split.
  - intros Sv. split; [apply gather_formed|]. intros y. unfold gather. cbn [tVhat]. apply map_ext. intros k. destruct (G y) as [T P].
    rewrite <- (copies_permuted K (fun j => nth k (tVhat t (at_copy K (twin y) j)) 0) (next y) P). unfold over_copies.
    assert (A : forall l, (forall j, In j l -> (j < copies K)%nat) ->
      fold_right (fun j a => nth k (tVhat t (at_copy K (twin y) (next y j))) 0 + a) 0 l = fold_right (fun j a => nth k (tVhat t (at_copy K y j)) 0 + a) 0 l).
    { intros l Hl. induction l as [|j l IH]; [reflexivity|]. cbn [fold_right]. rewrite IH by (intros j' I; apply Hl; right; exact I). rewrite <- T by (apply Hl; left; reflexivity). rewrite Sv. reflexivity. }
    apply A. intros j I. apply in_seq in I. lia.
  - intros Wf Sv. split; [apply spread_formed, Wf|]. split; [|apply gather_spread; assumption].
    intros p. unfold spread. cbn [tVhat]. rewrite B, Sv. reflexivity.
Qed.
Print Assumptions c89_spaces.

(** The flow solves a time step of the periodic problem exactly if its repetition solves that of several periods. *)
Theorem c89_solves : forall s K m m' r u u' bs bs' ls ls' sc sc' (W W' : test -> Prop), periods_ok K -> unrolled K m m' -> repeated_flow K u u' ->
  Forall2 (repeated_term K) bs bs' -> Forall2 (repeated_layer K) ls ls' -> repeated_scheme K sc sc' ->
  (forall t, W' t -> well_formed (s_dim s) t /\ W (gather K (s_dim s) t)) -> (forall t, W t -> well_formed (s_dim s) t /\ W' (spread K t)) ->
  (solves s m r bs ls sc W u <-> solves s m' (unroll_rules K r) bs' ls' sc' W' u').
Proof.
  intros s K m m' r u u' bs bs' ls ls' sc sc' W W' H M U Fb Fl Ps H1 H2. split; intros S t Wt.
  - destruct (H1 t Wt) as [Wf Wg]. rewrite (c89_form s K m m' r u u' bs bs' ls ls' sc sc' t H M U Fb Fl Ps Wf). apply S, Wg.
  - destruct (H2 t Wt) as [Wf Wg]. rewrite <- (gather_spread K (s_dim s) t H Wf).
    rewrite <- (c89_form s K m m' r u u' bs bs' ls ls' sc sc' (spread K t) H M U Fb Fl Ps (spread_formed K _ t Wf)). apply S, Wg.
Qed.
Print Assumptions c89_solves.

(** ** The mixed unknown *)

Lemma bind_inv {A B} (x : result A) (f : A -> result B) b : bind x f = Ok b -> exists a, x = Ok a /\ f a = Ok b.
Proof. destruct x as [a|e]; cbn; intros H; [exists a; split; [reflexivity|exact H]|discriminate]. Qed.

Lemma integral_sum_copies K q f (b : nat -> R) : (forall j, (j < copies K)%nat -> integral q (fun x => f (at_copy K x j)) = Ok (b j)) ->
  integral (unroll K q) f = Ok (over_copies K b).
Proof.
  unfold unroll. revert b. induction q as [|[w x] q IH]; intros b H.
  - cbn [map concat integral] in *. f_equal. unfold over_copies. symmetry.
    assert (A : forall l, (forall j, In j l -> (j < copies K)%nat) -> fold_right (fun j a => b j + a) 0 l = 0).
    { intros l Hl. induction l as [|j l IH]; [reflexivity|]. cbn [fold_right]. rewrite IH by (intros j' I; apply Hl; right; exact I). specialize (H j (Hl j (or_introl eq_refl))). injection H as <-. ring. }
    apply A. intros j I. apply in_seq in I. lia.
  - cbn [map concat fst snd]. rewrite integral_append.
    set (g := fun j => match f (at_copy K x j) with Ok v => v | Err _ => 0 end). set (c := fun j => match integral q (fun x => f (at_copy K x j)) with Ok v => v | Err _ => 0 end).
    assert (E : forall j, (j < copies K)%nat -> f (at_copy K x j) = Ok (g j) /\ integral q (fun x => f (at_copy K x j)) = Ok (c j) /\ b j = w * g j + c j).
    { intros j J. specialize (H j J). cbn [integral] in H. apply bind_inv in H. destruct H as (v & Hv & H). apply bind_inv in H. destruct H as (z & Hz & H). injection H as H.
      unfold g, c. rewrite Hv, Hz. repeat split. symmetry. exact H. }
    rewrite (IH c) by (intros j J; apply E, J).
    assert (A : forall l, (forall j, In j l -> (j < copies K)%nat) -> integral (map (fun j => (w, at_copy K x j)) l) f = Ok (fold_right (fun j a => b j - c j + a) 0 l)).
    { intros l Hl. induction l as [|j l IHl]; [reflexivity|]. cbn [map integral fold_right]. destruct (E j (Hl j (or_introl eq_refl))) as (-> & _ & ->). cbn [bind].
      rewrite IHl by (intros j' I; apply Hl; right; exact I). cbn [bind]. f_equal. ring. }
    rewrite A by (intros j I; apply in_seq in I; lia). cbn [bind]. f_equal. unfold over_copies. clear IH. induction (seq 0 (copies K)) as [|j l IHl]; cbn [fold_right]; [ring|]. rewrite <- IHl. ring.
Qed.

Lemma copies_add K f g : over_copies K (fun j => f j + g j) = over_copies K f + over_copies K g.
Proof. unfold over_copies. induction (seq 0 (copies K)) as [|j l IH]; cbn; [ring|]. rewrite IH. ring. Qed.
Lemma copies_minus K f g : over_copies K (fun j => f j - g j) = over_copies K f - over_copies K g.
Proof. unfold over_copies. induction (seq 0 (copies K)) as [|j l IH]; cbn; [ring|]. rewrite IH. ring. Qed.

(** The repeated mixed unknown is the strain rate and temperature gradient of the repeated flow: the defining form sums up
    over the copies. *)
Theorem c89_mixed : forall s K m m' dx vol bnd u u' Q Q' P (a : nat -> R), periods_ok K -> unrolled K m m' -> repeated_flow K u u' ->
  (forall x j, Q' (at_copy K x j) = Q x) ->
  (forall j, (j < copies K)%nat -> mixed_form s m dx vol bnd u Q (in_copy K j P) = Ok (a j)) ->
  mixed_form s m' (unroll K dx) (unroll K vol) (unroll K bnd) u' Q' P = Ok (over_copies K a).
Proof.
  intros s K m m' dx vol bnd u u' Q Q' P a H M U HQ F. unfold mixed_form in *. destruct (s_dim s =? 3)%nat.
  { exfalso. destruct H as [N _]. specialize (F 0%nat N). discriminate. }
  set (v := fun (q : rule) (f : nat -> nat -> result R) j => match integral q (f j) with Ok v => v | Err _ => 0 end).
  set (f1 := fun j x => let* q := mixed_parts s (Q x) in let* p := mixed_parts s (tP (in_copy K j P) x) in Ok (inner (entries (fst q)) (entries (fst p)))).
  set (f2 := fun j x => let* v := velocity_and_temperature s (uU u x) in Ok (inner (fst v) (div_dev_zeta (tdP (in_copy K j P) x)))).
  set (f3 := fun j y => let* v := velocity_and_temperature s (uUhat u y) in let* p := mixed_parts s (tP (in_copy K j P) y) in let* z := dev_zeta s (fst p) in Ok (inner (fst v) (mvmul z (normal m y)))).
  set (f4 := fun j x => let* q := mixed_parts s (Q x) in let* p := mixed_parts s (tP (in_copy K j P) x) in Ok (inner (snd q) (snd p))).
  set (f5 := fun j x => let* v := velocity_and_temperature s (uU u x) in Ok (snd v * div_xi (tdP (in_copy K j P) x))).
  set (f6 := fun j y => let* v := velocity_and_temperature s (uUhat u y) in let* p := mixed_parts s (tP (in_copy K j P) y) in Ok (inner (vscale (snd v) (normal m y)) (snd p))).
  assert (E : forall j, (j < copies K)%nat -> integral dx (f1 j) = Ok (v dx f1 j) /\ integral vol (f2 j) = Ok (v vol f2 j) /\ integral bnd (f3 j) = Ok (v bnd f3 j) /\
    integral dx (f4 j) = Ok (v dx f4 j) /\ integral vol (f5 j) = Ok (v vol f5 j) /\ integral bnd (f6 j) = Ok (v bnd f6 j) /\
    a j = v dx f1 j + v vol f2 j - v bnd f3 j + v dx f4 j + v vol f5 j - v bnd f6 j).
  { intros j J. specialize (F j J). change ((let* a := integral dx (f1 j) in let* b := integral vol (f2 j) in let* c := integral bnd (f3 j) in let* d := integral dx (f4 j) in let* e := integral vol (f5 j) in
      let* f := integral bnd (f6 j) in Ok (a + b - c + d + e - f)) = Ok (a j)) in F.
    unfold v. repeat (apply bind_inv in F; destruct F as (? & ?E & F)). rewrite E, E0, E1, E2, E3, E4. injection F as F. repeat split. symmetry. exact F. }
  rewrite (integral_sum_copies K dx _ (v dx f1)).
  2: { intros j J. rewrite <- (proj1 (E j J)). apply integral_ext. intros x. rewrite HQ. reflexivity. }
  rewrite (integral_sum_copies K vol _ (v vol f2)).
  2: { intros j J. rewrite <- (proj1 (proj2 (E j J))). apply integral_ext. intros x. rewrite (proj1 (U x j)). reflexivity. }
  rewrite (integral_sum_copies K bnd _ (v bnd f3)).
  2: { intros j J. rewrite <- (proj1 (proj2 (proj2 (E j J)))). apply integral_ext. intros x. rewrite (proj1 (proj2 (U x j))), (proj1 (M x j)). reflexivity. }
  rewrite (integral_sum_copies K dx _ (v dx f4)).
  2: { intros j J. rewrite <- (proj1 (proj2 (proj2 (proj2 (E j J))))). apply integral_ext. intros x. rewrite HQ. reflexivity. }
  rewrite (integral_sum_copies K vol _ (v vol f5)).
  2: { intros j J. rewrite <- (proj1 (proj2 (proj2 (proj2 (proj2 (E j J)))))). apply integral_ext. intros x. rewrite (proj1 (U x j)). reflexivity. }
  rewrite (integral_sum_copies K bnd _ (v bnd f6)).
  2: { intros j J. rewrite <- (proj1 (proj2 (proj2 (proj2 (proj2 (proj2 (E j J))))))). apply integral_ext. intros x. rewrite (proj1 (proj2 (U x j))), (proj1 (M x j)). reflexivity. }
  cbn [bind]. f_equal. rewrite <- !copies_add, <- copies_minus, <- !copies_add, <- copies_minus.
  assert (A : forall l, (forall j, In j l -> (j < copies K)%nat) -> fold_right (fun j b => v dx f1 j + v vol f2 j - v bnd f3 j + v dx f4 j + v vol f5 j - v bnd f6 j + b) 0 l = fold_right (fun j b => a j + b) 0 l).
  { intros l Hl. induction l as [|j l IH]; [reflexivity|]. cbn [fold_right]. rewrite IH by (intros j' I; apply Hl; right; exact I). rewrite <- (proj2 (proj2 (proj2 (proj2 (proj2 (proj2 (E j (Hl j (or_introl eq_refl))))))))). reflexivity. }
  unfold over_copies. apply A. intros j I. apply in_seq in I. lia.
Qed.
Print Assumptions c89_mixed.

Theorem c89_gradient : forall K m m' dx bnd u u' Q Q' P (a : nat -> R), unrolled K m m' -> repeated_flow K u u' ->
  (forall x j, Q' (at_copy K x j) = Q x) ->
  (forall j, (j < copies K)%nat -> gradient_form m dx bnd u Q (gradient_in_copy K j P) = Ok (a j)) ->
  gradient_form m' (unroll K dx) (unroll K bnd) u' Q' P = Ok (over_copies K a).
Proof.
  intros K m m' dx bnd u u' Q Q' P a M U HQ F. unfold gradient_form in *.
  set (v := fun (q : rule) (f : nat -> nat -> result R) j => match integral q (f j) with Ok v => v | Err _ => 0 end).
  set (f1 := fun j x => Ok (inner (entries (Q x)) (entries (tG (gradient_in_copy K j P) x)))).
  set (f2 := fun j x => Ok (inner (uU u x) (tdivG (gradient_in_copy K j P) x))).
  set (f3 := fun j y => Ok (inner (uUhat u y) (mvmul (tG (gradient_in_copy K j P) y) (normal m y)))).
  assert (E : forall j, (j < copies K)%nat -> integral dx (f1 j) = Ok (v dx f1 j) /\ integral dx (f2 j) = Ok (v dx f2 j) /\ integral bnd (f3 j) = Ok (v bnd f3 j) /\
    a j = v dx f1 j + v dx f2 j - v bnd f3 j).
  { intros j J. specialize (F j J). change ((let* a := integral dx (f1 j) in let* b := integral dx (f2 j) in let* c := integral bnd (f3 j) in Ok (a + b - c)) = Ok (a j)) in F.
    unfold v. repeat (apply bind_inv in F; destruct F as (? & ?E & F)). rewrite E, E0, E1. injection F as F. repeat split. symmetry. exact F. }
  rewrite (integral_sum_copies K dx _ (v dx f1)).
  2: { intros j J. rewrite <- (proj1 (E j J)). apply integral_ext. intros x. rewrite HQ. reflexivity. }
  rewrite (integral_sum_copies K dx _ (v dx f2)).
  2: { intros j J. rewrite <- (proj1 (proj2 (E j J))). apply integral_ext. intros x. rewrite (proj1 (U x j)). reflexivity. }
  rewrite (integral_sum_copies K bnd _ (v bnd f3)).
  2: { intros j J. rewrite <- (proj1 (proj2 (proj2 (E j J)))). apply integral_ext. intros x. rewrite (proj1 (proj2 (U x j))), (proj1 (M x j)). reflexivity. }
  cbn [bind]. f_equal. rewrite <- copies_add, <- copies_minus.
  assert (A : forall l, (forall j, In j l -> (j < copies K)%nat) -> fold_right (fun j b => v dx f1 j + v dx f2 j - v bnd f3 j + b) 0 l = fold_right (fun j b => a j + b) 0 l).
  { intros l Hl. induction l as [|j l IH]; [reflexivity|]. cbn [fold_right]. rewrite IH by (intros j' I; apply Hl; right; exact I). rewrite <- (proj2 (proj2 (proj2 (E j (Hl j (or_introl eq_refl)))))). reflexivity. }
  unfold over_copies. apply A. intros j I. apply in_seq in I. lia.
Qed.
Print Assumptions c89_gradient.

(** ** Two periods of the ring with moving gas of C86: four cells *)

Definition two_periods : periods := mk_periods 2 (fun x j => 2 * x + j mod 2)%nat (fun p => p / 2)%nat.
(** The copy of a point; the facet 1 of the ring joins the copies. *)
Definition next_copy (y j : nat) : nat := match y with 4%nat | 5%nat => (1 - j)%nat | _ => j end.
Definition long_twin (p : nat) : nat := at_copy two_periods (ring_twin (p / 2)) (next_copy (p / 2) (p mod 2)).
Definition long_mesh : mesh :=
  mk_mesh (fun p => 2 * element ring_mesh (p / 2) + p mod 2)%nat
          (fun p => 2 * facet ring_mesh (p / 2) + (if (p / 2 =? 5)%nat then 1 - p mod 2 else p mod 2))%nat
          (fun p => normal ring_mesh (p / 2)) (fun _ => false).

Lemma two_ok : periods_ok two_periods.
Proof. split; [cbn; lia|]. intros x j. unfold two_periods. cbn [below at_copy]. symmetry. apply (Nat.div_unique _ 2 x (j mod 2)); [apply Nat.mod_upper_bound; lia|reflexivity]. Qed.

Lemma two_mod x j : (j < 2)%nat -> ((2 * x + j mod 2) mod 2 = j)%nat.
Proof. intros J. rewrite (Nat.mod_small j 2 J). symmetry. apply (Nat.mod_unique _ 2 x j J). reflexivity. Qed.

Example c89_example :
  let v := [1; 0] in let p := 15 / 14 in let rho x := if (element ring_mesh x =? 0)%nat then 2 else 1 in let old x := if (element ring_mesh x =? 0)%nat then 5 / 2 else 1 / 2 in
  let u := mk_unknowns (fun x => conservative_list (7 / 5) (parcel v p (rho x))) (fun _ => conservative_list (7 / 5) (parcel v p (3 / 2))) (fun _ => no_grads) in
  let u' := mk_unknowns (fun q => uU u (q / 2)%nat) (fun q => uUhat u (q / 2)%nat) (fun q => uQ u (q / 2)%nat) in
  let W t := well_formed 2 t /\ ring_tests (gather two_periods 2 t) in
  let sc := IE (1 / 4) (fun q => conservative_list (7 / 5) (parcel v p (old (q / 2)%nat))) in
  periods_ok two_periods /\ glued two_periods ring_twin long_twin /\ unrolled two_periods ring_mesh long_mesh /\
  element long_mesh 0 <> element long_mesh 1 /\ facet long_mesh 8 = facet long_mesh 11 /\ long_twin 8 = 11%nat /\
  (forall t, ring_tests t -> W (spread two_periods t) /\ single_valued long_twin (spread two_periods t)) /\
  solves air long_mesh (unroll_rules two_periods ring_rules) [] [] sc W u'.
Proof.
  cbv zeta. destruct c86_example as ((_ & _ & C) & _ & S). cbv zeta in S. cbn [levels air s_gamma] in S.
  set (u := mk_unknowns _ _ _) in S. fold u.
  assert (G : glued two_periods ring_twin long_twin).
  { split.
    - intros p. unfold long_twin. rewrite (proj2 two_ok). reflexivity.
    - exists next_copy. intros y. split.
      + intros j J. unfold long_twin. cbn [two_periods copies] in J. change (at_copy two_periods y j) with (2 * y + j mod 2)%nat.
        rewrite (two_mod y j J). pose proof (proj2 two_ok y j) as B. cbn [two_periods below at_copy] in B. rewrite B. reflexivity.
      + cbn [two_periods copies seq map]. unfold next_copy. destruct y as [|[|[|[|[|[|y]]]]]]; cbn; try apply Permutation_refl; apply perm_swap. }
  assert (M : unrolled two_periods ring_mesh long_mesh).
  { intros y j. split; [|reflexivity]. unfold long_mesh. cbn [normal]. pose proof (proj2 two_ok y j) as B. cbn [two_periods below] in B. rewrite B. reflexivity. }
  assert (Sp : forall t, ring_tests t -> well_formed 2 t /\ (well_formed 2 (spread two_periods t) /\ ring_tests (gather two_periods 2 (spread two_periods t))) /\ single_valued long_twin (spread two_periods t)).
  { intros t Wt. destruct (C t Wt) as (_ & Wf & Sv). destruct (proj2 (c89_spaces two_periods ring_twin long_twin 2 t two_ok G) Wf Sv) as (A & B & E). rewrite E. exact (conj Wf (conj (conj A Wt) B)). }
  assert (B2 : forall x j, (at_copy two_periods x j / 2 = x)%nat) by exact (proj2 two_ok).
  split; [exact two_ok|]. split; [exact G|]. split; [exact M|]. split; [cbn; discriminate|]. split; [reflexivity|]. split; [reflexivity|].
  split; [intros t Wt; split; apply Sp, Wt|].
  refine (proj1 (c89_solves air two_periods ring_mesh long_mesh ring_rules u _ [] [] [] [] _ _ ring_tests _ two_ok M _ _ _ _ _ _) S).
  - intros x j. cbn [uU uUhat uQ]. rewrite B2. repeat split.
  - constructor.
  - constructor.
  - split; [reflexivity|]. intros x j. cbv beta. rewrite B2. reflexivity.
  - intros t Wt. exact Wt.
  - intros t Wt. split; apply Sp, Wt.
Qed.
