(** C76: a restarted run continues the run it was restarted from. *)
From Coq Require Import String Ascii List Bool QArith Qreals Reals ZArith Arith Lia Lra.
From Flocq Require Import Core.Core IEEE754.BinarySingleNaN.
From Verif Require Import Base Dict M_Timer S_Timer L_Timer M_Run S_Run L_Run M_IO S_IO L_IO L_Store L_Load M_Scheme
  M_Float S_Float L_Float P_Float M_Restart S_Restart L_Restart L_Repr.
Import ListNotations.
Local Open Scope nat_scope.
Local Open Scope list_scope.

(** ** Loading *)
Section Loading.
Context {V : Type}.
Variable tl : list string.
Hypothesis K : known_scheme tl.

Lemma names_current : forall (g : dict V) v, map fst g = tl -> map fst (dset g "n+1"%string v) = tl.
Proof.
  intros g v E. destruct K as [-> | ->].
  - destruct g as [|[k1 a] [|[k2 b] [|]]]; try discriminate E. injection E as -> ->. reflexivity.
  - destruct g as [|[k1 a] [|[k2 b] [|[k3 c] [|]]]]; try discriminate E. injection E as -> -> ->. reflexivity.
Qed.

Lemma restored_names : forall (current : dict (option V)) (g : dict (dict V)), has_levels tl g ->
  let g' := map (fun vg => match dget current (fst vg) with
                           | Some (Some v) => (fst vg, dset (snd vg) "n+1"%string v)
                           | _ => vg
                           end) g in
  has_levels tl g' /\ same_variables g' g.
Proof.
  intros current g [N F]. cbv zeta. unfold has_levels, same_variables.
  match goal with |- (NoDup (map fst ?g') /\ _) /\ _ => assert (E : map fst g' = map fst g) end.
  { rewrite map_map. apply map_ext. intros [k x]. cbn [fst]. destruct (dget current k) as [[v|]|]; reflexivity. }
  split; [|exact E]. split; [exact (eq_ind_r (@NoDup string) N E)|].
  apply Forall_forall. intros y I. apply in_map_iff in I. destruct I as ([k x] & <- & I).
  rewrite Forall_forall in F. specialize (F _ I). cbn [fst snd] in *.
  destruct (dget current k) as [[v|]|]; cbn [snd]; [now apply names_current|exact F..].
Qed.

(** Both load calls, in either order, from files that hold the state [x]. *)
Lemma restore_both : forall repr fs fn t (x fresh : memory V),
  has_levels tl (levels x) -> has_levels tl (levels fresh) -> same_variables (levels fresh) (levels x) ->
  (forall template, same_names template (g_levels (visible x)) ->
     load_time_levels repr fs fn t template = Ok (g_levels (visible x))) ->
  load_routine repr fs fn (Some t) = Ok (g_gfu (visible x)) ->
  (let* m := restore_levels repr fs fn t fresh in restore_state repr fs fn t m) = Ok x /\
  (let* m := restore_state repr fs fn t fresh in restore_levels repr fs fn t m) = Ok x.
Proof.
  intros repr fs fn t x fresh Hx Hf Sv HL HS.
  assert (RL : forall m, has_levels tl (levels m) -> same_variables (levels m) (levels x) ->
     restore_levels repr fs fn t m = Ok (mk_memory (others m) (levels x))).
  { intros m Hm Sm. unfold restore_levels. rewrite HL by (apply (visible_same tl); assumption).
    cbn [bind]. rewrite all_parts_visible. reflexivity. }
  split.
  - rewrite (RL fresh Hf Sv). cbn [bind]. unfold restore_state. rewrite HS. cbn [bind visible g_gfu levels].
    rewrite (state_same tl K (levels x) Hx). destruct x; reflexivity.
  - unfold restore_state at 1. rewrite HS. cbn [bind visible g_gfu].
    match goal with |- restore_levels _ _ _ _ ?m = _ => rewrite (RL m) end; [destruct x; reflexivity|..]; cbn [levels].
    + apply restored_names. exact Hf.
    + destruct (restored_names (map (fun vg => (fst vg, dget (snd vg) "n+1"%string)) (levels x)) (levels fresh) Hf) as [_ E].
      unfold same_variables in *. exact (eq_trans E Sv).
Qed.
End Loading.

Lemma labels_length : forall ps, length (labels_of ps) = length ps.
Proof. intro ps. apply map_length. Qed.

Lemma divides_mod : forall r i, i mod r = 0 -> divides r i = true.
Proof. intros r i E. unfold divides. now apply Nat.eqb_eq. Qed.

(** However a run is killed after it saved the time point [i], loading the time
    levels and the state of that point, in either order, into a freshly built
    configuration gives back exactly what the run had in memory then. *)
Theorem c76_loaded : forall (V : Type) repr solve tl fn rate tlrate reassemble tm ps (m : memory V) states fs done i t x fresh,
  number_format repr -> known_scheme tl ->
  has_levels tl (levels m) -> march solve tl (map fst ps) m = Ok states ->
  distinct (labels_of ps) ->
  nth_error (labels_of ps) i = Some t -> nth_error states i = Some x ->
  i mod rate = 0 -> i mod tlrate = 0 ->
  killed_after (observe (gfu_handler repr fn rate tlrate) (visible m) (map visible states)
                  (until_saved reassemble (rational (ft_t tm)) (labels_of ps) i))
    done (run_files repr fn rate tlrate reassemble tm ps m states) ->
  has_levels tl (levels fresh) -> same_variables (levels fresh) (levels m) ->
  let files := write_all fs done in
  (let* m' := restore_levels repr files fn t fresh in restore_state repr files fn t m') = Ok x /\
  (let* m' := restore_state repr files fn t fresh in restore_levels repr files fn t m') = Ok x.
Proof.
  intros V repr solve tl fn r q re tm ps m states fs done i t x fresh RF K Hm M D Ht Hx Hr Hq Kd Hf Sf. cbv zeta.
  destruct (march_ok tl K solve (map fst ps) m Hm) as (l & El & Ll & Fl). rewrite M in El. injection El as <-.
  rewrite map_length in Ll. rewrite Forall_forall in Fl.
  destruct (Fl x (nth_error_In _ _ Hx)) as [Lx Sx].
  assert (N : labels_of ps <> []). { intro E. rewrite E in Ht. destruct i; discriminate Ht. }
  assert (L : length (labels_of ps) = length (map visible states)) by (rewrite labels_length, map_length; congruence).
  assert (I : i < length (labels_of ps)) by (apply nth_error_Some; rewrite Ht; discriminate).
  assert (Hv : nth_error (map visible states) i = Some (visible x)) by (rewrite nth_error_map, Hx; reflexivity).
  apply (restore_both tl K); [exact Lx|exact Hf|unfold same_variables in *; congruence| |].
  - intros template S. apply (killed_levels repr RF fn fs r q re (rational (ft_t tm)) (labels_of ps) (map visible states) (visible m) i t (visible x));
      try assumption; [|now apply divides_mod].
    apply Forall_forall. intros y I'. apply in_map_iff in I'. destruct I' as (y' & <- & I').
    apply (visible_proper tl K). apply (Fl y' I').
  - apply (killed_state repr RF fn fs r q re (rational (ft_t tm)) (labels_of ps) (map visible states) (visible m) i i);
      try assumption; [lia|now apply divides_mod].
Qed.
Print Assumptions c76_loaded.

(** ** Time points *)

Lemma literal_unique : forall p q x y, literal p x -> literal q y -> (p == q)%Q ->
  (/ 100000000000000000 <= Q2R p)%R -> x = y.
Proof.
  intros p q x y [Fx Ex] [Fy Ey] E P. apply Qeq_eqR in E.
  assert (B : (0 < round radix2 (FLT_exp (-1074) 53) ZnearestE (Q2R p))%R).
  { apply Rlt_le_trans with (bpow radix2 (-60)); [apply bpow_gt_0|].
    apply round_ge_generic; [apply FLT_exp_valid; reflexivity|apply valid_rnd_N| |].
    - apply generic_format_bpow. unfold FLT_exp. lia.
    - eapply Rle_trans; [|exact P].
      replace (bpow radix2 (-60)) with (/ 1152921504606846976)%R by (cbn; f_equal).
      lra. }
  apply (B2R_inj 53 1024).
  - destruct x; try discriminate Fx; try reflexivity. cbn [B2R] in Ex. lra.
  - destruct y; try discriminate Fy; try reflexivity. cbn [B2R] in Ey. rewrite <- E in Ey. lra.
  - rewrite Ex, Ey, E. reflexivity.
Qed.

Lemma decimal_large : forall d q, has_decimals d q -> d <= 16 -> (0 < q)%Q -> (/ 100000000000000000 <= Q2R q)%R.
Proof.
  intros d q [z Z1] D P. apply Qlt_Rlt in P. unfold Q2R at 1 in P. cbn in P.
  replace (0 * / 1)%R with 0%R in P by lra.
  apply Qeq_eqR in Z1. rewrite Q2R_mult, !Q2R_inject_Z in Z1.
  assert (T1 := ten_pos d). assert (T2 := ten_16 d D). unfold ten in *.
  assert (Z0 : (0 < IZR z)%R) by (rewrite <- Z1; apply Rmult_lt_0_compat; lra).
  apply lt_IZR in Z0. assert (1 <= IZR z)%R by (apply IZR_le; lia).
  assert (Q2R q * IZR (10 ^ Z.of_nat d) <= Q2R q * 10000000000000000)%R by (apply Rmult_le_compat_l; lra).
  lra.
Qed.

Lemma nth_map : forall {A B} (f : A -> B) l i y, nth_error (map f l) i = Some y ->
  exists x, nth_error l i = Some x /\ y = f x.
Proof.
  intros A B f l i y E. rewrite nth_error_map in E. destruct (nth_error l i) as [x|]; [|discriminate E].
  exists x. split; [reflexivity|]. cbn in E. congruence.
Qed.

Lemma climbing_distinct : forall ps, climbing (map snd ps) -> distinct (labels_of ps).
Proof.
  intros ps C i j x y Hi Hj E. unfold labels_of in *.
  apply nth_map in Hi. destruct Hi as (p & Ei & ->). apply nth_map in Hj. destruct Hj as (q & Ej & ->).
  apply Qeq_eqR in E. rewrite !rational_B2R in E.
  assert (X : forall k r, nth_error ps k = Some r -> nth_error (map snd ps) k = Some (snd r)).
  { intros k r H. rewrite nth_error_map, H. reflexivity. }
  destruct (Nat.lt_trichotomy i j) as [H|[H|H]]; [|exact H|].
  - exfalso. exact (Rlt_not_eq _ _ (C i j _ _ H (X _ _ Ei) (X _ _ Ej)) E).
  - exfalso. exact (Rlt_not_eq _ _ (C j i _ _ H (X _ _ Ej) (X _ _ Ei)) (eq_sym E)).
Qed.

Lemma decimal_points : forall a b h N d A B H t dg, decimal_run a b h N d A B H -> float_digit H = Ok dg ->
  exists l, timer_points (mk_ftimer (A, B) H t dg) = Ok l /\ length l = N /\
    (forall i p, nth_error l i = Some p -> literal (a + inject_Z (1 + Z.of_nat i) * h) (snd p)) /\
    climbing (map snd l).
Proof.
  intros a b h N d A B H t dg (La & Lb & Lh & A0 & H0 & N1 & Dh & D16 & Da & C & E & Bw) Dg.
  destruct (c74_labels (mk_ftimer (A, B) H t dg) false 1 N a b h d) as (l & El & Ll & Lit & Cl); try assumption; try reflexivity.
  - rewrite E. change (inject_Z 1) with 1%Q. ring.
  - exists l. split; [exact El|]. split; [exact Ll|]. split; [|exact Cl].
    intros i [u lab] I. apply (literal_comp (a + inject_Z (first_number false + Z.of_nat i) * (inject_Z 1 * h))).
    + unfold first_number. change (inject_Z 1) with 1%Q. ring.
    + exact (Lit i u lab I).
Qed.

Lemma nth_ext_eq : forall {A} (l l' : list A), length l = length l' ->
  (forall i x y, nth_error l i = Some x -> nth_error l' i = Some y -> x = y) -> l = l'.
Proof.
  induction l as [|a l IH]; intros [|b l'] L E; try discriminate L; [reflexivity|].
  rewrite (E 0 a b eq_refl eq_refl). f_equal. apply IH; [now injection L|]. intros i x y. exact (E (S i) x y).
Qed.

Lemma nth_error_skipn : forall {A} n (l : list A) i, nth_error (skipn n l) i = nth_error l (n + i).
Proof. induction n as [|n IH]; intros l i; [reflexivity|]. destruct l as [|a l]; [destruct i; reflexivity|]. apply IH. Qed.

Lemma point_positive : forall a h k, (0 <= a)%Q -> (0 < h)%Q -> (0 < a + inject_Z (1 + Z.of_nat k) * h)%Q.
Proof.
  intros a h k A0 H0. apply Qlt_le_trans with (0 + h)%Q; [now rewrite Qplus_0_l|].
  apply Qplus_le_compat; [exact A0|]. rewrite <- (Qmult_1_l h) at 1. apply Qmult_le_compat_r; [|now apply Qlt_le_weak].
  change 1%Q with (inject_Z 1). rewrite <- Zle_Qle. lia.
Qed.

(** The label of any time point but the last is accepted as the new start, and
    the labels of the restarted run are those the uninterrupted run has after
    that point: the same doubles. *)
Theorem c76_labels : forall a b b' h N N' d A B B' H t t' dg tmr i lab ps,
  decimal_run a b h N d A B H -> decimal_run a b' h N' d A B' H -> float_digit H = Ok dg ->
  ft_step tmr = H -> ft_digit tmr = dg ->
  timer_points (mk_ftimer (A, B) H t dg) = Ok ps ->
  nth_error (map snd ps) i = Some lab -> S i < N' ->
  exists tm' ps' ref,
    set_finterval tmr lab B' = Ok tm' /\ ft_t tm' = ft_t tmr /\ timer_points tm' = Ok ps' /\
    timer_points (mk_ftimer (A, B') H t' dg) = Ok ref /\
    length ref = N' /\ map snd ps' = skipn (S i) (map snd ref) /\
    firstn (S i) (map snd ps) = firstn (S i) (map snd ref) /\
    climbing (map snd ps) /\ climbing (map snd ref).
Proof.
  intros a b b' h N N' d A B B' H t t' dg tmr i lab ps R R' Dg Sr Gr P Hl I.
  destruct (decimal_points _ _ _ _ _ _ _ _ t dg R Dg) as (l & El & Ll & Lit & Cl). rewrite P in El. injection El as <-.
  destruct (decimal_points _ _ _ _ _ _ _ _ t' dg R' Dg) as (ref & Er & Lr & Litr & Clr).
  pose proof R as (La & Lb & Lh & A0 & H0 & N1 & Dh & D16 & Da & C & E & Bw).
  pose proof R' as (_ & Lb' & _ & _ & _ & _ & _ & _ & _ & _ & E' & Bw').
  apply nth_map in Hl. destruct Hl as (p & Ei & ->).
  pose proof (Lit i p Ei) as Ll1.
  set (c := (a + inject_Z (1 + Z.of_nat i) * h)%Q) in *.
  assert (C0 : (0 < c)%Q) by (now apply point_positive).
  assert (Dc : has_decimals d c).
  { destruct Dh as [Hd _]. apply has_decimals_plus; [exact Da|]. now apply has_decimals_scale. }
  assert (Dpt : forall k, has_decimals d (a + inject_Z (1 + Z.of_nat k) * h)%Q).
  { intro k. destruct Dh as [Hd _]. apply has_decimals_plus; [exact Da|]. now apply has_decimals_scale. }
  assert (Same : forall k u v, nth_error ps k = Some u -> nth_error ref k = Some v -> snd u = snd v).
  { intros k u v Hu Hv. eapply literal_unique; [exact (Lit k u Hu)|exact (Litr k v Hv)|reflexivity|].
    apply (decimal_large d); [apply Dpt|exact D16|now apply point_positive]. }
  destruct (nth_error ref i) as [pr|] eqn:Eri; [|apply nth_error_None in Eri; lia].
  destruct (nth_error ref (N' - 1)) as [pe|] eqn:Ere; [|apply nth_error_None in Ere; lia].
  assert (Lend : literal b' (snd pe)).
  { eapply literal_comp; [|exact (Litr _ _ Ere)]. replace (1 + Z.of_nat (N' - 1))%Z with (Z.of_nat N') by lia.
    rewrite <- E'. ring. }
  assert (Less : (B2R (snd p) < B2R B')%R).
  { assert (X : B2R B' = B2R (snd pe)) by (exact (eq_trans (proj2 Lb') (eq_sym (proj2 Lend)))).
    rewrite X, (Same i p pr Ei Eri). apply (Clr i (N' - 1)); [lia| |].
    - exact (map_nth_error snd i ref Eri).
    - exact (map_nth_error snd (N' - 1) ref Ere). }
  assert (Pos : (0 <= B2R (snd p))%R).
  { destruct Ll1 as [_ ->]. apply round_ge_generic; [apply FLT_exp_valid; reflexivity|apply valid_rnd_N|apply generic_format_0|].
    apply Qlt_le_weak, Qle_Rle in C0. unfold Q2R at 1 in C0. cbn in C0. lra. }
  assert (Acc : set_finterval tmr (snd p) B' = Ok (mk_ftimer (snd p, B') H (ft_t tmr) dg)).
  { unfold set_finterval. rewrite Bltb_correct, Bltb_correct, Bleb_correct; try reflexivity; try (apply Ll1); try (apply Lb').
    cbn [fzero B2R]. rewrite Rlt_bool_false by exact Pos. rewrite Rlt_bool_false by lra. rewrite Rle_bool_false by exact Less.
    cbn [orb]. now rewrite Sr, Gr. }
  assert (R2 : decimal_run c b' h (N' - S i) d (snd p) B' H).
  { assert (X : (b' - c == inject_Z (Z.of_nat (N' - S i)) * h)%Q).
    { assert (X : (b' - c == (b' - a) - inject_Z (1 + Z.of_nat i) * h)%Q) by (unfold c; ring).
      rewrite X, E'. replace (Z.of_nat N') with (Z.of_nat (N' - S i) + (1 + Z.of_nat i))%Z by lia.
      rewrite inject_Z_plus. ring. }
    assert (N2 : 1 <= N' - S i) by lia.
    exact (conj Ll1 (conj Lb' (conj Lh (conj (Qlt_le_weak _ _ C0) (conj H0 (conj N2 (conj Dh (conj D16
      (conj Dc (conj C (conj X Bw'))))))))))). }
  destruct (decimal_points _ _ _ _ _ _ _ _ (ft_t tmr) dg R2 Dg) as (ps' & Eps & Lps & Litp & Clp).
  exists (mk_ftimer (snd p, B') H (ft_t tmr) dg), ps', ref.
  split; [exact Acc|]. split; [reflexivity|]. split; [exact Eps|]. split; [exact Er|]. split; [exact Lr|].
  split; [|split; [|split; assumption]].
  - apply nth_ext_eq; [rewrite skipn_length, !map_length; lia|].
    intros k u v Hu Hv. rewrite nth_error_skipn in Hv.
    apply nth_map in Hu. destruct Hu as (pu & Eu & ->). apply nth_map in Hv. destruct Hv as (pv & Ev & ->).
    eapply literal_unique; [exact (Litp k pu Eu)|exact (Litr _ pv Ev)| |].
    + unfold c. replace (1 + Z.of_nat (S i + k))%Z with ((1 + Z.of_nat i) + (1 + Z.of_nat k))%Z by lia.
      rewrite !inject_Z_plus. ring.
    + apply (decimal_large d); [|exact D16|now apply point_positive; [apply Qlt_le_weak|]].
      destruct Dh as [Hd _]. apply has_decimals_plus; [exact Dc|]. now apply has_decimals_scale.
  - assert (Lps0 : i < length ps) by (apply nth_error_Some; rewrite Ei; discriminate).
    apply nth_ext_eq; [rewrite !firstn_length, !map_length; lia|].
    intros k u v Hu Hv.
    assert (Ki : k < S i). { assert (k < length (firstn (S i) (map snd ps))) by (apply nth_error_Some; rewrite Hu; discriminate). rewrite firstn_length in H1. lia. }
    assert (F : forall (q : list (double * double)), S i <= length q -> nth_error (firstn (S i) (map snd q)) k = nth_error (map snd q) k).
    { intros q Lq. rewrite <- (firstn_skipn (S i) (map snd q)) at 2. rewrite nth_error_app1; [reflexivity|].
      rewrite firstn_length, map_length. lia. }
    rewrite F in Hu by lia. rewrite F in Hv by lia. 
    apply nth_map in Hu. destruct Hu as (pu & Eu & ->). apply nth_map in Hv. destruct Hv as (pv & Ev & ->).
    exact (Same k pu pv Eu Ev).
Qed.
Print Assumptions c76_labels.

(** ** Continuing *)

Lemma last_firstn : forall {A} i (l : list A) x d, nth_error l i = Some x -> last (firstn (S i) l) d = x.
Proof.
  induction i as [|i IH]; intros [|a l] x d E; try discriminate E.
  - injection E as ->. reflexivity.
  - change (last (a :: firstn (S i) l) d = x). pose proof (IH l x d E) as H.
    destruct l as [|b l]; [destruct i; discriminate E|]. exact H.
Qed.

(** Up to a common point two runs from one state agree, and what follows only
    depends on the state there. *)
Lemma continue : forall (V : Type) solve tl ts ts' ts'' (m : memory V) l l'' i x, timeless solve ->
  march solve tl ts m = Ok l -> march solve tl ts'' m = Ok l'' ->
  nth_error l i = Some x -> S i <= length ts'' -> length ts' = length ts'' - S i ->
  firstn (S i) l = firstn (S i) l'' /\ march solve tl ts' x = Ok (skipn (S i) l'').
Proof.
  intros V solve tl ts ts' ts'' m l l'' i x T M M'' Hx I L.
  assert (Il : i < length l) by (apply nth_error_Some; rewrite Hx; discriminate).
  assert (It : S i <= length ts) by (rewrite (march_length _ _ _ _ _ M) in Il; lia).
  destruct (march_firstn tl solve (S i) ts m l M It) as [M1 _].
  destruct (march_firstn tl solve (S i) ts'' m l'' M'' I) as [M2 M3].
  assert (E : firstn (S i) l = firstn (S i) l'').
  { rewrite (march_timeless tl solve T (firstn (S i) ts) (firstn (S i) ts'')) in M1 by (rewrite !firstn_length; lia).
    rewrite M2 in M1. congruence. }
  split; [exact E|]. rewrite <- E, (last_firstn i l x m Hx) in M3.
  rewrite (march_timeless tl solve T ts' (skipn (S i) ts'')) by (rewrite skipn_length; lia). exact M3.
Qed.

(** A run from [a] to [b] is killed at any moment after it saved the time point
    [i].  A fresh configuration that loads that time point and runs on to [b']
    goes through the labels and the states of a run from [a] to [b'] that was
    never interrupted. *)
Theorem c76_restart : forall (V : Type) repr solve tl fn rate tlrate reassemble
    a b b' h N N' d A B B' H t t' dg ps (m : memory V) states fs done i lab fresh tmr,
  number_format repr -> known_scheme tl -> timeless solve ->
  decimal_run a b h N d A B H -> decimal_run a b' h N' d A B' H -> float_digit H = Ok dg ->
  has_levels tl (levels m) ->
  timer_points (mk_ftimer (A, B) H t dg) = Ok ps -> march solve tl (map fst ps) m = Ok states ->
  i mod rate = 0 -> i mod tlrate = 0 -> nth_error (map snd ps) i = Some lab -> S i < N' ->
  killed_after (observe (gfu_handler repr fn rate tlrate) (visible m) (map visible states)
                  (until_saved reassemble (rational t) (labels_of ps) i))
    done (run_files repr fn rate tlrate reassemble (mk_ftimer (A, B) H t dg) ps m states) ->
  has_levels tl (levels fresh) -> same_variables (levels fresh) (levels m) ->
  ft_step tmr = H -> ft_digit tmr = dg ->
  exists x tm' ps' ref ref_states,
    (let* m' := restore_levels repr (write_all fs done) fn (rational lab) fresh in
     restore_state repr (write_all fs done) fn (rational lab) m') = Ok x /\
    set_finterval tmr lab B' = Ok tm' /\ timer_points tm' = Ok ps' /\
    timer_points (mk_ftimer (A, B') H t' dg) = Ok ref /\
    march solve tl (map fst ref) m = Ok ref_states /\ length ref_states = N' /\
    map snd ps' = skipn (S i) (map snd ref) /\
    march solve tl (map fst ps') x = Ok (skipn (S i) ref_states).
Proof.
  intros V repr solve tl fn r q re a b b' h N N' d A B B' H t t' dg ps m states fs done i lab fresh tmr
    RF K T R R' Dg Hm P M Hr Hq Hl I Kd Hf Sf Sr Gr.
  destruct (c76_labels a b b' h N N' d A B B' H t t' dg tmr i lab ps R R' Dg Sr Gr P Hl I)
    as (tm' & ps' & ref & Acc & _ & Eps & Er & Lr & Esk & Efi & Cl & Clr).
  destruct (march_ok tl K solve (map fst ref) m Hm) as (rs & Ers & Lrs & _).
  assert (Lst : length states = length ps) by (rewrite (march_length _ _ _ _ _ M); apply map_length).
  assert (Ip : i < length ps).
  { apply nth_map in Hl. destruct Hl as (p & Ei & _). apply nth_error_Some. rewrite Ei. discriminate. }
  destruct (nth_error states i) as [x|] eqn:Hx; [|apply nth_error_None in Hx; lia].
  assert (Lps : length ps' = length ref - S i).
  { rewrite <- (map_length snd ps'), Esk, skipn_length, map_length. reflexivity. }
  destruct (continue V solve tl (map fst ps) (map fst ps') (map fst ref) m states rs i x T M Ers Hx) as [_ Cont];
    [rewrite map_length; lia|rewrite !map_length; exact Lps|].
  exists x, tm', ps', ref, rs.
  split.
  - assert (Ht : nth_error (labels_of ps) i = Some (rational lab)).
    { apply nth_map in Hl. destruct Hl as (p & Ei & ->). unfold labels_of. rewrite nth_error_map, Ei. reflexivity. }
    exact (proj1 (c76_loaded V repr solve tl fn r q re (mk_ftimer (A, B) H t dg) ps m states fs done i (rational lab) x fresh
      RF K Hm M (climbing_distinct ps Cl) Ht Hx Hr Hq Kd Hf Sf)).
  - repeat (split; [assumption|]). split; [rewrite Lrs, map_length; exact Lr|]. split; assumption.
Qed.
Print Assumptions c76_restart.

(** ** What the files hold afterwards *)

Lemma labels_app : forall ps ps' ref i, map snd ps' = skipn (S i) (map snd ref) ->
  firstn (S i) (map snd ps) = firstn (S i) (map snd ref) ->
  labels_of ps' = skipn (S i) (labels_of ref) /\ firstn (S i) (labels_of ps) = firstn (S i) (labels_of ref).
Proof.
  intros ps ps' ref i E1 E2.
  assert (X : forall l, labels_of l = map rational (map snd l)) by (intro l; unfold labels_of; now rewrite map_map).
  rewrite !X, skipn_map. split; [exact (f_equal (map rational) E1)|].
  rewrite (firstn_map rational (S i) (map snd ps)), (firstn_map rational (S i) (map snd ref)). exact (f_equal (map rational) E2).
Qed.

(** With every time point saved, the files of the killed run and of the
    restarted run together replay the run that was never interrupted. *)
Theorem c76_replay : forall (V : Type) repr solve tl fn tlrate tlrate' reassemble reassemble'
    a b b' h N N' d A B B' H t t' dg ps (m : memory V) states fs done i lab fresh tmr,
  number_format repr -> known_scheme tl -> timeless solve ->
  decimal_run a b h N d A B H -> decimal_run a b' h N' d A B' H -> float_digit H = Ok dg ->
  has_levels tl (levels m) ->
  timer_points (mk_ftimer (A, B) H t dg) = Ok ps -> march solve tl (map fst ps) m = Ok states ->
  i mod tlrate = 0 -> nth_error (map snd ps) i = Some lab -> S i < N' ->
  killed_after (observe (gfu_handler repr fn 1 tlrate) (visible m) (map visible states)
                  (until_saved reassemble (rational t) (labels_of ps) i))
    done (run_files repr fn 1 tlrate reassemble (mk_ftimer (A, B) H t dg) ps m states) ->
  has_levels tl (levels fresh) -> same_variables (levels fresh) (levels m) ->
  ft_step tmr = H -> ft_digit tmr = dg -> ft_t tmr = fzero ->
  exists x tm' ps' ref ref_states,
    (let* m' := restore_levels repr (write_all fs done) fn (rational lab) fresh in
     restore_state repr (write_all fs done) fn (rational lab) m') = Ok x /\
    set_finterval tmr lab B' = Ok tm' /\ timer_points tm' = Ok ps' /\
    timer_points (mk_ftimer (A, B') H t' dg) = Ok ref /\
    march solve tl (map fst ref) m = Ok ref_states /\ length ref_states = N' /\
    exists states', march solve tl (map fst ps') x = Ok states' /\
    load_transient repr
      (write_all (write_all fs done) (run_files repr fn 1 tlrate' reassemble' tm' ps' x states')) fn (labels_of ref)
    = (combine (labels_of ref) (map (fun y => g_gfu (visible y)) ref_states), None).
Proof.
  intros V repr solve tl fn q q' re re' a b b' h N N' d A B B' H t t' dg ps m states fs done i lab fresh tmr
    RF K T R R' Dg Hm P M Hq Hl I Kd Hf Sf Sr Gr Z.
  destruct (c76_labels a b b' h N N' d A B B' H t t' dg tmr i lab ps R R' Dg Sr Gr P Hl I)
    as (tm' & ps' & ref & Acc & Et & Eps & Er & Lr & Esk & Efi & Cl & Clr).
  destruct (march_ok tl K solve (map fst ref) m Hm) as (rs & Ers & Lrs & _).
  assert (Lst : length states = length ps) by (rewrite (march_length _ _ _ _ _ M); apply map_length).
  assert (Ip : i < length ps).
  { apply nth_map in Hl. destruct Hl as (p & Ei & _). apply nth_error_Some. rewrite Ei. discriminate. }
  destruct (nth_error states i) as [x|] eqn:Hx; [|apply nth_error_None in Hx; lia].
  assert (Lps : length ps' = length ref - S i).
  { rewrite <- (map_length snd ps'), Esk, skipn_length, map_length. reflexivity. }
  destruct (continue V solve tl (map fst ps) (map fst ps') (map fst ref) m states rs i x T M Ers Hx) as [Same Cont];
    [rewrite map_length; lia|rewrite !map_length; exact Lps|].
  assert (Ht : nth_error (labels_of ps) i = Some (rational lab)).
  { apply nth_map in Hl. destruct Hl as (p & Ei & ->). unfold labels_of. rewrite nth_error_map, Ei. reflexivity. }
  exists x, tm', ps', ref, rs.
  split; [exact (proj1 (c76_loaded V repr solve tl fn 1 q re (mk_ftimer (A, B) H t dg) ps m states fs done i (rational lab) x fresh
      RF K Hm M (climbing_distinct ps Cl) Ht Hx (Nat.mod_1_r i) Hq Kd Hf Sf))|].
  split; [exact Acc|]. split; [exact Eps|]. split; [exact Er|]. split; [exact Ers|].
  split; [rewrite Lrs, map_length; exact Lr|]. exists (skipn (S i) rs). split; [exact Cont|].
  destruct (labels_app ps ps' ref i Esk Efi) as [Ls Lf].
  pose proof (climbing_distinct ref Clr) as Dr.
  assert (Lrs' : length rs = length ref) by (rewrite Lrs; apply map_length).
  assert (N0 : labels_of ps' <> []).
  { intro E. apply (f_equal (@length Q)) in E. rewrite labels_length in E. cbn in E. lia. }
  assert (Len : length (labels_of ps') = length (map visible (skipn (S i) rs))).
  { rewrite labels_length, map_length, skipn_length. lia. }
  assert (Dps : distinct (labels_of ps')).
  { intros j k u v Hu Hv E. rewrite Ls, nth_error_skipn in Hu, Hv. pose proof (Dr _ _ _ _ Hu Hv E). lia. }
  rewrite <- (map_fst_combine (labels_of ref) (map (fun y => g_gfu (visible y)) rs)) at 1
    by (rewrite labels_length, map_length; lia).
  apply load_all. intros u v Iuv. apply In_nth_error in Iuv. destruct Iuv as [k Ek].
  apply combine_nth in Ek. destruct Ek as [Ek1 Ek2]. apply nth_map in Ek2. destruct Ek2 as (y & Ey & ->).
  assert (Kr : k < length rs) by (apply nth_error_Some; rewrite Ey; discriminate).
  unfold run_files. rewrite Et, Z.
  destruct (Nat.le_gt_cases k i) as [Ki|Ki].
  - rewrite untouched_state; try assumption.
    + apply (killed_state repr RF fn fs 1 q re (rational t) (labels_of ps) (map visible states) (visible m) i k u (visible y)).
      * intro E. rewrite E in Ht. destruct i; discriminate Ht.
      * rewrite labels_length, map_length. congruence.
      * apply (climbing_distinct ps Cl).
      * rewrite labels_length. exact Ip.
      * exact Ki.
      * exact Kd.
      * rewrite <- Ek1. rewrite <- (firstn_skipn (S i) (labels_of ps)), <- (firstn_skipn (S i) (labels_of ref)), Lf.
        rewrite !nth_error_app1; [reflexivity|..]; rewrite firstn_length, labels_length; lia.
      * rewrite nth_error_map.
        assert (Es : nth_error states k = Some y).
        { rewrite <- Ey, <- (firstn_skipn (S i) states), <- (firstn_skipn (S i) rs), Same.
          rewrite !nth_error_app1; [reflexivity|..]; rewrite firstn_length; lia. }
        rewrite Es. reflexivity.
      * unfold divides. rewrite Nat.mod_1_r. reflexivity.
    + intro E. apply Qeq_eqR in E. rewrite rational_B2R in E. cbn [fzero B2R] in E.
      apply nth_map in Ek1. destruct Ek1 as (pk & Epk & ->). rewrite rational_B2R in E.
      destruct (decimal_points _ _ _ _ _ _ _ _ t' dg R' Dg) as (ref' & Er' & _ & Litr & _).
      rewrite Er in Er'. injection Er' as <-.
      pose proof R' as (_ & _ & _ & A0 & H0 & _ & Dh & D16 & Da & _).
      assert (Lit0 := Litr k pk Epk). destruct (snd pk) as [s|s| |s mm ee Bd] eqn:Ep.
      * assert (X : snd pk = B754_zero (negb s)).
        { rewrite Ep. eapply literal_unique; [exact Lit0| |reflexivity|].
          - destruct Lit0 as [_ L0]. split; [reflexivity|]. exact L0.
          - apply (decimal_large d); [|exact D16|now apply point_positive].
            destruct Dh as [Hd _]. apply has_decimals_plus; [exact Da|]. now apply has_decimals_scale. }
        rewrite Ep in X. injection X as X. destruct s; discriminate X.
      * destruct Lit0 as [F _]. discriminate F.
      * destruct Lit0 as [F _]. discriminate F.
      * cbn [B2R] in E. symmetry in E. apply eq_0_F2R in E. destruct s; discriminate E.
    + apply Forall_forall. intros l Il E. apply In_nth_error in Il. destruct Il as [j Ej].
      rewrite Ls, nth_error_skipn in Ej. pose proof (Dr _ _ _ _ Ek1 Ej E). lia.
  - apply (saved_state repr RF fn _ 1 q' re' (rational fzero) (labels_of ps') (map visible (skipn (S i) rs)) (visible x) (k - S i));
      try assumption.
    + rewrite Ls, nth_error_skipn. replace (S i + (k - S i)) with k by lia. exact Ek1.
    + rewrite nth_error_map, nth_error_skipn. replace (S i + (k - S i)) with k by lia. rewrite Ey. reflexivity.
    + unfold due. rewrite Nat.mod_1_r. reflexivity.
Qed.
Print Assumptions c76_replay.

(** The file of the initial state does not survive: the first file a run writes
    is named after the value the clock has before the run, which is 0.0 in a
    fresh configuration, so that the restarted run replaces the state at 0.0
    by the state it was restarted from. *)
Theorem c76_initial_refuted : forall (V : Type) repr fn rate tlrate reassemble rate' tlrate' reassemble'
    tm ps (m : memory V) states i fs done tm' ps' x states',
  number_format repr ->
  ps <> [] -> length states = length ps -> i < length ps -> ps' <> [] -> length states' = length ps' ->
  ft_t tm = fzero -> ft_t tm' = fzero ->
  Forall (fun l => ~ (0 == l)%Q) (labels_of ps) -> Forall (fun l => ~ (0 == l)%Q) (labels_of ps') ->
  killed_after (observe (gfu_handler repr fn rate tlrate) (visible m) (map visible states)
                  (until_saved reassemble 0 (labels_of ps) i))
    done (run_files repr fn rate tlrate reassemble tm ps m states) ->
  load_routine repr (write_all fs done) fn (Some 0%Q) = Ok (g_gfu (visible m)) /\
  load_routine repr (write_all (write_all fs done) (run_files repr fn rate' tlrate' reassemble' tm' ps' x states'))
    fn (Some 0%Q) = Ok (g_gfu (visible x)).
Proof.
  intros V repr fn r q re r' q' re' tm ps m states i fs done tm' ps' x states' RF N L I N' L' Z Z' F F' Kd.
  assert (NL : forall l : list (double * double), l <> [] -> labels_of l <> []) by (intros [|? ?] E; [congruence|discriminate]).
  assert (LL : forall (l : list (double * double)) (s : list (memory V)), length s = length l -> length (labels_of l) = length (map visible s)).
  { intros l s E. rewrite labels_length, map_length. congruence. }
  split.
  - unfold run_files in Kd. rewrite Z in Kd.
    destruct (killed_writes repr fn r q re 0 (labels_of ps) (map visible states) (visible m) i done (NL _ N) (LL _ _ L)) as (rest & -> & Sub & _);
      [rewrite labels_length; exact I|exact Kd|].
    apply (first_state repr RF fn fs r q 0 (labels_of ps) (map visible states)); auto.
  - unfold run_files. rewrite Z'. change (rational fzero) with 0%Q. rewrite run_writes by auto.
    apply (first_state repr RF fn _ r' q' 0 (labels_of ps') (map visible states')); auto.
Qed.
Print Assumptions c76_initial_refuted.

(** With a rate above 1 the schedule does not continue: a time point the
    uninterrupted run saves is not saved by the restarted run. *)
Theorem c76_schedule_refuted : forall (V : Type) repr fn rate tlrate reassemble tm' ps' (x : memory V) states' fs i j t,
  number_format repr ->
  2 <= rate -> i mod rate = 0 -> (S i + j) mod rate = 0 ->
  length states' = length ps' -> distinct (labels_of ps') ->
  nth_error (labels_of ps') j = Some t -> S j < length ps' ->
  ~ (rational (ft_t tm') == t)%Q -> dget fs (state_name repr fn (Some t)) = None ->
  load_routine repr (write_all fs (run_files repr fn rate tlrate reassemble tm' ps' x states')) fn (Some t)
  = Err FileNotFoundError.
Proof.
  intros V repr fn r q re tm' ps' x states' fs i j t RF R2 Hi Hj L D Ht J T0 E.
  unfold run_files. apply (unsaved_state repr RF fn fs r q re _ (labels_of ps') (map visible states') (visible x) j); try assumption.
  - intro X. rewrite X in Ht. destruct j; discriminate Ht.
  - rewrite labels_length, map_length. congruence.
  - unfold due. rewrite labels_length. destruct (Nat.eqb_spec j (length ps' - 1)) as [Y|Y]; [lia|]. rewrite orb_false_r.
    apply Nat.eqb_neq. intro X.
    assert (Y1 : (S i + j) mod r = 1).
    { replace (S i + j) with (i + j + 1) by lia. rewrite Nat.add_mod by lia. rewrite (Nat.add_mod i j) by lia.
      rewrite Hi, X. cbn [Nat.add]. rewrite Nat.mod_0_l by lia. rewrite (Nat.mod_small 1) by lia. apply Nat.mod_small. lia. }
    lia.
Qed.
Print Assumptions c76_schedule_refuted.

(** The same for a run that came to its end: the last time point can be loaded
    if its counter was due for the time levels or was not due for the state. *)
Theorem c76_complete : forall (V : Type) repr solve tl fn rate tlrate reassemble tm ps (m : memory V) states fs t x fresh,
  number_format repr -> known_scheme tl ->
  has_levels tl (levels m) -> march solve tl (map fst ps) m = Ok states ->
  distinct (labels_of ps) ->
  nth_error (labels_of ps) (length ps - 1) = Some t -> nth_error states (length ps - 1) = Some x ->
  (length ps - 1) mod tlrate = 0 \/ (length ps - 1) mod rate <> 0 ->
  has_levels tl (levels fresh) -> same_variables (levels fresh) (levels m) ->
  let files := write_all fs (run_files repr fn rate tlrate reassemble tm ps m states) in
  (let* m' := restore_levels repr files fn t fresh in restore_state repr files fn t m') = Ok x /\
  (let* m' := restore_state repr files fn t fresh in restore_levels repr files fn t m') = Ok x.
Proof.
  intros V repr solve tl fn r q re tm ps m states fs t x fresh RF K Hm M D Ht Hx Hq Hf Sf. cbv zeta.
  destruct (march_ok tl K solve (map fst ps) m Hm) as (l & El & Ll & Fl). rewrite M in El. injection El as <-.
  rewrite map_length in Ll. rewrite Forall_forall in Fl.
  destruct (Fl x (nth_error_In _ _ Hx)) as [Lx Sx].
  assert (N : labels_of ps <> []). { intro E. rewrite E in Ht. destruct (length ps - 1); discriminate Ht. }
  assert (L : length (labels_of ps) = length (map visible states)) by (rewrite labels_length, map_length; congruence).
  assert (Hv : nth_error (map visible states) (length ps - 1) = Some (visible x)) by (rewrite nth_error_map, Hx; reflexivity).
  apply (restore_both tl K); [exact Lx|exact Hf|unfold same_variables in *; congruence| |].
  - intros template S. unfold run_files.
    apply (levels_after_run repr RF fn fs r q re (rational (ft_t tm)) (labels_of ps) (map visible states) (visible m) (length ps - 1) t (visible x));
      try assumption.
    + apply Forall_forall. intros y I'. apply in_map_iff in I'. destruct I' as (y' & <- & I').
      apply (visible_proper tl K). apply (Fl y' I').
    + destruct Hq as [Hq|Hq]; [left; now apply divides_mod|right]. split; [now rewrite labels_length|].
      unfold divides. now apply Nat.eqb_neq.
  - unfold run_files.
    apply (saved_state repr RF fn fs r q re (rational (ft_t tm)) (labels_of ps) (map visible states) (visible m) (length ps - 1) t (visible x));
      try assumption.
    unfold due. rewrite labels_length, Nat.eqb_refl. apply orb_true_r.
Qed.
Print Assumptions c76_complete.

(** ** The state file alone *)

Section Alone.
Context {V : Type}.

Lemma euler_pass : forall (g : dict (dict V)) sol g', has_levels euler_levels g ->
  transient_step euler_levels g sol = Ok g' ->
  Forall (fun y => exists c, snd y = [("n"%string, c); ("n+1"%string, c)]) g'.
Proof.
  intros g sol g' [_ F] E. unfold transient_step, scheme_update, solver_writes in E. revert g' E.
  induction F as [|[k y] g Y F IH]; intros g' E; [injection E as <-; constructor|].
  cbn [snd] in Y. destruct y as [|[k1 a] [|[k2 b] [|]]]; try discriminate Y. injection Y as -> ->.
  cbn [map for_variables fst snd] in E.
  change (update_levels euler_levels (dset [("n"%string, a); ("n+1"%string, b)] "n+1" (sol k)))
    with (Ok [("n"%string, sol k); ("n+1"%string, sol k)]) in E. cbn [bind] in E.
  destruct (for_variables _ _) as [r|e] eqn:Er in E; [|discriminate E]. cbn [bind] in E. injection E as <-.
  constructor; [exists (sol k); reflexivity|]. apply IH. exact Er.
Qed.

Lemma march_last_pass : forall solve tl ts (m : memory V) l x, known_scheme tl -> has_levels tl (levels m) ->
  march solve tl ts m = Ok l -> In x l -> exists g sol, has_levels tl g /\ transient_step tl g sol = Ok (levels x).
Proof.
  intros solve tl ts. induction ts as [|t ts IH]; intros m l x K H E I; [injection E as <-; destruct I|].
  cbn [march] in E. destruct (advance_ok tl K solve t m H) as (m' & Em & H1 & _). rewrite Em in E. cbn [bind] in E.
  destruct (march solve tl ts m') as [r|e] eqn:Er; [|discriminate E]. cbn [bind] in E. injection E as <-.
  destruct I as [<-|I]; [|exact (IH m' r x K H1 Er I)].
  unfold advance in Em. destruct (solve t m) as [rest sol]. exists (levels m), sol. split; [exact H|].
  destruct (transient_step tl (levels m) sol) as [g|e]; [|discriminate Em]. cbn [bind] in Em. injection Em as <-. reflexivity.
Qed.

(** The state components written into other levels. *)
Definition overwrite (current : dict (option V)) (g : dict (dict V)) : dict (dict V) :=
  map (fun vg => match dget current (fst vg) with
                 | Some (Some v) => (fst vg, dset (snd vg) "n+1"%string v)
                 | _ => vg
                 end) g.

Lemma lookup_current : forall (g : dict (dict V)) k y, NoDup (map fst g) -> In (k, y) g ->
  dget (map (fun vg => (fst vg, dget (snd vg) "n+1"%string)) g) k = Some (dget y "n+1"%string).
Proof. intros g k y N I. exact (dget_map_fst (fun vg : string * dict V => dget (snd vg) "n+1"%string) g k y N I). Qed.

Lemma euler_rebuilt : forall current (gx gf : dict (dict V)),
  Forall (fun y => exists c, snd y = [("n"%string, c); ("n+1"%string, c)]) gx ->
  Forall (fun y => map fst (snd y) = euler_levels) gf -> map fst gf = map fst gx ->
  (forall k y, In (k, y) gx -> dget current k = Some (dget y "n+1"%string)) ->
  scheme_set_initial (overwrite current gf) = Ok gx.
Proof.
  intros current gx gf Fx. revert gf. induction Fx as [|[k y] gx [c Y] Fx IH]; intros gf Ff E Look.
  - destruct gf; [reflexivity|discriminate E].
  - destruct gf as [|[k' z] gf]; [discriminate E|]. cbn [map fst] in E. injection E as -> E.
    apply Forall_cons_iff in Ff. destruct Ff as [Zn Ff]. cbn [snd] in Zn, Y. subst y.
    destruct z as [|[k1 u] [|[k2 w] [|]]]; try discriminate Zn. injection Zn as -> ->.
    unfold scheme_set_initial, overwrite in *. cbn [map fst snd].
    rewrite (Look k _ (or_introl eq_refl)). 
    change (dget [("n"%string, c); ("n+1"%string, c)] "n+1") with (Some c). cbn iota.
    cbn [for_variables].
    change (set_initial_levels (dset [("n"%string, u); ("n+1"%string, w)] "n+1" c))
      with (Ok [("n"%string, c); ("n+1"%string, c)]). cbn [bind].
    rewrite (IH gf Ff E) by (intros k0 y0 I0; apply Look; right; exact I0). reflexivity.
Qed.

Lemma bdf_rebuilt : forall current (gx gf : dict (dict V)),
  Forall (fun y => map fst (snd y) = bdf_levels) gx ->
  Forall (fun y => map fst (snd y) = bdf_levels) gf -> map fst gf = map fst gx ->
  (forall k y, In (k, y) gx -> dget current k = Some (dget y "n+1"%string)) ->
  scheme_set_initial (overwrite current gf) = Ok gx ->
  Forall (fun y => dget (snd y) "n-1"%string = dget (snd y) "n+1"%string) gx.
Proof.
  intros current gx gf Fx. revert gf. induction Fx as [|[k y] gx Y Fx IH]; intros gf Ff E Look R; [constructor|].
  destruct gf as [|[k' z] gf]; [discriminate E|]. cbn [map fst] in E. injection E as -> E.
  apply Forall_cons_iff in Ff. destruct Ff as [Zn Ff]. cbn [snd] in Zn, Y.
  destruct z as [|[k1 u1] [|[k2 u2] [|[k3 u3] [|]]]]; try discriminate Zn. injection Zn as -> -> ->.
  destruct y as [|[k1 c1] [|[k2 c2] [|[k3 c3] [|]]]]; try discriminate Y. injection Y as -> -> ->.
  unfold scheme_set_initial, overwrite in *. cbn [map fst snd] in R.
  rewrite (Look k _ (or_introl eq_refl)) in R.
  change (dget [("n-1"%string, c1); ("n"%string, c2); ("n+1"%string, c3)] "n+1") with (Some c3) in R. cbn iota in R.
  cbn [for_variables] in R.
  change (set_initial_levels (dset [("n-1"%string, u1); ("n"%string, u2); ("n+1"%string, u3)] "n+1" c3))
    with (Ok [("n-1"%string, c3); ("n"%string, c3); ("n+1"%string, c3)]) in R. cbn [bind] in R.
  destruct (for_variables _ _) as [r|e] eqn:Er in R; [|discriminate R]. cbn [bind] in R.
  injection R as R1 R2 R3. constructor; [cbn; congruence|].
  apply (IH gf Ff E); [intros k0 y0 I0; apply Look; right; exact I0|]. rewrite Er, R3. reflexivity.
Qed.
End Alone.

(** With implicit Euler the state file alone suffices: loading it and setting
    the old levels from it gives the whole memory back. *)
Theorem c76_euler_state : forall (V : Type) repr solve fn rate tlrate reassemble tm ps (m : memory V) states fs done i t x fresh,
  number_format repr ->
  has_levels euler_levels (levels m) -> march solve euler_levels (map fst ps) m = Ok states ->
  distinct (labels_of ps) ->
  nth_error (labels_of ps) i = Some t -> nth_error states i = Some x -> i mod rate = 0 ->
  killed_after (observe (gfu_handler repr fn rate tlrate) (visible m) (map visible states)
                  (until_saved reassemble (rational (ft_t tm)) (labels_of ps) i))
    done (run_files repr fn rate tlrate reassemble tm ps m states) ->
  has_levels euler_levels (levels fresh) -> same_variables (levels fresh) (levels m) ->
  (let* m' := restore_state repr (write_all fs done) fn t fresh in levels_from_state m') = Ok x.
Proof.
  intros V repr solve fn r q re tm ps m states fs done i t x fresh RF Hm M D Ht Hx Hr Kd [Nf Ff] Sf.
  assert (K : known_scheme euler_levels) by (left; reflexivity).
  destruct (march_ok _ K solve (map fst ps) m Hm) as (l & El & Ll & Fl). rewrite M in El. injection El as <-.
  rewrite map_length in Ll. rewrite Forall_forall in Fl.
  destruct (Fl x (nth_error_In _ _ Hx)) as [[Nx Fx] Sx].
  assert (N : labels_of ps <> []). { intro E. rewrite E in Ht. destruct i; discriminate Ht. }
  assert (L : length (labels_of ps) = length (map visible states)) by (rewrite labels_length, map_length; congruence).
  assert (I : i < length (labels_of ps)) by (apply nth_error_Some; rewrite Ht; discriminate).
  assert (Hv : nth_error (map visible states) i = Some (visible x)) by (rewrite nth_error_map, Hx; reflexivity).
  unfold restore_state.
  rewrite (killed_state repr RF fn fs r q re (rational (ft_t tm)) (labels_of ps) (map visible states) (visible m) i i t (visible x) done);
      try assumption; [|lia|now apply divides_mod].
  cbn [bind visible g_gfu]. unfold levels_from_state. cbn [levels others].
  destruct (march_last_pass solve euler_levels (map fst ps) m states x K Hm M (nth_error_In _ _ Hx)) as (g & sol & Hg & Eg).
  pose proof (euler_pass g sol (levels x) Hg Eg) as Px.
  pose proof (euler_rebuilt (map (fun vg => (fst vg, dget (snd vg) "n+1"%string)) (levels x)) (levels x) (levels fresh) Px Ff) as Y.
  unfold overwrite in Y. rewrite Y.
  - cbn [bind]. destruct x; reflexivity.
  - unfold same_variables in *. exact (eq_trans Sf (eq_sym Sx)).
  - intros k y. apply lookup_current. exact Nx.
Qed.
Print Assumptions c76_euler_state.

(** With BDF2 it does not, unless the last pass changed nothing. *)
Theorem c76_bdf2_state_refuted : forall (V : Type) repr solve fn rate tlrate reassemble tm ps (m : memory V) states fs done i t x fresh,
  number_format repr ->
  has_levels bdf_levels (levels m) -> march solve bdf_levels (map fst ps) m = Ok states ->
  distinct (labels_of ps) ->
  nth_error (labels_of ps) i = Some t -> nth_error states i = Some x -> i mod rate = 0 ->
  killed_after (observe (gfu_handler repr fn rate tlrate) (visible m) (map visible states)
                  (until_saved reassemble (rational (ft_t tm)) (labels_of ps) i))
    done (run_files repr fn rate tlrate reassemble tm ps m states) ->
  has_levels bdf_levels (levels fresh) -> same_variables (levels fresh) (levels m) ->
  (let* m' := restore_state repr (write_all fs done) fn t fresh in levels_from_state m') = Ok x ->
  Forall (fun y => dget (snd y) "n-1"%string = dget (snd y) "n+1"%string) (levels x).
Proof.
  intros V repr solve fn r q re tm ps m states fs done i t x fresh RF Hm M D Ht Hx Hr Kd [Nf Ff] Sf R.
  assert (K : known_scheme bdf_levels) by (right; reflexivity).
  destruct (march_ok _ K solve (map fst ps) m Hm) as (l & El & Ll & Fl). rewrite M in El. injection El as <-.
  rewrite map_length in Ll. rewrite Forall_forall in Fl.
  destruct (Fl x (nth_error_In _ _ Hx)) as [[Nx Fx] Sx].
  assert (N : labels_of ps <> []). { intro E. rewrite E in Ht. destruct i; discriminate Ht. }
  assert (L : length (labels_of ps) = length (map visible states)) by (rewrite labels_length, map_length; congruence).
  assert (I : i < length (labels_of ps)) by (apply nth_error_Some; rewrite Ht; discriminate).
  assert (Hv : nth_error (map visible states) i = Some (visible x)) by (rewrite nth_error_map, Hx; reflexivity).
  unfold restore_state in R.
  rewrite (killed_state repr RF fn fs r q re (rational (ft_t tm)) (labels_of ps) (map visible states) (visible m) i i t (visible x) done) in R;
      try assumption; [|lia|now apply divides_mod].
  cbn [bind visible g_gfu] in R. unfold levels_from_state in R. cbn [levels others] in R.
  apply (bdf_rebuilt (map (fun vg => (fst vg, dget (snd vg) "n+1"%string)) (levels x)) (levels x) (levels fresh) Fx Ff).
  - unfold same_variables in *. exact (eq_trans Sf (eq_sym Sx)).
  - intros k y. apply lookup_current. exact Nx.
  - unfold overwrite. destruct (scheme_set_initial _) as [g|e]; [|discriminate R]. cbn [bind] in R.
    apply (f_equal (fun z => match z with Ok y => levels y | Err _ => g end)) in R. cbn [levels] in R. rewrite R. reflexivity.
Qed.
Print Assumptions c76_bdf2_state_refuted.

(** Loading the state alone, without setting the old levels, keeps the old
    levels of the fresh configuration: it never gives the memory back unless
    these happen to be right. *)
Theorem c76_state_only_refuted : forall (V : Type) repr fs fn t (x fresh : memory V) level,
  level <> "n+1"%string ->
  restore_state repr fs fn t fresh = Ok x ->
  Forall2 (fun y z => fst y = fst z /\ dget (snd y) level = dget (snd z) level) (levels x) (levels fresh).
Proof.
  intros V repr fs fn t x fresh level Lv E. unfold restore_state in E.
  destruct (load_routine repr fs fn (Some t)) as [[rest current|v]|e]; cbn [bind] in E; try discriminate E.
  apply (f_equal (fun z => match z with Ok y => levels y | Err _ => [] end)) in E. cbn [levels] in E. rewrite <- E. clear E.
  induction (levels fresh) as [|[k y] g IH]; [constructor|]. cbn [map]. constructor; [|exact IH].
  cbn [fst snd]. destruct (dget current k) as [[v|]|]; cbn [fst snd]; split; try reflexivity.
  apply dget_dset_other. congruence.
Qed.
Print Assumptions c76_state_only_refuted.

(** ** The clock *)

(** Do two lists of floats hold different numbers somewhere? *)
Definition somewhere_different (l l' : list double) : bool :=
  existsb (fun p => negb (Qeq_bool (rational (fst p)) (rational (snd p)))) (combine l l').

Lemma somewhere_different_ok : forall l l', somewhere_different l l' = true -> l <> l'.
Proof.
  intros l l' E ->. unfold somewhere_different in E. apply existsb_exists in E. destruct E as ([u v] & I & E).
  assert (u = v) as ->.
  { clear E. induction l' as [|w l' IH]; [destruct I|]. destruct I as [I|I]; [congruence|now apply IH]. }
  cbn [fst snd] in E. rewrite (proj2 (Qeq_bool_iff _ _)) in E by reflexivity. discriminate E.
Qed.

(** 0.1 and so on: the doubles of decimal literals. *)
Definition dec (n : Z) (d : positive) : double := float_of_rational false (Qmake n d).

(** Runs from 0.0 in steps of 0.1. *)
Lemma tenths : forall n N, (1 <= n <= 100)%Z -> Z.of_nat N = n ->
  decimal_run 0 (n # 10) (1 # 10) N 1 (dec 0 1) (dec n 10) (dec 1 10).
Proof.
  intros n N Hn E.
  assert (L0 : literal 0 (dec 0 1)) by (apply small_literal; vm_compute; discriminate).
  assert (Lb : literal (n # 10) (dec n 10)).
  { apply small_literal. unfold Qabs.Qabs, Qle. cbn [Qnum Qden]. lia. }
  assert (Lh : literal (1 # 10) (dec 1 10)) by (apply small_literal; vm_compute; discriminate).
  assert (D : decimals_of 1 (1 # 10)).
  { split; [exists 1%Z; reflexivity|]. intros d' [z Z]. destruct d' as [|d']; [|lia]. exfalso. unfold Qeq in Z. cbn in Z. lia. }
  split; [exact L0|]. split; [exact Lb|]. split; [exact Lh|]. split; [discriminate|]. split; [reflexivity|].
  split; [lia|]. split; [exact D|]. split; [lia|]. split; [exists 0%Z; reflexivity|].
  split; [left; discriminate|]. split.
  - rewrite E. unfold Qeq. cbn. lia.
  - unfold Qle. cbn [Qnum Qden Qmult inject_Z]. change (10 ^ Z.of_nat 1)%Z with 10%Z. lia.
Qed.

(** The labels agree, the times the solver is given do not: from 0.0 to 1.0 in
    steps of 0.1, restarted at 0.3.  A solve that depends on the time is given
    other times. *)
Theorem c76_times_refuted : exists A B H t dg ref lab tm' ps',
  decimal_run 0 (10 # 10) (1 # 10) 10 1 A B H /\ float_digit H = Ok dg /\
  timer_points (mk_ftimer (A, B) H t dg) = Ok ref /\
  nth_error (map snd ref) 2 = Some lab /\
  set_finterval (mk_ftimer (A, B) H t dg) lab B = Ok tm' /\ timer_points tm' = Ok ps' /\
  map snd ps' = skipn 3 (map snd ref) /\
  map fst ps' <> skipn 3 (map fst ref).
Proof.
  pose proof (tenths 10 10 ltac:(lia) eq_refl) as R.
  assert (Dg : float_digit (dec 10 100) = Ok 1) by (vm_compute; reflexivity).
  set (tm := mk_ftimer (dec 0 1, dec 10 10) (dec 10 100) fzero 1).
  assert (Bool : match timer_points tm with
    | Ok ref => match nth_error (map snd ref) 2 with
        | Some lab => match set_finterval tm lab (dec 10 10) with
            | Ok tm' => match timer_points tm' with
                | Ok ps' => somewhere_different (map fst ps') (skipn 3 (map fst ref))
                | Err _ => false end
            | Err _ => false end
        | None => false end
    | Err _ => false end = true) by (vm_compute; reflexivity).
  destruct (decimal_points _ _ _ _ _ _ _ _ fzero 1 R Dg) as (ref & Er & Lr & _ & _). change (timer_points tm = Ok ref) in Er.
  rewrite Er in Bool. destruct (nth_error (map snd ref) 2) as [lab|] eqn:Hl; [|discriminate Bool].
  destruct (c76_labels 0 (10 # 10) (10 # 10) (1 # 10) 10 10 1 (dec 0 1) (dec 10 10) (dec 10 10) (dec 10 100) fzero fzero 1 tm 2 lab ref
    R R Dg eq_refl eq_refl Er Hl ltac:(lia)) as (tm' & ps' & ref' & Acc & _ & Eps & Er' & _ & Esk & _).
  change (timer_points tm = Ok ref') in Er'. rewrite Er in Er'. apply (f_equal (fun z => match z with Ok y => y | Err _ => ref end)) in Er'. subst ref'.
  rewrite Acc, Eps in Bool.
  exists (dec 0 1), (dec 10 10), (dec 10 100), fzero, 1, ref, lab, tm', ps'.
  split; [exact R|]. split; [exact Dg|]. split; [exact Er|]. split; [exact Hl|]. split; [exact Acc|].
  split; [exact Eps|]. split; [exact Esk|]. now apply somewhere_different_ok.
Qed.
Print Assumptions c76_times_refuted.

(** Continuing in the same process, the first file of the second run is not
    named after the last label of the first: from 0.0 to 0.3 in steps of 0.1
    the clock stops at 0.30000000000000004. *)
Theorem c76_rerun_name_refuted : exists A B H t dg ps,
  decimal_run 0 (3 # 10) (1 # 10) 3 1 A B H /\ float_digit H = Ok dg /\
  timer_points (mk_ftimer (A, B) H t dg) = Ok ps /\ ps <> [] /\
  (last (labels_of ps) 0 < rational (ft_t (timer_after (mk_ftimer (A, B) H t dg) ps)) < (31 # 100))%Q /\
  forall l, In l (labels_of ps) -> ~ (rational (ft_t (timer_after (mk_ftimer (A, B) H t dg) ps)) == l)%Q.
Proof.
  pose proof (tenths 3 3 ltac:(lia) eq_refl) as R.
  assert (Dg : float_digit (dec 1 10) = Ok 1) by (vm_compute; reflexivity).
  set (tm := mk_ftimer (dec 0 1, dec 3 10) (dec 1 10) fzero 1).
  assert (Bool : match timer_points tm with
    | Ok ps => negb (Qle_bool (rational (ft_t (timer_after tm ps))) (last (labels_of ps) 0%Q)) &&
        negb (Qle_bool (31 # 100) (rational (ft_t (timer_after tm ps)))) &&
        forallb (fun l => negb (Qeq_bool (rational (ft_t (timer_after tm ps))) l)) (labels_of ps)
    | Err _ => false end = true) by (vm_compute; reflexivity).
  destruct (decimal_points _ _ _ _ _ _ _ _ fzero 1 R Dg) as (ps & Er & Lr & _ & _). change (timer_points tm = Ok ps) in Er.
  rewrite Er in Bool.
  exists (dec 0 1), (dec 3 10), (dec 1 10), fzero, 1, ps.
  split; [exact R|]. split; [exact Dg|]. split; [exact Er|]. split; [intros ->; discriminate Lr|].
  apply andb_true_iff in Bool. destruct Bool as [Less Bool]. apply andb_true_iff in Less. destruct Less as [L1 L2].
  assert (Lt : forall u v, negb (Qle_bool u v) = true -> (v < u)%Q).
  { intros u v E. apply negb_true_iff in E. apply Qnot_le_lt. intro X. apply Qle_bool_iff in X. congruence. }
  split; [split; apply Lt; assumption|].
  intros l I E. change (rational (ft_t (timer_after tm ps)) == l)%Q in E. rewrite forallb_forall in Bool. specialize (Bool l I).
  rewrite (proj2 (Qeq_bool_iff _ _) E) in Bool. discriminate Bool.
Qed.
Print Assumptions c76_rerun_name_refuted.

(** ** A concrete case *)

(** A BDF2 run of one variable from 0.0 to 0.5, restarted at 0.3 and continued
    to 1.0; two time levels in a recurrence, and one component without time
    derivative. *)
Definition ex_solve (_ : double) (m : memory Z) : dict Z * (string -> Z) :=
  let old l := match dget (levels m) "U"%string with
               | Some g => match dget g l with Some v => v | None => 0%Z end
               | None => 0%Z end in
  ([("Q"%string, (old "n"%string - old "n-1"%string)%Z)], fun _ => (old "n"%string + old "n-1"%string)%Z).
Definition ex_memory (a b c : Z) : memory Z :=
  mk_memory [("Q"%string, 0%Z)] [("U"%string, [("n-1"%string, a); ("n"%string, b); ("n+1"%string, c)])].

Lemma ex_levels : forall a b c, has_levels bdf_levels (levels (ex_memory a b c)).
Proof. intros. split; [constructor; [intros []|constructor]|]. constructor; [reflexivity|constructor]. Qed.

Example c76_example : exists ps lab x tm' ps' ref,
  timer_points (mk_ftimer (dec 0 1, dec 5 10) (dec 1 10) fzero 1) = Ok ps /\
  nth_error (map snd ps) 2 = Some lab /\ literal (3 # 10) lab /\
  (let files := write_all [] (run_files unary "state"%string 1 2 true (mk_ftimer (dec 0 1, dec 5 10) (dec 1 10) fzero 1) ps
       (ex_memory 1 1 1) (map (fun p => mk_memory [("Q"%string, fst p)] (levels (ex_memory (fst (snd p)) (snd (snd p)) (snd (snd p)))))
         [(0, (1, 2)); (1, (2, 3)); (1, (3, 5)); (2, (5, 8)); (3, (8, 13))]%Z)) in
   let* m' := restore_levels unary files "state"%string (rational lab) (ex_memory 0 0 0) in
   restore_state unary files "state"%string (rational lab) m') = Ok x /\
  x = mk_memory [("Q"%string, 1%Z)] (levels (ex_memory 3 5 5)) /\
  set_finterval (mk_ftimer (dec 0 1, dec 1 1) (dec 1 10) fzero 1) lab (dec 10 10) = Ok tm' /\
  timer_points tm' = Ok ps' /\ length ps' = 7 /\
  timer_points (mk_ftimer (dec 0 1, dec 10 10) (dec 1 10) fzero 1) = Ok ref /\
  map snd ps' = skipn 3 (map snd ref) /\
  march ex_solve bdf_levels (map fst ps') x =
    match march ex_solve bdf_levels (map fst ref) (ex_memory 1 1 1) with Ok l => Ok (skipn 3 l) | Err e => Err e end.
Proof.
  assert (Dg : float_digit (dec 1 10) = Ok 1) by (vm_compute; reflexivity).
  pose proof (tenths 5 5 ltac:(lia) eq_refl) as R.
  pose proof (tenths 10 10 ltac:(lia) eq_refl) as R'.
  destruct (decimal_points _ _ _ _ _ _ _ _ fzero 1 R Dg) as (ps & Ep & Lp & Litp & _).
  destruct (nth_error ps 2) as [p|] eqn:E2; [|apply nth_error_None in E2; lia].
  set (states := map (fun p => mk_memory [("Q"%string, fst p)] (levels (ex_memory (fst (snd p)) (snd (snd p)) (snd (snd p)))))
         [(0, (1, 2)); (1, (2, 3)); (1, (3, 5)); (2, (5, 8)); (3, (8, 13))]%Z).
  assert (M : march ex_solve bdf_levels (map fst ps) (ex_memory 1 1 1) = Ok states).
  { destruct ps as [|p0 [|p1 [|p2 [|p3 [|p4 [|]]]]]]; try discriminate Lp. reflexivity. }
  assert (Hl : nth_error (map snd ps) 2 = Some (snd p)) by exact (map_nth_error snd 2 ps E2).
  assert (Kd : killed_after (observe (gfu_handler unary "state"%string 1 2) (visible (ex_memory 1 1 1)) (map visible states)
                  (until_saved true (rational fzero) (labels_of ps) 2))
    (run_files unary "state"%string 1 2 true (mk_ftimer (dec 0 1, dec 5 10) (dec 1 10) fzero 1) ps (ex_memory 1 1 1) states)
    (run_files unary "state"%string 1 2 true (mk_ftimer (dec 0 1, dec 5 10) (dec 1 10) fzero 1) ps (ex_memory 1 1 1) states)).
  { split; [|exists []; now rewrite app_nil_r].
    unfold run_files. cbn [ft_t]. rewrite safe_writes by (rewrite labels_length, ?map_length; lia || (rewrite Lp; reflexivity)).
    rewrite run_writes.
    - unfold later_writes. rewrite <- (firstn_skipn 3 (enumerate (combine (labels_of ps) (map visible states)))) at 2.
      rewrite L_IO.flat_map_app, <- !app_assoc. eexists. rewrite <- !app_assoc. reflexivity.
    - intro E. apply (f_equal (@length Q)) in E. rewrite labels_length, Lp in E. discriminate E.
    - rewrite labels_length, map_length, Lp. reflexivity. }
  destruct (c76_restart Z unary ex_solve bdf_levels "state"%string 1 2 true 0 (5 # 10) (10 # 10) (1 # 10) 5 10 1
    (dec 0 1) (dec 5 10) (dec 10 10) (dec 1 10) fzero fzero 1 ps (ex_memory 1 1 1) states [] _ 2 (snd p) (ex_memory 0 0 0)
    (mk_ftimer (dec 0 1, dec 1 1) (dec 1 10) fzero 1)
    unary_format (or_intror eq_refl) (fun _ _ _ => eq_refl) R R' Dg (ex_levels 1 1 1) Ep M eq_refl eq_refl Hl ltac:(lia) Kd
    (ex_levels 0 0 0) eq_refl eq_refl eq_refl)
    as (x & tm' & ps' & ref & rs & Ex & Acc & Eps & Er & Ers & Lrs & Esk & Cont).
  exists ps, (snd p), x, tm', ps', ref.
  split; [exact Ep|]. split; [exact Hl|]. split.
  { apply (literal_comp (0 + inject_Z (1 + Z.of_nat 2) * (1 # 10))); [reflexivity|exact (Litp 2 p E2)]. }
  split; [exact Ex|]. split.
  { destruct (c76_labels 0 (5 # 10) (10 # 10) (1 # 10) 5 10 1 (dec 0 1) (dec 5 10) (dec 10 10) (dec 1 10) fzero fzero 1
      (mk_ftimer (dec 0 1, dec 1 1) (dec 1 10) fzero 1) 2 (snd p) ps R R' Dg eq_refl eq_refl Ep Hl ltac:(lia))
      as (_ & _ & _ & _ & _ & _ & _ & _ & _ & _ & Cl & _).
    assert (Ht : nth_error (labels_of ps) 2 = Some (rational (snd p))) by exact (map_nth_error (fun p => rational (snd p)) 2 ps E2).
    destruct (c76_loaded Z unary ex_solve bdf_levels "state"%string 1 2 true (mk_ftimer (dec 0 1, dec 5 10) (dec 1 10) fzero 1) ps
      (ex_memory 1 1 1) states [] _ 2 (rational (snd p)) _ (ex_memory 0 0 0) unary_format (or_intror eq_refl) (ex_levels 1 1 1) M
      (climbing_distinct ps Cl) Ht eq_refl eq_refl eq_refl Kd (ex_levels 0 0 0) eq_refl) as [Y _].
    cbv zeta in Y. rewrite Y in Ex. apply (f_equal (fun z => match z with Ok y => y | Err _ => x end)) in Ex. symmetry. exact Ex. }
  split; [exact Acc|]. split; [exact Eps|]. split.
  { assert (Lref : length ref = 10). { rewrite (march_length _ _ _ _ _ Ers), map_length in Lrs. exact Lrs. }
    apply (f_equal (@length double)) in Esk. rewrite skipn_length, !map_length, Lref in Esk. exact Esk. }
  split; [exact Er|]. split; [exact Esk|]. rewrite Ers. exact Cont.
Qed.

(** The state the example restarts from is not one that the state file alone
    brings back with BDF2. *)
Example c76_state_alone :
  ~ Forall (fun y => dget (snd y) "n-1"%string = dget (snd y) "n+1"%string) (levels (ex_memory 3 5 5)).
Proof. intro F. apply Forall_cons_iff in F. destruct F as [F _]. discriminate F. Qed.
