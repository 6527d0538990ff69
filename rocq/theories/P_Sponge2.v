(** C68: damping in sponge layers, steps of BDF2. *)
From Coq Require Import Reals String List Arith Bool Lia Lra.
From Coquelicot Require Import Coquelicot.
From Verif Require Import Base M_Bla M_Buffer M_Flow M_Formulation M_Weak S_Flow S_Chars S_Stress S_Formulation S_Weak S_Sponge L_Flow L_Formulation L_Weak P_Eos P_Chars P_Jacobian P_Buffer P_Unknowns P_Boundary P_Stress P_Weak P_Uniform P_Sponge.
From Verif Require Import S_Formulation.
Import ListNotations.
Open Scope R_scope.
Open Scope list_scope.

(** The level from which an implicit Euler step of 2 dt / 3 is the BDF2 step. *)
Definition merged (U0 U1 : list R) : list R := vdiv (vsub (vscale 4 U1) U0) 3.

Lemma merged_length U0 U1 : length U0 = length U1 -> length (merged U0 U1) = length U1.
Proof. intros L. unfold merged. rewrite vdiv_length, vsub_length, vscale_length, L. apply Nat.min_id. Qed.

Lemma merged_nth U0 U1 k : length U0 = length U1 -> nth k (merged U0 U1) 0 = (4 * nth k U1 0 - nth k U0 0) / 3.
Proof. intros L. unfold merged. rewrite vdiv_nth, vsub_nth, vscale_nth by (rewrite vscale_length; congruence). reflexivity. Qed.

Lemma relaxes2_merged n dt w U0 U1 V U2 : dt <> 0 -> length U0 = length U1 ->
  relaxes2 n dt w U0 U1 V U2 <-> relaxes n (2 * dt / 3) w (merged U0 U1) V U2.
Proof.
  intros T L. unfold relaxes2, relaxes. split; intros [E H]; (split; [exact E|]); intros k K; specialize (H k K).
  - rewrite <- H, merged_nth by exact L. field. exact T.
  - rewrite <- H, merged_nth by exact L. field. exact T.
Qed.

Lemma merged_derivative dt n nm1 U x : dt <> 0 -> length U = length (n x) -> length (nm1 x) = length (n x) ->
  time_derivative (BDF dt n nm1) U x = time_derivative (IE (2 * dt / 3) (fun y => merged (nm1 y) (n y))) U x.
Proof.
  intros T LU L. cbn [time_derivative]. pose proof (merged_length (nm1 x) (n x) L) as Lm.
  assert (L1 : length (vsub (vscale 3 U) (vscale 4 (n x))) = length (n x)) by (rewrite vsub_length, !vscale_length, LU; apply Nat.min_id).
  apply (nth_ext _ _ 0 0).
  - rewrite !vdiv_length, vadd_length, L1, vsub_length, L, LU, Lm. reflexivity.
  - intros k _. rewrite !vdiv_nth, vadd_nth by congruence. rewrite vsub_nth by (rewrite !vscale_length; exact LU). rewrite !vscale_nth, vsub_nth, merged_nth by congruence. field. exact T.
Qed.

Lemma merged_form cfg m r bs ls dt n nm1 u t k : dt <> 0 -> (forall x, length (uU u x) = k /\ length (n x) = k /\ length (nm1 x) = k) ->
  weak_form cfg m r bs ls (BDF dt n nm1) u t = weak_form cfg m r bs ls (IE (2 * dt / 3) (fun y => merged (nm1 y) (n y))) u t.
Proof.
  intros T L. assert (E : time_form (BDF dt n nm1) (r_time r) u t = time_form (IE (2 * dt / 3) (fun y => merged (nm1 y) (n y))) (r_time r) u t).
  { unfold time_form. generalize (r_time r). intros q. induction q as [|[v x] q IH]; [reflexivity|]. cbn [integral].
    rewrite IH, merged_derivative by (trivial; destruct (L x) as (A & B & C); congruence). reflexivity. }
  unfold weak_form. now rewrite E.
Qed.

(** A uniform flow in a domain that the layer covers and whose boundary conditions accept the new state: the BDF2 step of the whole
    discrete problem is that of the relaxation towards the target, and no other uniform flow is a solution. *)
Theorem c68_bdf2_step : forall cfg m r bs l w dt n nm1 u st target twin (W : test -> Prop), 1 < s_gamma cfg -> valid st -> length (st_u st) = s_dim cfg -> uniform cfg u st ->
  dt <> 0 -> (forall x, n x = n 0%nat) -> length (n 0%nat) = (s_dim cfg + 2)%nat -> (forall x, nm1 x = nm1 0%nat) -> length (nm1 0%nat) = (s_dim cfg + 2)%nat ->
  valid target -> length (st_u target) = s_dim cfg ->
  (forall v x, In (v, x) (s_rule l) -> s_function l x = w /\ describes (s_gamma cfg) target (s_target l x) /\
     determined density_sources (s_target l x) /\ determined momentum_sources (s_target l x) /\ determined energy_sources (s_target l x)) ->
  (forall v y, In (v, y) (r_cbnd r) \/ In (v, y) (r_dbnd r) -> length (normal m y) = s_dim cfg) -> two_sided m (r_cbnd r) twin ->
  (forall t, W t -> covers (s_dim cfg) (s_rule l) (r_time r) t /\ gauss (s_dim cfg) m (r_cvol r) (r_cbnd r) t /\ well_formed (s_dim cfg) t /\ single_valued twin t) ->
  s_dim cfg = 2%nat \/ s_riemann cfg = LaxFriedrich \/ s_riemann cfg = HLL ->
  (s_law cfg = Inviscid \/
   (exists mu re pr, viscosity cfg (full_fields cfg st) = Ok mu /\ reference_reynolds_number cfg = Ok re /\ prandtl_number cfg = Ok pr) /\
   forall x, exists eps dT, viscous_gradients cfg eps dT (uQ u x) /\ zero_matrix (s_dim cfg) eps /\ forall j, nth j dT 0 = 0) ->
  (forall b v y, In b bs -> In (v, y) (b_rule b) -> exists z, b_vector b y = Ok z /\ vanishes z) ->
  let step := relaxes2 (s_dim cfg + 2) dt w (nm1 0%nat) (n 0%nat) (conservative_list (s_gamma cfg) target) (conservative_list (s_gamma cfg) st) in
  (step -> solves cfg m r bs [l] (BDF dt n nm1) W u) /\
  (has_constants (s_dim cfg) m W -> weighted (r_time r) (fun _ => 1) <> 0 -> solves cfg m r bs [l] (BDF dt n nm1) W u -> step).
Proof.
  intros cfg m r bs l w dt n nm1 u st target twin W G V Dim Un T Hn Ln Hm Lm Vt Lt Hl Nl Tw HW Rs Vi Hb step.
  assert (LU : length (conservative_list (s_gamma cfg) st) = (s_dim cfg + 2)%nat) by (rewrite conservative_length, Dim; reflexivity).
  assert (L : forall x, length (uU u x) = (s_dim cfg + 2)%nat /\ length (n x) = (s_dim cfg + 2)%nat /\ length (nm1 x) = (s_dim cfg + 2)%nat).
  { intros x. rewrite (proj1 (Un x)), Hn, Hm. auto. }
  assert (F : solves cfg m r bs [l] (BDF dt n nm1) W u <-> solves cfg m r bs [l] (IE (2 * dt / 3) (fun y => merged (nm1 y) (n y))) W u).
  { unfold solves. split; intros H t Ht; specialize (H t Ht); rewrite (merged_form cfg m r bs [l] dt n nm1 u t (s_dim cfg + 2) T L) in *; exact H. }
  assert (E0 : length (nm1 0%nat) = length (n 0%nat)) by congruence.
  destruct (c68_step cfg m r bs l w (2 * dt / 3) (fun y => merged (nm1 y) (n y)) u st target twin W G V Dim Un) as [A B]; trivial.
  { intros x. now rewrite Hn, Hm. } { now rewrite merged_length. }
  unfold step. rewrite F, relaxes2_merged by assumption. split; assumption.
Qed.
Print Assumptions c68_bdf2_step.

(** The step is physical if the weighted difference of the two levels is; two physical levels alone are not enough. *)
Theorem c68_bdf2_positive : forall d dt w U0 U1 V U2, 0 < dt -> 0 <= w -> length U0 = length U1 -> physical d (map (fun k => (4 * nth k U1 0 - nth k U0 0) / 3) (seq 0 (d + 2))) -> physical d V ->
  relaxes2 (d + 2) dt w U0 U1 V U2 -> physical d U2.
Proof.
  intros d dt w U0 U1 V U2 T W L P PV H. apply (c68_positive d (2 * dt / 3) w (map (fun k => (4 * nth k U1 0 - nth k U0 0) / 3) (seq 0 (d + 2))) V U2); trivial; [lra|].
  destruct H as [E H]. split; [exact E|]. intros k K. rewrite <- (H k K).
  set (h := fun k => (4 * nth k U1 0 - nth k U0 0) / 3). rewrite (nth_indep (map h (seq 0 (d + 2))) 0 (h 0%nat)) by (rewrite map_length, seq_length; exact K). rewrite map_nth, seq_nth by exact K.
  cbn [Nat.add]. unfold h. field. lra.
Qed.
Print Assumptions c68_bdf2_positive.

Theorem c68_bdf2_positive_refuted :
  physical 2 [5; 0; 0; 1] /\ physical 2 [1; 0; 0; 1] /\ physical 2 [1; 0; 0; 2] /\ relaxes2 4 (1 / 4) 1 [5; 0; 0; 1] [1; 0; 0; 1] [1; 0; 0; 2] [- (1 / 7); 0; 0; 8 / 7] /\
  ~ physical 2 [- (1 / 7); 0; 0; 8 / 7].
Proof.
  split; [split; [reflexivity|split; cbn; lra]|]. split; [split; [reflexivity|split; cbn; lra]|]. split; [split; [reflexivity|split; cbn; lra]|]. split.
  - split; [reflexivity|]. intros k K. destruct k as [|[|[|[|k]]]]; try lia; cbn; lra.
  - intros (_ & H & _). cbn in H. lra.
Qed.
Print Assumptions c68_bdf2_positive_refuted.

(** Two levels [x] before [y] of a difference: the quantity that BDF2 never lets grow. *)
Lemma bdf2_scalar b x y z : 0 <= b -> 3 * z - 4 * y + x = - (2 * b) * z -> z ^ 2 + (2 * z - y) ^ 2 + 4 * b * z ^ 2 <= y ^ 2 + (2 * y - x) ^ 2.
Proof.
  intros B H. assert (I : 2 * z * (3 * z - 4 * y + x) = z ^ 2 + (2 * z - y) ^ 2 - y ^ 2 - (2 * y - x) ^ 2 + (z - 2 * y + x) ^ 2) by ring.
  rewrite H in I. pose proof (pow2_ge_0 (z - 2 * y + x)). nra.
Qed.

(** No step lets the distance of the last two levels to the target grow, whatever the time step and the strength of the layer, and the flow
    tends to the target. *)
Theorem c68_bdf2_converges : forall n dt w V (U : nat -> list R), 0 < dt -> 0 <= w -> (forall m, relaxes2 n dt w (U m) (U (S m)) V (U (S (S m)))) ->
  let energy m k := (nth k (U (S m)) 0 - nth k V 0) ^ 2 + (2 * (nth k (U (S m)) 0 - nth k V 0) - (nth k (U m) 0 - nth k V 0)) ^ 2 in
  (forall m k, (k < n)%nat -> energy (S m) k + 4 * (dt * w) * (nth k (U (S (S m))) 0 - nth k V 0) ^ 2 <= energy m k) /\
  (forall m k, (k < n)%nat -> (nth k (U (S m)) 0 - nth k V 0) ^ 2 <= energy 0%nat k) /\
  (0 < w -> forall k, (k < n)%nat -> is_lim_seq (fun m => nth k (U m) 0) (nth k V 0)).
Proof.
  intros n dt w V U T W H energy. assert (P : 0 <= dt * w) by (apply Rmult_le_pos; lra).
  assert (S1 : forall m k, (k < n)%nat -> energy (S m) k + 4 * (dt * w) * (nth k (U (S (S m))) 0 - nth k V 0) ^ 2 <= energy m k).
  { intros m k K. destruct (H m) as [_ E]. specialize (E k K). unfold energy.
    pose proof (bdf2_scalar (dt * w) (nth k (U m) 0 - nth k V 0) (nth k (U (S m)) 0 - nth k V 0) (nth k (U (S (S m))) 0 - nth k V 0) P) as B.
    assert (Q : 3 * (nth k (U (S (S m))) 0 - nth k V 0) - 4 * (nth k (U (S m)) 0 - nth k V 0) + (nth k (U m) 0 - nth k V 0) = - (2 * (dt * w)) * (nth k (U (S (S m))) 0 - nth k V 0)).
    { transitivity ((3 * nth k (U (S (S m))) 0 - 4 * nth k (U (S m)) 0 + nth k (U m) 0) / (2 * dt) * (2 * dt)); [field; lra|]. rewrite E. ring. }
    specialize (B Q). lra. }
  assert (S2 : forall m k, (k < n)%nat -> energy m k <= energy 0%nat k).
  { induction m as [|m IH]; intros k K; [apply Rle_refl|]. apply Rle_trans with (energy m k); [|now apply IH]. pose proof (S1 m k K).
    assert (0 <= 4 * (dt * w) * (nth k (U (S (S m))) 0 - nth k V 0) ^ 2) by (apply Rmult_le_pos; [lra|apply pow2_ge_0]). lra. }
  split; [exact S1|]. split.
  - intros m k K. apply Rle_trans with (energy m k); [|now apply S2]. unfold energy. pose proof (pow2_ge_0 (2 * (nth k (U (S m)) 0 - nth k V 0) - (nth k (U m) 0 - nth k V 0))). lra.
  - intros W0 k K. assert (P0 : 0 < dt * w) by (apply Rmult_lt_0_compat; assumption).
    assert (E0 : forall m, 0 <= energy m k) by (intros m; unfold energy; apply Rplus_le_le_0_compat; apply pow2_ge_0).
    destruct (ex_finite_lim_seq_decr (fun m => energy m k) 0) as [e Le].
    { intros m. pose proof (S1 m k K). assert (0 <= 4 * (dt * w) * (nth k (U (S (S m))) 0 - nth k V 0) ^ 2) by (apply Rmult_le_pos; [lra|apply pow2_ge_0]). lra. }
    { exact E0. }
    assert (Ld : is_lim_seq (fun m => (energy m k - energy (S m) k) / (4 * (dt * w))) 0).
    { replace (Finite 0) with (Finite ((e - e) * / (4 * (dt * w)))) by (f_equal; ring). unfold Rdiv.
      apply (is_lim_seq_mult' (fun m => energy m k - energy (S m) k) (fun _ => / (4 * (dt * w)))); [|apply is_lim_seq_const].
      apply is_lim_seq_minus'; [exact Le|]. apply (is_lim_seq_incr_1 (fun m => energy m k)). exact Le. }
    assert (Lq : is_lim_seq (fun m => (nth k (U (S (S m))) 0 - nth k V 0) ^ 2) 0).
    { apply (is_lim_seq_le_le (fun _ => 0) _ (fun m => (energy m k - energy (S m) k) / (4 * (dt * w)))); [|apply is_lim_seq_const|exact Ld].
      intros m. split; [apply pow2_ge_0|]. pose proof (S1 m k K). apply Rmult_le_reg_r with (4 * (dt * w)); [lra|]. unfold Rdiv. rewrite Rmult_assoc, Rinv_l by lra. lra. }
    assert (La : is_lim_seq (fun m => Rabs (nth k (U (S (S m))) 0 - nth k V 0)) 0).
    { apply (is_lim_seq_ext (fun m => sqrt ((nth k (U (S (S m))) 0 - nth k V 0) ^ 2))).
      - intros m. rewrite <- Rsqr_pow2. apply sqrt_Rsqr_abs.
      - replace (Finite 0) with (Finite (sqrt 0)) by (f_equal; apply sqrt_0). apply (is_lim_seq_continuous sqrt); [apply continuity_pt_sqrt; lra|exact Lq]. }
    apply (is_lim_seq_incr_n _ 2). apply (is_lim_seq_ext (fun m => (nth k (U (S (S m))) 0 - nth k V 0) + nth k V 0)).
    { intros m. replace (m + 2)%nat with (S (S m)) by lia. match goal with |- ?a = ?b => change (@eq R a b) end. ring. }
    replace (Finite (nth k V 0)) with (Finite (0 + nth k V 0)) by (f_equal; ring).
    apply is_lim_seq_plus'; [|apply is_lim_seq_const]. apply is_lim_seq_abs_0. exact La.
Qed.
Print Assumptions c68_bdf2_converges.

(** The distances to the target, as parts of the initial one, of a run of BDF2 whose levels both start with the initial flow. *)
Definition parts (b : R) (i : nat) : R * R := Nat.iter i (fun p : R * R => (snd p, (4 * snd p - fst p) / (3 + 2 * b))) (1, 1).

Lemma parts_next b i : fst (parts b (S i)) = snd (parts b i) /\ snd (parts b (S i)) = (4 * snd (parts b i) - fst (parts b i)) / (3 + 2 * b).
Proof. split; reflexivity. Qed.

Lemma parts_bounds b i : 0 <= b <= 1 / 2 -> 0 < fst (parts b i) /\ fst (parts b i) / 2 <= snd (parts b i) <= fst (parts b i) /\ fst (parts b i) <= 1.
Proof.
  intros B. induction i as [|i (A & (C & D) & E)]; [cbn; lra|]. destruct (parts_next b i) as [-> ->].
  set (x := fst (parts b i)) in *. set (y := snd (parts b i)) in *. assert (Y : 0 < y) by lra.
  assert (K : 0 < 3 + 2 * b) by lra. repeat split; trivial; try lra.
  - apply Rmult_le_reg_r with (3 + 2 * b); [exact K|]. unfold Rdiv at 2. rewrite Rmult_assoc, Rinv_l by lra. nra.
  - apply Rmult_le_reg_r with (3 + 2 * b); [exact K|]. unfold Rdiv. rewrite Rmult_assoc, Rinv_l by lra. nra.
Qed.

Definition between (n : nat) (V U0 : list R) (c : R) : list R := map (fun k => nth k V 0 + c * (nth k U0 0 - nth k V 0)) (seq 0 n).

Lemma between_nth n V U0 c k : (k < n)%nat -> nth k (between n V U0 c) 0 = nth k V 0 + c * (nth k U0 0 - nth k V 0).
Proof.
  intros K. unfold between. set (h := fun k => nth k V 0 + c * (nth k U0 0 - nth k V 0)). rewrite (nth_indep (map h (seq 0 n)) 0 (h 0%nat)) by (rewrite map_length, seq_length; exact K).
  rewrite map_nth, seq_nth by exact K. reflexivity.
Qed.

Lemma between_length n V U0 c : length (between n V U0 c) = n.
Proof. unfold between. now rewrite map_length, seq_length. Qed.

Lemma between_physical d V U0 c : physical d V -> physical d U0 -> 0 < c <= 1 -> physical d (between (d + 2) V U0 c).
Proof.
  intros PV PU C. assert (I : 1 <= / c) by (rewrite <- Rinv_1 at 1; apply Rinv_le_contravar; lra).
  apply (c68_positive d 1 (/ c - 1) U0 V); trivial; try lra. split; [apply between_length|].
  intros k K. rewrite between_nth by exact K. field. lra.
Qed.

(** A whole run of BDF2 without viscosity in a periodic domain covered by the layer, with both levels at the start equal to the initial flow:
    for steps with dt w <= 1/2 there is from every uniform physical flow a sequence of uniform physical flows that solve all time steps, never
    further from the target, and it tends to the target. *)
Theorem c68_bdf2_run : forall cfg m r l w dt target twin (W : test -> Prop) U0 q, 1 < s_gamma cfg -> s_law cfg = Inviscid ->
  s_dim cfg = 2%nat \/ s_riemann cfg = LaxFriedrich \/ s_riemann cfg = HLL -> valid target -> length (st_u target) = s_dim cfg ->
  (forall v x, In (v, x) (s_rule l) -> s_function l x = w /\ describes (s_gamma cfg) target (s_target l x) /\
     determined density_sources (s_target l x) /\ determined momentum_sources (s_target l x) /\ determined energy_sources (s_target l x)) ->
  (forall v y, In (v, y) (r_cbnd r) \/ In (v, y) (r_dbnd r) -> length (normal m y) = s_dim cfg) -> two_sided m (r_cbnd r) twin ->
  (forall t, W t -> covers (s_dim cfg) (s_rule l) (r_time r) t /\ gauss (s_dim cfg) m (r_cvol r) (r_cbnd r) t /\ well_formed (s_dim cfg) t /\ single_valued twin t) ->
  0 < dt -> 0 < w -> dt * w <= 1 / 2 -> physical (s_dim cfg) U0 ->
  exists U : nat -> list R, U 0%nat = U0 /\ U 1%nat = U0 /\ (forall i, physical (s_dim cfg) (U i)) /\
    (forall i, solves cfg m r [] [l] (BDF dt (fun _ => U (S i)) (fun _ => U i)) W (mk_unknowns (fun _ => U (S (S i))) (fun _ => U (S (S i))) (fun _ => q))) /\
    (forall i, distance2 (s_dim cfg + 2) (U (S i)) (conservative_list (s_gamma cfg) target) <= distance2 (s_dim cfg + 2) (U i) (conservative_list (s_gamma cfg) target)) /\
    forall k, (k < s_dim cfg + 2)%nat -> is_lim_seq (fun i => nth k (U i) 0) (nth k (conservative_list (s_gamma cfg) target) 0).
Proof.
  intros cfg m r l w dt target twin W U0 q G La Rs Vt Lt Hl Nl Tw HW T W0 Small P0. set (V := conservative_list (s_gamma cfg) target). set (d := s_dim cfg) in *.
  assert (Pdw : 0 < dt * w) by (apply Rmult_lt_0_compat; assumption). set (b := dt * w) in *.
  set (U := fun i => between (d + 2) V U0 (fst (parts b i))).
  assert (B : forall i, 0 < fst (parts b i) /\ fst (parts b i) / 2 <= snd (parts b i) <= fst (parts b i) /\ fst (parts b i) <= 1) by (intros i; apply parts_bounds; lra).
  assert (Start : between (d + 2) V U0 1 = U0).
  { apply (nth_ext _ _ 0 0); [rewrite between_length; symmetry; apply P0|]. rewrite between_length. intros k K. rewrite between_nth by exact K. ring. }
  assert (PV : physical d V) by (apply (c57_physical (s_gamma cfg) d V G); exists target; repeat split; trivial; apply Vt).
  assert (PU : forall i, physical d (U i)) by (intros i; apply between_physical; trivial; destruct (B i) as (A & _ & C); lra).
  assert (Rx : forall i, relaxes2 (d + 2) dt w (U i) (U (S i)) V (U (S (S i)))).
  { intros i. split; [apply between_length|]. intros k K. unfold U. rewrite !between_nth by exact K. destruct (parts_next b (S i)) as [-> _]. destruct (parts_next b i) as [-> ->].
    set (x := fst (parts b i)). set (y := snd (parts b i)). unfold b. field. unfold b in Pdw. split; lra. }
  destruct (c68_bdf2_converges (d + 2) dt w V U T (Rlt_le _ _ W0) Rx) as (_ & _ & C3).
  exists U. split; [exact Start|]. split; [exact Start|]. split; [exact PU|]. split; [|split; [|exact (C3 W0)]].
  - intros i. destruct (proj1 (c57_physical (s_gamma cfg) d (U (S (S i))) G) (PU (S (S i)))) as (st & Vs & Ls & Es).
    apply (proj1 (c68_bdf2_step cfg m r [] l w dt (fun _ => U (S i)) (fun _ => U i) (mk_unknowns (fun _ => U (S (S i))) (fun _ => U (S (S i))) (fun _ => q)) st target twin W G Vs Ls
      (fun x => conj (eq_sym Es) (eq_sym Es)) (Rgt_not_eq _ _ T) (fun _ => eq_refl) (proj1 (PU (S i))) (fun _ => eq_refl) (proj1 (PU i)) Vt Lt Hl Nl Tw HW Rs (or_introl La) (fun b v y (I : In b []) => match I with end))).
    rewrite Es. exact (Rx i).
  - intros i. unfold distance2. rewrite (total_ext _ (fun k => fst (parts b (S i)) ^ 2 * (nth k U0 0 - nth k V 0) ^ 2)) by (intros k K; unfold U; rewrite between_nth by exact K; ring).
    rewrite (total_ext (fun k => (nth k (U i) 0 - nth k V 0) ^ 2) (fun k => fst (parts b i) ^ 2 * (nth k U0 0 - nth k V 0) ^ 2)) by (intros k K; unfold U; rewrite between_nth by exact K; ring).
    rewrite !total_scale. apply Rmult_le_compat_r; [apply (distance2_pos (d + 2) U0 V)|]. destruct (B i) as (A & (C & D) & _). destruct (B (S i)) as (A' & _ & _).
    destruct (parts_next b i) as [E _]. rewrite E in *. apply pow_incr. lra.
Qed.
Print Assumptions c68_bdf2_run.

(** For longer steps the run overshoots the target, so far that the gas may vanish: with dt w = 5/2 the third step from density 101 towards
    density 1 has a negative density. *)
Theorem c68_bdf2_overshoot_refuted :
  exists U1 U2 U3, physical 2 [101; 0; 0; 1] /\ physical 2 [1; 0; 0; 1] /\
    relaxes2 4 (5 / 2) 1 [101; 0; 0; 1] [101; 0; 0; 1] [1; 0; 0; 1] U1 /\ relaxes2 4 (5 / 2) 1 [101; 0; 0; 1] U1 [1; 0; 0; 1] U2 /\
    relaxes2 4 (5 / 2) 1 U1 U2 [1; 0; 0; 1] U3 /\ nth 0 U3 0 < 0.
Proof.
  exists [1 + 100 * (3 / 8); 0; 0; 1], [1 + 100 / 16; 0; 0; 1], [1 - 100 / 64; 0; 0; 1].
  split; [split; [reflexivity|split; cbn; lra]|]. split; [split; [reflexivity|split; cbn; lra]|].
  do 3 (split; [split; [reflexivity|]; intros k K; destruct k as [|[|[|[|k]]]]; try lia; cbn; lra|]). cbn. lra.
Qed.
Print Assumptions c68_bdf2_overshoot_refuted.

(** ** Example: strength 1, time step 1/2, levels at distance 3 and 2 of the target: the next level is at distance 5/4 and is still bounded. *)
Example c68_bdf2_example : relaxes2 4 (1 / 2) 1 [4; 0; 0; 8] [3; 0; 0; 7] [1; 0; 0; 5] [9 / 4; 0; 0; 25 / 4] /\
  physical 2 (map (fun k => (4 * nth k [3; 0; 0; 7] 0 - nth k [4; 0; 0; 8] 0) / 3) (seq 0 (2 + 2))) /\
  (forall d, relaxes2 1 (1 / 2) 1 [4] [3] [1] [d] <-> d = 9 / 4).
Proof.
  split; [|split].
  - split; [reflexivity|]. intros k K. destruct k as [|[|[|[|k]]]]; try lia; cbn; lra.
  - split; [reflexivity|split; cbn; lra].
  - intros d. split.
    + intros [_ H]. specialize (H 0%nat ltac:(lia)). cbn in H. lra.
    + intros ->. split; [reflexivity|]. intros k K. destruct k as [|k]; [cbn; lra|lia].
Qed.

(** The layer [relaxation] of strength 1 on the periodic square, time step 1/2, gas of double density and pressure. *)
Example c68_bdf2_run_example : exists U : nat -> list R, U 1%nat = [2; 0; 0; 5] /\ (forall i, physical 2 (U i)) /\
    (forall i, solves air periodic_square square_rules [] [relaxation] (BDF (1 / 2) (fun _ => U (S i)) (fun _ => U i)) (square_tests periodic_square opposite_side) (mk_unknowns (fun _ => U (S (S i))) (fun _ => U (S (S i))) (fun _ => still))) /\
    is_lim_seq (fun i => nth 0 (U i) 0) 1.
Proof.
  destruct (c68_bdf2_run air periodic_square square_rules relaxation 1 (1 / 2) (mk_state 1 [0; 0] 1) opposite_side (square_tests periodic_square opposite_side) [2; 0; 0; 5] still) as (U & _ & E & P & S1 & _ & Lim).
  + cbn. lra.
  + reflexivity.
  + left. reflexivity.
  + split; cbn; lra.
  + reflexivity.
  + intros v x I. split; [reflexivity|]. cbn [relaxation s_target]. split; [|repeat split].
    * unfold describes. repeat split; cbn; intros y Y; try discriminate Y; injection Y as <-; try reflexivity.
    * apply determined_bool. reflexivity.
    * apply determined_bool. reflexivity.
    * apply determined_bool. reflexivity.
  + intros v y [I|I]; exact (square_normals _ _ v y I).
  + apply periodic_sides.
  + intros t (Wf & Gs & Sv). repeat split; try assumption; apply Wf || apply Gs.
  + lra.
  + lra.
  + lra.
  + split; [reflexivity|]. split; cbn; lra.
  + exists U. split; [exact E|]. split; [exact P|]. split; [exact S1|]. exact (Lim 0%nat ltac:(cbn; lia)).
Qed.
