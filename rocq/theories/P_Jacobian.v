(** C44: the Jacobians in a direction are the combinations of the Jacobians in the coordinate directions.
    C45: the convective flux and its derivatives. *)
From Coq Require Import Reals List Arith Lra Lia Bool.
From Coquelicot Require Import Coquelicot.
From Verif Require Import Base M_Bla M_Flow S_Flow S_Chars L_Flow P_Eos P_Gradients P_Chars.
Import ListNotations.
Open Scope R_scope.

(** ** C44 *)

(** In primitive variables, for all fields. *)
Theorem c44_primitive : forall U rho ux uy c n n0 n1,
  f_rho U = Some rho -> f_u U = Some [ux; uy] -> f_c U = Some c -> unit2 n n0 n1 -> rho <> 0 -> c <> 0 ->
  exists J A B, get_primitive_convective_jacobian U n Full = Ok J /\ primitive_convective_jacobian_x U = Ok A /\ primitive_convective_jacobian_y U = Ok B /\
    forall i j, (i < 4)%nat -> (j < 4)%nat -> entry J i j = n0 * entry A i j + n1 * entry B i j.
Proof.
  intros U rho ux uy c n n0 n1 Er Eu Ec [-> N] R0 C0. assert (N' : n0 * n0 = 1 - n1 * n1) by lra.
  unfold get_primitive_convective_jacobian, transform_characteristic_to_primitive, primitive_convective_jacobian_x, primitive_convective_jacobian_y, eos_primitive_jacobian_x, eos_primitive_jacobian_y.
  rewrite (velocities_ok U ux uy c n0 n1 Full Eu Ec) by discriminate. cbn [bind].
  unfold primitive_from_characteristic, characteristic_from_primitive, eos_L, eos_Linv. rewrite Er, Ec, Eu. cbn [equation bind].
  do 3 eexists. do 3 (split; [reflexivity|]). intros i j I J. cbn [map].
  rewrite conjugate_entry by (trivial; apply mat4_shape; reflexivity). four i I; four j J; clear I J; unfold part, wave_speed; compute_entries; field [N']; repeat split; lra.
Qed.
Print Assumptions c44_primitive.

(** In conservative variables, for the fields of a state. *)
Theorem c44_conservative : forall cfg s U ux uy c E n n0 n1,
  1 < s_gamma cfg -> valid s -> describes (s_gamma cfg) s U -> 
  f_rho U = Some (st_rho s) -> f_u U = Some [ux; uy] -> f_c U = Some c -> f_E U = Some E -> unit2 n n0 n1 ->
  exists J A B, get_conservative_convective_jacobian cfg U n Full = Ok J /\
    conservative_convective_jacobian_x cfg U = Ok A /\ conservative_convective_jacobian_y cfg U = Ok B /\
    forall i j, (i < 4)%nat -> (j < 4)%nat -> entry J i j = n0 * entry A i j + n1 * entry B i j.
Proof.
  intros cfg s U ux uy c E n n0 n1 G V D Er Eu Ec EE [-> N]. assert (N' : n0 * n0 = 1 - n1 * n1) by lra.
  pose proof (q_c_square _ _ G V) as C2. pose proof (q_c_pos _ _ G V) as CP. fields D. apply Gc in Ec as Vc. apply GE in EE as VE. apply Gu in Eu as Vu.
  clear Grho Gu Gm Gp GT GrE GE GrEi GEi GrEk GEk GrH GH Gc. rewrite <- Vc in C2, CP.
  assert (VE' : E = c ^ 2 / (s_gamma cfg * (s_gamma cfg - 1)) + (ux * ux + uy * uy) / 2).
  { rewrite VE, C2. unfold q_E, q_Ei, q_Ek, q_rho_Ei. rewrite <- Vu. cbn [inner]. destruct V. field. lra. }
  clear VE Vc C2 Vu. destruct V as [V1 V2]. subst E.
  unfold get_conservative_convective_jacobian, transform_characteristic_to_conservative, conservative_convective_jacobian_x, conservative_convective_jacobian_y, eos_conservative_jacobian_x, eos_conservative_jacobian_y.
  rewrite (velocities_ok U ux uy c n0 n1 Full Eu Ec) by discriminate. cbn [bind].
  unfold conservative_from_characteristic, characteristic_from_conservative, eos_P, eos_Pinv. rewrite Er, Ec, Eu, EE. cbn [equation bind].
  do 3 eexists. do 3 (split; [reflexivity|]). intros i j I J. cbn [map].
  rewrite conjugate_entry by (trivial; apply mat4_shape; reflexivity). four i I; four j J; clear I J; unfold part, wave_speed; compute_entries; field [N']; repeat split; lra.
Qed.
Print Assumptions c44_conservative.

(** The Jacobians in conservative variables are the transformed Jacobians in primitive variables. *)
Theorem c44_transformed : forall cfg s U ux uy c E,
  1 < s_gamma cfg -> valid s -> describes (s_gamma cfg) s U ->
  f_rho U = Some (st_rho s) -> f_u U = Some [ux; uy] -> f_c U = Some c -> f_E U = Some E ->
  exists Ap Bp A B A' B', primitive_convective_jacobian_x U = Ok Ap /\ primitive_convective_jacobian_y U = Ok Bp /\
    conservative_convective_jacobian_x cfg U = Ok A /\ conservative_convective_jacobian_y cfg U = Ok B /\
    transform_primitive_to_conservative cfg Ap U = Ok A' /\ transform_primitive_to_conservative cfg Bp U = Ok B' /\
    meq 4 4 A' A /\ meq 4 4 B' B.
Proof.
  intros cfg s U ux uy c E G V D Er Eu Ec EE.
  pose proof (q_c_square _ _ G V) as C2. fields D. apply Gc in Ec as Vc. apply GE in EE as VE. apply Gu in Eu as Vu.
  clear Grho Gu Gm Gp GT GrE GE GrEi GEi GrEk GEk GrH GH Gc. rewrite <- Vc in C2.
  assert (VE' : E = c ^ 2 / (s_gamma cfg * (s_gamma cfg - 1)) + (ux * ux + uy * uy) / 2).
  { rewrite VE, C2. unfold q_E, q_Ei, q_Ek, q_rho_Ei. rewrite <- Vu. cbn [inner]. destruct V. field. lra. }
  clear VE Vc C2 Vu. destruct V as [V1 V2]. subst E.
  unfold primitive_convective_jacobian_x, primitive_convective_jacobian_y, eos_primitive_jacobian_x, eos_primitive_jacobian_y,
    conservative_convective_jacobian_x, conservative_convective_jacobian_y, eos_conservative_jacobian_x, eos_conservative_jacobian_y,
    transform_primitive_to_conservative, conservative_from_primitive, primitive_from_conservative, eos_M, eos_Minv.
  rewrite Er, Eu, Ec, EE. cbn [equation bind]. do 6 eexists. do 6 (split; [reflexivity|]).
  split; (do 4 (split; [reflexivity|])); intros i j I J; rewrite mmul_entry by assumption; cbn [cols mmul tabulate mat4 seq map rsum fold_right];
    rewrite !mmul_entry by (trivial; cbn; lia); cbn [cols mmul tabulate mat4 seq map rsum fold_right];
    four i I; four j J; clear I J; compute_entries; field; repeat split; lra.
Qed.
Print Assumptions c44_transformed.

(** Without the fields they need the Jacobians raise ValueError, in other than two dimensions NotImplementedError, and an
    unknown option raises ValueError. *)
Theorem c44_raises : forall cfg U n,
  ((f_u U = None \/ f_c U = None) -> forall t, get_conservative_convective_jacobian cfg U n t = Err ValueError /\ get_primitive_convective_jacobian U n t = Err ValueError) /\
  (get_conservative_convective_jacobian cfg U n OtherSplit = Err ValueError /\ get_primitive_convective_jacobian U n OtherSplit = Err ValueError) /\
  ((f_u U = None \/ f_E U = None) -> conservative_convective_jacobian_x cfg U = Err ValueError /\ conservative_convective_jacobian_y cfg U = Err ValueError) /\
  ((f_rho U = None \/ f_u U = None \/ f_c U = None) -> primitive_convective_jacobian_x U = Err ValueError /\ primitive_convective_jacobian_y U = Err ValueError) /\
  (forall rho u c E, f_rho U = Some rho -> f_u U = Some u -> f_c U = Some c -> f_E U = Some E -> length u <> 2%nat ->
     conservative_convective_jacobian_x cfg U = Err NotImplementedError /\ conservative_convective_jacobian_y cfg U = Err NotImplementedError /\
     primitive_convective_jacobian_x U = Err NotImplementedError /\ primitive_convective_jacobian_y U = Err NotImplementedError).
Proof.
  intros cfg U n.
  unfold get_conservative_convective_jacobian, get_primitive_convective_jacobian, characteristic_velocities, eos_characteristic_velocities,
    primitive_convective_jacobian_x, primitive_convective_jacobian_y, eos_primitive_jacobian_x, eos_primitive_jacobian_y,
    conservative_convective_jacobian_x, conservative_convective_jacobian_y, eos_conservative_jacobian_x, eos_conservative_jacobian_y.
  repeat match goal with |- _ /\ _ => split end.
  - intros [-> | ->] t; [|destruct (f_u U)]; split; reflexivity.
  - destruct (f_u U); [|reflexivity]. destruct (f_c U); reflexivity.
  - destruct (f_u U); [|reflexivity]. destruct (f_c U); reflexivity.
  - intros [-> | ->]; [|destruct (f_u U)]; split; reflexivity.
  - intros [-> | [-> | ->]]; destruct (f_u U); try destruct (f_rho U); split; reflexivity.
  - intros rho u c E -> -> -> -> L. destruct u as [|a [|b [|e u]]]; try (repeat split; reflexivity). contradiction L; reflexivity.
Qed.
Print Assumptions c44_raises.

(** ** C45 *)

Lemma bind_ok {A B} (r : result A) (k : A -> result B) v : bind r k = Ok v -> exists a, r = Ok a /\ k a = Ok v.
Proof. destruct r; cbn; [eauto|discriminate]. Qed.

Lemma idm_entry d i j : (i < d)%nat -> (j < d)%nat -> entry (idm d) i j = delta i j.
Proof. intros I J. unfold idm. rewrite entry_tabulate by assumption. reflexivity. Qed.

(** Entries of a matrix put together from a first row, rows in the middle and a last row. *)
Lemma stacked_entry d n first middle last i j : length first = d -> length middle = (n * d)%nat -> length last = d -> (i < n + 2)%nat -> (j < d)%nat ->
  entry (mk_matrix (n + 2) d (first ++ middle ++ last)) i j =
  if (i =? 0)%nat then nth j first 0 else if (i <=? n)%nat then entry (mk_matrix n d middle) (i - 1) j else nth j last 0.
Proof.
  intros F M L I J. unfold entry. cbn [cols entries]. destruct i as [|i]; cbn [Nat.eqb].
  - cbn [Nat.mul Nat.add]. rewrite app_nth1 by lia. reflexivity.
  - rewrite app_nth2 by nia. rewrite F. replace (S i * d + j - d)%nat with (i * d + j)%nat by nia. cbn [Nat.sub]. rewrite Nat.sub_0_r.
    destruct (Nat.leb_spec (S i) n) as [K|K].
    + rewrite app_nth1 by nia. reflexivity.
    + assert (i = n) by lia. subst i. rewrite app_nth2 by nia. f_equal. nia.
Qed.

Lemma q_rho_u_nth s i : nth i (q_rho_u s) 0 = st_rho s * nth i (st_u s) 0.
Proof. exact (vscale_nth (st_rho s) (st_u s) i). Qed.

(** The convective flux is the flux of the Euler equations, in any dimension and from any fields of the state. *)
Theorem c45_flux : forall cfg zeros s U F, 1 < s_gamma cfg -> valid s -> describes (s_gamma cfg) s U ->
  (zeros = true -> given (f_rho U) 0) -> get_convective_flux cfg zeros U = Ok F ->
  let d := length (st_u s) in
  rows F = (d + 2)%nat /\ cols F = d /\ length (entries F) = ((d + 2) * d)%nat /\
  forall i j, (i < d + 2)%nat -> (j < d)%nat -> entry F i j = euler_flux (s_gamma cfg) d s i j.
Proof.
  intros cfg zeros s U F G V D Z H d. unfold get_convective_flux in H.
  apply bind_ok in H as (rho & Hr & H). apply bind_ok in H as (m & Hm & H). apply bind_ok in H as (h & Hh & H).
  apply bind_ok in H as (u & Hu & H). apply bind_ok in H as (p & Hp & H). apply ok_inj in H. subst F.
  apply (density_ok _ _ _ G V D) in Hr. apply (momentum_ok _ _ _ G V D) in Hm. apply (enthalpy_ok _ _ _ G V D) in Hh.
  apply (velocity_ok _ _ _ G V D _ _ Z) in Hu. apply (pressure_ok _ _ _ G V D) in Hp. subst rho m h u p. fold d.
  assert (Lm : length (q_rho_u s) = d) by (unfold q_rho_u; apply map_length).
  assert (LO : length (entries (mdiv (outer (q_rho_u s) (q_rho_u s)) (st_rho s))) = (d * d)%nat) by (cbn [mdiv entries]; rewrite vdiv_length, outer_length, Lm; reflexivity).
  assert (LI : length (entries (scale (st_p s) (idm d))) = (d * d)%nat) by (cbn [scale entries]; rewrite map_length; apply tabulate_length).
  assert (LM : length (entries (madd (mdiv (outer (q_rho_u s) (q_rho_u s)) (st_rho s)) (scale (st_p s) (idm d)))) = (d * d)%nat)
    by (cbn [madd entries]; rewrite vadd_length, LO, LI; lia).
  split; [reflexivity|]. split; [reflexivity|]. split.
  { cbn [entries]. rewrite !app_length, LM, vscale_length, Lm. fold d. nia. }
  intros i j I J. rewrite stacked_entry; trivial; [|rewrite vscale_length; reflexivity].
  unfold euler_flux. destruct (Nat.eqb_spec i 0) as [->|N].
  - apply q_rho_u_nth.
  - destruct (Nat.leb_spec i d) as [K|K].
    + change (mk_matrix d d (entries ?m)) with (mk_matrix d d (entries m)).
      assert (I' : (i - 1 < d)%nat) by lia.
      transitivity (entry (madd (mdiv (outer (q_rho_u s) (q_rho_u s)) (st_rho s)) (scale (st_p s) (idm d))) (i - 1) j).
      { unfold entry. cbn [cols entries madd mdiv outer]. rewrite Lm. reflexivity. }
      rewrite entry_madd by (rewrite ?LO, ?LI; trivial). rewrite entry_mdiv, entry_outer by (rewrite Lm; assumption). rewrite P_Gradients.entry_scale.
      rewrite (idm_entry d) by assumption. rewrite !q_rho_u_nth. destruct V as [V1 V2]. field. lra.
    + rewrite vscale_nth. f_equal. unfold q_rho_H, q_H, q_rho_E. destruct V as [V1 V2]. field. lra.
Qed.
Print Assumptions c45_flux.

(** The flux is obtained exactly if density, momentum, enthalpy, velocity and pressure are. *)
Theorem c45_flux_determined : forall cfg zeros U,
  let sources := [density_sources; momentum_sources; enthalpy_sources; velocity_sources; pressure_sources] in
  (List.Forall (fun l => determined l U) sources /\ exists F, get_convective_flux cfg zeros U = Ok F) \/
  (~ List.Forall (fun l => determined l U) sources /\ get_convective_flux cfg zeros U = Err ValueError).
Proof.
  intros cfg zeros U sources.
  destruct (c41_determined cfg zeros U) as (A1 & A2 & _ & _ & _ & _ & _ & _ & _ & A10 & _ & A12 & A13).
  unfold get_convective_flux.
  destruct A1 as [[S1 [v1 E1]]|[S1 E1]]; rewrite E1; cbn [bind]; [|right; split; [|reflexivity]; intros K; apply S1; inversion K; assumption].
  destruct A13 as [[S2 [v2 E2]]|[S2 E2]]; rewrite E2; cbn [bind].
  2:{ right; split; [|reflexivity]. intros K; apply S2. rewrite List.Forall_forall in K; apply K; cbn; tauto. }
  destruct A10 as [[S3 [v3 E3]]|[S3 E3]]; rewrite E3; cbn [bind].
  2:{ right; split; [|reflexivity]. intros K; apply S3. rewrite List.Forall_forall in K; apply K; cbn; tauto. }
  destruct A12 as [[S4 [v4 E4]]|[S4 E4]]; rewrite E4; cbn [bind].
  2:{ right; split; [|reflexivity]. intros K; apply S4. rewrite List.Forall_forall in K; apply K; cbn; tauto. }
  destruct A2 as [[S5 [v5 E5]]|[S5 E5]]; rewrite E5; cbn [bind].
  2:{ right; split; [|reflexivity]. intros K; apply S5. rewrite List.Forall_forall in K; apply K; cbn; tauto. }
  left. split; [|eexists; reflexivity]. repeat constructor; assumption.
Qed.
Print Assumptions c45_flux_determined.

(** The Jacobians are the derivatives of the flux by the conservative variables: along any curve of states, the flux
    changes by the Jacobian applied to the change of the conservative variables. *)
Theorem c45_jacobian : forall cfg U line w A B, 1 < s_gamma cfg ->
  locally 0 (fun t => valid (line t) /\ length (st_u (line t)) = 2%nat) ->
  describes (s_gamma cfg) (line 0) U ->
  conservative_convective_jacobian_x cfg U = Ok A -> conservative_convective_jacobian_y cfg U = Ok B ->
  (forall k, (k < 4)%nat -> is_derive (fun t => conservative (s_gamma cfg) 2 (line t) k) 0 (w k)) ->
  forall i, (i < 4)%nat ->
    is_derive (fun t => euler_flux (s_gamma cfg) 2 (line t) i 0) 0 (total 4 (fun k => entry A i k * w k)) /\
    is_derive (fun t => euler_flux (s_gamma cfg) 2 (line t) i 1) 0 (total 4 (fun k => entry B i k * w k)).
Proof.
  intros cfg U line w A B G Loc D HA HB HW.
  pose proof (locally_singleton _ _ Loc) as [V0 L0].
  unfold conservative_convective_jacobian_x, conservative_convective_jacobian_y, eos_conservative_jacobian_x, eos_conservative_jacobian_y in HA, HB. fields D.
  destruct (f_u U) as [u|] eqn:Eu; [|discriminate HA]. destruct (f_E U) as [E|] eqn:EE; [|discriminate HA].
  use_given. clear Grho Gm Gp GT GrE GrEi GEi GrEk GEk GrH GH Gc.
  assert (Su : exists ux uy, u = [ux; uy]).
  { rewrite <- Gu in L0. destruct u as [|a [|b [|e u]]]; try discriminate L0. eauto. }
  destruct Su as (ux & uy & Su). rewrite Su in HA, HB. cbn [equation] in HA, HB. apply ok_inj in HA, HB. subst A B.
  set (g := s_gamma cfg) in *.
  pose (r := fun t : R => st_rho (line t)). pose (a := fun t : R => st_rho (line t) * nth 0 (st_u (line t)) 0).
  pose (b := fun t : R => st_rho (line t) * nth 1 (st_u (line t)) 0). pose (e := fun t : R => q_rho_E g (line t)).
  assert (D0 : is_derive r 0 (w 0%nat)) by exact (HW 0%nat ltac:(lia)). assert (D1 : is_derive a 0 (w 1%nat)) by exact (HW 1%nat ltac:(lia)).
  assert (D2 : is_derive b 0 (w 2%nat)) by exact (HW 2%nat ltac:(lia)). assert (D3 : is_derive e 0 (w 3%nat)) by exact (HW 3%nat ltac:(lia)).
  pose (p := fun t : R => (g - 1) * (e t - (a t * a t + b t * b t) / (2 * r t))).
  assert (VR : 0 < r 0) by (unfold r; destruct V0; lra).
  assert (V1 : a 0 = r 0 * ux) by (unfold a, r; rewrite <- Gu, Su; reflexivity).
  assert (V2 : b 0 = r 0 * uy) by (unfold b, r; rewrite <- Gu, Su; reflexivity).
  assert (V3 : e 0 = r 0 * E) by (unfold e, r; rewrite GE; reflexivity).
  assert (X0 : ex_derive r 0) by (eexists; exact D0). assert (X1 : ex_derive a 0) by (eexists; exact D1).
  assert (X2 : ex_derive b 0) by (eexists; exact D2). assert (X3 : ex_derive e 0) by (eexists; exact D3).
  apply is_derive_unique in D0, D1, D2, D3.
  change (Derive (fun x : R => r x) 0 = w 0%nat) in D0. change (Derive (fun x : R => a x) 0 = w 1%nat) in D1.
  change (Derive (fun x : R => b x) 0 = w 2%nat) in D2. change (Derive (fun x : R => e x) 0 = w 3%nat) in D3.
  assert (Flux : locally 0 (fun t =>
     euler_flux g 2 (line t) 0 0 = a t /\ euler_flux g 2 (line t) 0 1 = b t /\
     euler_flux g 2 (line t) 1 0 = a t * a t / r t + p t /\ euler_flux g 2 (line t) 1 1 = a t * b t / r t /\
     euler_flux g 2 (line t) 2 0 = a t * b t / r t /\ euler_flux g 2 (line t) 2 1 = b t * b t / r t + p t /\
     euler_flux g 2 (line t) 3 0 = (e t + p t) * (a t / r t) /\ euler_flux g 2 (line t) 3 1 = (e t + p t) * (b t / r t))).
  { revert Loc; apply filter_imp; intros t [[Rt Pt] Lt]. unfold p, e, a, b, r, euler_flux, q_rho_E, q_E, q_Ei, q_Ek, q_rho_Ei.
    destruct (st_u (line t)) as [|x [|y [|z v]]]; try discriminate Lt. cbn [Nat.eqb Nat.leb Nat.sub nth inner delta]. unfold delta. cbn [Nat.eqb].
    repeat split; field; repeat split; lra. }
  assert (K : forall (f h : R -> R) l, locally 0 (fun t : R => f t = h t) -> is_derive h 0 l -> is_derive f 0 l).
  { intros f h l Q. apply is_derive_ext_loc. revert Q; apply filter_imp; intros t Ht; symmetry; exact Ht. }
  assert (F00 : locally 0 (fun t : R => euler_flux g 2 (line t) 0 0 = a t)) by (revert Flux; apply filter_imp; intros t Ft; decompose [and] Ft; assumption).
  assert (F01 : locally 0 (fun t : R => euler_flux g 2 (line t) 0 1 = b t)) by (revert Flux; apply filter_imp; intros t Ft; decompose [and] Ft; assumption).
  assert (F10 : locally 0 (fun t : R => euler_flux g 2 (line t) 1 0 = a t * a t / r t + p t)) by (revert Flux; apply filter_imp; intros t Ft; decompose [and] Ft; assumption).
  assert (F11 : locally 0 (fun t : R => euler_flux g 2 (line t) 1 1 = a t * b t / r t)) by (revert Flux; apply filter_imp; intros t Ft; decompose [and] Ft; assumption).
  assert (F20 : locally 0 (fun t : R => euler_flux g 2 (line t) 2 0 = a t * b t / r t)) by (revert Flux; apply filter_imp; intros t Ft; decompose [and] Ft; assumption).
  assert (F21 : locally 0 (fun t : R => euler_flux g 2 (line t) 2 1 = b t * b t / r t + p t)) by (revert Flux; apply filter_imp; intros t Ft; decompose [and] Ft; assumption).
  assert (F30 : locally 0 (fun t : R => euler_flux g 2 (line t) 3 0 = (e t + p t) * (a t / r t))) by (revert Flux; apply filter_imp; intros t Ft; decompose [and] Ft; assumption).
  assert (F31 : locally 0 (fun t : R => euler_flux g 2 (line t) 3 1 = (e t + p t) * (b t / r t))) by (revert Flux; apply filter_imp; intros t Ft; decompose [and] Ft; assumption).
  each4; split; [apply (K _ _ _ F00)|apply (K _ _ _ F01)|apply (K _ _ _ F10)|apply (K _ _ _ F11)|apply (K _ _ _ F20)|apply (K _ _ _ F21)|apply (K _ _ _ F30)|apply (K _ _ _ F31)];
    compute_entries; unfold p; clear Flux K F00 F01 F10 F11 F20 F21 F30 F31; clearbody r a b e; (auto_derive; [repeat split; trivial; lra|]); rewrite ?D0, ?D1, ?D2, ?D3, ?V1, ?V2, ?V3;
    field; repeat split; trivial; lra.
Qed.
Print Assumptions c45_jacobian.

(** The state and the line of [c43_example] meet the hypotheses. *)
Example c45_example :
  1 < s_gamma air /\ valid wave_state /\ describes (s_gamma air) wave_state wave_fields /\
  locally 0 (fun t => valid (wave_line t) /\ length (st_u (wave_line t)) = 2%nat) /\
  (exists A B w, conservative_convective_jacobian_x air wave_fields = Ok A /\ conservative_convective_jacobian_y air wave_fields = Ok B /\
     forall k, (k < 4)%nat -> is_derive (fun t => conservative (s_gamma air) 2 (wave_line t) k) 0 (w k)) /\
  exists F, get_convective_flux air false (mk_flow (Some 2) None (Some [6; 8]) (Some 7) None (Some (85 / 2)) None None None None None None None None) = Ok F.
Proof.
  split; [cbn; lra|]. split; [split; cbn; lra|]. split; [exact wave_describes|]. split; [exact wave_line_valid|]. split.
  - do 2 eexists. destruct (c43_conservative_primitive air wave_fields (7 / 5) 3 4 eq_refl eq_refl ltac:(lra) ltac:(cbn; lra)) as (M & Mi & EM & _).
    exists (fun i => total 4 (fun k => entry M i k * wave_rates k)). split; [reflexivity|]. split; [reflexivity|].
    apply (c43_derivative air wave_fields wave_line wave_rates M); try assumption; [|cbn; lra|rewrite wave_line_start; exact wave_describes|exact wave_line_rates].
    eapply filter_imp; [|exact wave_line_valid]; intros t [[A B] C]; split; [exact C|lra].
  - eexists. reflexivity.
Qed.
