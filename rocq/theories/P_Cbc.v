(** C52 and C58: characteristic boundary conditions. *)
From Coq Require Import Reals String List Arith Lra Lia Bool.
From Verif Require Import Base M_Bla M_Flow M_Formulation S_Flow S_Chars S_Formulation L_Flow P_Bla P_Eos P_Chars P_Jacobian P_Split L_Formulation P_Unknowns P_Boundary.
Import ListNotations.
Open Scope R_scope.
Open Scope list_scope.

(** ** C52: relaxation factors *)

(** One number relaxes all waves; five numbers are the factors of the five waves in order, of which the second vorticity
    wave is left out in two dimensions; further numbers are ignored. *)
Theorem c52_factors : forall d x a b v w o rest,
  relaxation_values d (relaxation_factor (FScalar x)) = Ok (repeat x (if (d =? 2)%nat then 4 else 5)) /\
  relaxation_values d (relaxation_factor (FSequence (a :: b :: v :: w :: o :: rest))) = Ok (if (d =? 2)%nat then [a; b; v; o] else [a; b; v; w; o]) /\
  (forall l, relaxation_factor (FDict l) = relaxation_factor (FSequence (map snd l))).
Proof.
  intros d x a b v w o rest. repeat split; unfold relaxation_values, relaxation_factor; destruct (d =? 2)%nat; try reflexivity; cbn; destruct rest; reflexivity.
Qed.
Print Assumptions c52_factors.

(** The keys of a dictionary are ignored: the same assignment of factors to waves written in another order relaxes other
    waves. *)
Theorem c52_dictionary_refuted : forall d a b v w o, a <> o ->
  let named := [("acoustic_in", a); ("entropy", b); ("vorticity_0", v); ("vorticity_1", w); ("acoustic_out", o)]%string in
  (forall k y, In (k, y) named <-> In (k, y) (rev named)) /\
  relaxation_values d (relaxation_factor (FDict named)) <> relaxation_values d (relaxation_factor (FDict (rev named))).
Proof.
  intros d a b v w o N named. split; [intros k y; apply in_rev|].
  unfold relaxation_values, relaxation_factor. destruct (d =? 2)%nat; cbn; intros H; apply ok_inj in H; injection H; intros; contradiction.
Qed.
Print Assumptions c52_dictionary_refuted.

(** In two dimensions, where there are four waves, four factors lose the last one and leave the outgoing acoustic wave
    without any; fewer raise KeyError. *)
Theorem c52_four_factors_refuted : forall a b v o,
  relaxation_values 2 (relaxation_factor (FSequence [a; b; v; o])) = Ok [a; b; v] /\
  forall step, exists m, grcbc_relaxation_matrix 2 (relaxation_factor (FSequence [a; b; v; o])) (Some step) = Ok m /\ rows m = 3%nat.
Proof. intros a b v o. split; [reflexivity|]. intros step. eexists. split; reflexivity. Qed.
Print Assumptions c52_four_factors_refuted.

Theorem c52_few_factors : forall l, (length l < 4)%nat -> relaxation_values 2 (relaxation_factor (FSequence l)) = Err KeyError.
Proof. intros [|a [|b [|c [|d l]]]] L; try reflexivity. cbn in L. lia. Qed.
Print Assumptions c52_few_factors.

(** Values of other types are accepted and fail when the condition is set up. *)
Theorem c52_other : forall d, relaxation_factor FOther = Names characteristic_names /\
  relaxation_values d (relaxation_factor FOther) = Err (if (d =? 2)%nat then TypeError else AttributeError).
Proof. intros d. split; [reflexivity|]. unfold relaxation_values, relaxation_factor. destruct (d =? 2)%nat; reflexivity. Qed.
Print Assumptions c52_other.

Lemma diagonal_shape l : shape (length l) (diagonal l).
Proof. repeat split. apply diagonal_length. Qed.

Lemma diagonal_entry l i j : (i < length l)%nat -> (j < length l)%nat -> entry (diagonal l) i j = if (i =? j)%nat then nth i l 0 else 0.
Proof. intros I J. apply (c40_diagonal l i j I J). Qed.

Lemma mdiv_entry m f i j : entry (mdiv m f) i j = entry m i j / f.
Proof. unfold entry, mdiv. cbn [cols entries]. apply vdiv_nth. Qed.

(** The relaxation matrix is diagonal with the documented rates. *)
Theorem c52_grcbc : forall d f C step, relaxation_values d f = Ok C ->
  exists m, grcbc_relaxation_matrix d f (Some step) = Ok m /\
    is_diagonal (length C) m (fun i => nth i C 0 / step).
Proof.
  intros d f C step E. unfold grcbc_relaxation_matrix. rewrite E. cbn [bind]. eexists. split; [reflexivity|].
  destruct (diagonal_shape C) as (A & B & L). split.
  - repeat split; trivial. cbn [mdiv entries]. rewrite vdiv_length. exact L.
  - intros i j I J. rewrite mdiv_entry, diagonal_entry by assumption. unfold delta. destruct (i =? j)%nat; unfold Rdiv; ring.
Qed.
Print Assumptions c52_grcbc.

Lemma combine_nth2 (f : R * R -> R) x y i : length x = length y -> (i < length x)%nat -> nth i (map f (combine x y)) 0 = f (nth i x 0, nth i y 0).
Proof.
  revert y i. induction x as [|a x IH]; intros [|b y] i L I; try discriminate L; [cbn in I; lia|]. destruct i as [|i]; [reflexivity|]. cbn. apply IH; cbn in *; lia.
Qed.

Theorem c52_nscbc : forall d f C len c M, relaxation_values d f = Ok C -> length C = (d + 2)%nat ->
  exists m, nscbc_relaxation_matrix d f len (Some c) (Some M) = Ok m /\
    is_diagonal (d + 2) m (fun i => nth i C 0 * reference_speed d c M i / len).
Proof.
  intros d f C len c M E L. unfold nscbc_relaxation_matrix. rewrite E. cbn [bind]. eexists. split; [reflexivity|].
  set (eig := c * (1 - M ^ 2) :: repeat c d ++ [c * (1 - M ^ 2)]).
  assert (Le : length eig = (d + 2)%nat) by (unfold eig; cbn [length]; rewrite app_length, repeat_length; cbn; lia).
  set (D := map (fun fe => fst fe * snd fe / len) (combine C eig)).
  assert (LD : length D = (d + 2)%nat) by (unfold D; rewrite map_length, combine_length; lia).
  rewrite <- LD. split; [apply diagonal_shape|]. intros i j I J. rewrite diagonal_entry by assumption.
  unfold D at 1. rewrite combine_nth2 by lia. cbn [fst snd].
  assert (Ei : nth i eig 0 = reference_speed d c M i).
  { unfold eig, reference_speed. destruct i as [|i]; [reflexivity|]. change (S i =? 0)%nat with false. cbn [nth orb]. rewrite LD in I.
    destruct (Nat.eqb_spec (S i) (d + 1)) as [e|e].
    - rewrite app_nth2; rewrite repeat_length; [|lia]. replace (i - d)%nat with 0%nat by lia. reflexivity.
    - rewrite app_nth1 by (rewrite repeat_length; lia). apply nth_error_nth. apply nth_error_repeat. lia. }
  rewrite Ei. unfold delta. destruct (i =? j)%nat; ring.
Qed.
Print Assumptions c52_nscbc.

(** Without time step, sound speed or Mach number the matrices raise ValueError. *)
Theorem c52_missing : forall d f len c M,
  grcbc_relaxation_matrix d f None = Err ValueError /\ nscbc_relaxation_matrix d f len None M = Err ValueError /\ nscbc_relaxation_matrix d f len c None = Err ValueError.
Proof. intros d f len c M. repeat split. destruct c; reflexivity. Qed.
Print Assumptions c52_missing.

Example c52_example :
  relaxation_values 2 (relaxation_factor (FSequence [1; 2; 3; 4; 5])) = Ok [1; 2; 3; 5] /\
  relaxation_values 3 (relaxation_factor (FScalar (7 / 25))) = Ok [7 / 25; 7 / 25; 7 / 25; 7 / 25; 7 / 25] /\
  exists m, nscbc_relaxation_matrix 2 (relaxation_factor (FSequence [1; 2; 3; 4; 5])) 2 (Some 10) (Some (1 / 2)) = Ok m /\
    entry m 0 0 = 15 / 4 /\ entry m 1 1 = 10 /\ entry m 3 3 = 75 / 4 /\ entry m 0 3 = 0.
Proof.
  split; [reflexivity|]. split; [reflexivity|]. eexists. split; [reflexivity|]. cbn. repeat split; lra.
Qed.

(** ** C58: the characteristic conditions *)

Lemma amplitude_ext Q x y k a : (forall j, (j < 4)%nat -> nth j x 0 = a * nth j y 0) -> amplitude Q x k = a * amplitude Q y k.
Proof. intros E. unfold amplitude. cbn [total]. rewrite !E by lia. ring. Qed.

Lemma scaled_product a W X v j : shape 4 W -> shape 4 X -> (j < 4)%nat -> nth j (mvmul (mmul (scale a W) X) v) 0 = a * nth j (mvmul W (mvmul X v)) 0.
Proof.
  intros SW SX J. pose proof (mmul_product _ _ (scale_shape a 4 W SW) SX) as (_ & _ & (R1 & C1 & _) & E).
  destruct SW as (RW & CW & LW). destruct SX as (RX & CX & LX). rewrite !mvmul_total by lia. rewrite C1, CW. cbn [total]. rewrite !E by lia. cbn [total].
  rewrite !scale_entry. rewrite !mvmul_total by lia. rewrite CX. cbn [total]. ring.
Qed.

Lemma amplitude_scaled P Q f a X v k : inverse 4 P Q -> shape 4 X -> (k < 4)%nat ->
  amplitude Q (mvmul (mmul (scale a (mmul (mmul P (diagonal (map f waves))) Q)) X) v) k = a * (f k * amplitude Q (mvmul X v) k).
Proof.
  intros Inv SX K. pose proof (waves_eigenvectors P Q f Inv) as (SW & _ & _).
  rewrite (amplitude_ext Q _ (mvmul (mmul (mmul P (diagonal (map f waves))) Q) (mvmul X v)) k a) by (intros j J; apply scaled_product; assumption).
  rewrite amplitude_wave by assumption. reflexivity.
Qed.

Lemma amplitude_scale P Q f a v k : inverse 4 P Q -> (k < 4)%nat ->
  amplitude Q (mvmul (scale a (mmul (mmul P (diagonal (map f waves))) Q)) v) k = a * (f k * amplitude Q v k).
Proof.
  intros Inv K. pose proof (waves_eigenvectors P Q f Inv) as ((R1 & C1 & _) & _ & _).
  rewrite (amplitude_ext Q _ (mvmul (mmul (mmul P (diagonal (map f waves))) Q) v) k a); [rewrite amplitude_wave by assumption; reflexivity|].
  set (W := mmul (mmul P (diagonal (map f waves))) Q) in *. intros j J.
  rewrite (mvmul_total (scale a W)) by (change (rows (scale a W)) with (rows W); lia). rewrite mvmul_total by lia. change (cols (scale a W)) with (cols W).
  rewrite C1. cbn [total]. rewrite !scale_entry. ring.
Qed.

(** The relaxation matrix as it enters the condition. *)
Lemma relaxation_diagonal cfg k f C step c : s_dim cfg = 2%nat -> relaxation_values 2 f = Ok C -> length C = 4%nat ->
  match k with
  | KGRCBC => grcbc_relaxation_matrix (s_dim cfg) f (Some step)
  | KNSCBC len => nscbc_relaxation_matrix (s_dim cfg) f len (Some c) (Some (s_mach cfg))
  end = Ok (diagonal (map (relaxation_rate k 2 C step c (s_mach cfg)) waves)).
Proof.
  intros D2 E L. destruct C as [|a [|b [|v [|o [|z C]]]]]; try discriminate L. rewrite D2.
  assert (Z : 0 / step = 0) by (unfold Rdiv; ring).
  destruct k as [|len]; unfold grcbc_relaxation_matrix, nscbc_relaxation_matrix; rewrite E; cbn [bind]; f_equal.
  unfold mdiv, diagonal. cbn. rewrite !Z. reflexivity.
Qed.

(** Amplitude of wave [k] of the condition: outgoing waves keep the amplitude of the flow; incoming waves follow a
    relaxation to the target with the documented rate, driven by the tangential and the viscous terms; waves that
    stand still are wrongly required to vanish. *)
Theorem c58_waves : forall cfg kind tg f C beta fields step dt Un U s slope viscous w ux uy n n0 n1 t t0 t1,
  1 < s_gamma cfg -> valid s -> st_u s = [ux; uy] -> s_dim cfg = 2%nat -> unit2 n n0 n1 -> unit2 t t0 t1 ->
  relaxation_values 2 f = Ok C -> length C = 4%nat -> cbc_state cfg tg fields U = Ok w -> length w = 4%nat -> length U = 4%nat ->
  let Uhat := conservative_list (s_gamma cfg) s in
  let c := q_c (s_gamma cfg) s in
  let speed := wave_speed (ux * n0 + uy * n1) c in
  exists P Pi B r, inverse 4 P Pi /\ characteristic_from_conservative cfg (full_fields cfg s) n = Ok Pi /\
    get_conservative_convective_jacobian cfg (full_fields cfg s) t Full = Ok B /\
    cbc_residual cfg kind tg f beta fields step dt Un U Uhat slope n t viscous = Ok r /\ length r = 4%nat /\
    forall k, (k < 4)%nat ->
      (0 < speed k -> amplitude Pi r k = amplitude Pi Uhat k - amplitude Pi U k) /\
      (speed k < 0 -> amplitude Pi r k = amplitude Pi Uhat k - amplitude Pi Un k
         - dt * relaxation_rate kind 2 C step c (s_mach cfg) k * (amplitude Pi w k - amplitude Pi Uhat k)
         + dt * beta * amplitude Pi (mvmul B slope) k
         - match viscous with Some v => dt * amplitude Pi v k | None => 0 end) /\
      (speed k = 0 -> amplitude Pi r k = amplitude Pi Uhat k).
Proof.
  intros cfg kind tg f C beta fields step dt Un U s slope viscous w ux uy n n0 n1 t t0 t1 G Va Eu D2 N T Ef LC Ew Lw LU Uhat c speed.
  destruct (farfield_matrices cfg s ux uy n0 n1 n G Va Eu N) as (P & Pi & Inv & EPi & Tr & Am).
  set (V := full_fields cfg s) in *. pose proof (q_c_pos _ _ G Va) as C0. fold c in C0.
  assert (Er : f_rho V = Some (st_rho s)) by reflexivity.
  assert (Eu' : f_u V = Some [ux; uy]) by (cbn; rewrite Eu; reflexivity). assert (Ec : f_c V = Some c) by reflexivity.
  assert (HB : exists B, get_conservative_convective_jacobian cfg V t Full = Ok B /\ shape 4 B).
  { destruct (c44_eigenvectors cfg V (st_rho s) ux uy c t t0 t1 Full Er Eu' Ec T ltac:(destruct Va; lra) ltac:(lra) ltac:(lra) ltac:(discriminate)) as [(J & P' & Pi' & EJ & _ & _ & _ & (SJ & _)) _].
    exists J. split; assumption. }
  destruct HB as (B & EB & SB). exists P, Pi, B.
  assert (Lh : length Uhat = 4%nat) by (unfold Uhat; rewrite conservative_list_length, Eu; reflexivity).
  assert (SW : forall h, shape 4 (mmul (mmul P (diagonal (map h waves))) Pi)) by (intros h; exact (proj1 (waves_eigenvectors P Pi h Inv))).
  unfold cbc_residual. unfold Uhat at 1. rewrite (farfield_fields cfg s ux uy G Va Eu D2). cbn [bind]. fold V. rewrite Ew. cbn [bind].
  assert (Es : speed_of_sound cfg V = Ok c) by reflexivity. rewrite Es. cbn [bind]. rewrite (relaxation_diagonal cfg kind f C step c D2 Ef LC). cbn [bind].
  unfold get_conservative_convective_identity. rewrite !(identity_ok V ux uy c n0 n1 n Eu' Ec N) by tauto. cbn [bind]. rewrite !Tr. cbn [bind]. rewrite EB. cbn [bind].
  fold waves.
  change (fun k => selected Outgoing (wave_speed (ux * n0 + uy * n1) c k)) with (fun k => selected Outgoing (speed k)).
  change (fun k => selected Incoming (wave_speed (ux * n0 + uy * n1) c k)) with (fun k => selected Incoming (speed k)).
  set (rate := relaxation_rate kind 2 C step c (s_mach cfg)).
  set (So := mmul (mmul P (diagonal (map (fun k => selected Outgoing (speed k)) waves))) Pi).
  set (Si := mmul (mmul P (diagonal (map (fun k => selected Incoming (speed k)) waves))) Pi).
  set (D := mmul (mmul P (diagonal (map rate waves))) Pi).
  assert (RSo : rows So = 4%nat) by exact (proj1 (SW _)). assert (RSi : forall a, rows (scale a Si) = 4%nat) by (intros a; exact (proj1 (SW _))).
  assert (RS1 : rows Si = 4%nat) by exact (proj1 (SW _)).
  assert (RM : forall a X, rows (mmul (scale a Si) X) = 4%nat) by (intros a X; exact (proj1 (SW _))).
  set (base := vadd _ _). assert (Lb : length base = 4%nat) by (unfold base; rewrite vadd_length, !vsub_length, !mvmul_length, !RM, RSo, RS1, Lh; reflexivity).
  assert (Ab : forall k, (k < 4)%nat -> amplitude Pi base k = amplitude Pi Uhat k - selected Outgoing (speed k) * amplitude Pi U k - selected Incoming (speed k) * amplitude Pi Un k
    - dt * (selected Incoming (speed k) * (rate k * (amplitude Pi w k - amplitude Pi Uhat k))) + dt * beta * (selected Incoming (speed k) * amplitude Pi (mvmul B slope) k)).
  { intros k K. unfold base. rewrite amplitude_vadd by (rewrite !vsub_length, !mvmul_length, !RM, RSo, RS1, Lh; reflexivity).
    rewrite !amplitude_vsub by (rewrite ?vsub_length, ?mvmul_length, ?RM, ?RSo, ?RS1, ?Lh; reflexivity).
    unfold So, Si, D. rewrite !amplitude_scaled by (trivial; apply SW). rewrite !(amplitude_wave P Pi _ _ k Inv K). rewrite amplitude_vsub by lia. reflexivity. }
  eexists. split; [exact Inv|]. split; [exact EPi|]. split; [reflexivity|]. split; [reflexivity|].
  split; [destruct viscous; [rewrite vsub_length, mvmul_length, RSi, Lb; reflexivity|exact Lb]|].
  intros k K.
  assert (Ar : amplitude Pi (match viscous with Some v => vsub base (mvmul (scale dt Si) v) | None => base end) k =
    amplitude Pi base k - match viscous with Some v => dt * (selected Incoming (speed k) * amplitude Pi v k) | None => 0 end).
  { destruct viscous; [|ring]. rewrite amplitude_vsub by (rewrite mvmul_length, RSi, Lb; reflexivity). unfold Si. rewrite amplitude_scale by assumption. reflexivity. }
  rewrite Ar, (Ab k K). unfold selected. fold rate.
  repeat split; intros S; repeat match goal with |- context [Rlt_dec ?a ?b] => destruct (Rlt_dec a b) end; try lra; destruct viscous; ring.
Qed.
Print Assumptions c58_waves.

(** If the condition holds, an incoming wave without tangential and viscous terms has moved from its old amplitude
    towards the target: the distance has shrunk by the factor 1 + dt rate. *)
Theorem c58_relaxes : forall cfg kind tg f C fields step dt Un U s slope w ux uy n n0 n1 t t0 t1 r,
  1 < s_gamma cfg -> valid s -> st_u s = [ux; uy] -> s_dim cfg = 2%nat -> unit2 n n0 n1 -> unit2 t t0 t1 ->
  relaxation_values 2 f = Ok C -> length C = 4%nat -> cbc_state cfg tg fields U = Ok w -> length w = 4%nat -> length U = 4%nat ->
  let Uhat := conservative_list (s_gamma cfg) s in
  let c := q_c (s_gamma cfg) s in
  cbc_residual cfg kind tg f 0 fields step dt Un U Uhat slope n t None = Ok r ->
  exists P Pi, inverse 4 P Pi /\ characteristic_from_conservative cfg (full_fields cfg s) n = Ok Pi /\
    (vanishes r <-> forall k, (k < 4)%nat ->
      let l := wave_speed (ux * n0 + uy * n1) c k in
      (0 < l -> amplitude Pi Uhat k = amplitude Pi U k) /\
      (l < 0 -> (amplitude Pi Uhat k - amplitude Pi w k) * (1 + dt * relaxation_rate kind 2 C step c (s_mach cfg) k) = amplitude Pi Un k - amplitude Pi w k) /\
      (l = 0 -> amplitude Pi Uhat k = 0)).
Proof.
  intros cfg kind tg f C fields step dt Un U s slope w ux uy n n0 n1 t t0 t1 r G Va Eu D2 N T Ef LC Ew Lw LU Uhat c Hr.
  destruct (c58_waves cfg kind tg f C 0 fields step dt Un U s slope None w ux uy n n0 n1 t t0 t1 G Va Eu D2 N T Ef LC Ew Lw LU) as (P & Pi & B & r' & Inv & EPi & _ & Er & Lr & A).
  fold Uhat in Er, A. fold c in A. rewrite Hr in Er. apply ok_inj in Er. subst r'. exists P, Pi. split; [exact Inv|]. split; [exact EPi|].
  rewrite <- (amplitudes_vanish P Pi r Inv Lr). set (rate := relaxation_rate kind 2 C step c (s_mach cfg)) in *. split.
  - intros H k K l. destruct (A k K) as (A1 & A2 & A3). fold l in A1, A2, A3. rewrite (H k K) in A1, A2, A3. repeat split; intros S; [specialize (A1 S)|specialize (A2 S)|specialize (A3 S)]; lra.
  - intros H k K. destruct (A k K) as (A1 & A2 & A3). destruct (H k K) as (H1 & H2 & H3). set (l := wave_speed (ux * n0 + uy * n1) c k) in *.
    destruct (Rtotal_order l 0) as [S|[S|S]]; [rewrite (A2 S); specialize (H2 S); lra|rewrite (A3 S); exact (H3 S)|rewrite (A1 S), (H1 S); ring].
Qed.
Print Assumptions c58_relaxes.

(** With nonnegative rates the new amplitude lies between the old one and the target. *)
Theorem c58_between : forall rate dt new old target, 0 <= rate -> 0 < dt -> (new - target) * (1 + dt * rate) = old - target ->
  Rmin old target <= new <= Rmax old target /\ Rabs (new - target) <= Rabs (old - target) /\ (0 < rate -> old <> target -> Rabs (new - target) < Rabs (old - target)).
Proof.
  intros rate dt new old target R0 T E. assert (K : 0 <= dt * rate) by (apply Rmult_le_pos; lra). set (q := dt * rate) in *.
  rewrite <- E. rewrite Rabs_mult. rewrite (Rabs_right (1 + q)) by lra. pose proof (Rabs_pos (new - target)) as A.
  split; [|split].
  - unfold Rmin, Rmax. destruct (Rle_dec old target); split; nra.
  - nra.
  - intros R1 X. assert (0 < q) by (apply Rmult_lt_0_compat; lra). assert (0 < Rabs (new - target)); [|nra].
    apply Rabs_pos_lt. intros Z. apply X. rewrite Z in E. lra.
Qed.
Print Assumptions c58_between.

(** A uniform flow at rest with its target satisfies the condition exactly if no wave stands still. *)
Theorem c58_uniform : forall cfg kind tg f C beta fields step dt s ux uy n n0 n1 t t0 t1,
  1 < s_gamma cfg -> valid s -> st_u s = [ux; uy] -> s_dim cfg = 2%nat -> unit2 n n0 n1 -> unit2 t t0 t1 ->
  relaxation_values 2 f = Ok C -> length C = 4%nat ->
  let W := conservative_list (s_gamma cfg) s in
  cbc_state cfg tg fields W = Ok W ->
  exists r, cbc_residual cfg kind tg f beta fields step dt W W W (repeat 0 4) n t None = Ok r /\
    (vanishes r <-> forall k, (k < 4)%nat -> wave_speed (ux * n0 + uy * n1) (q_c (s_gamma cfg) s) k <> 0).
Proof.
  intros cfg kind tg f C beta fields step dt s ux uy n n0 n1 t t0 t1 G Va Eu D2 N T Ef LC W Ew.
  assert (LW : length W = 4%nat) by (unfold W; rewrite conservative_list_length, Eu; reflexivity).
  destruct (farfield_matrices cfg s ux uy n0 n1 n G Va Eu N) as (P' & Pi' & _ & EPi' & _ & Am).
  destruct (c58_waves cfg kind tg f C beta fields step dt W W s (repeat 0 4) None W ux uy n n0 n1 t t0 t1 G Va Eu D2 N T Ef LC Ew LW LW) as (P & Pi & B & r & Inv & EPi & EB & Er & Lr & A).
  rewrite EPi in EPi'. apply ok_inj in EPi'. subst Pi'. fold W in Am. exists r. split; [exact Er|].
  rewrite <- (amplitudes_vanish P Pi r Inv Lr). destruct Va as [R0 P0]. assert (K0 : 0 < (s_gamma cfg - 1) * st_p s) by (apply Rmult_lt_0_compat; lra). split.
  - intros H k K Z. destruct (A k K) as (_ & _ & A3). specialize (A3 Z). fold W in A3. rewrite (H k K), (Am k K) in A3.
    four k K; cbn [uniform_amplitude wave_speed] in A3, Z; try lra.
    destruct (A 1%nat ltac:(lia)) as (_ & _ & B3). cbn [wave_speed] in B3. specialize (B3 Z). fold W in B3. rewrite (H 1%nat ltac:(lia)), (Am 1%nat ltac:(lia)) in B3. cbn [uniform_amplitude] in B3. lra.
  - intros H k K. destruct (A k K) as (A1 & A2 & _). fold W in A1, A2.
    assert (Z0 : amplitude Pi (mvmul B (repeat 0 4)) k = 0).
    { rewrite mvmul_zero. unfold amplitude. cbn [total]. rewrite !nth_repeat. ring. }
    destruct (Rtotal_order (wave_speed (ux * n0 + uy * n1) (q_c (s_gamma cfg) s) k) 0) as [S|[S|S]]; [|contradiction (H k K S)|rewrite (A1 S); ring].
    rewrite (A2 S), Z0. ring.
Qed.
Print Assumptions c58_uniform.

(** ** Targets *)

(** The targets: an outflow keeps density and velocity of the flow, a mass inflow its pressure, a temperature inflow its
    temperature with the density on the isentrope of the target. *)
Theorem c58_targets : forall cfg s x fields, 1 < s_gamma cfg -> valid s -> valid x -> length (st_u s) = s_dim cfg -> describes (s_gamma cfg) x fields ->
  let g := s_gamma cfg in
  let W := conservative_list g s in
  (forall w, cbc_state cfg TFarfield fields W = Ok w -> w = conservative_list g x) /\
  (forall w, cbc_state cfg TOutflow fields W = Ok w -> w = conservative_list g (mk_state (st_rho s) (st_u s) (st_p x))) /\
  (forall w, cbc_state cfg TMassInflow fields W = Ok w -> w = conservative_list g (mk_state (st_rho x) (st_u x) (st_p s))) /\
  (forall w, cbc_state cfg TTemperatureInflow fields W = Ok w ->
     exists rho, isentropic_density cfg (full_fields cfg s) fields = Ok rho /\
       w = conservative_list g (mk_state rho (st_u x) ((g - 1) / g * rho * q_T g s))).
Proof.
  intros cfg s x fields G V Vx Dim D g W. unfold cbc_state, W, g. rewrite (fields_ok cfg s G V Dim). cbn [bind].
  pose proof V as [R0 P0]. pose proof Vx as [R1 P1].
  repeat match goal with |- _ /\ _ => split end.
  - intros w H. unfold conservative_vector in H. apply bind_ok in H as (r & Hr & H). apply bind_ok in H as (m & Hm & H). apply bind_ok in H as (e & He & H). apply ok_inj in H. subst w.
    apply (density_ok _ _ _ G Vx D) in Hr. apply (momentum_ok _ _ _ G Vx D) in Hm. apply (energy_ok _ _ _ G Vx D) in He. subst. reflexivity.
  - intros w. fields D. destruct (f_p fields) as [p|] eqn:Ep; [|discriminate]. use_given. subst p. intros H. unfold conservative_vector, full_fields in H. cbn in H. apply ok_inj in H. subst w.
    unfold conservative_list, q_rho_u. cbn [st_rho st_u]. do 3 f_equal.
    unfold q_rho_E, q_E, q_Ei, q_rho_Ei, q_rho_Ek, q_Ek. cbn [st_rho st_u st_p]. field. lra.
  - intros w. fields D. destruct (f_rho fields) as [r|] eqn:Er; [|discriminate]. destruct (f_rho_u fields) as [m|] eqn:Em; [|discriminate].
    destruct (f_rho_Ek fields) as [k|] eqn:Ek; [|discriminate]. use_given. subst r m k. intros H. unfold conservative_vector, full_fields in H. cbn in H. apply ok_inj in H. subst w.
    unfold conservative_list, q_rho_u. cbn [st_rho st_u]. do 3 f_equal.
    unfold q_rho_E, q_E, q_Ei, q_rho_Ei, q_rho_Ek, q_Ek. cbn [st_rho st_u st_p]. field. lra.
  - intros w H. apply bind_ok in H as (rho & Hr & H). exists rho. split; [exact Hr|]. fields D. destruct (f_u fields) as [u|] eqn:Eu; [|discriminate H]. use_given. subst u.
    unfold conservative_vector, full_fields in H. cbn in H. apply ok_inj in H. subst w.
    assert (Rp : rho <> 0).
    { apply equation_ok in Hr. unfold eos_isentropic_density, full_fields in Hr. cbn [f_p f_T] in Hr.
      assert (Pw : forall a b, 0 < Rpower a b) by (intros a b; apply exp_pos).
      destruct (f_rho fields) as [r|] eqn:Er; [|destruct (f_p fields), (f_T fields); discriminate Hr]. use_given. subst r.
      destruct (f_p fields) as [p|]; [|destruct (f_T fields) as [q|]; [|discriminate Hr]]; apply some_inj in Hr; subst rho; apply Rmult_integral_contrapositive_currified; try lra; apply Rgt_not_eq, Pw. }
    unfold conservative_list, q_rho_u. cbn [st_rho st_u]. do 3 f_equal.
    unfold q_rho_E, q_E, q_Ei, q_rho_Ei, q_Ek, q_T. cbn [st_rho st_u st_p]. field. repeat split; lra.
Qed.
Print Assumptions c58_targets.

Lemma fields_complete cfg U : exists V, get_conservative_fields cfg U = Ok V /\ (exists p, f_p V = Some p) /\ (exists T, f_T V = Some T).
Proof. eexists. split; [reflexivity|]. split; eexists; reflexivity. Qed.

(** The fields that the targets need.  A mass inflow raises TypeError unless momentum and kinetic energy are given
    besides the density, although density and velocity determine them. *)
Theorem c58_targets_missing : forall cfg fields U,
  (f_p fields = None -> cbc_state cfg TOutflow fields U = Err TypeError) /\
  ((f_rho fields = None \/ f_rho_u fields = None \/ f_rho_Ek fields = None) -> cbc_state cfg TMassInflow fields U = Err TypeError) /\
  (f_rho fields = None -> cbc_state cfg TTemperatureInflow fields U = Err ValueError) /\
  (f_rho fields <> None -> f_p fields = None -> f_T fields = None -> cbc_state cfg TTemperatureInflow fields U = Err ValueError) /\
  (f_rho fields <> None -> (f_p fields <> None \/ f_T fields <> None) -> f_u fields = None -> cbc_state cfg TTemperatureInflow fields U = Err TypeError).
Proof.
  intros cfg fields U. unfold cbc_state. destruct (fields_complete cfg U) as (V & EV & Hp & HT). rewrite EV. cbn [bind]. unfold isentropic_density, eos_isentropic_density.
  destruct Hp as [p Hp]. destruct HT as [T HT]. rewrite Hp, HT.
  destruct (f_p fields), (f_rho fields), (f_rho_u fields), (f_rho_Ek fields), (f_T fields), (f_u fields); repeat split; intros;
    try discriminate; try contradiction; try reflexivity; repeat match goal with H : _ \/ _ |- _ => destruct H end; try discriminate; try contradiction; reflexivity.
Qed.
Print Assumptions c58_targets_missing.

(** Density, velocity and pressure of a state determine all fields, yet are refused as the target of a mass inflow. *)
Theorem c58_mass_inflow_refuted : forall cfg s U, 1 < s_gamma cfg -> valid s ->
  let fields := mk_flow (Some (st_rho s)) (Some (st_u s)) None (Some (st_p s)) None None None None None None None None None None in
  describes (s_gamma cfg) s fields /\ conservative_vector cfg fields = Ok (conservative_list (s_gamma cfg) s) /\
  cbc_state cfg TMassInflow fields U = Err TypeError.
Proof.
  intros cfg s U G V fields.
  assert (D : describes (s_gamma cfg) s fields) by (unfold describes; repeat match goal with |- _ /\ _ => split end; intros y H; try discriminate H; cbn in H; injection H as <-; reflexivity).
  split; [exact D|]. split.
  - destruct (c57_vector cfg s fields G V D) as (A & _ & _). assert (E : exists w, conservative_vector cfg fields = Ok w) by (eexists; reflexivity).
    destruct E as [w E]. rewrite E. f_equal. exact (A w E).
  - apply (c58_targets_missing cfg fields U). right. left. reflexivity.
Qed.
Print Assumptions c58_mass_inflow_refuted.

(** Errors of the target, of the factors and of the dimension come through. *)
Theorem c58_raises : forall cfg kind tg f beta fields step dt Un U s slope n t viscous, 1 < s_gamma cfg -> valid s -> length (st_u s) = s_dim cfg -> length n = s_dim cfg ->
  let r := cbc_residual cfg kind tg f beta fields step dt Un U (conservative_list (s_gamma cfg) s) slope n t viscous in
  (forall e, cbc_state cfg tg fields U = Err e -> r = Err e) /\
  (forall w e, cbc_state cfg tg fields U = Ok w -> relaxation_values (s_dim cfg) f = Err e -> r = Err e) /\
  (forall w C, cbc_state cfg tg fields U = Ok w -> relaxation_values (s_dim cfg) f = Ok C -> s_dim cfg <> 2%nat -> r = Err NotImplementedError).
Proof.
  intros cfg kind tg f beta fields step dt Un U s slope n t viscous G V Dim Ln r. unfold r, cbc_residual. rewrite (fields_ok cfg s G V Dim). cbn [bind].
  split; [|split].
  - intros e E. rewrite E. reflexivity.
  - intros w e Ew E. rewrite Ew. cbn [bind]. assert (Es : speed_of_sound cfg (full_fields cfg s) = Ok (q_c (s_gamma cfg) s)) by reflexivity. rewrite Es. cbn [bind].
    destruct kind; unfold grcbc_relaxation_matrix, nscbc_relaxation_matrix; rewrite E; reflexivity.
  - intros w C Ew E D2. rewrite Ew. cbn [bind]. assert (Es : speed_of_sound cfg (full_fields cfg s) = Ok (q_c (s_gamma cfg) s)) by reflexivity. rewrite Es. cbn [bind].
    assert (Tr : forall m, transform_characteristic_to_conservative cfg m (full_fields cfg s) n = Err NotImplementedError).
    { intros m. unfold transform_characteristic_to_conservative, conservative_from_characteristic, eos_P, full_fields. cbn [f_rho f_c f_u].
      rewrite <- Ln in D2. destruct n as [|a [|b [|d n]]]; cbn in D2; try lia; reflexivity. }
    destruct kind; unfold grcbc_relaxation_matrix, nscbc_relaxation_matrix; rewrite E; cbn [bind]; rewrite Tr; reflexivity.
Qed.
Print Assumptions c58_raises.

(** The wave state leaves through (3/5, 4/5) with normal velocity 5 > 2 = c, so that all waves are outgoing, and enters
    through the opposite side. *)
Example c58_example :
  let W := conservative_list (7 / 5) wave_state in
  let far := mk_flow (Some (7 / 5)) (Some [3; 4]) None (Some 4) None None None None None None None None None None in
  let f := relaxation_factor (FScalar (1 / 4)) in
  cbc_state air TFarfield far W = Ok W /\
  (exists r, cbc_residual air KGRCBC TFarfield f 0 far 1 (1 / 2) W W W (repeat 0 4) [- (3 / 5); - (4 / 5)] [4 / 5; - (3 / 5)] None = Ok r /\ vanishes r) /\
  (exists r, cbc_residual air (KNSCBC 2) TFarfield f 0 far 1 (1 / 2) W W W (repeat 0 4) [4 / 5; - (3 / 5)] [3 / 5; 4 / 5] None = Ok r /\ ~ vanishes r).
Proof.
  intros W far f. assert (Va : valid wave_state) by (split; cbn; lra). assert (G : 1 < s_gamma air) by (cbn; lra).
  assert (Un : unit2 [- (3 / 5); - (4 / 5)] (- (3 / 5)) (- (4 / 5))) by (split; [reflexivity|lra]). assert (Ut : unit2 [4 / 5; - (3 / 5)] (4 / 5) (- (3 / 5))) by (split; [reflexivity|lra]).
  assert (Um : unit2 [3 / 5; 4 / 5] (3 / 5) (4 / 5)) by (split; [reflexivity|lra]).
  destruct c50_example as (Ew & _). fold W far in Ew.
  assert (Es : cbc_state air TFarfield far W = Ok W).
  { unfold cbc_state. unfold W at 1. change (7 / 5) with (s_gamma air). rewrite (fields_ok air wave_state G Va eq_refl). exact Ew. }
  assert (Ef : relaxation_values 2 f = Ok [1 / 4; 1 / 4; 1 / 4; 1 / 4]) by reflexivity.
  assert (C : q_c (7 / 5) wave_state = 2).
  { unfold q_c, wave_state. cbn. replace (7 / 5 * 4 / (7 / 5)) with (2 * 2) by field. apply sqrt_square. lra. }
  split; [exact Es|]. split.
  - destruct (c58_uniform air KGRCBC TFarfield f _ 0 far 1 (1 / 2) wave_state 3 4 _ _ _ _ _ _ G Va eq_refl eq_refl Un Ut Ef eq_refl Es) as (r & E & H). exists r. split; [exact E|].
    apply H. intros k K. change (s_gamma air) with (7 / 5). rewrite C. four k K; cbn; lra.
  - destruct (c58_uniform air (KNSCBC 2) TFarfield f _ 0 far 1 (1 / 2) wave_state 3 4 _ _ _ _ _ _ G Va eq_refl eq_refl Ut Um Ef eq_refl Es) as (r & E & H). exists r. split; [exact E|].
    rewrite H. intros X. apply (X 1%nat ltac:(lia)). cbn. lra.
Qed.
