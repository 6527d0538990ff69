(** C66: characteristic variables and wave amplitudes. *)
From Coq Require Import Reals List Arith Lra Lia Bool.
From Coquelicot Require Import Coquelicot.
From Verif Require Import Base M_Bla M_Flow S_Flow S_Chars L_Flow P_Eos P_Gradients P_Chars P_Jacobian.
Import ListNotations.
Open Scope R_scope.

(** The derivatives of the variables along the coordinate lines: [v j k] of variable [k] in direction [j]. *)
Definition rates (variable : state -> nat -> R) (line : nat -> R -> state) (v : nat -> nat -> R) : Prop :=
  forall j k, (j < 2)%nat -> (k < 4)%nat -> is_derive (fun t => variable (line j t) k) 0 (v j k).

(** The derivative in the direction (n0, n1). *)
Definition along (n0 n1 : R) (v : nat -> nat -> R) (k : nat) : R := n0 * v 0%nat k + n1 * v 1%nat k.

Lemma variables_ok U dU rho c drho dp du n0 n1 : f_rho U = Some rho -> f_c U = Some c ->
  g_rho dU = Some drho -> g_p dU = Some dp -> g_u dU = Some du ->
  characteristic_variables U dU [n0; n1] =
    Ok (let un := mvmul du [n0; n1] in
        [inner dp [n0; n1] - inner un [n0; n1] * c * rho; inner drho [n0; n1] * c ^ 2 - inner dp [n0; n1];
         nth 0 un 0 * n1 - nth 1 un 0 * n0; inner dp [n0; n1] + inner un [n0; n1] * c * rho]).
Proof. intros Er Ec Dr Dp Du. unfold characteristic_variables, eos_characteristic_variables. rewrite Er, Ec, Dr, Dp, Du. reflexivity. Qed.

(** The given gradients are the rates. *)
Lemma gradient_rates (line : nat -> R -> state) (q : state -> R) l (v : nat -> R) :
  is_gradient 2 line q l -> (forall j, (j < 2)%nat -> is_derive (fun t => q (line j t)) 0 (v j)) -> l = [v 0%nat; v 1%nat].
Proof.
  intros [L D] H. destruct l as [|a [|b [|c l]]]; try discriminate L.
  pose proof (is_derive_unique _ _ _ (D 0%nat ltac:(lia))) as A. pose proof (is_derive_unique _ _ _ (D 1%nat ltac:(lia))) as B.
  rewrite (is_derive_unique _ _ _ (H 0%nat ltac:(lia))) in A. rewrite (is_derive_unique _ _ _ (H 1%nat ltac:(lia))) in B.
  cbn [nth] in A, B. rewrite A, B. reflexivity.
Qed.

Lemma jacobian_rates (line : nat -> R -> state) (q : state -> list R) m (v : nat -> nat -> R) :
  is_jacobian 2 line q m -> (forall i j, (i < 2)%nat -> (j < 2)%nat -> is_derive (fun t => nth j (q (line i t)) 0) 0 (v i j)) ->
  m = mk_matrix 2 2 [v 0%nat 0%nat; v 1%nat 0%nat; v 0%nat 1%nat; v 1%nat 1%nat].
Proof.
  intros (Rm & Cm & L & D) H. destruct m as [r c e]. cbn in Rm, Cm, L. subst r c.
  assert (E : forall i j, (i < 2)%nat -> (j < 2)%nat -> entry (mk_matrix 2 2 e) j i = v i j).
  { intros i j I J. rewrite <- (is_derive_unique _ _ _ (D i j I J)). apply is_derive_unique. exact (H i j I J). }
  destruct e as [|a [|b [|c [|d [|f e]]]]]; try discriminate L.
  pose proof (E 0%nat 0%nat ltac:(lia) ltac:(lia)) as E0. pose proof (E 0%nat 1%nat ltac:(lia) ltac:(lia)) as E1.
  pose proof (E 1%nat 0%nat ltac:(lia) ltac:(lia)) as E2. pose proof (E 1%nat 1%nat ltac:(lia) ltac:(lia)) as E3.
  cbn in E0, E1, E2, E3. subst. reflexivity.
Qed.

(** The characteristic variables in terms of the rates. *)
Lemma variables_rates cfg line U dU rho c v n0 n1 : describes_gradients (s_gamma cfg) 2 line dU -> rates (primitive 2) line v ->
  f_rho U = Some rho -> f_c U = Some c -> g_rho dU <> None -> g_p dU <> None -> g_u dU <> None ->
  let s := along n0 n1 v in
  characteristic_variables U dU [n0; n1] = Ok [s 3%nat - (n0 * s 1%nat + n1 * s 2%nat) * c * rho; s 0%nat * c ^ 2 - s 3%nat;
    s 1%nat * n1 - s 2%nat * n0; s 3%nat + (n0 * s 1%nat + n1 * s 2%nat) * c * rho].
Proof.
  intros D V Er Ec Hr Hp Hu s. destruct D as (Dr & Du & _ & Dp & _).
  destruct (g_rho dU) as [drho|] eqn:Er'; [clear Hr|contradiction]. destruct (g_p dU) as [dp|] eqn:Ep'; [clear Hp|contradiction].
  destruct (g_u dU) as [du|] eqn:Eu'; [clear Hu|contradiction].
  rewrite (variables_ok U dU rho c drho dp du n0 n1 Er Ec Er' Ep' Eu').
  specialize (Dr _ eq_refl). specialize (Du _ eq_refl). specialize (Dp _ eq_refl).
  rewrite (gradient_rates line st_rho drho (fun j => v j 0%nat) Dr (fun j J => V j 0%nat J ltac:(lia))).
  rewrite (gradient_rates line st_p dp (fun j => v j 3%nat) Dp (fun j J => V j 3%nat J ltac:(lia))).
  assert (K : forall i j, (i < 2)%nat -> (j < 2)%nat -> is_derive (fun t => nth j (st_u (line i t)) 0) 0 (v i (S j))).
  { intros i j I J. pose proof (V i (S j) I ltac:(lia)) as H. destruct j as [|[|j]]; [exact H|exact H|lia]. }
  rewrite (jacobian_rates line st_u du (fun i j => v i (S j)) Du K).
  unfold mvmul. cbn [rows cols seq map]. unfold entry, rsum. cbn [cols entries fold_right nth Nat.mul Nat.add inner].
  unfold s, along. f_equal. apply f_equal2; [ring|]. apply f_equal2; [ring|]. apply f_equal2; [ring|]. apply f_equal2; [ring|reflexivity].
Qed.

Lemma amplitudes_ok U dU ux uy c w0 w1 w2 w3 n0 n1 t : f_u U = Some [ux; uy] -> f_c U = Some c -> t <> OtherSplit ->
  characteristic_variables U dU [n0; n1] = Ok [w0; w1; w2; w3] ->
  let speed k := part t (wave_speed (ux * n0 + uy * n1) c k) in
  characteristic_amplitudes U dU [n0; n1] t = Ok [speed 0%nat * w0; speed 1%nat * w1; speed 2%nat * w2; speed 3%nat * w3].
Proof.
  intros Eu Ec T H speed. pose proof (velocities_ok U ux uy c n0 n1 t Eu Ec T) as E.
  unfold characteristic_amplitudes, eos_characteristic_amplitudes. unfold characteristic_velocities in E. unfold characteristic_variables in H.
  destruct (eos_characteristic_velocities U [n0; n1] t) as [[l|]|]; cbn [equation] in E; try discriminate E. apply ok_inj in E. subst l.
  destruct (eos_characteristic_variables U dU [n0; n1]) as [[w|]|]; cbn [equation] in H; try discriminate H. apply ok_inj in H. subst w.
  reflexivity.
Qed.

(** ** C66 *)

(** The characteristic variables are the derivatives in the direction, of the primitive as of the conservative variables,
    multiplied with the corresponding characteristic matrix. *)
Theorem c66_variables : forall cfg s U dU line v w c ux uy n n0 n1, 1 < s_gamma cfg -> valid s -> describes (s_gamma cfg) s U ->
  smooth_lines 2 s line -> describes_gradients (s_gamma cfg) 2 line dU ->
  rates (primitive 2) line v -> rates (conservative (s_gamma cfg) 2) line w ->
  f_rho U = Some (st_rho s) -> f_u U = Some [ux; uy] -> f_c U = Some c -> g_rho dU <> None -> g_p dU <> None -> g_u dU <> None -> unit2 n n0 n1 ->
  exists x Li Pi, characteristic_variables U dU n = Ok x /\ length x = 4%nat /\
    characteristic_from_primitive U n = Ok (MMat Li) /\ characteristic_from_conservative cfg U n = Ok Pi /\
    forall k, (k < 4)%nat ->
      nth k x 0 = total 4 (fun j => entry Li k j * along n0 n1 v j) /\
      nth k x 0 = total 4 (fun j => entry Pi k j * along n0 n1 w j).
Proof.
  intros cfg s U dU line v w c ux uy n n0 n1 G V D SL DG RV RW Er Eu Ec Hr Hp Hu N.
  pose proof (q_c_pos _ _ G V) as CP. assert (C0 : c <> 0) by (destruct D as (_ & _ & _ & _ & _ & _ & _ & _ & _ & _ & _ & _ & _ & Gc); rewrite (Gc _ Ec); lra).
  assert (R0 : st_rho s <> 0) by (destruct V; lra). assert (G1 : s_gamma cfg <> 1) by lra.
  destruct (c43_conservative_characteristic cfg U _ ux uy c n n0 n1 Er Eu Ec N R0 C0 G1) as (P & Pi & M & Mi & L & Li & _ & EPi & EM & EMi & _ & ELi & _ & _ & Prod).
  destruct (c43_conservative_primitive cfg U _ ux uy Er Eu R0 G1) as (M' & Mi' & EM' & EMi' & (_ & _ & Inv)).
  rewrite EM in EM'. apply ok_inj in EM'. subst M'. rewrite EMi in EMi'. apply ok_inj in EMi'. subst Mi'.
  destruct N as [-> N]. pose proof (variables_rates cfg line U dU _ c v n0 n1 DG RV Er Ec Hr Hp Hu) as E. cbv zeta in E.
  exists [along n0 n1 v 3 - (n0 * along n0 n1 v 1 + n1 * along n0 n1 v 2) * c * st_rho s; along n0 n1 v 0 * c ^ 2 - along n0 n1 v 3;
    along n0 n1 v 1 * n1 - along n0 n1 v 2 * n0; along n0 n1 v 3 + (n0 * along n0 n1 v 1 + n1 * along n0 n1 v 2) * c * st_rho s], Li, Pi.
  split; [exact E|]. split; [reflexivity|]. split; [exact ELi|]. split; [exact EPi|].
  assert (First : forall k, (k < 4)%nat -> nth k [along n0 n1 v 3 - (n0 * along n0 n1 v 1 + n1 * along n0 n1 v 2) * c * st_rho s; along n0 n1 v 0 * c ^ 2 - along n0 n1 v 3;
    along n0 n1 v 1 * n1 - along n0 n1 v 2 * n0; along n0 n1 v 3 + (n0 * along n0 n1 v 1 + n1 * along n0 n1 v 2) * c * st_rho s] 0 = total 4 (fun j => entry Li k j * along n0 n1 v j)).
  { unfold characteristic_from_primitive, eos_Linv in ELi. rewrite Er, Ec in ELi. cbn [equation] in ELi. apply ok_inj in ELi. injection ELi as <-.
    intros k K. set (a := along n0 n1 v). clearbody a. four k K; clear K; compute_entries; ring. }
  intros k K. split; [exact (First k K)|]. rewrite (First k K).
  (* the rates of the conservative variables *)
  assert (W : forall j i, (j < 2)%nat -> (i < 4)%nat -> w j i = total 4 (fun k => entry M i k * v j k)).
  { intros j i J I. destruct (SL j J) as [S0 Loc]. rewrite <- (is_derive_unique _ _ _ (RW j i J I)). apply is_derive_unique.
    apply (c43_derivative cfg U (line j) (v j) M); trivial.
    - revert Loc. apply filter_imp. intros t [[A B] C]. split; [exact C|lra].
    - rewrite S0. exact D.
    - intros k' K'. exact (RV j k' J K'). }
  assert (A : forall i, (i < 4)%nat -> along n0 n1 w i = total 4 (fun k => entry M i k * along n0 n1 v k)).
  { intros i I. unfold along. rewrite (W 0%nat i) by lia. rewrite (W 1%nat i) by lia. cbn [total]. ring. }
  destruct Prod as (_ & _ & _ & Prod).
  transitivity (total 4 (fun i => entry Li k i * total 4 (fun j => total 4 (fun m => entry Mi i m * entry M m j) * along n0 n1 v j))).
  - cbn [total].
    assert (I : forall i j, (i < 4)%nat -> (j < 4)%nat -> 0 + entry Mi i 0 * entry M 0 j + entry Mi i 1 * entry M 1 j + entry Mi i 2 * entry M 2 j + entry Mi i 3 * entry M 3 j = delta i j)
      by (intros i j Hi Hj; exact (proj2 (Inv i j Hi Hj))).
    rewrite !I by lia. unfold delta. cbn [Nat.eqb]. ring.
  - cbn [total]. rewrite !A by lia. rewrite !(Prod k) by (trivial; lia). cbn [total]. ring.
Qed.
Print Assumptions c66_variables.

(** The amplitude of a wave is the selected part of its speed times its characteristic variable; multiplied with the
    characteristic matrix the amplitudes give the convective term in the direction. *)
Theorem c66_amplitudes : forall cfg s U dU line v c ux uy n n0 n1 t, 1 < s_gamma cfg -> valid s -> describes (s_gamma cfg) s U ->
  describes_gradients (s_gamma cfg) 2 line dU -> rates (primitive 2) line v ->
  f_rho U = Some (st_rho s) -> f_u U = Some [ux; uy] -> f_c U = Some c -> g_rho dU <> None -> g_p dU <> None -> g_u dU <> None ->
  unit2 n n0 n1 -> t <> OtherSplit ->
  exists x a L J, characteristic_variables U dU n = Ok x /\ characteristic_amplitudes U dU n t = Ok a /\ length a = 4%nat /\
    primitive_from_characteristic U n = Ok (MMat L) /\ get_primitive_convective_jacobian U n t = Ok J /\
    (forall k, (k < 4)%nat -> nth k a 0 = part t (wave_speed (ux * n0 + uy * n1) c k) * nth k x 0) /\
    (forall i, (i < 4)%nat -> total 4 (fun k => entry L i k * nth k a 0) = total 4 (fun j => entry J i j * along n0 n1 v j)).
Proof.
  intros cfg s U dU line v c ux uy n n0 n1 t G V D DG RV Er Eu Ec Hr Hp Hu N T.
  pose proof (q_c_pos _ _ G V) as CP. assert (C0 : c <> 0) by (destruct D as (_ & _ & _ & _ & _ & _ & _ & _ & _ & _ & _ & _ & _ & Gc); rewrite (Gc _ Ec); lra).
  assert (R0 : st_rho s <> 0) by (destruct V; lra). assert (G1 : s_gamma cfg <> 1) by lra.
  destruct N as [-> N]. pose proof (variables_rates cfg line U dU _ c v n0 n1 DG RV Er Ec Hr Hp Hu) as E. cbv zeta in E.
  pose proof (amplitudes_ok U dU ux uy c _ _ _ _ n0 n1 t Eu Ec T E) as EA. cbv zeta in EA.
  do 4 eexists. split; [exact E|]. split; [exact EA|]. split; [reflexivity|].
  unfold get_primitive_convective_jacobian. rewrite (velocities_ok U ux uy c n0 n1 t Eu Ec T). cbn [bind].
  unfold transform_characteristic_to_primitive, primitive_from_characteristic, characteristic_from_primitive, eos_L, eos_Linv. rewrite Er, Ec. cbn [equation bind].
  split; [reflexivity|]. split; [reflexivity|]. split; [intros k K; four k K; reflexivity|].
  intros i I. cbn [total]. cbn [map]. rewrite !conjugate_entry by (trivial; try apply mat4_shape; trivial; lia).
  set (l0 := part t (wave_speed _ c 0)). set (l1 := part t (wave_speed _ c 1)). set (l2 := part t (wave_speed _ c 2)). set (l3 := part t (wave_speed _ c 3)).
  clearbody l0 l1 l2 l3. set (a := along n0 n1 v). clearbody a. four i I; clear I; compute_entries; field; lra.
Qed.
Print Assumptions c66_amplitudes.

(** The incoming and the outgoing amplitudes add up to all amplitudes; a wave is in one of them only. *)
Theorem c66_split : forall U dU n n0 n1 ux uy c a, f_u U = Some [ux; uy] -> f_c U = Some c -> n = [n0; n1] ->
  characteristic_amplitudes U dU n Full = Ok a ->
  exists i o, characteristic_amplitudes U dU n Incoming = Ok i /\ characteristic_amplitudes U dU n Outgoing = Ok o /\
    forall k, (k < 4)%nat -> nth k a 0 = nth k i 0 + nth k o 0 /\
      (0 <= wave_speed (ux * n0 + uy * n1) c k -> nth k i 0 = 0) /\ (wave_speed (ux * n0 + uy * n1) c k <= 0 -> nth k o 0 = 0).
Proof.
  intros U dU n n0 n1 ux uy c a Eu Ec -> H.
  assert (X : exists w0 w1 w2 w3, characteristic_variables U dU [n0; n1] = Ok [w0; w1; w2; w3]).
  { unfold characteristic_amplitudes, eos_characteristic_amplitudes in H. unfold characteristic_variables.
    destruct (eos_characteristic_velocities U [n0; n1] Full) as [[l|]|]; cbn [bind] in H;
      destruct (eos_characteristic_variables U dU [n0; n1]) as [[w|]|] eqn:E; try discriminate H.
    unfold eos_characteristic_variables in E. destruct (f_rho U), (f_c U), (g_rho dU), (g_p dU), (g_u dU); try discriminate E.
    apply ok_inj in E. apply some_inj in E. subst w. cbn [equation]. do 4 eexists. reflexivity. }
  destruct X as (w0 & w1 & w2 & w3 & X).
  pose proof (amplitudes_ok U dU ux uy c _ _ _ _ n0 n1 Full Eu Ec ltac:(discriminate) X) as EF. rewrite EF in H. apply ok_inj in H. subst a.
  do 2 eexists. split; [exact (amplitudes_ok U dU ux uy c _ _ _ _ n0 n1 Incoming Eu Ec ltac:(discriminate) X)|].
  split; [exact (amplitudes_ok U dU ux uy c _ _ _ _ n0 n1 Outgoing Eu Ec ltac:(discriminate) X)|].
  assert (P1 : forall x, part Full x = part Incoming x + part Outgoing x) by (intros x; cbn; unfold Rmin, Rmax; destruct (Rle_dec x 0); lra).
  assert (P2 : forall x, 0 <= x -> part Incoming x = 0) by (intros x Hx; cbn; unfold Rmin; destruct (Rle_dec x 0); lra).
  assert (P3 : forall x, x <= 0 -> part Outgoing x = 0) by (intros x Hx; cbn; unfold Rmax; destruct (Rle_dec x 0); lra).
  intros k K. four k K; cbn [nth]; (split; [rewrite P1; ring|split; intros Hx; [rewrite (P2 _ Hx)|rewrite (P3 _ Hx)]; ring]).
Qed.
Print Assumptions c66_split.

(** Flow that varies in the direction n only, without viscosity: the Euler equations give the rates of density, normal
    velocity, tangential velocity and pressure in time from the derivatives [r], [u] (two components), [p] in the direction. *)
Record plane_rates := mk_plane { t_rho : R; t_un : R; t_ut : R; t_p : R }.
Definition plane_euler (rho un c n0 n1 r u0 u1 p : R) : plane_rates :=
  let dun := u0 * n0 + u1 * n1 in
  mk_plane (- (un * r + rho * dun)) (- (un * dun + p / rho)) (- (un * (u0 * n1 - u1 * n0))) (- (un * p + rho * c ^ 2 * dun)).

(** The amplitudes are the rates in time of the local one-dimensional inviscid relations. *)
Theorem c66_relations : forall cfg s U dU line v c ux uy n n0 n1 a, 1 < s_gamma cfg -> valid s -> describes (s_gamma cfg) s U ->
  describes_gradients (s_gamma cfg) 2 line dU -> rates (primitive 2) line v ->
  f_rho U = Some (st_rho s) -> f_u U = Some [ux; uy] -> f_c U = Some c -> unit2 n n0 n1 ->
  characteristic_amplitudes U dU n Full = Ok a ->
  let d := along n0 n1 v in
  let r := plane_euler (st_rho s) (ux * n0 + uy * n1) c n0 n1 (d 0%nat) (d 1%nat) (d 2%nat) (d 3%nat) in
  t_p r = - (nth 0 a 0 + nth 3 a 0) / 2 /\ t_un r = - (nth 3 a 0 - nth 0 a 0) / (2 * st_rho s * c) /\ t_ut r = - nth 2 a 0 /\
  t_rho r = - (nth 1 a 0 + (nth 0 a 0 + nth 3 a 0) / 2) / c ^ 2.
Proof.
  intros cfg s U dU line v c ux uy n n0 n1 a G V D DG RV Er Eu Ec [-> N] HA d r.
  pose proof (q_c_pos _ _ G V) as CP. assert (C0 : c <> 0) by (destruct D as (_ & _ & _ & _ & _ & _ & _ & _ & _ & _ & _ & _ & _ & Gc); rewrite (Gc _ Ec); lra).
  assert (R0 : st_rho s <> 0) by (destruct V; lra).
  assert (K : g_rho dU <> None /\ g_p dU <> None /\ g_u dU <> None).
  { unfold characteristic_amplitudes, eos_characteristic_amplitudes in HA. apply (f_equal (fun r => match r with Ok _ => true | Err _ => false end)) in HA.
    unfold eos_characteristic_variables in HA. rewrite Er, Ec in HA. destruct (eos_characteristic_velocities U [n0; n1] Full) as [[l|]|]; cbn [bind] in HA; try discriminate HA.
    - destruct (g_rho dU), (g_p dU), (g_u dU); try discriminate HA. repeat split; discriminate.
    - destruct (g_rho dU), (g_p dU), (g_u dU); try discriminate HA. }
  destruct K as (Hr & Hp & Hu). pose proof (variables_rates cfg line U dU _ c v n0 n1 DG RV Er Ec Hr Hp Hu) as E. cbv zeta in E.
  pose proof (amplitudes_ok U dU ux uy c _ _ _ _ n0 n1 Full Eu Ec ltac:(discriminate) E) as EA. cbv zeta in EA. rewrite EA in HA. apply ok_inj in HA. subst a.
  unfold r, plane_euler. cbn [t_p t_un t_ut t_rho nth part wave_speed]. fold d. clearbody d. repeat split; field; lra.
Qed.
Print Assumptions c66_relations.

(** Missing fields and an unknown option raise ValueError, another dimension NotImplementedError. *)
Theorem c66_raises : forall U dU n,
  (forall t, f_rho U = None \/ f_c U = None \/ g_rho dU = None \/ g_p dU = None \/ g_u dU = None ->
     characteristic_variables U dU n = Err ValueError /\ characteristic_amplitudes U dU n t = Err ValueError) /\
  (forall t, length n = 2%nat -> f_u U = None \/ t = OtherSplit -> characteristic_amplitudes U dU n t = Err ValueError) /\
  (forall rho c drho dp du, f_rho U = Some rho -> f_c U = Some c -> g_rho dU = Some drho -> g_p dU = Some dp -> g_u dU = Some du -> length n <> 2%nat ->
     characteristic_variables U dU n = Err NotImplementedError /\
     forall t, t <> OtherSplit -> characteristic_amplitudes U dU n t = Err NotImplementedError).
Proof.
  intros U dU n. unfold characteristic_variables, characteristic_amplitudes, eos_characteristic_amplitudes.
  assert (VT : forall t, t <> OtherSplit -> exists o, eos_characteristic_velocities U n t = Ok o).
  { intros t T. unfold eos_characteristic_velocities. destruct (f_u U); [|eauto]. destruct (f_c U); [|eauto]. rewrite !split_part by exact T. cbn [bind]. eauto. }
  repeat match goal with |- _ /\ _ => split end.
  - intros t H. assert (X : eos_characteristic_variables U dU n = Ok None).
    { unfold eos_characteristic_variables. destruct H as [-> | [-> | [-> | [-> | ->]]]]; [reflexivity|destruct (f_rho U); reflexivity|..];
        destruct (f_rho U), (f_c U); try reflexivity; destruct (g_rho dU); try reflexivity; destruct (g_p dU); reflexivity. }
    rewrite X. split; [reflexivity|].
    assert (T : eos_characteristic_velocities U n t = Err ValueError \/ exists o, eos_characteristic_velocities U n t = Ok o).
    { unfold eos_characteristic_velocities. destruct (f_u U); [|eauto]. destruct (f_c U); [|eauto]. destruct t; cbn; eauto. }
    destruct T as [-> | [o ->]]; cbn [bind]; [reflexivity|]. destruct o; reflexivity.
  - intros t L H. destruct n as [|a [|b [|c n]]]; try discriminate L.
    assert (X : exists o, eos_characteristic_variables U dU [a; b] = Ok o).
    { unfold eos_characteristic_variables. destruct (f_rho U), (f_c U), (g_rho dU), (g_p dU), (g_u dU); eauto. }
    destruct X as [o ->]. assert (T : eos_characteristic_velocities U [a; b] t = Err ValueError \/ eos_characteristic_velocities U [a; b] t = Ok None).
    { unfold eos_characteristic_velocities. destruct H as [-> | ->]; [right; reflexivity|]. destruct (f_u U); [|right; reflexivity]. destruct (f_c U); [left|right]; reflexivity. }
    destruct T as [-> | ->]; [reflexivity|]. cbn [bind]. destruct o; reflexivity.
  - intros rho c drho dp du Er Ec Dr Dp Du L.
    assert (X : eos_characteristic_variables U dU n = Err NotImplementedError).
    { unfold eos_characteristic_variables. rewrite Er, Ec, Dr, Dp, Du. destruct n as [|a [|b [|e n]]]; try reflexivity. contradiction L; reflexivity. }
    rewrite X. split; [reflexivity|]. intros t T. destruct (VT t T) as [o ->]. reflexivity.
Qed.
Print Assumptions c66_raises.

(** The state of the example of C43 (speed of sound 2, velocity (3, 4)) with gradients: density (1, 2), velocity
    ((2, 1), (-1, 3)), pressure (3, -2); the direction (1, 0). *)
Definition wave_lines (j : nat) (t : R) : state :=
  match j with
  | O => mk_state (7 / 5 + t) [3 + 2 * t; 4 - t] (4 + 3 * t)
  | _ => mk_state (7 / 5 + 2 * t) [3 + t; 4 + 3 * t] (4 - 2 * t)
  end.
Definition wave_gradients : grads :=
  mk_grads (Some [1; 2]) (Some (mk_matrix 2 2 [2; 1; -1; 3])) None (Some [3; -2]) None None None None None None None None None.
Definition wave_matrix (j k : nat) : R := nth k (match j with O => [1; 2; -1; 3] | _ => [2; 1; 3; -2] end) 0.

Lemma wave_lines_start j : wave_lines j 0 = wave_state.
Proof.
  unfold wave_lines, wave_state. destruct j; (apply f_equal3; [ring| |ring]); (apply f_equal2; [ring|]); (apply f_equal2; [ring|reflexivity]).
Qed.

Lemma wave_matrix_rates : rates (primitive 2) wave_lines wave_matrix.
Proof.
  intros j k J K. unfold wave_matrix, primitive, wave_lines. destruct j as [|[|j]]; [| |exfalso; clear - J; lia]; four k K; cbn; auto_derive; trivial; ring.
Qed.

Lemma wave_lines_smooth : smooth_lines 2 wave_state wave_lines.
Proof.
  intros i I. split; [apply wave_lines_start|]. apply near_zero. intros t B. apply Rabs_def2 in B.
  destruct i; repeat split; cbn; lra.
Qed.

Lemma wave_gradients_ok : describes_gradients (s_gamma air) 2 wave_lines wave_gradients.
Proof.
  unfold describes_gradients. repeat match goal with |- _ /\ _ => split end; intros l H; try discriminate H; cbn in H; injection H as <-.
  - split; [reflexivity|]. intros i I. exact (match i as i return (i < 2)%nat -> is_derive (fun t => st_rho (wave_lines i t)) 0 (nth i [1; 2] 0) with
      | O => fun _ => wave_matrix_rates 0%nat 0%nat ltac:(lia) ltac:(lia) | S O => fun _ => wave_matrix_rates 1%nat 0%nat ltac:(lia) ltac:(lia) | _ => fun I => ltac:(exfalso; clear - I; lia) end I).
  - split; [reflexivity|]. split; [reflexivity|]. split; [reflexivity|]. intros i j I J.
    destruct i as [|[|i]]; [| |exfalso; clear - I; lia]; (destruct j as [|[|j]]; [| |exfalso; clear - J; lia]).
    + exact (wave_matrix_rates 0%nat 1%nat ltac:(lia) ltac:(lia)).
    + exact (wave_matrix_rates 0%nat 2%nat ltac:(lia) ltac:(lia)).
    + exact (wave_matrix_rates 1%nat 1%nat ltac:(lia) ltac:(lia)).
    + exact (wave_matrix_rates 1%nat 2%nat ltac:(lia) ltac:(lia)).
  - split; [reflexivity|]. intros i I. exact (match i as i return (i < 2)%nat -> is_derive (fun t => st_p (wave_lines i t)) 0 (nth i [3; -2] 0) with
      | O => fun _ => wave_matrix_rates 0%nat 3%nat ltac:(lia) ltac:(lia) | S O => fun _ => wave_matrix_rates 1%nat 3%nat ltac:(lia) ltac:(lia) | _ => fun I => ltac:(exfalso; clear - I; lia) end I).
Qed.

Example c66_example :
  valid wave_state /\ describes (s_gamma air) wave_state wave_fields /\ smooth_lines 2 wave_state wave_lines /\
  describes_gradients (s_gamma air) 2 wave_lines wave_gradients /\ rates (primitive 2) wave_lines wave_matrix /\
  (exists w, rates (conservative (s_gamma air) 2) wave_lines w) /\ unit2 [1; 0] 1 0 /\
  exists a, characteristic_amplitudes wave_fields wave_gradients [1; 0] Full = Ok a /\ nth 3 a 0 = 43 /\ nth 0 a 0 = - 13 / 5 /\
    t_p (plane_euler (7 / 5) 3 2 1 0 1 2 (-1) 3) = - (43 - 13 / 5) / 2.
Proof.
  split; [split; cbn; lra|]. split; [exact wave_describes|]. split; [exact wave_lines_smooth|]. split; [exact wave_gradients_ok|].
  split; [exact wave_matrix_rates|]. split.
  - destruct (c43_conservative_primitive air wave_fields (7 / 5) 3 4 eq_refl eq_refl ltac:(lra) ltac:(cbn; lra)) as (M & Mi & EM & _).
    exists (fun j i => total 4 (fun k => entry M i k * wave_matrix j k)). intros j i J I.
    destruct (wave_lines_smooth j J) as [S0 Loc]. apply (c43_derivative air wave_fields (wave_lines j) (wave_matrix j) M); trivial.
    + revert Loc. apply filter_imp. intros t [[A B] C]. split; [exact C|lra].
    + cbn; lra.
    + rewrite S0. exact wave_describes.
    + intros k K. exact (wave_matrix_rates j k J K).
  - split; [split; [reflexivity|lra]|].
    pose proof (variables_rates air wave_lines wave_fields wave_gradients (7 / 5) 2 wave_matrix 1 0 wave_gradients_ok wave_matrix_rates eq_refl eq_refl ltac:(discriminate) ltac:(discriminate) ltac:(discriminate)) as E. cbv zeta in E.
    pose proof (amplitudes_ok wave_fields wave_gradients 3 4 2 _ _ _ _ 1 0 Full eq_refl eq_refl ltac:(discriminate) E) as EA.
    eexists. split; [exact EA|]. cbv zeta. cbn [nth part wave_speed]. unfold along, wave_matrix, plane_euler. cbn [nth t_p]. repeat split; field.
Qed.
