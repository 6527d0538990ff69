(** C46: the splitting into incoming and outgoing waves. *)
From Coq Require Import Reals List Arith Lra Lia Bool.
From Verif Require Import Base M_Bla M_Flow S_Flow S_Chars L_Flow P_Eos P_Chars.
Import ListNotations.
Open Scope R_scope.

(** Waves that an option of the identity selects. *)
Definition selected (t : split) (x : R) : R :=
  match t with Incoming => if Rlt_dec x 0 then 1 else 0 | Outgoing => if Rlt_dec 0 x then 1 else 0 | _ => 0 end.

(** Entry by entry, [a] and [b] add up to [c]. *)
Definition adds_up (a b c : matrix) : Prop := forall i j, (i < 4)%nat -> (j < 4)%nat -> entry a i j + entry b i j = entry c i j.

Section Split.
Variables (cfg : settings) (U : flow) (rho ux uy c n0 n1 : R) (n : list R).
Hypothesis Er : f_rho U = Some rho.
Hypothesis Eu : f_u U = Some [ux; uy].
Hypothesis Ec : f_c U = Some c.
Hypothesis N : unit2 n n0 n1.
Hypothesis R0 : rho <> 0.
Hypothesis C0 : c <> 0.
Hypothesis G : s_gamma cfg <> 1.
Let speed k := wave_speed (ux * n0 + uy * n1) c k.

Lemma conservative_matrices : exists P Pi, inverse 4 P Pi /\ conservative_from_characteristic cfg U n = Ok P /\
  forall m, transform_characteristic_to_conservative cfg m U n = Ok (mmul (mmul P m) Pi).
Proof.
  destruct (c43_conservative_characteristic cfg U rho ux uy c n n0 n1 Er Eu Ec N R0 C0 G) as (P & Pi & M & Mi & L & Li & EP & EPi & _ & _ & _ & _ & Inv & _).
  exists P, Pi. split; [exact Inv|]. split; [exact EP|]. intros m. unfold transform_characteristic_to_conservative. rewrite EP, EPi. reflexivity.
Qed.

Lemma primitive_matrices : exists L Li, inverse 4 L Li /\ primitive_from_characteristic U n = Ok (MMat L) /\
  forall m, transform_characteristic_to_primitive m U n = Ok (mmul (mmul L m) Li).
Proof.
  destruct (c43_primitive_characteristic U rho c n n0 n1 Er Ec N R0 C0) as (L & Li & EL & ELi & Inv).
  exists L, Li. split; [exact Inv|]. split; [exact EL|]. intros m. unfold transform_characteristic_to_primitive. rewrite EL, ELi. reflexivity.
Qed.

Lemma velocities t : t <> OtherSplit -> characteristic_velocities U n t = Ok (map (fun k => part t (speed k)) [0; 1; 2; 3]%nat).
Proof. intros T. destruct N as [-> _]. apply velocities_ok; assumption. Qed.

Lemma identity_ok t : t = Incoming \/ t = Outgoing -> get_characteristic_identity U n t = Ok (diagonal (map (fun k => selected t (speed k)) [0; 1; 2; 3]%nat)).
Proof.
  intros T. unfold get_characteristic_identity. rewrite velocities by (destruct T; subst; discriminate). cbn [bind].
  destruct T as [-> | ->]; f_equal; f_equal; rewrite map_map; apply map_ext; intros k; generalize (speed k); intros x; cbn [part selected]; unfold ifpos, Rmin, Rmax;
    destruct (Rle_dec x 0); repeat match goal with |- context [Rlt_dec ?a ?b] => destruct (Rlt_dec a b) end; lra.
Qed.
End Split.

Lemma part_sum x : part Incoming x + part Outgoing x = x.
Proof. cbn. unfold Rmin, Rmax. destruct (Rle_dec x 0); lra. Qed.
Lemma part_difference x : part Absolute x + part Incoming x = part Outgoing x.
Proof. cbn. unfold Rmin, Rmax, Rabs. destruct (Rle_dec x 0), (Rcase_abs x); lra. Qed.

Definition waves : list nat := [0; 1; 2; 3]%nat.

Lemma waves_entry P Q f i j : shape 4 P -> shape 4 Q -> (i < 4)%nat -> (j < 4)%nat ->
  entry (mmul (mmul P (diagonal (map f waves))) Q) i j = total 4 (fun k => entry P i k * f k * entry Q k j).
Proof. intros SP SQ I J. cbn [waves map]. rewrite conjugate_entry by assumption. reflexivity. Qed.

Lemma waves_add P Q f g h : shape 4 P -> shape 4 Q -> (forall k, f k + g k = h k) ->
  adds_up (mmul (mmul P (diagonal (map f waves))) Q) (mmul (mmul P (diagonal (map g waves))) Q) (mmul (mmul P (diagonal (map h waves))) Q).
Proof. intros SP SQ E i j I J. rewrite !waves_entry by assumption. cbn [total]. rewrite <- !E. ring. Qed.

Lemma waves_eigenvectors P Q f : inverse 4 P Q -> eigenvectors 4 (mmul (mmul P (diagonal (map f waves))) Q) P f.
Proof.
  intros Inv. pose proof (conjugate_eigenvectors P Q (f 0%nat) (f 1%nat) (f 2%nat) (f 3%nat) Inv) as (S1 & S2 & S3).
  split; [exact S1|]. split; [exact S2|]. intros i k I K. etransitivity; [exact (S3 i k I K)|]. f_equal. four k K; reflexivity.
Qed.

Lemma waves_product P Q f g h : inverse 4 P Q -> (forall k, f k * g k = h k) ->
  is_product 4 (mmul (mmul P (diagonal (map f waves))) Q) (mmul (mmul P (diagonal (map g waves))) Q) (mmul (mmul P (diagonal (map h waves))) Q).
Proof.
  intros Inv E. pose proof (waves_eigenvectors P Q f Inv) as (SF & SP & EF). destruct Inv as (_ & SQ & Inv).
  split; [exact SF|]. split; [apply conjugate_shape; assumption|]. split; [apply conjugate_shape; assumption|].
  intros i j I J. rewrite waves_entry by assumption. cbn [total].
  rewrite (waves_entry P Q g 0 j), (waves_entry P Q g 1 j), (waves_entry P Q g 2 j), (waves_entry P Q g 3 j) by (trivial; lia).
  pose proof (EF i 0%nat I ltac:(lia)) as F0. pose proof (EF i 1%nat I ltac:(lia)) as F1. pose proof (EF i 2%nat I ltac:(lia)) as F2. pose proof (EF i 3%nat I ltac:(lia)) as F3.
  cbn [total] in *. set (A := mmul (mmul P (diagonal (map f waves))) Q) in *.
  transitivity ((f 0%nat * entry P i 0) * (g 0%nat * entry Q 0 j) + (f 1%nat * entry P i 1) * (g 1%nat * entry Q 1 j) + (f 2%nat * entry P i 2) * (g 2%nat * entry Q 2 j) + (f 3%nat * entry P i 3) * (g 3%nat * entry Q 3 j)).
  - rewrite <- !E. ring.
  - rewrite <- F0, <- F1, <- F2, <- F3. ring.
Qed.

(** The Jacobians of the incoming and the outgoing waves add up to the whole Jacobian, and the outgoing one exceeds the
    incoming one by the absolute Jacobian, in conservative and in primitive variables. *)
Theorem c46_jacobians : forall cfg U rho ux uy c n n0 n1,
  f_rho U = Some rho -> f_u U = Some [ux; uy] -> f_c U = Some c -> unit2 n n0 n1 -> rho <> 0 -> c <> 0 -> s_gamma cfg <> 1 ->
  (exists J Ji Jo Ja, get_conservative_convective_jacobian cfg U n Full = Ok J /\ get_conservative_convective_jacobian cfg U n Incoming = Ok Ji /\
     get_conservative_convective_jacobian cfg U n Outgoing = Ok Jo /\ get_conservative_convective_jacobian cfg U n Absolute = Ok Ja /\
     adds_up Ji Jo J /\ adds_up Ja Ji Jo) /\
  (exists J Ji Jo Ja, get_primitive_convective_jacobian U n Full = Ok J /\ get_primitive_convective_jacobian U n Incoming = Ok Ji /\
     get_primitive_convective_jacobian U n Outgoing = Ok Jo /\ get_primitive_convective_jacobian U n Absolute = Ok Ja /\
     adds_up Ji Jo J /\ adds_up Ja Ji Jo).
Proof.
  intros cfg U rho ux uy c n n0 n1 Er Eu Ec N R0 C0 G. split.
  - destruct (conservative_matrices cfg U rho ux uy c n0 n1 n Er Eu Ec N R0 C0 G) as (P & Pi & (SP & SPi & _) & _ & Tr).
    unfold get_conservative_convective_jacobian. rewrite !(velocities U ux uy c n0 n1 n Eu Ec N) by discriminate. cbn [bind]. rewrite !Tr.
    do 4 eexists. do 4 (split; [reflexivity|]). split; apply waves_add; trivial; intros k; [apply part_sum|apply part_difference].
  - destruct (primitive_matrices U rho c n0 n1 n Er Ec N R0 C0) as (P & Pi & (SP & SPi & _) & _ & Tr).
    unfold get_primitive_convective_jacobian. rewrite !(velocities U ux uy c n0 n1 n Eu Ec N) by discriminate. cbn [bind]. rewrite !Tr.
    do 4 eexists. do 4 (split; [reflexivity|]). split; apply waves_add; trivial; intros k; [apply part_sum|apply part_difference].
Qed.
Print Assumptions c46_jacobians.

(** The incoming (outgoing) identity selects the incoming (outgoing) waves: it keeps the corresponding columns of the
    characteristic matrix and removes the others, and its product with the Jacobian is the split Jacobian. *)
Theorem c46_identities : forall cfg U rho ux uy c n n0 n1 t,
  f_rho U = Some rho -> f_u U = Some [ux; uy] -> f_c U = Some c -> unit2 n n0 n1 -> rho <> 0 -> c <> 0 -> s_gamma cfg <> 1 ->
  t = Incoming \/ t = Outgoing ->
  let kept k := selected t (wave_speed (ux * n0 + uy * n1) c k) in
  (exists Q J Jt P, get_conservative_convective_identity cfg U n t = Ok Q /\ get_conservative_convective_jacobian cfg U n Full = Ok J /\
     get_conservative_convective_jacobian cfg U n t = Ok Jt /\ conservative_from_characteristic cfg U n = Ok P /\
     eigenvectors 4 Q P kept /\ is_product 4 Q J Jt /\ is_product 4 Q Q Q) /\
  (exists Q J Jt L, get_primitive_convective_identity U n t = Ok Q /\ get_primitive_convective_jacobian U n Full = Ok J /\
     get_primitive_convective_jacobian U n t = Ok Jt /\ primitive_from_characteristic U n = Ok (MMat L) /\
     eigenvectors 4 Q L kept /\ is_product 4 Q J Jt /\ is_product 4 Q Q Q).
Proof.
  intros cfg U rho ux uy c n n0 n1 t Er Eu Ec N R0 C0 G T kept.
  assert (T' : t <> OtherSplit) by (destruct T; subst; discriminate).
  assert (E1 : forall x, selected t x * part Full x = part t x).
  { intros x. destruct T as [-> | ->]; cbn; unfold Rmin, Rmax; repeat match goal with |- context [Rlt_dec ?a ?b] => destruct (Rlt_dec a b) end; destruct (Rle_dec x 0); lra. }
  assert (E2 : forall x, selected t x * selected t x = selected t x).
  { intros x. destruct T as [-> | ->]; cbn; repeat match goal with |- context [Rlt_dec ?a ?b] => destruct (Rlt_dec a b) end; lra. }
  split.
  - destruct (conservative_matrices cfg U rho ux uy c n0 n1 n Er Eu Ec N R0 C0 G) as (P & Pi & Inv & EP & Tr).
    unfold get_conservative_convective_identity, get_conservative_convective_jacobian. rewrite (identity_ok U ux uy c n0 n1 n Eu Ec N t T).
    rewrite !(velocities U ux uy c n0 n1 n Eu Ec N) by (trivial; discriminate). cbn [bind]. rewrite !Tr.
    do 4 eexists. do 4 (split; [first [reflexivity | exact EP]|]).
    split; [apply (waves_eigenvectors P Pi kept Inv)|]. split; (apply waves_product; [exact Inv|]); intros k; [apply E1|apply E2].
  - destruct (primitive_matrices U rho c n0 n1 n Er Ec N R0 C0) as (P & Pi & Inv & EP & Tr).
    unfold get_primitive_convective_identity, get_primitive_convective_jacobian. rewrite (identity_ok U ux uy c n0 n1 n Eu Ec N t T).
    rewrite !(velocities U ux uy c n0 n1 n Eu Ec N) by (trivial; discriminate). cbn [bind]. rewrite !Tr.
    do 4 eexists. do 4 (split; [first [reflexivity | exact EP]|]).
    split; [apply (waves_eigenvectors P Pi kept Inv)|]. split; (apply waves_product; [exact Inv|]); intros k; [apply E1|apply E2].
Qed.
Print Assumptions c46_identities.

(** If no wave stands still, the two identities add up to the identity matrix. *)
Theorem c46_complete : forall cfg U rho ux uy c n n0 n1,
  f_rho U = Some rho -> f_u U = Some [ux; uy] -> f_c U = Some c -> unit2 n n0 n1 -> rho <> 0 -> c <> 0 -> s_gamma cfg <> 1 ->
  (forall k, (k < 4)%nat -> wave_speed (ux * n0 + uy * n1) c k <> 0) ->
  (exists Qi Qo, get_conservative_convective_identity cfg U n Incoming = Ok Qi /\ get_conservative_convective_identity cfg U n Outgoing = Ok Qo /\
     forall i j, (i < 4)%nat -> (j < 4)%nat -> entry Qi i j + entry Qo i j = delta i j) /\
  (exists Qi Qo, get_primitive_convective_identity U n Incoming = Ok Qi /\ get_primitive_convective_identity U n Outgoing = Ok Qo /\
     forall i j, (i < 4)%nat -> (j < 4)%nat -> entry Qi i j + entry Qo i j = delta i j).
Proof.
  intros cfg U rho ux uy c n n0 n1 Er Eu Ec N R0 C0 G Z. set (speed := wave_speed (ux * n0 + uy * n1) c).
  assert (S1 : forall k, (k < 4)%nat -> selected Incoming (speed k) + selected Outgoing (speed k) = 1).
  { intros k K. pose proof (Z k K) as Zk. fold speed in Zk. cbn. repeat match goal with |- context [Rlt_dec ?a ?b] => destruct (Rlt_dec a b) end; lra. }
  assert (E : forall P Q i j, inverse 4 P Q -> (i < 4)%nat -> (j < 4)%nat ->
    entry (mmul (mmul P (diagonal (map (fun k => selected Incoming (speed k)) waves))) Q) i j +
    entry (mmul (mmul P (diagonal (map (fun k => selected Outgoing (speed k)) waves))) Q) i j = delta i j).
  { intros P Q i j (SP & SQ & Inv) I J. rewrite !waves_entry by assumption. rewrite <- (proj1 (Inv i j I J)). cbn [total].
    pose proof (S1 0%nat ltac:(lia)) as K0. pose proof (S1 1%nat ltac:(lia)) as K1. pose proof (S1 2%nat ltac:(lia)) as K2. pose proof (S1 3%nat ltac:(lia)) as K3.
    replace (entry P i 0 * entry Q 0 j) with (entry P i 0 * entry Q 0 j * (selected Incoming (speed 0%nat) + selected Outgoing (speed 0%nat))) by (rewrite K0; ring).
    replace (entry P i 1 * entry Q 1 j) with (entry P i 1 * entry Q 1 j * (selected Incoming (speed 1%nat) + selected Outgoing (speed 1%nat))) by (rewrite K1; ring).
    replace (entry P i 2 * entry Q 2 j) with (entry P i 2 * entry Q 2 j * (selected Incoming (speed 2%nat) + selected Outgoing (speed 2%nat))) by (rewrite K2; ring).
    replace (entry P i 3 * entry Q 3 j) with (entry P i 3 * entry Q 3 j * (selected Incoming (speed 3%nat) + selected Outgoing (speed 3%nat))) by (rewrite K3; ring).
    ring. }
  split.
  - destruct (conservative_matrices cfg U rho ux uy c n0 n1 n Er Eu Ec N R0 C0 G) as (P & Pi & Inv & EP & Tr).
    unfold get_conservative_convective_identity. rewrite !(identity_ok U ux uy c n0 n1 n Eu Ec N) by tauto. cbn [bind]. rewrite !Tr.
    do 2 eexists. do 2 (split; [reflexivity|]). intros i j I J. apply (E P Pi i j Inv I J).
  - destruct (primitive_matrices U rho c n0 n1 n Er Ec N R0 C0) as (P & Pi & Inv & EP & Tr).
    unfold get_primitive_convective_identity. rewrite !(identity_ok U ux uy c n0 n1 n Eu Ec N) by tauto. cbn [bind]. rewrite !Tr.
    do 2 eexists. do 2 (split; [reflexivity|]). intros i j I J. apply (E P Pi i j Inv I J).
Qed.
Print Assumptions c46_complete.

(** If a wave stands still, e.g. in a flow parallel to the boundary, they never add up to the identity matrix. *)
Theorem c46_complete_refuted : forall cfg U rho ux uy c n n0 n1 k,
  f_rho U = Some rho -> f_u U = Some [ux; uy] -> f_c U = Some c -> unit2 n n0 n1 -> rho <> 0 -> c <> 0 -> s_gamma cfg <> 1 ->
  (k < 4)%nat -> wave_speed (ux * n0 + uy * n1) c k = 0 ->
  exists Qi Qo i j, get_conservative_convective_identity cfg U n Incoming = Ok Qi /\ get_conservative_convective_identity cfg U n Outgoing = Ok Qo /\
    (i < 4)%nat /\ (j < 4)%nat /\ entry Qi i j + entry Qo i j <> delta i j.
Proof.
  intros cfg U rho ux uy c n n0 n1 k Er Eu Ec N R0 C0 G K Z.
  destruct (c46_identities cfg U rho ux uy c n n0 n1 Incoming Er Eu Ec N R0 C0 G (or_introl eq_refl)) as [(Qi & Ja & Jb & P & EQi & _ & _ & EP & (_ & SP & Ei) & _) _].
  destruct (c46_identities cfg U rho ux uy c n n0 n1 Outgoing Er Eu Ec N R0 C0 G (or_intror eq_refl)) as [(Qo & Jc & Jd & P' & EQo & _ & _ & EP' & (_ & _ & Eo) & _) _].
  rewrite EP in EP'. apply ok_inj in EP'. subst P'.
  destruct (conservative_matrices cfg U rho ux uy c n0 n1 n Er Eu Ec N R0 C0 G) as (P' & Pi & (_ & _ & Inv) & EP' & _). rewrite EP in EP'. apply ok_inj in EP'. subst P'.
  (* otherwise column k of the characteristic matrix would vanish *)
  assert (Nz : ~ forall i j, (i < 4)%nat -> (j < 4)%nat -> entry Qi i j + entry Qo i j = delta i j).
  { intros H. assert (Col : forall i, (i < 4)%nat -> entry P i k = 0).
    { intros i I. pose proof (Ei i k I K) as A. pose proof (Eo i k I K) as B. unfold selected in A, B. rewrite Z in A, B.
      destruct (Rlt_dec 0 0) as [L|_]; [lra|].
      assert (S : total 4 (fun j => (entry Qi i j + entry Qo i j) * entry P j k) = 0) by (cbn [total] in *; lra).
      cbn [total] in S. rewrite !H in S by (trivial; lia). rewrite <- S. clear - I. unfold delta. four i I; cbn [Nat.eqb]; ring. }
    pose proof (proj2 (Inv k k K K)) as D. cbn [total] in D. rewrite !Col in D by lia. unfold delta in D. rewrite Nat.eqb_refl in D. lra. }
  (* decide the finitely many entries *)
  assert (F : exists i j, (i < 4)%nat /\ (j < 4)%nat /\ entry Qi i j + entry Qo i j <> delta i j).
  { assert (Row : forall i, (forall j, (j < 4)%nat -> entry Qi i j + entry Qo i j = delta i j) \/ exists j, (j < 4)%nat /\ entry Qi i j + entry Qo i j <> delta i j).
    { intros i.
      destruct (Req_dec (entry Qi i 0 + entry Qo i 0) (delta i 0)) as [E0|E0]; [|right; exists 0%nat; split; [lia|exact E0]].
      destruct (Req_dec (entry Qi i 1 + entry Qo i 1) (delta i 1)) as [E1|E1]; [|right; exists 1%nat; split; [lia|exact E1]].
      destruct (Req_dec (entry Qi i 2 + entry Qo i 2) (delta i 2)) as [E2|E2]; [|right; exists 2%nat; split; [lia|exact E2]].
      destruct (Req_dec (entry Qi i 3 + entry Qo i 3) (delta i 3)) as [E3|E3]; [|right; exists 3%nat; split; [lia|exact E3]].
      left. intros j J. four j J; assumption. }
    destruct (Row 0%nat) as [W0|(j & J & H)]; [|exists 0%nat, j; repeat split; trivial; lia].
    destruct (Row 1%nat) as [W1|(j & J & H)]; [|exists 1%nat, j; repeat split; trivial; lia].
    destruct (Row 2%nat) as [W2|(j & J & H)]; [|exists 2%nat, j; repeat split; trivial; lia].
    destruct (Row 3%nat) as [W3|(j & J & H)]; [|exists 3%nat, j; repeat split; trivial; lia].
    exfalso. apply Nz. intros i j I J. four i I; auto. }
  destruct F as (i & j & I & J & H). exists Qi, Qo, i, j. repeat split; assumption.
Qed.
Print Assumptions c46_complete_refuted.

(** Other options of the identities raise ValueError, whatever the fields. *)
Theorem c46_raises : forall cfg U n t, t <> Incoming -> t <> Outgoing ->
  get_characteristic_identity U n t = Err ValueError /\ get_conservative_convective_identity cfg U n t = Err ValueError /\
  get_primitive_convective_identity U n t = Err ValueError.
Proof.
  intros cfg U n t Ti To.
  assert (E : get_characteristic_identity U n t = Err ValueError).
  { unfold get_characteristic_identity, characteristic_velocities, eos_characteristic_velocities.
    destruct (f_u U); [|reflexivity]. destruct (f_c U); [|reflexivity]. destruct t; try contradiction; reflexivity. }
  unfold get_conservative_convective_identity, get_primitive_convective_identity. rewrite E. repeat split.
Qed.
Print Assumptions c46_raises.

(** In the state of [c43_example] all waves move along (3/5, 4/5), and none of the shear waves along (4/5, -3/5). *)
Example c46_example :
  (forall k, (k < 4)%nat -> wave_speed (3 * (3 / 5) + 4 * (4 / 5)) 2 k <> 0) /\
  unit2 [4 / 5; - (3 / 5)] (4 / 5) (- (3 / 5)) /\ wave_speed (3 * (4 / 5) + 4 * - (3 / 5)) 2 1 = 0 /\
  exists Qi Qo i j, get_conservative_convective_identity air wave_fields [4 / 5; - (3 / 5)] Incoming = Ok Qi /\
    get_conservative_convective_identity air wave_fields [4 / 5; - (3 / 5)] Outgoing = Ok Qo /\ entry Qi i j + entry Qo i j <> delta i j.
Proof.
  assert (U2 : unit2 [4 / 5; - (3 / 5)] (4 / 5) (- (3 / 5))) by (split; [reflexivity|lra]).
  assert (Z : wave_speed (3 * (4 / 5) + 4 * - (3 / 5)) 2 1 = 0) by (cbn; lra).
  split; [intros k K; four k K; cbn; lra|]. split; [exact U2|]. split; [exact Z|].
  destruct (c46_complete_refuted air wave_fields (7 / 5) 3 4 2 _ _ _ 1 eq_refl eq_refl eq_refl U2 ltac:(lra) ltac:(lra) ltac:(cbn; lra) ltac:(lia) Z) as (Qi & Qo & i & j & A & B & _ & _ & C).
  exists Qi, Qo, i, j. repeat split; assumption.
Qed.
