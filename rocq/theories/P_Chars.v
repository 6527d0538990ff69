(** C43: the transformations between conservative, primitive and characteristic variables.
    C44: the Jacobians are diagonalised by them. *)
From Coq Require Import Reals List Arith Lra Lia Bool.
From Coquelicot Require Import Coquelicot.
From Verif Require Import Base M_Bla M_Flow S_Flow S_Chars L_Flow P_Eos P_Gradients.
Import ListNotations.
Open Scope R_scope.

(** ** Lemmas *)

Lemma mmul_entry a b i j : (i < rows a)%nat -> (j < cols b)%nat -> entry (mmul a b) i j = rsum (map (fun k => entry a i k * entry b k j) (seq 0 (cols a))).
Proof. intros I J. unfold mmul. rewrite entry_tabulate by assumption. reflexivity. Qed.

Lemma mmul_product a b : shape 4 a -> shape 4 b -> is_product 4 a b (mmul a b).
Proof.
  intros (A1 & A2 & A3) (B1 & B2 & B3). repeat split; trivial.
  - unfold mmul. rewrite tabulate_length, A1, B2. reflexivity.
  - intros i j I J. rewrite mmul_entry by (rewrite ?A1, ?B2; assumption). rewrite A2. cbn. ring.
Qed.

Lemma mat4_shape l : length l = 16%nat -> shape 4 (mat4 l).
Proof. intros L; repeat split. exact L. Qed.

Ltac four i I := destruct i as [|[|[|[|i]]]]; [| | | |exfalso; clear - I; lia].
Ltac each4 := let i := fresh "i" in let I := fresh "I" in intros i I; four i I; clear I.
Ltac each16 := let i := fresh "i" in let j := fresh "j" in let I := fresh "I" in let J := fresh "J" in
  intros i j I J; four i I; four j J; clear I J.

Ltac compute_entries := unfold entry, delta, mat4; cbn [cols rows entries nth total Nat.eqb Nat.mul Nat.add inner].

(** ** C43 *)

(** In two dimensions the transformations between primitive and conservative variables exist and are inverse to each
    other. *)
Theorem c43_conservative_primitive : forall cfg U rho ux uy,
  f_rho U = Some rho -> f_u U = Some [ux; uy] -> rho <> 0 -> s_gamma cfg <> 1 ->
  exists M Mi, conservative_from_primitive cfg U = Ok M /\ primitive_from_conservative cfg U = Ok Mi /\ inverse 4 M Mi.
Proof.
  intros cfg U rho ux uy Er Eu R0 G. unfold conservative_from_primitive, primitive_from_conservative, eos_M, eos_Minv. rewrite Er, Eu. cbn [equation].
  do 2 eexists. split; [reflexivity|]. split; [reflexivity|]. repeat split.
  all: rename H into I, H0 into J; four i I; four j J; clear I J; compute_entries; field; repeat split; lra.
Qed.
Print Assumptions c43_conservative_primitive.

(** The same for primitive and characteristic variables in a unit direction. *)
Theorem c43_primitive_characteristic : forall U rho c n n0 n1,
  f_rho U = Some rho -> f_c U = Some c -> unit2 n n0 n1 -> rho <> 0 -> c <> 0 ->
  exists L Li, primitive_from_characteristic U n = Ok (MMat L) /\ characteristic_from_primitive U n = Ok (MMat Li) /\ inverse 4 L Li.
Proof.
  intros U rho c n n0 n1 Er Ec [-> N] R0 C0. unfold primitive_from_characteristic, characteristic_from_primitive, eos_L, eos_Linv. rewrite Er, Ec. cbn [equation].
  assert (N' : n0 * n0 = 1 - n1 * n1) by lra.
  do 2 eexists. split; [reflexivity|]. split; [reflexivity|]. repeat split.
  all: rename H into I, H0 into J; four i I; four j J; clear I J; compute_entries; field [N']; repeat split; lra.
Qed.
Print Assumptions c43_primitive_characteristic.

(** The same for conservative and characteristic variables; these matrices are the products of the others. *)
Theorem c43_conservative_characteristic : forall cfg U rho ux uy c n n0 n1,
  f_rho U = Some rho -> f_u U = Some [ux; uy] -> f_c U = Some c -> unit2 n n0 n1 -> rho <> 0 -> c <> 0 -> s_gamma cfg <> 1 ->
  exists P Pi M Mi L Li, conservative_from_characteristic cfg U n = Ok P /\ characteristic_from_conservative cfg U n = Ok Pi /\
    conservative_from_primitive cfg U = Ok M /\ primitive_from_conservative cfg U = Ok Mi /\
    primitive_from_characteristic U n = Ok (MMat L) /\ characteristic_from_primitive U n = Ok (MMat Li) /\
    inverse 4 P Pi /\ is_product 4 M L P /\ is_product 4 Li Mi Pi.
Proof.
  intros cfg U rho ux uy c n n0 n1 Er Eu Ec [-> N] R0 C0 G.
  unfold conservative_from_characteristic, characteristic_from_conservative, conservative_from_primitive, primitive_from_conservative,
    primitive_from_characteristic, characteristic_from_primitive, eos_P, eos_Pinv, eos_M, eos_Minv, eos_L, eos_Linv. rewrite Er, Eu, Ec. cbn [equation].
  assert (N' : n0 * n0 = 1 - n1 * n1) by lra.
  do 6 eexists. do 6 (split; [reflexivity|]). repeat split.
  all: try (rename H into I, H0 into J; four i I; four j J; clear I J; compute_entries; field [N']; repeat split; lra).
  all: each16; compute_entries; field; repeat split; lra.
Qed.
Print Assumptions c43_conservative_characteristic.

(** The transformation from primitive to conservative variables is the derivative of the conservative by the primitive
    variables: along any curve of states it maps the derivatives of the ones to the derivatives of the others. *)
Theorem c43_derivative : forall cfg U line v M,
  locally 0 (fun t => length (st_u (line t)) = 2%nat /\ st_rho (line t) <> 0) -> s_gamma cfg <> 1 ->
  describes (s_gamma cfg) (line 0) U -> conservative_from_primitive cfg U = Ok M ->
  (forall k, (k < 4)%nat -> is_derive (fun t => primitive 2 (line t) k) 0 (v k)) ->
  forall i, (i < 4)%nat -> is_derive (fun t => conservative (s_gamma cfg) 2 (line t) i) 0 (total 4 (fun k => entry M i k * v k)).
Proof.
  intros cfg U line v M Loc G D HM HV.
  pose proof (locally_singleton _ _ Loc) as [L0 R0].
  unfold conservative_from_primitive, eos_M in HM. fields D.
  destruct (f_rho U) as [rho|] eqn:Er; [|discriminate HM]. destruct (f_u U) as [u|] eqn:Eu; [|discriminate HM].
  use_given. clear Gm Gp GT GrE GE GrEi GEi GrEk GEk GrH GH Gc.
  assert (Su : exists ux uy, u = [ux; uy]).
  { rewrite <- Gu in L0. destruct u as [|a [|b [|e u]]]; try discriminate L0. eauto. }
  destruct Su as (ux & uy & Su). rewrite Su in HM. cbn in HM. injection HM as <-.
  pose (r := fun t : R => st_rho (line t)). pose (a := fun t : R => nth 0 (st_u (line t)) 0). pose (b := fun t : R => nth 1 (st_u (line t)) 0).
  pose (p := fun t : R => st_p (line t)).
  assert (D0 : is_derive r 0 (v 0%nat)) by exact (HV 0%nat ltac:(lia)). assert (D1 : is_derive a 0 (v 1%nat)) by exact (HV 1%nat ltac:(lia)).
  assert (D2 : is_derive b 0 (v 2%nat)) by exact (HV 2%nat ltac:(lia)). assert (D3 : is_derive p 0 (v 3%nat)) by exact (HV 3%nat ltac:(lia)).
  assert (V0 : r 0 = rho /\ a 0 = ux /\ b 0 = uy) by (unfold r, a, b; rewrite <- Gu, Su, <- Grho; repeat split).
  destruct V0 as (V1 & V2 & V3).
  assert (X0 : ex_derive r 0) by (eexists; exact D0). assert (X1 : ex_derive a 0) by (eexists; exact D1).
  assert (X2 : ex_derive b 0) by (eexists; exact D2). assert (X3 : ex_derive p 0) by (eexists; exact D3).
  apply is_derive_unique in D0, D1, D2, D3.
  change (Derive (fun x : R => r x) 0 = v 0%nat) in D0. change (Derive (fun x : R => a x) 0 = v 1%nat) in D1.
  change (Derive (fun x : R => b x) 0 = v 2%nat) in D2. change (Derive (fun x : R => p x) 0 = v 3%nat) in D3.
  each4; unfold conservative; cbn [Nat.eqb Nat.leb Nat.sub]; compute_entries.
  - change (is_derive r 0 (0 + 1 * v 0%nat + 0 * v 1%nat + 0 * v 2%nat + 0 * v 3%nat)).
    clearbody r a b p. auto_derive; [trivial|]. rewrite D0. ring.
  - change (is_derive (fun t => r t * a t) 0 (0 + ux * v 0%nat + rho * v 1%nat + 0 * v 2%nat + 0 * v 3%nat)).
    clearbody r a b p. auto_derive; [repeat split; trivial|]. rewrite D0, D1, V1, V2. ring.
  - change (is_derive (fun t => r t * b t) 0 (0 + uy * v 0%nat + 0 * v 1%nat + rho * v 2%nat + 0 * v 3%nat)).
    clearbody r a b p. auto_derive; [repeat split; trivial|]. rewrite D0, D2, V1, V3. ring.
  - apply (is_derive_ext_loc (fun t => p t / (s_gamma cfg - 1) + r t * (a t * a t + b t * b t) / 2)).
    + revert Loc; apply filter_imp; intros t [Lt Rt]. unfold p, r, a, b, q_rho_E, q_E, q_Ei, q_Ek, q_rho_Ei.
      destruct (st_u (line t)) as [|x [|y [|z w]]]; try discriminate Lt. cbn [inner nth].
      assert (E : st_p (line t) / (s_gamma cfg - 1) + st_rho (line t) * (x * x + y * y) / 2 =
        st_rho (line t) * (st_p (line t) / (s_gamma cfg - 1) / st_rho (line t) + (x * x + (y * y + 0)) / 2)) by (field; split; [lra | exact Rt]).
      exact E.
    + clearbody r a b p. auto_derive; [repeat split; trivial|]. rewrite D0, D1, D2, D3, V1, V2, V3. field. lra.
Qed.
Print Assumptions c43_derivative.

(** Without the fields they need the transformations raise ValueError; velocities that are not two-dimensional raise
    NotImplementedError.  The characteristic matrices of the primitive variables return an exception object there, so
    that the transformations built on them raise TypeError. *)
Theorem c43_raises : forall cfg U n,
  ((f_rho U = None \/ f_u U = None) -> conservative_from_primitive cfg U = Err ValueError /\ primitive_from_conservative cfg U = Err ValueError) /\
  ((f_rho U = None \/ f_c U = None) -> primitive_from_characteristic U n = Err ValueError /\ characteristic_from_primitive U n = Err ValueError) /\
  ((f_rho U = None \/ f_c U = None \/ f_u U = None) -> conservative_from_characteristic cfg U n = Err ValueError /\ characteristic_from_conservative cfg U n = Err ValueError) /\
  (forall rho u, f_rho U = Some rho -> f_u U = Some u -> length u <> 2%nat ->
     conservative_from_primitive cfg U = Err NotImplementedError /\ primitive_from_conservative cfg U = Err NotImplementedError) /\
  (forall rho c u, f_rho U = Some rho -> f_c U = Some c -> f_u U = Some u -> length n <> 2%nat ->
     conservative_from_characteristic cfg U n = Err NotImplementedError /\ characteristic_from_conservative cfg U n = Err NotImplementedError /\
     primitive_from_characteristic U n = Ok (MExn NotImplementedError) /\ characteristic_from_primitive U n = Ok (MExn NotImplementedError) /\
     forall m, transform_characteristic_to_primitive m U n = Err TypeError).
Proof.
  intros cfg U n.
  unfold conservative_from_characteristic, characteristic_from_conservative, conservative_from_primitive, primitive_from_conservative,
    transform_characteristic_to_primitive, primitive_from_characteristic, characteristic_from_primitive, eos_P, eos_Pinv, eos_M, eos_Minv, eos_L, eos_Linv.
  repeat match goal with |- _ /\ _ => split end.
  - intros [-> | ->]; [|destruct (f_rho U)]; split; reflexivity.
  - intros [-> | ->]; [|destruct (f_rho U)]; split; reflexivity.
  - intros [-> | [-> | ->]]; [|destruct (f_rho U)|destruct (f_rho U), (f_c U)]; split; reflexivity.
  - intros rho u -> -> L. destruct u as [|a [|b [|e u]]]; try (split; reflexivity). contradiction L; reflexivity.
  - intros rho c u -> -> -> L. destruct n as [|a [|b [|e n]]]; try (repeat split; reflexivity). contradiction L; reflexivity.
Qed.
Print Assumptions c43_raises.

(** ** Conjugation of diagonal matrices *)

Lemma diagonal_entry4 a b c d i j : (i < 4)%nat -> (j < 4)%nat -> entry (diagonal [a; b; c; d]) i j = if (i =? j)%nat then nth i [a; b; c; d] 0 else 0.
Proof. intros I J. four i I; four j J; reflexivity. Qed.

Lemma diagonal_shape4 a b c d : shape 4 (diagonal [a; b; c; d]).
Proof. repeat split. Qed.

Lemma conjugate_entry P Q a b c d i j : shape 4 P -> shape 4 Q -> (i < 4)%nat -> (j < 4)%nat ->
  entry (mmul (mmul P (diagonal [a; b; c; d])) Q) i j = total 4 (fun k => entry P i k * nth k [a; b; c; d] 0 * entry Q k j).
Proof.
  intros SP SQ I J. destruct (mmul_product P (diagonal [a; b; c; d]) SP (diagonal_shape4 a b c d)) as (_ & _ & SD & ED).
  destruct (mmul_product _ Q SD SQ) as (_ & _ & _ & E). rewrite E by assumption. cbn [total].
  rewrite !ED by (trivial; lia). cbn [total]. rewrite !diagonal_entry4 by lia. cbn [Nat.eqb nth]. ring.
Qed.

Lemma conjugate_shape P Q a b c d : shape 4 P -> shape 4 Q -> shape 4 (mmul (mmul P (diagonal [a; b; c; d])) Q).
Proof.
  intros SP SQ. destruct (mmul_product P (diagonal [a; b; c; d]) SP (diagonal_shape4 a b c d)) as (_ & _ & SD & _).
  destruct (mmul_product _ Q SD SQ) as (_ & _ & S & _). exact S.
Qed.

Lemma conjugate_eigenvectors P Q l0 l1 l2 l3 : inverse 4 P Q ->
  eigenvectors 4 (mmul (mmul P (diagonal [l0; l1; l2; l3])) Q) P (fun k => nth k [l0; l1; l2; l3] 0).
Proof.
  intros (SP & SQ & E). split; [apply conjugate_shape; assumption|]. split; [exact SP|].
  intros i k I K. set (l := [l0; l1; l2; l3]).
  transitivity (total 4 (fun m => entry P i m * nth m l 0 * total 4 (fun j => entry Q m j * entry P j k))).
  - cbn [total]. unfold l. rewrite !conjugate_entry by (trivial; lia). cbn [total]. ring.
  - cbn [total].
    pose proof (proj2 (E 0%nat k ltac:(lia) K)) as E0. pose proof (proj2 (E 1%nat k ltac:(lia) K)) as E1.
    pose proof (proj2 (E 2%nat k ltac:(lia) K)) as E2. pose proof (proj2 (E 3%nat k ltac:(lia) K)) as E3.
    cbn [total] in E0, E1, E2, E3. rewrite E0, E1, E2, E3. four k K; unfold delta; cbn [Nat.eqb]; ring.
Qed.

(** A matrix is determined by its eigenvectors if they form a basis. *)
Lemma eigenvectors_determine A B P Q l : inverse 4 P Q -> eigenvectors 4 A P l -> eigenvectors 4 B P l ->
  forall i j, (i < 4)%nat -> (j < 4)%nat -> entry A i j = entry B i j.
Proof.
  intros (SP & SQ & E) (_ & _ & EA) (_ & _ & EB) i j I J.
  assert (K : forall C : matrix, entry C i j = total 4 (fun k => total 4 (fun m => entry C i m * entry P m k) * entry Q k j)).
  { intros C. transitivity (total 4 (fun m => entry C i m * total 4 (fun k => entry P m k * entry Q k j))); [|cbn [total]; ring].
    cbn [total].
    pose proof (proj1 (E 0%nat j ltac:(lia) J)) as E0. pose proof (proj1 (E 1%nat j ltac:(lia) J)) as E1.
    pose proof (proj1 (E 2%nat j ltac:(lia) J)) as E2. pose proof (proj1 (E 3%nat j ltac:(lia) J)) as E3.
    cbn [total] in E0, E1, E2, E3. rewrite E0, E1, E2, E3. four j J; unfold delta; cbn [Nat.eqb]; ring. }
  rewrite (K A), (K B). cbn [total].
  pose proof (EA i 0%nat I ltac:(lia)) as A0. pose proof (EA i 1%nat I ltac:(lia)) as A1. pose proof (EA i 2%nat I ltac:(lia)) as A2. pose proof (EA i 3%nat I ltac:(lia)) as A3.
  pose proof (EB i 0%nat I ltac:(lia)) as B0. pose proof (EB i 1%nat I ltac:(lia)) as B1. pose proof (EB i 2%nat I ltac:(lia)) as B2. pose proof (EB i 3%nat I ltac:(lia)) as B3.
  cbn [total] in *. rewrite A0, A1, A2, A3, B0, B1, B2, B3. reflexivity.
Qed.

Lemma split_part t x : t <> OtherSplit -> split_velocity t x = Ok (part t x).
Proof.
  intros N. destruct t; cbn; try reflexivity; try contradiction; f_equal; unfold cf_abs, cf_min, cf_max, ifpos, Rabs, Rmin, Rmax.
  - destruct (Rlt_dec 0 x), (Rcase_abs x); lra.
  - destruct (Rlt_dec 0 (x - 0)), (Rle_dec x 0); lra.
  - destruct (Rlt_dec 0 (x - 0)), (Rle_dec x 0); lra.
Qed.

(** ** C44 *)

Lemma velocities_ok U ux uy c n0 n1 t : f_u U = Some [ux; uy] -> f_c U = Some c -> t <> OtherSplit ->
  characteristic_velocities U [n0; n1] t = Ok (map (fun k => part t (wave_speed (ux * n0 + uy * n1) c k)) [0; 1; 2; 3]%nat).
Proof.
  intros Eu Ec N. unfold characteristic_velocities, eos_characteristic_velocities. rewrite Eu, Ec. rewrite !split_part by exact N. cbn [bind equation].
  cbn [map wave_speed length repeat app inner]. rewrite !Rplus_0_r. reflexivity.
Qed.

(** For every option the Jacobian in a unit direction has the columns of the characteristic matrix as eigenvectors; the
    eigenvalues are the selected parts of the speeds of the waves. *)
Theorem c44_eigenvectors : forall cfg U rho ux uy c n n0 n1 t,
  f_rho U = Some rho -> f_u U = Some [ux; uy] -> f_c U = Some c -> unit2 n n0 n1 -> rho <> 0 -> c <> 0 -> s_gamma cfg <> 1 -> t <> OtherSplit ->
  let speed k := part t (wave_speed (ux * n0 + uy * n1) c k) in
  (exists J P Pi, get_conservative_convective_jacobian cfg U n t = Ok J /\ conservative_from_characteristic cfg U n = Ok P /\
     characteristic_from_conservative cfg U n = Ok Pi /\ inverse 4 P Pi /\ eigenvectors 4 J P speed) /\
  (exists J L Li, get_primitive_convective_jacobian U n t = Ok J /\ primitive_from_characteristic U n = Ok (MMat L) /\
     characteristic_from_primitive U n = Ok (MMat Li) /\ inverse 4 L Li /\ eigenvectors 4 J L speed).
Proof.
  intros cfg U rho ux uy c n n0 n1 t Er Eu Ec N R0 C0 G T speed. split.
  - destruct (c43_conservative_characteristic cfg U rho ux uy c n n0 n1 Er Eu Ec N R0 C0 G) as (P & Pi & M & Mi & L & Li & EP & EPi & _ & _ & _ & _ & Inv & _).
    exists (mmul (mmul P (diagonal (map speed [0; 1; 2; 3]%nat))) Pi), P, Pi. destruct N as [En N]. rewrite En in *.
    split; [|split; [exact EP|split; [exact EPi|split; [exact Inv|]]]].
    + unfold get_conservative_convective_jacobian. rewrite (velocities_ok U ux uy c n0 n1 t Eu Ec T). cbn [bind].
      unfold transform_characteristic_to_conservative. rewrite EP, EPi. reflexivity.
    + cbn [map]. pose proof (conjugate_eigenvectors P Pi (speed 0%nat) (speed 1%nat) (speed 2%nat) (speed 3%nat) Inv) as (S1 & S2 & S3).
      split; [exact S1|split; [exact S2|]]. intros i k I K. rewrite (S3 i k I K). four k K; reflexivity.
  - destruct (c43_primitive_characteristic U rho c n n0 n1 Er Ec N R0 C0) as (L & Li & EL & ELi & Inv).
    exists (mmul (mmul L (diagonal (map speed [0; 1; 2; 3]%nat))) Li), L, Li. destruct N as [En N]. rewrite En in *.
    split; [|split; [exact EL|split; [exact ELi|split; [exact Inv|]]]].
    + unfold get_primitive_convective_jacobian. rewrite (velocities_ok U ux uy c n0 n1 t Eu Ec T). cbn [bind].
      unfold transform_characteristic_to_primitive. rewrite EL, ELi. reflexivity.
    + cbn [map]. pose proof (conjugate_eigenvectors L Li (speed 0%nat) (speed 1%nat) (speed 2%nat) (speed 3%nat) Inv) as (S1 & S2 & S3).
      split; [exact S1|split; [exact S2|]]. intros i k I K. rewrite (S3 i k I K). four k K; reflexivity.
Qed.
Print Assumptions c44_eigenvectors.

(** A state with sound speed 2, its fields, a direction, and a line of states through it. *)
Definition wave_state : state := mk_state (7 / 5) [3; 4] 4.
Definition wave_fields : flow :=
  mk_flow (Some (7 / 5)) (Some [3; 4]) None (Some 4) None None (Some (275 / 14)) None None None None None None (Some 2).
Definition wave_line (t : R) : state := mk_state (7 / 5 + t) [3 + 2 * t; 4 - t] (4 + 3 * t).
Definition wave_rates (k : nat) : R := nth k [1; 2; -1; 3] 0.

Lemma wave_describes : describes (s_gamma air) wave_state wave_fields.
Proof.
  unfold describes; repeat match goal with |- _ /\ _ => split end; intros x H; try discriminate H; cbn in H; injection H as <-; try reflexivity.
  - unfold q_E, q_Ei, q_Ek, q_rho_Ei. cbn. field.
  - unfold q_c. cbn. replace (7 / 5 * 4 / (7 / 5)) with (2 * 2) by field. symmetry. apply sqrt_square. lra.
Qed.

Lemma wave_line_valid : locally 0 (fun t => valid (wave_line t) /\ length (st_u (wave_line t)) = 2%nat).
Proof. apply near_zero. intros t B. apply Rabs_def2 in B. repeat split; cbn; lra. Qed.

Lemma wave_line_rates k : (k < 4)%nat -> is_derive (fun t => primitive 2 (wave_line t) k) 0 (wave_rates k).
Proof. intros K. unfold wave_rates, primitive, wave_line. four k K; cbn; auto_derive; trivial; ring. Qed.

Lemma wave_line_start : wave_line 0 = wave_state.
Proof.
  unfold wave_line, wave_state. replace (7 / 5 + 0) with (7 / 5) by ring. replace (3 + 2 * 0) with 3 by ring. replace (4 - 0) with 4 by ring.
  replace (4 + 3 * 0) with 4 by ring. reflexivity.
Qed.

Example c43_example :
  valid wave_state /\ describes (s_gamma air) wave_state wave_fields /\ unit2 [3 / 5; 4 / 5] (3 / 5) (4 / 5) /\ wave_line 0 = wave_state /\
  locally 0 (fun t => length (st_u (wave_line t)) = 2%nat /\ st_rho (wave_line t) <> 0) /\
  (forall k, (k < 4)%nat -> is_derive (fun t => primitive 2 (wave_line t) k) 0 (wave_rates k)) /\
  exists M, conservative_from_primitive air wave_fields = Ok M /\
    is_derive (fun t => conservative (s_gamma air) 2 (wave_line t) 1) 0 (7 / 5 * 2 + 3 * 1).
Proof.
  assert (Loc : locally 0 (fun t => length (st_u (wave_line t)) = 2%nat /\ st_rho (wave_line t) <> 0))
    by (eapply filter_imp; [|exact wave_line_valid]; intros t [[A B] C]; split; [exact C|lra]).
  split; [split; cbn; lra|]. split; [exact wave_describes|]. split; [split; [reflexivity|lra]|]. split; [exact wave_line_start|]. split; [exact Loc|].
  split; [exact wave_line_rates|].
  eexists. split; [reflexivity|].
  evar (w : R). replace (7 / 5 * 2 + 3 * 1) with w; [apply (c43_derivative air wave_fields wave_line wave_rates); try eassumption; try reflexivity; [cbn; lra|rewrite wave_line_start; exact wave_describes|exact wave_line_rates|lia]|].
  unfold w. compute_entries. unfold wave_rates. cbn [nth]. lra.
Qed.
