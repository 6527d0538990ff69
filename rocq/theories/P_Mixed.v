(** C63: the mixed forms define the strain rate and the temperature gradient of the flow. *)
From Coq Require Import Reals String List Arith Bool Lia Lra.
From Verif Require Import Base M_Bla M_Flow M_Formulation M_Weak M_Mixed S_Flow S_Chars S_Stress S_Formulation S_Weak S_Mixed L_Flow L_Formulation L_Weak P_Eos P_Chars P_Jacobian P_Riemann P_Stress P_Weak P_Uniform.
From Verif Require Import S_Formulation.
Import ListNotations.
Open Scope R_scope.
Open Scope list_scope.

Lemma parts_five s Q : s_dim s = 2%nat -> length Q = 5%nat ->
  mixed_parts s Q = Ok (mk_matrix 2 2 [1 * nth 0 Q 0; 1 * nth 1 Q 0; 1 * nth 1 Q 0; 1 * nth 2 Q 0], [nth 3 Q 0; nth 4 Q 0]).
Proof. intros D L. unfold mixed_parts, strain_heat_fields. rewrite D. destruct Q as [|a [|b [|c [|x [|y [|]]]]]]; try discriminate L. reflexivity. Qed.

Lemma velocity_temperature s st : 1 < s_gamma s -> valid st -> length (st_u st) = s_dim s ->
  velocity_and_temperature s (conservative_list (s_gamma s) st) = Ok (st_u st, q_T (s_gamma s) st).
Proof. intros G V D. unfold velocity_and_temperature. rewrite (fields_ok s st G V D). reflexivity. Qed.

Lemma two_list (l : list R) : length l = 2%nat -> l = [nth 0 l 0; nth 1 l 0].
Proof. destruct l as [|a [|b [|]]]; try discriminate. reflexivity. Qed.

Section Identity.
Variables (s : settings) (m : mesh) (dx vol bnd : rule) (u : unknowns) (Q : nat -> list R) (P : mixed_test) (st sthat : nat -> state) (du : nat -> nat -> nat -> R) (dT : nat -> list R).
Hypothesis G : 1 < s_gamma s.
Hypothesis D2 : s_dim s = 2%nat.
Hypothesis Fl : flow_of s u st sthat.
Hypothesis Fv : five Q P.
Hypothesis Nl : forall w y, In (w, y) bnd -> length (normal m y) = 2%nat.

Let U (i : nat) (x : nat) : R := nth i (st_u (st x)) 0.
Let Uh (i : nat) (x : nat) : R := nth i (st_u (sthat x)) 0.
Let T (x : nat) : R := q_T (s_gamma s) (st x).
Let Th (x : nat) : R := q_T (s_gamma s) (sthat x).
Let p (k : nat) (x : nat) : R := nth k (tP P x) 0.
Let q (k : nat) (x : nat) : R := nth k (Q x) 0.
Let V (a : nat -> R) (k j : nat) : R := weighted vol (fun x => a x * entry (tdP P x) k j).
Let B (a : nat -> R) (k j : nat) : R := weighted bnd (fun y => a y * (p k y * nth j (normal m y) 0)).
Let E (k : nat) : R := weighted dx (fun x => q k x * p k x).

Lemma lin2 w f g a b : weighted w (fun x => a * f x + b * g x) = a * weighted w f + b * weighted w g.
Proof. now rewrite weighted_plus, !weighted_scale. Qed.

Lemma form_value : mixed_form s m dx vol bnd u Q P = Ok (
  (E 0 + 2 * E 1 + E 2)
  + (2 / 3 * V (U 0) 0 0 + V (U 0) 1 1 - 1 / 3 * V (U 0) 2 0 + V (U 1) 1 0 + 2 / 3 * V (U 1) 2 1 - 1 / 3 * V (U 1) 0 1)
  - (2 / 3 * B (Uh 0) 0 0 + B (Uh 0) 1 1 - 1 / 3 * B (Uh 0) 2 0 + B (Uh 1) 1 0 + 2 / 3 * B (Uh 1) 2 1 - 1 / 3 * B (Uh 1) 0 1)
  + (E 3 + E 4) + (V T 3 0 + V T 4 1) - (B Th 3 0 + B Th 4 1)).
Proof.
  assert (Pq : forall x, mixed_parts s (Q x) = Ok (mk_matrix 2 2 [1 * q 0 x; 1 * q 1 x; 1 * q 1 x; 1 * q 2 x], [q 3 x; q 4 x])) by (intros x; apply parts_five; [exact D2|apply Fv]).
  assert (Pp : forall x, mixed_parts s (tP P x) = Ok (mk_matrix 2 2 [1 * p 0 x; 1 * p 1 x; 1 * p 1 x; 1 * p 2 x], [p 3 x; p 4 x])) by (intros x; apply parts_five; [exact D2|apply Fv]).
  assert (Vu : forall x, velocity_and_temperature s (uU u x) = Ok ([U 0 x; U 1 x], T x)).
  { intros x. destruct (Fl x) as (V1 & _ & L1 & _ & -> & _). rewrite velocity_temperature by (trivial; congruence). rewrite (two_list _ L1) at 1. reflexivity. }
  assert (Vh : forall x, velocity_and_temperature s (uUhat u x) = Ok ([Uh 0 x; Uh 1 x], Th x)).
  { intros x. destruct (Fl x) as (_ & V1 & _ & L1 & _ & ->). rewrite velocity_temperature by (trivial; congruence). rewrite (two_list _ L1) at 1. reflexivity. }
  unfold mixed_form. rewrite D2. change (2 =? 3)%nat with false. cbn iota.
  rewrite (integral_make dx _ (fun x => (1 * (q 0 x * p 0 x) + 2 * (q 1 x * p 1 x)) + 1 * (q 2 x * p 2 x))).
  2: { intros w x I. rewrite Pq, Pp. cbn [bind fst entries inner]. f_equal. ring. }
  cbn [bind].
  rewrite (integral_make vol _ (fun x => (2 / 3 * (U 0 x * entry (tdP P x) 0 0) + 1 * (U 0 x * entry (tdP P x) 1 1)) + (- (1 / 3) * (U 0 x * entry (tdP P x) 2 0) + 1 * (U 1 x * entry (tdP P x) 1 0)) + (2 / 3 * (U 1 x * entry (tdP P x) 2 1) + - (1 / 3) * (U 1 x * entry (tdP P x) 0 1)))).
  2: { intros w x I. rewrite Vu. cbn [bind fst]. f_equal. unfold div_dev_zeta. cbn [vsub vscale map inner]. field. }
  cbn [bind].
  rewrite (integral_make bnd _ (fun y => (2 / 3 * (Uh 0 y * (p 0 y * nth 0 (normal m y) 0)) + 1 * (Uh 0 y * (p 1 y * nth 1 (normal m y) 0))) + (- (1 / 3) * (Uh 0 y * (p 2 y * nth 0 (normal m y) 0)) + 1 * (Uh 1 y * (p 1 y * nth 0 (normal m y) 0))) + (2 / 3 * (Uh 1 y * (p 2 y * nth 1 (normal m y) 0)) + - (1 / 3) * (Uh 1 y * (p 0 y * nth 1 (normal m y) 0))))).
  2: { intros w y I. rewrite Vh, Pp. cbn [bind fst]. rewrite (two_list _ (Nl w y I)). unfold dev_zeta, trace. rewrite D2. cbn. unfold entry. cbn. f_equal. field. }
  cbn [bind].
  rewrite (integral_make dx _ (fun x => 1 * (q 3 x * p 3 x) + 1 * (q 4 x * p 4 x))).
  2: { intros w x I. rewrite Pq, Pp. cbn [bind snd inner]. f_equal. ring. }
  cbn [bind].
  rewrite (integral_make vol _ (fun x => 1 * (T x * entry (tdP P x) 3 0) + 1 * (T x * entry (tdP P x) 4 1))).
  2: { intros w x I. rewrite Vu. cbn [bind snd]. f_equal. unfold div_xi. ring. }
  cbn [bind].
  rewrite (integral_make bnd _ (fun y => 1 * (Th y * (p 3 y * nth 0 (normal m y) 0)) + 1 * (Th y * (p 4 y * nth 1 (normal m y) 0)))).
  2: { intros w y I. rewrite Vh, Pp. cbn [bind snd]. rewrite (two_list _ (Nl w y I)). cbn. f_equal. ring. }
  cbn [bind]. f_equal. rewrite !weighted_plus, !weighted_scale. unfold E, V, B. ring.
Qed.

Hypothesis Bu : forall i, (i < 2)%nat -> by_parts m dx vol bnd (U i) (Uh i) (fun x => [du x i 0%nat; du x i 1%nat]) P.
Hypothesis BT : by_parts m dx vol bnd T Th dT P.

Lemma form_defect : mixed_form s m dx vol bnd u Q P = Ok (weighted dx (fun x => defect (Q x) (du x) (dT x) (tP P x))).
Proof.
  rewrite form_value. f_equal.
  set (Du := fun i j k => weighted dx (fun x => du x i j * p k x)). set (Dt := fun j k => weighted dx (fun x => nth j (dT x) 0 * p k x)).
  assert (Hu : forall i j k, (i < 2)%nat -> (j < 2)%nat -> (k < 5)%nat -> V (U i) k j + Du i j k = B (Uh i) k j).
  { intros i j k I J K. transitivity (V (U i) k j + weighted dx (fun x => nth j [du x i 0%nat; du x i 1%nat] 0 * nth k (tP P x) 0)); [|exact (Bu i I k j K J)]. unfold Du. f_equal. apply weighted_ext. intros w x _. destruct j as [|[|j]]; [| |lia]; reflexivity. }
  assert (Ht : forall j k, (j < 2)%nat -> (k < 5)%nat -> V T k j + Dt j k = B Th k j) by (intros j k J K; exact (BT k j K J)).
  assert (Ed : weighted dx (fun x => defect (Q x) (du x) (dT x) (tP P x)) =
    (E 0 + 2 * E 1 + E 2) - (2 / 3 * Du 0%nat 0%nat 0%nat - 1 / 3 * Du 1%nat 1%nat 0%nat + Du 0%nat 1%nat 1%nat + Du 1%nat 0%nat 1%nat + 2 / 3 * Du 1%nat 1%nat 2%nat - 1 / 3 * Du 0%nat 0%nat 2%nat) + (E 3 + E 4) - (Dt 0%nat 3%nat + Dt 1%nat 4%nat)).
  { rewrite (weighted_ext dx _ (fun x => 1 * (q 0 x * p 0 x) + 2 * (q 1 x * p 1 x) + 1 * (q 2 x * p 2 x) + - (2 / 3) * (du x 0%nat 0%nat * p 0 x) + 1 / 3 * (du x 1%nat 1%nat * p 0 x) + -1 * (du x 0%nat 1%nat * p 1 x) + -1 * (du x 1%nat 0%nat * p 1 x) + - (2 / 3) * (du x 1%nat 1%nat * p 2 x) + 1 / 3 * (du x 0%nat 0%nat * p 2 x) + 1 * (q 3 x * p 3 x) + 1 * (q 4 x * p 4 x) + -1 * (nth 0 (dT x) 0 * p 3 x) + -1 * (nth 1 (dT x) 0 * p 4 x))).
    - rewrite !weighted_plus, !weighted_scale. unfold E, Du, Dt. ring.
    - intros w x _. unfold defect, stored, strain, delta, p, q. cbn [total]. cbn [Nat.eqb Nat.add]. field. }
  rewrite Ed.
  pose proof (Hu 0%nat 0%nat 0%nat ltac:(lia) ltac:(lia) ltac:(lia)). pose proof (Hu 1%nat 1%nat 0%nat ltac:(lia) ltac:(lia) ltac:(lia)). pose proof (Hu 0%nat 1%nat 1%nat ltac:(lia) ltac:(lia) ltac:(lia)).
  pose proof (Hu 1%nat 0%nat 1%nat ltac:(lia) ltac:(lia) ltac:(lia)). pose proof (Hu 1%nat 1%nat 2%nat ltac:(lia) ltac:(lia) ltac:(lia)). pose proof (Hu 0%nat 0%nat 2%nat ltac:(lia) ltac:(lia) ltac:(lia)).
  pose proof (Ht 0%nat 3%nat ltac:(lia) ltac:(lia)). pose proof (Ht 1%nat 4%nat ltac:(lia) ltac:(lia)). lra.
Qed.
End Identity.

(** For flows that can be integrated by parts the form measures the distance of the mixed unknown from the strain rate
    and the temperature gradient. *)
Theorem c63_identity : forall s m dx vol bnd u Q P st sthat du dT, 1 < s_gamma s -> s_dim s = 2%nat -> flow_of s u st sthat -> five Q P ->
  (forall w y, In (w, y) bnd -> length (normal m y) = 2%nat) ->
  (forall i, (i < 2)%nat -> by_parts m dx vol bnd (fun x => nth i (st_u (st x)) 0) (fun x => nth i (st_u (sthat x)) 0) (fun x => [du x i 0%nat; du x i 1%nat]) P) ->
  by_parts m dx vol bnd (fun x => q_T (s_gamma s) (st x)) (fun x => q_T (s_gamma s) (sthat x)) dT P ->
  mixed_form s m dx vol bnd u Q P = Ok (weighted dx (fun x => defect (Q x) (du x) (dT x) (tP P x))).
Proof. intros. eapply form_defect; eassumption. Qed.
Print Assumptions c63_identity.

(** The unknown that holds them. *)
Definition exact_mixed (du : nat -> nat -> R) (dT : list R) : list R := [strain du 0 0; strain du 0 1; strain du 1 1; nth 0 dT 0; nth 1 dT 0].

Lemma strain_symmetric du i j : strain du i j = strain du j i.
Proof. unfold strain, delta. rewrite (Nat.eqb_sym j i). field. Qed.

(** So the strain rate and temperature gradient solve the form, and only they do if they are in the space. *)
Theorem c63_unique : forall s m dx vol bnd u Q st sthat du dT (W : mixed_test -> Prop), 1 < s_gamma s -> s_dim s = 2%nat -> flow_of s u st sthat ->
  (forall w y, In (w, y) bnd -> length (normal m y) = 2%nat) ->
  (forall x, length (Q x) = 5%nat) -> (forall P, W P -> forall x, length (tP P x) = 5%nat) ->
  (forall P, W P -> forall i, (i < 2)%nat -> by_parts m dx vol bnd (fun x => nth i (st_u (st x)) 0) (fun x => nth i (st_u (sthat x)) 0) (fun x => [du x i 0%nat; du x i 1%nat]) P) ->
  (forall P, W P -> by_parts m dx vol bnd (fun x => q_T (s_gamma s) (st x)) (fun x => q_T (s_gamma s) (sthat x)) dT P) ->
  (forall w x, In (w, x) dx -> 0 < w) ->
  (exists P, W P /\ forall x, tP P x = vsub (Q x) (exact_mixed (du x) (dT x))) ->
  ((forall P, W P -> mixed_form s m dx vol bnd u Q P = Ok 0) <-> forall w x, In (w, x) dx -> Q x = exact_mixed (du x) (dT x)).
Proof.
  intros s m dx vol bnd u Q st sthat du dT W G D2 Fl Nl LQ LP Bu BT Pos (P0 & HP0 & EP0).
  assert (Fd : forall P, W P -> mixed_form s m dx vol bnd u Q P = Ok (weighted dx (fun x => defect (Q x) (du x) (dT x) (tP P x)))).
  { intros P HP. apply (c63_identity s m dx vol bnd u Q P st sthat du dT); auto. intros x. split; [apply LQ|now apply LP]. }
  split.
  - intros Z. pose proof (Fd P0 HP0) as F. rewrite (Z P0 HP0) in F. apply ok_inj in F. symmetry in F.
    assert (Sq : forall x, defect (Q x) (du x) (dT x) (tP P0 x) = (nth 0 (Q x) 0 - strain (du x) 0 0) ^ 2 + 2 * (nth 1 (Q x) 0 - strain (du x) 0 1) ^ 2 + (nth 2 (Q x) 0 - strain (du x) 1 1) ^ 2 + (nth 3 (Q x) 0 - nth 0 (dT x) 0) ^ 2 + (nth 4 (Q x) 0 - nth 1 (dT x) 0) ^ 2).
    { intros x. rewrite EP0. unfold defect, stored. cbn [total]. rewrite (strain_symmetric (du x) 1 0). rewrite !vsub_nth by (rewrite LQ; reflexivity). unfold exact_mixed. cbn [Nat.add nth]. ring. }
    assert (NN : forall x, 0 <= defect (Q x) (du x) (dT x) (tP P0 x)).
    { intros x. rewrite Sq. repeat apply Rplus_le_le_0_compat; try apply pow2_ge_0. apply Rmult_le_pos; [lra|apply pow2_ge_0]. }
    clear - F Sq NN Pos LQ. induction dx as [|[w x] l IH]; [intros w x []|]. cbn [weighted] in F.
    assert (N : forall q : rule, (forall w x, In (w, x) q -> 0 < w) -> 0 <= weighted q (fun x => defect (Q x) (du x) (dT x) (tP P0 x))).
    { clear - NN. intros q H. induction q as [|[w x] q IH]; cbn [weighted]; [lra|]. assert (0 < w) by (apply (H w x); now left). pose proof (NN x). specialize (IH (fun a b I => H a b (or_intror I))). nra. }
    assert (W0 : 0 < w) by (apply (Pos w x); now left). pose proof (N l (fun a b I => Pos a b (or_intror I))) as Nl.
    pose proof (NN x) as D0.
    assert (Dz : defect (Q x) (du x) (dT x) (tP P0 x) = 0) by nra.
    assert (Lz : weighted l (fun x => defect (Q x) (du x) (dT x) (tP P0 x)) = 0) by nra.
    intros w' x' [I|I]; [injection I as <- <-|exact (IH (fun a b J => Pos a b (or_intror J)) Lz w' x' I)].
    rewrite Sq in Dz. pose proof (LQ x) as L. destruct (Q x) as [|a [|b [|c [|d [|e [|]]]]]]; try discriminate L. cbn [nth] in Dz. unfold exact_mixed.
    pose proof (pow2_ge_0 (a - strain (du x) 0 0)). pose proof (pow2_ge_0 (b - strain (du x) 0 1)). pose proof (pow2_ge_0 (c - strain (du x) 1 1)). pose proof (pow2_ge_0 (d - nth 0 (dT x) 0)). pose proof (pow2_ge_0 (e - nth 1 (dT x) 0)).
    assert (Z : forall z, z ^ 2 = 0 -> z = 0) by (intros z Hz; apply Rsqr_0_uniq; unfold Rsqr; rewrite <- Hz; ring).
    repeat (apply f_equal2; [apply Rminus_diag_uniq, Z; lra|]). reflexivity.
  - intros H P HP. rewrite (Fd P HP). f_equal. apply weighted_zero. intros w x I. rewrite (H w x I). unfold defect, stored, exact_mixed. cbn [total]. rewrite (strain_symmetric (du x) 1 0). cbn [Nat.add nth]. ring.
Qed.
Print Assumptions c63_unique.

(** The strain rate of the specification is the one that the solver computes from a velocity gradient. *)
Theorem c63_strain : forall s dU du, s_dim s = 2%nat -> g_eps dU = None -> g_u dU = Some du -> shape 2 du ->
  exists eps, strain_rate_tensor s dU = Ok eps /\ forall i j, (i < 2)%nat -> (j < 2)%nat -> entry eps i j = strain (entry du) i j.
Proof.
  intros s dU du D E1 E2 Sh. rewrite <- D in Sh. destruct (strain_ok s dU du E1 E2 Sh) as (eps & Ee & _ & H). exists eps. split; [exact Ee|].
  intros i j I J. rewrite H by (rewrite D; assumption). unfold strain, divergence. rewrite D. cbn [total]. field.
Qed.
Print Assumptions c63_strain.

(** Without any assumption on the flow: in every set of elements the sums of the strain rate and of the temperature
    gradient are given by the facet unknowns on the boundaries of the elements. *)
Theorem c63_mean : forall s m dx vol bnd u Q st sthat (A : nat -> bool), 1 < s_gamma s -> s_dim s = 2%nat -> flow_of s u st sthat ->
  (forall w y, In (w, y) bnd -> length (normal m y) = 2%nat) -> (forall x, length (Q x) = 5%nat) ->
  (forall k, (k < 5)%nat -> mixed_form s m dx vol bnd u Q (constant_mixed m k A) = Ok 0) ->
  let p x := A (element m x) in
  let mean k := weighted (at_points p dx) (fun x => nth k (Q x) 0) in
  let un i j := weighted (at_points p bnd) (fun y => nth i (st_u (sthat y)) 0 * nth j (normal m y) 0) in
  let Tn j := weighted (at_points p bnd) (fun y => q_T (s_gamma s) (sthat y) * nth j (normal m y) 0) in
  mean 0%nat = 2 / 3 * un 0%nat 0%nat - 1 / 3 * un 1%nat 1%nat /\ mean 1%nat = (un 0%nat 1%nat + un 1%nat 0%nat) / 2 /\ mean 2%nat = 2 / 3 * un 1%nat 1%nat - 1 / 3 * un 0%nat 0%nat /\
  mean 3%nat = Tn 0%nat /\ mean 4%nat = Tn 1%nat.
Proof.
  intros s m dx vol bnd u Q st sthat A G D2 Fl Nl LQ H p mean un Tn.
  assert (Fv : forall k, five Q (constant_mixed m k A)).
  { intros k x. split; [apply LQ|]. cbn [constant_mixed tP]. destruct (A (element m x)); [apply basis_length|reflexivity]. }
  assert (N : forall k i x, (k < 5)%nat -> nth i (tP (constant_mixed m k A) x) 0 = if p x then delta k i else 0).
  { intros k i x K. cbn [constant_mixed tP]. fold (p x). destruct (p x).
    - unfold basis. do 5 (destruct i as [|i]; [reflexivity|]). rewrite nth_overflow by (rewrite map_length, seq_length; lia). unfold delta. destruct (Nat.eqb_spec k (S (S (S (S (S i)))))); [lia|reflexivity].
    - apply nth_repeat. }
  assert (Vz : forall k a i j, (i < 5)%nat -> (j < 2)%nat -> weighted vol (fun x => a x * entry (tdP (constant_mixed m k A) x) i j) = 0).
  { intros k a i j I J. apply weighted_zero. intros w x _. cbn [constant_mixed tdP]. rewrite entry_tabulate by assumption. ring. }
  assert (Bz : forall k a i j, (k < 5)%nat -> weighted bnd (fun y => a y * (nth i (tP (constant_mixed m k A) y) 0 * nth j (normal m y) 0)) = delta k i * weighted (at_points p bnd) (fun y => a y * nth j (normal m y) 0)).
  { intros k a i j K. rewrite <- weighted_select, <- weighted_scale. apply weighted_ext. intros w y _. rewrite N by exact K. destruct (p y); ring. }
  assert (Ez : forall k i, (k < 5)%nat -> weighted dx (fun x => nth i (Q x) 0 * nth i (tP (constant_mixed m k A) x) 0) = delta k i * mean i).
  { intros k i K. unfold mean. rewrite <- weighted_select, <- weighted_scale. apply weighted_ext. intros w y _. rewrite N by exact K. destruct (p y); ring. }
  assert (F : forall k, (k < 5)%nat -> (delta k 0 * mean 0%nat + 2 * (delta k 1 * mean 1%nat) + delta k 2 * mean 2%nat)
    - (2 / 3 * (delta k 0 * un 0%nat 0%nat) + delta k 1 * un 0%nat 1%nat - 1 / 3 * (delta k 2 * un 0%nat 0%nat) + delta k 1 * un 1%nat 0%nat + 2 / 3 * (delta k 2 * un 1%nat 1%nat) - 1 / 3 * (delta k 0 * un 1%nat 1%nat))
    + (delta k 3 * mean 3%nat + delta k 4 * mean 4%nat) - (delta k 3 * Tn 0%nat + delta k 4 * Tn 1%nat) = 0).
  { intros k K. pose proof (form_value s m dx vol bnd u Q (constant_mixed m k A) st sthat G D2 Fl (Fv k) Nl) as E. rewrite (H k K) in E. apply ok_inj in E.
    rewrite !Vz in E by lia. rewrite !Bz in E by lia. rewrite !Ez in E by lia. unfold un, Tn. lra. }
  pose proof (F 0%nat ltac:(lia)) as F0. pose proof (F 1%nat ltac:(lia)) as F1. pose proof (F 2%nat ltac:(lia)) as F2. pose proof (F 3%nat ltac:(lia)) as F3. pose proof (F 4%nat ltac:(lia)) as F4.
  unfold delta in *. cbn [Nat.eqb] in *. clear - F0 F1 F2 F3 F4. repeat split; lra.
Qed.
Print Assumptions c63_mean.

(** A uniform flow has neither strain nor heat conduction: zero solves the form. With C62, the whole discrete problem of a
    viscous gas keeps uniform flow. *)
Theorem c63_uniform : forall s m dx vol bnd u P st, 1 < s_gamma s -> s_dim s = 2%nat -> valid st -> length (st_u st) = 2%nat -> uniform s u st ->
  (forall w y, In (w, y) bnd -> length (normal m y) = 2%nat) -> (forall x, length (tP P x) = 5%nat) ->
  (forall k j, (k < 5)%nat -> (j < 2)%nat -> weighted vol (fun x => entry (tdP P x) k j) = weighted bnd (fun y => nth k (tP P y) 0 * nth j (normal m y) 0)) ->
  mixed_form s m dx vol bnd u (fun _ => repeat 0 5) P = Ok 0 /\
  (exists dU, strain_heat_fields s (repeat 0 5) = Ok dU /\ exists eps dT, viscous_gradients s eps dT dU /\ zero_matrix 2 eps /\ forall j, nth j dT 0 = 0).
Proof.
  intros s m dx vol bnd u P st G D2 V Dim Un Nl LP Gs. split.
  - assert (By : forall a, by_parts m dx vol bnd (fun _ => a) (fun _ => a) (fun _ => [0; 0]) P).
    { intros a k j K J. rewrite (weighted_scale vol a), (weighted_scale bnd a), (Gs k j K J). rewrite (weighted_zero dx); [ring|]. intros w x _. destruct j as [|[|j]]; [| |lia]; cbn [nth]; ring. }
    rewrite (c63_identity s m dx vol bnd u (fun _ => repeat 0 5) P (fun _ => st) (fun _ => st) (fun _ _ _ => 0) (fun _ => [0; 0]) G D2).
    + f_equal. apply weighted_zero. intros w x _. unfold defect, stored, strain. cbn [total Nat.add repeat nth]. field.
    + intros x. destruct (Un x) as [-> ->]. repeat split; trivial; apply V.
    + intros x. split; [reflexivity|apply LP].
    + exact Nl.
    + intros i I. exact (By (nth i (st_u st) 0)).
    + exact (By (q_T (s_gamma s) st)).
  - unfold strain_heat_fields. rewrite D2. eexists. split; [reflexivity|]. eexists. eexists. split; [split; [reflexivity|]; rewrite D2; repeat split|]. split.
    + intros i j I J. destruct i as [|[|i]]; [| |lia]; (destruct j as [|[|j]]; [| |lia]); unfold entry; cbn; ring.
    + intros j. do 2 (destruct j as [|j]; [reflexivity|]). destruct j; reflexivity.
Qed.
Print Assumptions c63_uniform.

(** The gradient method: the form measures the distance of the mixed unknown from the gradient of the unknowns. *)
Theorem c63_gradient : forall d m dx bnd u Q P (dU : nat -> nat -> nat -> R),
  (forall x, length (uU u x) = (d + 2)%nat /\ length (uUhat u x) = (d + 2)%nat /\ length (tdivG P x) = (d + 2)%nat /\
     cols (Q x) = d /\ length (entries (Q x)) = ((d + 2) * d)%nat /\ rows (tG P x) = (d + 2)%nat /\ cols (tG P x) = d /\ length (entries (tG P x)) = ((d + 2) * d)%nat) ->
  (forall i, (i < d + 2)%nat -> weighted dx (fun x => nth i (uU u x) 0 * nth i (tdivG P x) 0) + weighted dx (fun x => total d (fun j => dU x i j * entry (tG P x) i j))
     = weighted bnd (fun y => nth i (uUhat u y) 0 * total d (fun j => entry (tG P y) i j * nth j (normal m y) 0))) ->
  gradient_form m dx bnd u Q P = Ok (weighted dx (fun x => total (d + 2) (fun i => total d (fun j => (entry (Q x) i j - dU x i j) * entry (tG P x) i j)))).
Proof.
  intros d m dx bnd u Q P dU L By. unfold gradient_form.
  rewrite (integral_make dx _ (fun x => total (d + 2) (fun i => total d (fun j => entry (Q x) i j * entry (tG P x) i j)))).
  2: { intros w x I. destruct (L x) as (_ & _ & _ & C1 & L1 & _ & C2 & L2). now rewrite (inner_double (d + 2) d (Q x) (tG P x)). }
  cbn [bind]. rewrite (integral_make dx _ (fun x => total (d + 2) (fun i => nth i (uU u x) 0 * nth i (tdivG P x) 0))).
  2: { intros w x I. destruct (L x) as (L1 & _ & L2 & _). rewrite inner_total by congruence. now rewrite L1. }
  cbn [bind]. rewrite (integral_make bnd _ (fun y => total (d + 2) (fun i => nth i (uUhat u y) 0 * total d (fun j => entry (tG P y) i j * nth j (normal m y) 0)))).
  2: { intros w y I. destruct (L y) as (_ & L1 & _ & _ & _ & R2 & C2 & _). rewrite inner_total by (rewrite mvmul_length; congruence). rewrite L1. f_equal. apply total_ext. intros k K. rewrite mvmul_total by (rewrite R2; exact K). now rewrite C2. }
  cbn [bind]. f_equal. rewrite !weighted_total.
  assert (E : total (d + 2) (fun i => weighted bnd (fun y => nth i (uUhat u y) 0 * total d (fun j => entry (tG P y) i j * nth j (normal m y) 0))) =
    total (d + 2) (fun i => weighted dx (fun x => nth i (uU u x) 0 * nth i (tdivG P x) 0) + weighted dx (fun x => total d (fun j => dU x i j * entry (tG P x) i j)))) by (apply total_ext; intros i I; symmetry; now apply By).
  rewrite E, total_plus.
  assert (E2 : total (d + 2) (fun i => weighted dx (fun x => total d (fun j => (entry (Q x) i j - dU x i j) * entry (tG P x) i j))) =
    total (d + 2) (fun i => weighted dx (fun x => total d (fun j => entry (Q x) i j * entry (tG P x) i j)) + -1 * weighted dx (fun x => total d (fun j => dU x i j * entry (tG P x) i j)))).
  { apply total_ext. intros i I. rewrite <- weighted_scale, <- weighted_plus. apply weighted_ext. intros w x _. rewrite <- total_scale, <- total_plus. apply total_ext. intros j J. ring. }
  rewrite E2, total_plus, total_scale. ring.
Qed.
Print Assumptions c63_gradient.

(** The form is not available in three dimensions. *)
Theorem c63_raises : forall s m dx vol bnd u Q P, s_dim s = 3%nat -> mixed_form s m dx vol bnd u Q P = Err NotImplementedError.
Proof. intros s m dx vol bnd u Q P D. unfold mixed_form. rewrite D. reflexivity. Qed.
Print Assumptions c63_raises.

(** ** Example: the shear flow u = (y, 0) in the unit square, test functions that are constant. *)
Definition height (x : nat) : R := nth x [1 / 2; 1 / 2; 1 / 2; 1; 0] 0.
Definition shear (x : nat) : state := mk_state 1 [height x; 0] 1.
Definition shear_unknowns : unknowns := mk_unknowns (fun x => conservative_list (7 / 5) (shear x)) (fun x => conservative_list (7 / 5) (shear x)) (fun _ => still).
Definition shear_gradient (x i j : nat) : R := match i, j with 0%nat, 1%nat => 1 | _, _ => 0 end.
Definition constants (P : mixed_test) : Prop := exists c, length c = 5%nat /\ forall x, tP P x = c /\ tdP P x = tabulate 5 2 (fun _ _ => 0).

Example c63_example :
  flow_of viscous_air shear_unknowns shear shear /\
  exact_mixed (shear_gradient 0) [0; 0] = [(0 + 0) / 2 - (0 + 0) / 3 * 1; (1 + 0) / 2 - (0 + 0) / 3 * 0; (0 + 0) / 2 - (0 + 0) / 3 * 1; 0; 0] /\
  forall P, constants P -> mixed_form viscous_air box inside inside sides shear_unknowns (fun x => exact_mixed (shear_gradient x) [0; 0]) P = Ok 0.
Proof.
  assert (Fl : flow_of viscous_air shear_unknowns shear shear) by (intros x; repeat split; cbn; lra).
  assert (G : 1 < s_gamma viscous_air) by (cbn; lra).
  assert (By : forall P, constants P -> (forall i, (i < 2)%nat -> by_parts box inside inside sides (fun x => nth i (st_u (shear x)) 0) (fun x => nth i (st_u (shear x)) 0) (fun x => [shear_gradient x i 0%nat; shear_gradient x i 1%nat]) P) /\
    by_parts box inside inside sides (fun x => q_T (s_gamma viscous_air) (shear x)) (fun x => q_T (s_gamma viscous_air) (shear x)) (fun _ => [0; 0]) P).
  { intros P (c & Lc & Hc). split.
    - intros i I k j K J. unfold inside, sides. cbn [weighted]. rewrite !(proj1 (Hc _)), !(proj2 (Hc _)), entry_tabulate by assumption. set (a := nth k c 0).
      destruct i as [|[|i]]; [| |lia]; (destruct j as [|[|j]]; [| |lia]); cbn; unfold height; cbn; field.
    - intros k j K J. unfold inside, sides. cbn [weighted]. rewrite !(proj1 (Hc _)), !(proj2 (Hc _)), entry_tabulate by assumption. set (a := nth k c 0).
      destruct j as [|[|j]]; [| |lia]; cbn; unfold q_T; cbn; field. }
  split; [exact Fl|]. split; [reflexivity|].
  intros P HP. destruct HP as (c & Lc & Hc).
  apply (c63_unique viscous_air box inside inside sides shear_unknowns (fun x => exact_mixed (shear_gradient x) [0; 0]) shear shear shear_gradient (fun _ => [0; 0]) constants G eq_refl Fl);
    trivial; try (now exists c).
  - intros w y I. now apply (square_normals _ _ w).
  - intros P' (c' & L' & H') x. now rewrite (proj1 (H' x)).
  - intros P' HP'. apply By, HP'.
  - intros P' HP'. apply By, HP'.
  - intros w x [I|[]]. injection I as <- <-. lra.
  - exists (mk_mixed_test (fun x => vsub (exact_mixed (shear_gradient x) [0; 0]) (exact_mixed (shear_gradient x) [0; 0])) (fun _ => tabulate 5 2 (fun _ _ => 0))). split; [|reflexivity].
    exists (vsub (exact_mixed (shear_gradient 0) [0; 0]) (exact_mixed (shear_gradient 0) [0; 0])). split; [reflexivity|]. intros x. split; reflexivity.
Qed.
