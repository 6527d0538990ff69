(** Lemmas about the fields and vectors of the conservative formulation. *)
From Coq Require Import Reals List Arith Lra Lia Bool.
From Verif Require Import Base M_Bla M_Flow M_Formulation S_Flow S_Chars S_Formulation L_Flow P_Eos P_Chars P_Jacobian P_Split.
Import ListNotations.
Open Scope R_scope.

Lemma q_rho_u_length s : length (q_rho_u s) = length (st_u s).
Proof. unfold q_rho_u. apply map_length. Qed.

Lemma conservative_list_length g s : length (conservative_list g s) = (length (st_u s) + 2)%nat.
Proof. unfold conservative_list. cbn [length]. rewrite app_length, q_rho_u_length. cbn. lia. Qed.

Lemma conservative_list_nth g s i : (i < length (st_u s) + 2)%nat -> nth i (conservative_list g s) 0 = conservative g (length (st_u s)) s i.
Proof.
  intros I. unfold conservative_list, conservative. destruct i as [|i]; [reflexivity|]. cbn [nth Nat.eqb].
  destruct (Nat.leb_spec (S i) (length (st_u s))).
  - rewrite app_nth1 by (rewrite q_rho_u_length; lia). rewrite q_rho_u_nth. f_equal. f_equal. lia.
  - rewrite app_nth2 by (rewrite q_rho_u_length; lia). rewrite q_rho_u_length. replace (i - length (st_u s))%nat with 0%nat by lia. reflexivity.
Qed.

Section Fields.
Variables (cfg : settings) (s : state).
Hypothesis G : 1 < s_gamma cfg.
Hypothesis V : valid s.
Hypothesis Dim : length (st_u s) = s_dim cfg.
Let g := s_gamma cfg.

(** The fields of the conservative unknowns. *)
Definition full_fields : flow :=
  mk_flow (Some (st_rho s)) (Some (st_u s)) (Some (q_rho_u s)) (Some (st_p s)) (Some (q_T g s)) (Some (q_rho_E g s)) None
    (Some (q_rho_Ei g s)) None (Some (q_rho_Ek s)) None None None (Some (q_c g s)).

Lemma full_describes : describes g s full_fields.
Proof. unfold describes; repeat match goal with |- _ /\ _ => split end; intros x H; try discriminate H; cbn in H; injection H as <-; reflexivity. Qed.

Lemma fields_ok : get_conservative_fields cfg (conservative_list g s) = Ok full_fields.
Proof.
  unfold get_conservative_fields.
  assert (E1 : nth 0 (conservative_list g s) 0 = st_rho s) by reflexivity.
  assert (E2 : firstn (s_dim cfg) (skipn 1 (conservative_list g s)) = q_rho_u s).
  { unfold conservative_list. cbn [skipn]. rewrite <- Dim, <- q_rho_u_length, firstn_app, Nat.sub_diag, firstn_all. cbn. apply app_nil_r. }
  assert (E3 : nth (s_dim cfg + 1) (conservative_list g s) 0 = q_rho_E g s).
  { rewrite conservative_list_nth by lia. unfold conservative. rewrite <- Dim. destruct (Nat.eqb_spec (length (st_u s) + 1) 0); [lia|].
    destruct (Nat.leb_spec (length (st_u s) + 1) (length (st_u s))); [lia|]. reflexivity. }
  rewrite E1, E2, E3. clear E1 E2 E3. destruct V as [R0 P0]. fold g in G.
  unfold velocity. cbn [equation f_u f_rho f_rho_u bind]. rewrite vdiv_momentum by exact V.
  unfold kinetic_energy. cbn [equation f_u f_rho f_rho_u f_rho_Ek bind].
  assert (E4 : 1 / 2 * st_rho s * inner (st_u s) (st_u s) = q_rho_Ek s) by (unfold q_rho_Ek, q_Ek; field). rewrite E4.
  unfold inner_energy, eos_inner_energy. cbn [equation f_u f_rho f_rho_u f_rho_Ek f_rho_Ei f_rho_E f_p f_T bind].
  assert (E5 : q_rho_E g s - q_rho_Ek s = q_rho_Ei g s) by (unfold q_rho_E, q_E, q_rho_Ek, q_Ei; field; lra). rewrite E5.
  unfold pressure, eos_pressure. cbn [equation f_u f_rho f_rho_u f_rho_Ek f_rho_Ei f_rho_E f_p f_T bind].
  fold g. assert (E6 : (g - 1) * q_rho_Ei g s = st_p s) by (unfold q_rho_Ei; field; lra). rewrite E6.
  unfold temperature, eos_temperature. cbn [equation f_u f_rho f_rho_u f_rho_Ek f_rho_Ei f_rho_E f_p f_T bind].
  fold g. 
  unfold speed_of_sound, eos_speed_of_sound. cbn [equation f_u f_rho f_rho_u f_rho_Ek f_rho_Ei f_rho_E f_p f_T f_c bind].
  unfold full_fields, q_T, q_c. do 2 f_equal; f_equal; try (fold g; field; lra).
Qed.
End Fields.

(** ** Vectors and matrices *)

Lemma rsum_total f n : rsum (map f (seq 0 n)) = total n f.
Proof.
  induction n as [|n IH]; [reflexivity|]. rewrite seq_S, map_app. cbn [total map plus]. rewrite <- IH. generalize (map f (seq 0 n)). intros l.
  induction l as [|a l IHl]; cbn; [ring|]. cbn in IHl. unfold rsum in *. rewrite IHl. ring.
Qed.

Lemma total_ext f h n : (forall k, (k < n)%nat -> f k = h k) -> total n f = total n h.
Proof. intros E. induction n as [|n IH]; [reflexivity|]. cbn [total]. rewrite IH, E by (intros; auto with arith). reflexivity. Qed.

Lemma total_delta f n i : (i < n)%nat -> total n (fun k => delta i k * f k) = f i.
Proof.
  intros I. assert (Z : forall m, (m <= i)%nat -> total m (fun k => delta i k * f k) = 0).
  { induction m as [|m IH]; intros L; [reflexivity|]. cbn [total]. rewrite IH by lia. unfold delta. destruct (Nat.eqb_spec i m); [lia|ring]. }
  induction n as [|n IH]; [lia|]. cbn [total]. destruct (Nat.eq_dec i n) as [->|N].
  - rewrite Z by lia. unfold delta. rewrite Nat.eqb_refl. ring.
  - rewrite IH by lia. unfold delta. destruct (Nat.eqb_spec i n); [lia|ring].
Qed.

Lemma total_scale f n a : total n (fun k => a * f k) = a * total n f.
Proof. induction n as [|n IH]; cbn [total]; [ring|]. rewrite IH. ring. Qed.

Lemma total_plus f h n : total n (fun k => f k + h k) = total n f + total n h.
Proof. induction n as [|n IH]; cbn [total]; [ring|]. rewrite IH. ring. Qed.

Lemma total_zero n : total n (fun _ => 0) = 0.
Proof. induction n as [|n IH]; cbn [total]; [reflexivity|]. rewrite IH. ring. Qed.

Lemma mvmul_total a x i : (i < rows a)%nat -> nth i (mvmul a x) 0 = total (cols a) (fun k => entry a i k * nth k x 0).
Proof. intros I. rewrite mvmul_nth by exact I. apply rsum_total. Qed.

Lemma scale_entry f m i j : entry (scale f m) i j = f * entry m i j.
Proof. unfold entry, scale. cbn [cols entries]. exact (vscale_nth f (entries m) _). Qed.

Lemma idm_shape n : shape n (idm n).
Proof. repeat split. unfold idm. apply tabulate_length. Qed.

Lemma scale_shape f n m : shape n m -> shape n (scale f m).
Proof. intros (A & B & C). repeat split; cbn; trivial. rewrite map_length. exact C. Qed.

Lemma abs_ok x : cf_abs x = Rabs x.
Proof. unfold cf_abs, ifpos, Rabs. destruct (Rlt_dec 0 x), (Rcase_abs x); lra. Qed.
Lemma max_ok x y : cf_max x y = Rmax x y.
Proof. unfold cf_max, ifpos, Rmax. destruct (Rlt_dec 0 (x - y)), (Rle_dec x y); lra. Qed.

(** Differences of a vector with itself. *)
Lemma vsub_self x : vsub x x = repeat 0 (length x).
Proof. induction x as [|a x IH]; [reflexivity|]. cbn. rewrite IH. f_equal. ring. Qed.

Lemma mvmul_zero a k : mvmul a (repeat 0 k) = repeat 0 (rows a).
Proof.
  unfold mvmul. rewrite <- (seq_length (rows a) 0) at 2. generalize (seq 0 (rows a)). intros l. induction l as [|i l IH]; [reflexivity|].
  cbn [map length repeat]. rewrite IH. f_equal. rewrite rsum_total. transitivity (total (cols a) (fun _ => 0)); [|apply total_zero]. apply total_ext. intros m _.
  destruct (Nat.lt_ge_cases m k); [rewrite nth_repeat|rewrite nth_overflow by (rewrite repeat_length; lia)]; ring.
Qed.

Lemma vadd_zero x k : (length x <= k)%nat -> vadd x (repeat 0 k) = x.
Proof. revert k. induction x as [|a x IH]; intros k L; [reflexivity|]. destruct k; cbn in L; [lia|]. cbn. rewrite IH by lia. f_equal. ring. Qed.

Lemma vsub_vanishes a b : length a = length b -> (vanishes (vsub a b) <-> a = b).
Proof.
  revert b. induction a as [|x a IH]; intros [|y b] L; try discriminate L; [split; [reflexivity|intros _ [|i]; reflexivity]|].
  cbn in L. injection L as L. cbn [vsub]. split.
  - intros H. pose proof (H 0%nat) as H0. cbn in H0. f_equal; [lra|]. apply (IH b L). intros i. exact (H (S i)).
  - intros E. injection E as -> E. intros [|i]; cbn [nth]; [ring|]. exact (proj2 (IH b L) E i).
Qed.

Lemma inner_total x y : length x = length y -> inner x y = total (length x) (fun k => nth k x 0 * nth k y 0).
Proof. intros L. rewrite (inner_sum x y (length x)) by auto. apply rsum_total. Qed.

Lemma inner_comm x y : inner x y = inner y x.
Proof. revert y. induction x as [|a x IH]; intros [|b y]; try reflexivity. cbn. rewrite IH. ring. Qed.

Lemma inner_vsub x y z : length x = length y -> inner (vsub x y) z = inner x z - inner y z.
Proof. revert y z. induction x as [|a x IH]; intros [|b y] [|c z] L; try discriminate L; cbn; try ring. injection L as L. rewrite IH by exact L. ring. Qed.

Lemma inner_vscale f x y : inner (vscale f x) y = f * inner x y.
Proof. revert y. induction x as [|a x IH]; intros [|b y]; cbn; try ring. unfold vscale in IH. rewrite IH. ring. Qed.

Lemma inner_map f x y : inner (map (fun a => f * a) x) y = f * inner x y.
Proof. exact (inner_vscale f x y). Qed.

(** ** Amplitudes *)

Lemma amplitude_vsub m a b k : length a = length b -> amplitude m (vsub a b) k = amplitude m a k - amplitude m b k.
Proof. intros L. unfold amplitude. cbn [total]. rewrite !vsub_nth by exact L. ring. Qed.

Lemma amplitude_vadd m a b k : length a = length b -> amplitude m (vadd a b) k = amplitude m a k + amplitude m b k.
Proof. intros L. unfold amplitude. cbn [total]. rewrite !vadd_nth by exact L. ring. Qed.

Lemma amplitude_mvmul m a v k : shape 4 m -> shape 4 a -> (k < 4)%nat ->
  amplitude m (mvmul a v) k = total 4 (fun j => total 4 (fun i => entry m k i * entry a i j) * nth j v 0).
Proof.
  intros SM (Ra & Ca & La) K. unfold amplitude. cbn [total]. rewrite !mvmul_total by lia. rewrite Ca. cbn [total]. ring.
Qed.

(** The amplitudes determine the vector. *)
Lemma amplitudes_vanish P Q r : inverse 4 P Q -> length r = 4%nat -> ((forall k, (k < 4)%nat -> amplitude Q r k = 0) <-> vanishes r).
Proof.
  intros (SP & SQ & Inv) L. split.
  - intros H i. destruct (Nat.lt_ge_cases i 4) as [I|I]; [|apply nth_overflow; lia].
    assert (E : total 4 (fun k => entry P i k * amplitude Q r k) = nth i r 0).
    { transitivity (total 4 (fun j => delta i j * nth j r 0)); [|apply total_delta; exact I].
      unfold amplitude. cbn [total].
      rewrite <- (proj1 (Inv i 0%nat I ltac:(lia))), <- (proj1 (Inv i 1%nat I ltac:(lia))), <- (proj1 (Inv i 2%nat I ltac:(lia))), <- (proj1 (Inv i 3%nat I ltac:(lia))).
      cbn [total]. ring. }
    rewrite <- E. cbn [total]. rewrite !H by lia. ring.
  - intros H k K. unfold amplitude. cbn [total]. rewrite !H. ring.
Qed.

(** Matrices that are diagonal in the characteristic basis act on each amplitude by itself. *)
Lemma amplitude_wave P Q f v k : inverse 4 P Q -> (k < 4)%nat ->
  amplitude Q (mvmul (mmul (mmul P (diagonal (map f waves))) Q) v) k = f k * amplitude Q v k.
Proof.
  intros Inv K. pose proof (waves_eigenvectors P Q f Inv) as (SW & _ & _). destruct Inv as (SP & SQ & Inv).
  rewrite amplitude_mvmul by assumption. unfold amplitude. cbn [total]. rewrite !waves_entry by (assumption || lia). cbn [total].
  pose proof (proj2 (Inv k 0%nat K ltac:(lia))) as D0. pose proof (proj2 (Inv k 1%nat K ltac:(lia))) as D1.
  pose proof (proj2 (Inv k 2%nat K ltac:(lia))) as D2. pose proof (proj2 (Inv k 3%nat K ltac:(lia))) as D3. cbn [total] in D0, D1, D2, D3.
  set (a j := f j * (entry Q j 0 * nth 0 v 0 + entry Q j 1 * nth 1 v 0 + entry Q j 2 * nth 2 v 0 + entry Q j 3 * nth 3 v 0)).
  transitivity (delta k 0 * a 0%nat + delta k 1 * a 1%nat + delta k 2 * a 2%nat + delta k 3 * a 3%nat).
  - rewrite <- D0, <- D1, <- D2, <- D3. unfold a. ring.
  - unfold delta. four k K; cbn [Nat.eqb]; unfold a; ring.
Qed.
