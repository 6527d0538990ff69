(** C62: uniform flow is a solution of the discrete problem on every mesh. *)
From Coq Require Import Reals String List Arith Bool Lia Lra Permutation.
From Verif Require Import Base M_Bla M_Flow M_Formulation M_Weak S_Flow S_Chars S_Stress S_Formulation S_Weak L_Flow L_Formulation L_Weak P_Eos P_Chars P_Jacobian P_Split P_Riemann P_Boundary P_Stress P_Weak.
From Verif Require Import S_Formulation.
Import ListNotations.
Open Scope R_scope.
Open Scope list_scope.

(** ** Matrices as double sums *)

Lemma total_add n m f : total (n + m) f = total n f + total m (fun k => f (n + k)%nat).
Proof. induction m as [|m IH]; [rewrite Nat.add_0_r; cbn [total]; ring|]. rewrite Nat.add_succ_r. cbn [total]. rewrite IH. ring. Qed.

Lemma total_mul n m f : total (n * m) f = total n (fun i => total m (fun j => f (i * m + j)%nat)).
Proof. induction n as [|n IH]; [reflexivity|]. cbn [total Nat.mul]. rewrite (Nat.add_comm m), total_add, IH. reflexivity. Qed.

Lemma inner_double n m a b : cols a = m -> cols b = m -> length (entries a) = (n * m)%nat -> length (entries b) = (n * m)%nat ->
  inner (entries a) (entries b) = total n (fun i => total m (fun j => entry a i j * entry b i j)).
Proof.
  intros Ca Cb La Lb. rewrite inner_total by (now rewrite La, Lb). rewrite La, total_mul. apply total_ext. intros i _. apply total_ext. intros j _. unfold entry. now rewrite Ca, Cb.
Qed.

Lemma weighted_total q n f : weighted q (fun x => total n (fun k => f k x)) = total n (fun k => weighted q (f k)).
Proof. induction n as [|n IH]; cbn [total]; [apply weighted_zero; reflexivity|]. rewrite weighted_plus, IH. reflexivity. Qed.

Lemma total_swap n m f : total n (fun i => total m (fun j => f i j)) = total m (fun j => total n (fun i => f i j)).
Proof. induction n as [|n IH]; cbn [total]; [now rewrite total_zero|]. rewrite IH, total_plus. reflexivity. Qed.

(** ** Convection *)

Section Uniform.
Variables (s : settings) (m : mesh) (u : unknowns) (st : state) (twin : nat -> nat) (t : test) (vol bnd : rule).
Let g := s_gamma s.
Let d := s_dim s.
Hypothesis G : 1 < s_gamma s.
Hypothesis V : valid st.
Hypothesis Dim : length (st_u st) = s_dim s.
Hypothesis Un : uniform s u st.
Hypothesis Nl : forall w y, In (w, y) bnd -> length (normal m y) = s_dim s.
Hypothesis Gs : gauss (s_dim s) m vol bnd t.
Hypothesis Tw : two_sided m bnd twin.
Hypothesis Wf : well_formed (s_dim s) t.
Hypothesis Sv : single_valued twin t.

(** A flux [F] that is the same everywhere, tested like in the forms. *)
Lemma constant_flux (F : nat -> nat -> R) :
  - weighted vol (fun x => total (d + 2) (fun k => total d (fun j => F k j * entry (tdV t x) k j)))
  + weighted bnd (fun y => total (d + 2) (fun k => total d (fun j => F k j * nth j (normal m y) 0) * nth k (tV t y) 0))
  - weighted bnd (fun y => mask m y * total (d + 2) (fun k => total d (fun j => F k j * nth j (normal m y) 0) * nth k (tVhat t y) 0)) = 0.
Proof.
  assert (E1 : weighted vol (fun x => total (d + 2) (fun k => total d (fun j => F k j * entry (tdV t x) k j))) =
    weighted bnd (fun y => total (d + 2) (fun k => total d (fun j => F k j * nth j (normal m y) 0) * nth k (tV t y) 0))).
  { rewrite !weighted_total. apply total_ext. intros k K. rewrite weighted_total.
    rewrite (weighted_ext bnd _ (fun y => total d (fun j => F k j * (nth k (tV t y) 0 * nth j (normal m y) 0)))).
    - rewrite weighted_total. apply total_ext. intros j J. rewrite !weighted_scale. f_equal. apply Gs; assumption.
    - intros w y _. rewrite Rmult_comm, <- total_scale. apply total_ext. intros j _. ring. }
  assert (E2 : weighted bnd (fun y => mask m y * total (d + 2) (fun k => total d (fun j => F k j * nth j (normal m y) 0) * nth k (tVhat t y) 0)) = 0).
  { set (a := fun y => total (d + 2) (fun k => total d (fun j => F k j * nth j (normal m y) 0) * nth k (tVhat t y) 0)).
    set (p := fun y => negb (outer_facet m (facet m y))).
    transitivity (weighted (at_points p bnd) a).
    - rewrite <- weighted_select. apply weighted_ext. intros w y _. unfold p, mask. fold (a y). destruct (outer_facet m (facet m y)); cbn [negb]; ring.
    - destruct Tw as [Pm Op]. fold p in Pm, Op.
      assert (A : weighted (at_points p bnd) (fun y => a (twin y)) = -1 * weighted (at_points p bnd) a).
      { rewrite <- weighted_scale. apply weighted_ext. intros w y I. unfold a. rewrite <- total_scale. apply total_ext. intros k K. rewrite Sv.
        rewrite (Op w y I). rewrite <- Rmult_assoc, <- total_scale. f_equal. apply total_ext. intros j J.
        replace (nth j (map Ropp (normal m y)) 0) with (- nth j (normal m y) 0); [ring|]. rewrite <- (map_nth Ropp (normal m y) 0 j). now rewrite Ropp_0. }
      rewrite <- weighted_map, (weighted_permutation _ _ a Pm) in A. lra. }
  rewrite E1, E2. ring.
Qed.

Lemma uniform_convection : s_dim s = 2%nat \/ s_riemann s = LaxFriedrich \/ s_riemann s = HLL -> convection_form s m vol bnd u t = Ok 0.
Proof.
  intros Rs. unfold convection_form.
  assert (HF : exists F, forall x, convection_F s u x = Ok F).
  { exists (match get_convective_flux s false (full_fields s st) with Ok F => F | Err _ => idm 0 end). intros x. unfold convection_F. rewrite (proj1 (Un x)), (fields_ok s st G V Dim). cbn [bind]. reflexivity. }
  destruct HF as (F & HF).
  assert (HFF : get_convective_flux s false (full_fields s st) = Ok F) by (specialize (HF 0%nat); unfold convection_F in HF; rewrite (proj1 (Un 0%nat)), (fields_ok s st G V Dim) in HF; exact HF).
  destruct (c45_flux s false st _ F G V (full_describes s st) ltac:(discriminate) HFF) as (RF & CF & LF & EF). rewrite Dim in RF, CF, LF, EF.
  assert (HN : forall w y, In (w, y) bnd -> exists f, convection_Fn s m u y = Ok f /\ length f = (d + 2)%nat /\ forall i, (i < d + 2)%nat -> nth i f 0 = total d (fun j => euler_flux g d st i j * nth j (normal m y) 0)).
  { intros w y I. unfold convection_Fn. rewrite (proj1 (Un y)), (proj2 (Un y)).
    destruct (proj1 (c47_exists s (conservative_list (s_gamma s) st) st (normal m y) G V Dim (Nl w y I)) Rs) as (f & Ef). exists f. split; [exact Ef|].
    destruct (c47_consistent s st (normal m y) f G V Dim (Nl w y I) Ef) as [Lf Hf]. split; [exact Lf|]. intros i Hi. rewrite Hf by exact Hi. unfold normal_flux. rewrite Dim. reflexivity. }
  rewrite (integral_make vol _ (fun x => -1 * total (d + 2) (fun k => total d (fun j => euler_flux g d st k j * entry (tdV t x) k j)))).
  2: { intros w x I. rewrite HF. cbn [bind]. f_equal. destruct (Wf x) as (_ & _ & R1 & C1 & L1). rewrite (inner_double (d + 2) d F (tdV t x)) by assumption.
       replace (-1 * total (d + 2) (fun k => total d (fun j => euler_flux g d st k j * entry (tdV t x) k j))) with (- total (d + 2) (fun k => total d (fun j => euler_flux g d st k j * entry (tdV t x) k j))) by ring.
       f_equal. apply total_ext. intros k K. apply total_ext. intros j J. rewrite EF by assumption. reflexivity. }
  cbn [bind].
  rewrite (integral_make bnd _ (fun y => total (d + 2) (fun k => total d (fun j => euler_flux g d st k j * nth j (normal m y) 0) * nth k (tV t y) 0))).
  2: { intros w y I. destruct (HN w y I) as (f & Ef & Lf & Hf). rewrite Ef. cbn [bind]. f_equal. destruct (Wf y) as (LV & _). fold d in LV. rewrite inner_total by congruence. rewrite Lf. apply total_ext. intros k K. rewrite Hf by exact K. reflexivity. }
  cbn [bind].
  rewrite (integral_make bnd _ (fun y => -1 * (mask m y * total (d + 2) (fun k => total d (fun j => euler_flux g d st k j * nth j (normal m y) 0) * nth k (tVhat t y) 0)))).
  2: { intros w y I. destruct (HN w y I) as (f & Ef & Lf & Hf). rewrite Ef. cbn [bind]. f_equal. destruct (Wf y) as (_ & LV & _). fold d in LV. rewrite inner_total by congruence. rewrite Lf.
       rewrite (total_ext _ (fun k => total d (fun j => euler_flux g d st k j * nth j (normal m y) 0) * nth k (tVhat t y) 0)); [ring|]. intros k K. rewrite Hf by exact K. reflexivity. }
  cbn [bind]. f_equal. pose proof (constant_flux (euler_flux g d st)) as C. rewrite !weighted_scale. lra.
Qed.

Hypothesis Zg : forall x, exists eps dT, viscous_gradients s eps dT (uQ u x) /\ zero_matrix (s_dim s) eps /\ forall j, nth j dT 0 = 0.

Lemma uniform_diffusion mu re pr : viscosity s (full_fields s st) = Ok mu -> reference_reynolds_number s = Ok re -> prandtl_number s = Ok pr ->
  diffusion_form s m vol bnd u t = Ok 0.
Proof.
  intros Em Er Ep. unfold diffusion_form.
  assert (Dt : determined velocity_sources (full_fields s st)) by (exists [Uu]; split; [left; reflexivity|]; intros f [<-|[]]; reflexivity).
  assert (HG : forall x, exists G, diffusion_G s u x = Ok G /\ cols G = d /\ rows G = (d + 2)%nat /\ length (entries G) = ((d + 2) * d)%nat /\ forall i j, (i < d + 2)%nat -> (j < d)%nat -> entry G i j = 0).
  { intros x. destruct (Zg x) as (eps & dT & Vg & Z1 & Z2). destruct (c51_flux s st (full_fields s st) (uQ u x) eps dT mu re pr G V (full_describes s st) Dt Dim Vg Em Er Ep) as (GG & EG & RG & CG & LG & _).
    exists GG. unfold diffusion_G. rewrite (proj1 (Un x)), (fields_ok s st G V Dim). cbn [bind]. split; [exact EG|]. split; [exact CG|]. split; [exact RG|]. split; [exact LG|].
    exact (c51_uniform s st _ (uQ u x) eps dT mu re pr GG G V (full_describes s st) Dt Dim Vg Z1 Z2 Em Er Ep EG). }
  assert (HN : forall w y, In (w, y) bnd -> exists f, diffusion_Gn s m u y = Ok f /\ length f = (d + 2)%nat /\ forall i, (i < d + 2)%nat -> nth i f 0 = 0).
  { intros w y I. destruct (Zg y) as (eps & dT & Vg & Z1 & Z2). unfold diffusion_Gn. rewrite (proj1 (Un y)), (proj2 (Un y)).
    destruct (c51_numerical_flux s st (conservative_list (s_gamma s) st) (uQ u y) eps dT (normal m y) mu re pr G V Dim ltac:(rewrite conservative_list_length; lia) (Nl w y I) Vg Em Er Ep) as (GG & f & EG & Ef & Lf & _ & Eq).
    exists f. split; [exact Ef|]. split; [exact Lf|]. intros i Hi. rewrite (Eq eq_refl). destruct (HG y) as (G' & EG' & C' & R' & _ & Z). unfold diffusion_G in EG'. rewrite (proj1 (Un y)), (fields_ok s st G V Dim) in EG'. cbn [bind] in EG'.
    rewrite EG in EG'. apply ok_inj in EG'. subst G'. rewrite mvmul_total, C' by (rewrite R'; exact Hi). rewrite (total_ext _ (fun _ => 0)); [apply total_zero|]. intros k K. rewrite Z by assumption. ring. }
  rewrite (integral_make vol _ (fun _ => 0)).
  2: { intros w x I. destruct (HG x) as (GG & -> & C' & _ & L' & Z). cbn [bind]. f_equal. destruct (Wf x) as (_ & _ & R1 & C1 & L1). rewrite (inner_double (d + 2) d GG (tdV t x)) by assumption.
       rewrite (total_ext _ (fun _ => 0)); [apply total_zero|]. intros k K. rewrite (total_ext _ (fun _ => 0)); [apply total_zero|]. intros j J. rewrite Z by assumption. ring. }
  assert (Z : forall l f, length f = (d + 2)%nat -> length l = (d + 2)%nat -> (forall i, (i < d + 2)%nat -> nth i f 0 = 0) -> inner f l = 0).
  { intros l f Lf Ll Hf. rewrite inner_total by congruence. rewrite Lf. rewrite (total_ext _ (fun _ => 0)); [apply total_zero|]. intros k K. rewrite Hf by exact K. ring. }
  cbn [bind]. rewrite (integral_make bnd _ (fun _ => 0)).
  2: { intros w y I. destruct (HN w y I) as (f & -> & Lf & Hf). cbn [bind]. f_equal. apply Z; trivial. apply Wf. }
  cbn [bind]. rewrite (integral_make bnd _ (fun _ => 0)).
  2: { intros w y I. destruct (HN w y I) as (f & -> & Lf & Hf). cbn [bind]. rewrite Z; trivial; [|apply Wf]. f_equal. ring. }
  cbn [bind]. rewrite !(weighted_zero _ (fun _ => 0)) by reflexivity. f_equal. ring.
Qed.
End Uniform.

(** The convection form of a uniform flow vanishes, whatever the mesh, the order of the elements and the Riemann solver:
    only the divergence theorem for the test functions and the opposite normals of neighbours are used. *)
Theorem c62_convection : forall s m u st twin t vol bnd, 1 < s_gamma s -> valid st -> length (st_u st) = s_dim s -> uniform s u st ->
  (forall w y, In (w, y) bnd -> length (normal m y) = s_dim s) -> gauss (s_dim s) m vol bnd t -> two_sided m bnd twin -> well_formed (s_dim s) t -> single_valued twin t ->
  s_dim s = 2%nat \/ s_riemann s = LaxFriedrich \/ s_riemann s = HLL ->
  convection_form s m vol bnd u t = Ok 0.
Proof. intros. eapply uniform_convection; eassumption. Qed.
Print Assumptions c62_convection.

(** The same for the diffusion form of a flow without gradients. *)
Theorem c62_diffusion : forall s m u st t vol bnd mu re pr, 1 < s_gamma s -> valid st -> length (st_u st) = s_dim s -> uniform s u st ->
  (forall w y, In (w, y) bnd -> length (normal m y) = s_dim s) -> well_formed (s_dim s) t ->
  (forall x, exists eps dT, viscous_gradients s eps dT (uQ u x) /\ zero_matrix (s_dim s) eps /\ forall j, nth j dT 0 = 0) ->
  viscosity s (full_fields s st) = Ok mu -> reference_reynolds_number s = Ok re -> prandtl_number s = Ok pr ->
  diffusion_form s m vol bnd u t = Ok 0.
Proof. intros. eapply uniform_diffusion; eassumption. Qed.
Print Assumptions c62_diffusion.

Lemma inner_nil r l : vanishes r -> inner r l = 0.
Proof.
  revert l. induction r as [|a r IH]; intros [|b l] Z; cbn [inner]; try reflexivity. rewrite IH by (intros i; exact (Z (S i))). pose proof (Z 0%nat) as Z0. cbn [nth] in Z0. rewrite Z0. ring.
Qed.

(** A uniform flow that the boundary conditions accept and that is the target of the sponge layers is a solution of the
    time step, so it stays. *)
Theorem c62_stays : forall s m r bs ls sc u st twin t, 1 < s_gamma s -> valid st -> length (st_u st) = s_dim s -> uniform s u st -> steady s sc st ->
  (forall w y, In (w, y) (r_cbnd r) \/ In (w, y) (r_dbnd r) -> length (normal m y) = s_dim s) ->
  gauss (s_dim s) m (r_cvol r) (r_cbnd r) t -> two_sided m (r_cbnd r) twin -> well_formed (s_dim s) t -> single_valued twin t ->
  s_dim s = 2%nat \/ s_riemann s = LaxFriedrich \/ s_riemann s = HLL ->
  (s_law s = Inviscid \/
   (exists mu re pr, viscosity s (full_fields s st) = Ok mu /\ reference_reynolds_number s = Ok re /\ prandtl_number s = Ok pr) /\
   forall x, exists eps dT, viscous_gradients s eps dT (uQ u x) /\ zero_matrix (s_dim s) eps /\ forall j, nth j dT 0 = 0) ->
  (forall b w y, In b bs -> In (w, y) (b_rule b) -> exists v, b_vector b y = Ok v /\ vanishes v) ->
  (forall l w x, In l ls -> In (w, x) (s_rule l) -> conservative_vector s (s_target l x) = Ok (conservative_list (s_gamma s) st)) ->
  weak_form s m r bs ls sc u t = Ok 0.
Proof.
  intros s m r bs ls sc u st twin t G V Dim Un St Nl Gs Tw Wf Sv Rs Vi Hb Hl. unfold weak_form.
  rewrite (c62_convection s m u st twin t (r_cvol r) (r_cbnd r)) by (trivial; intros w y I; apply (Nl w y); now left). cbn [bind].
  assert (Dz : match s_law s with Inviscid => Ok 0 | _ => diffusion_form s m (r_dvol r) (r_dbnd r) u t end = Ok 0).
  { destruct Vi as [-> | [(mu & re & pr & Em & Er & Ep) Zg]]; [reflexivity|].
    rewrite (c62_diffusion s m u st t (r_dvol r) (r_dbnd r) mu re pr) by (trivial; intros w y I; apply (Nl w y); now right). now destruct (s_law s). }
  rewrite Dz. cbn [bind].
  assert (Bz : boundary_form bs t = Ok 0).
  { clear - Hb. induction bs as [|b bs IH]; [reflexivity|]. cbn [boundary_form]. rewrite (integral_make (b_rule b) _ (fun _ => 0)).
    - rewrite IH by (intros b' w y I J; apply (Hb b' w y); [now right|exact J]). cbn [bind]. rewrite weighted_zero by reflexivity. f_equal. ring.
    - intros w y I. destruct (Hb b w y (or_introl eq_refl) I) as (v & -> & Z). cbn [bind]. f_equal. now apply inner_nil. }
  rewrite Bz. cbn [bind].
  assert (Lz : domain_form s ls u t = Ok 0).
  { clear - Hl Un. induction ls as [|l ls IH]; [reflexivity|]. cbn [domain_form]. rewrite (integral_make (s_rule l) _ (fun _ => 0)).
    - rewrite IH by (intros l' w x I J; apply (Hl l' w x); [now right|exact J]). cbn [bind]. rewrite weighted_zero by reflexivity. f_equal. ring.
    - intros w x I. unfold sponge_residual. rewrite (Hl l w x (or_introl eq_refl) I). cbn [bind]. f_equal. rewrite (proj1 (Un x)), vsub_self. apply inner_nil.
      intros i. rewrite vscale_nth, nth_repeat. ring. }
  rewrite Lz. cbn [bind]. unfold time_form. rewrite (integral_make (r_time r) _ (fun _ => 0)).
  - cbn [bind]. rewrite weighted_zero by reflexivity. f_equal. ring.
  - intros w x I. f_equal. apply inner_nil. intros i. rewrite (proj1 (Un x)). destruct sc as [dt n|dt n nm1]; cbn [time_derivative steady] in *.
    + rewrite St, vdiv_nth, vsub_self, nth_repeat. unfold Rdiv. ring.
    + destruct (St x) as [-> ->]. rewrite vdiv_nth, vadd_nth, vsub_nth, !vscale_nth; [unfold Rdiv; ring|now rewrite !vscale_length|rewrite vsub_length, !vscale_length; apply Nat.min_id].
Qed.
Print Assumptions c62_stays.

(** ** Examples: the unit square as one element, one point inside and one on each side. *)

Definition square (facets : list nat) (outer : nat -> bool) : mesh :=
  mk_mesh (fun _ => 0%nat) (fun y => nth y facets 0%nat) (fun y => nth y [[0; 0]; [1; 0]; [-1; 0]; [0; 1]; [0; -1]] [0; 0]) outer.
Definition inside : rule := [(1, 0%nat)].
Definition sides : rule := [(1, 1%nat); (1, 2%nat); (1, 3%nat); (1, 4%nat)].
Definition square_rules : rules := mk_rules inside sides inside sides inside.
Definition square_tests (m : mesh) (twin : nat -> nat) (t : test) : Prop := well_formed 2 t /\ gauss 2 m inside sides t /\ single_valued twin t.

Lemma square_constants facets outer twin : (forall y, nth (twin y) facets 0%nat = nth y facets 0%nat) -> has_constants 2 (square facets outer) (square_tests (square facets outer) twin).
Proof.
  intros Tw k A B K. split; [|split].
  - intros x. cbn [constant_test tV tVhat tdV]. split; [destruct (A _); [apply basis_length|apply repeat_length]|]. split; [destruct (B _); [apply basis_length|apply repeat_length]|]. repeat split.
  - intros i j Hi Hj. unfold constant_test, inside, sides. cbn [tV tdV weighted square normal element]. rewrite entry_tabulate by assumption. set (c := nth i (if A 0%nat then basis (2 + 2) k else repeat 0 (2 + 2)) 0).
    destruct j as [|[|j]]; [| |lia]; cbn [nth]; ring.
  - intros y. cbn [constant_test tVhat square facet]. now rewrite Tw.
Qed.

Definition periodic_square : mesh := square [0; 0; 0; 1; 1]%nat (fun _ => false).
Definition opposite_side (y : nat) : nat := nth y [0; 2; 1; 4; 3]%nat y.
Definition channel : mesh := square [0; 0; 0; 1; 2]%nat (fun f => negb (f =? 0)%nat).
Definition other_end (y : nat) : nat := nth y [0; 2; 1]%nat y.
Definition box : mesh := square [0; 0; 1; 2; 3]%nat (fun _ => true).

Lemma periodic_sides : two_sided periodic_square sides opposite_side /\ forall y, nth (opposite_side y) [0; 0; 0; 1; 1]%nat 0%nat = nth y [0; 0; 0; 1; 1]%nat 0%nat.
Proof.
  split; [split|].
  - cbn. apply (Permutation_trans (l' := [(1, 1%nat); (1, 2%nat); (1, 4%nat); (1, 3%nat)])); [apply perm_swap|]. do 2 apply perm_skip. apply perm_swap.
  - intros w y I. cbn in I. repeat destruct I as [I|I]; try contradiction; injection I as <- <-; cbn; repeat f_equal; ring.
  - intros y. do 5 (destruct y as [|y]; [reflexivity|]). destruct y; reflexivity.
Qed.

Lemma channel_sides : two_sided channel sides other_end /\ forall y, nth (other_end y) [0; 0; 0; 1; 2]%nat 0%nat = nth y [0; 0; 0; 1; 2]%nat 0%nat.
Proof.
  split; [split|].
  - cbn. apply perm_swap.
  - intros w y I. cbn in I. repeat destruct I as [I|I]; try contradiction; injection I as <- <-; cbn; repeat f_equal; ring.
  - intros y. do 5 (destruct y as [|y]; [reflexivity|]). destruct y; reflexivity.
Qed.

Lemma box_sides : two_sided box sides (fun y => y).
Proof. split; [constructor|]. intros w y []. Qed.

Lemma square_normals facets outer w y : In (w, y) sides -> length (normal (square facets outer) y) = 2%nat.
Proof. intros I. cbn in I. repeat destruct I as [I|I]; try contradiction; injection I as <- <-; reflexivity. Qed.

Definition still : grads :=
  mk_grads None None None None (Some [0; 0]) None None None None None None None (Some (mk_matrix 2 2 [0; 0; 0; 0])).

(** A sponge layer relaxes a gas at rest with time step 1: its mass 1 + (1/2)^n approaches 1. *)
Definition relaxing (n : nat) : state := mk_state (1 + (1 / 2) ^ n) [0; 0] (1 + (1 / 2) ^ n).
Definition relaxed_unknowns (n : nat) : unknowns :=
  mk_unknowns (fun _ => conservative_list (7 / 5) (relaxing n)) (fun _ => conservative_list (7 / 5) (relaxing n)) (fun _ => still).
Definition relaxation : sponge :=
  mk_sponge inside (fun _ => mk_flow (Some 1) (Some [0; 0]) None (Some 1) None None None None None None None None None None) (fun _ => 1).

Example c60_example :
  has_constants 2 periodic_square (square_tests periodic_square opposite_side) /\
  (forall n, solves air periodic_square square_rules [] [relaxation] (IE 1 (uU (relaxed_unknowns n))) (square_tests periodic_square opposite_side) (relaxed_unknowns (S n))) /\
  forall n, content inside (uU (relaxed_unknowns n)) 0 = 1 + (1 / 2) ^ n.
Proof.
  split; [apply square_constants, periodic_sides|]. split.
  2: { intros n. unfold content, inside. cbn. ring. }
  intros n t (Wf & Gs & Sv).
  assert (V : valid (relaxing (S n))) by (assert (0 < (1 / 2) ^ S n) by (apply pow_lt; lra); split; cbn [relaxing st_rho st_p]; lra).
  unfold weak_form. cbn [square_rules r_cvol r_cbnd r_time]. rewrite (c62_convection air periodic_square (relaxed_unknowns (S n)) (relaxing (S n)) opposite_side t inside sides); trivial;
    [|cbn; lra|intros x; split; reflexivity|intros w y I; now apply (square_normals _ _ w)|apply periodic_sides|left; reflexivity].
  cbn [bind air s_law boundary_form domain_form relaxation s_rule s_target s_function inside integral].
  assert (E : conservative_vector air (mk_flow (Some 1) (Some [0; 0]) None (Some 1) None None None None None None None None None None) = Ok [1; 0; 0; 5 / 2]).
  { unfold conservative_vector. cbn. apply f_equal. apply f_equal2; [reflexivity|]. apply f_equal2; [ring|]. apply f_equal2; [ring|]. apply f_equal2; [field|reflexivity]. }
  unfold sponge_residual. rewrite E. cbn [bind]. unfold time_form. cbn [inside integral bind time_derivative relaxed_unknowns uU]. f_equal.
  destruct (Wf 0%nat) as (L & _). destruct (tV t 0) as [|v0 [|v1 [|v2 [|v3 [|v4 v]]]]]; try discriminate L.
  unfold conservative_list, relaxing, q_rho_E, q_rho_u, q_E, q_Ei, q_rho_Ei, q_Ek. cbn. set (h := (1 / 2) ^ n). field.
  assert (0 < h) by (apply pow_lt; lra). lra.
Qed.

(** Viscous gas moves with speed 3 through a channel with slip walls and a sponge layer; BDF2 keeps it. *)
Definition moving : state := mk_state 1 [3; 0] 1.
Definition viscous_air : settings := mk_settings (7 / 5) 1 10 (1 / 2) Aerodynamic Constant HLL 293 2.
Definition moving_unknowns : unknowns :=
  mk_unknowns (fun _ => conservative_list (7 / 5) moving) (fun _ => conservative_list (7 / 5) moving) (fun _ => still).
Definition moving_sponge : sponge :=
  mk_sponge inside (fun _ => mk_flow (Some 1) (Some [3; 0]) None (Some 1) None None None None None None None None None None) (fun _ => 5).
Definition slip_walls (s : settings) (m : mesh) (u : unknowns) (q : rule) : bterm := mk_bterm q (fun y => inviscid_wall_residual s (uU u y) (uUhat u y) (normal m y)).

Lemma moving_slips s y : s_gamma s = 7 / 5 -> s_dim s = 2%nat -> y = 3%nat \/ y = 4%nat -> slips s channel moving_unknowns y.
Proof.
  intros Eg Ed Hy. assert (G : 1 < s_gamma s) by lra. assert (V : valid moving) by (split; cbn; lra).
  assert (Ln : length (normal channel y) = s_dim s) by (rewrite Ed; destruct Hy as [-> | ->]; reflexivity).
  assert (N : inner (normal channel y) (normal channel y) = 1) by (destruct Hy as [-> | ->]; cbn; ring).
  unfold slips. cbn [moving_unknowns uU uUhat]. rewrite <- Eg. split; [exact Ln|]. split; [exact N|]. split; [now rewrite Ed|].
  split; [exists moving; repeat split; try (now rewrite Ed); apply V|].
  destruct (c50_inviscid_wall s moving (normal channel y) (conservative_list (s_gamma s) moving) G V ltac:(now rewrite Ed) Ln N ltac:(now rewrite Ed)) as (r & Er & _ & Iff).
  exists r. split; [exact Er|]. apply Iff. f_equal. unfold slip, moving. destruct Hy as [-> | ->]; cbn; f_equal; try (f_equal; [ring|f_equal; ring]); ring.
Qed.

Example c62_example :
  has_constants 2 channel (square_tests channel other_end) /\
  solves viscous_air channel square_rules [slip_walls viscous_air channel moving_unknowns [(1, 3%nat); (1, 4%nat)]] [moving_sponge]
    (BDF (1 / 10) (uU moving_unknowns) (uU moving_unknowns)) (square_tests channel other_end) moving_unknowns.
Proof.
  split; [apply square_constants, channel_sides|]. intros t (Wf & Gs & Sv).
  apply (c62_stays viscous_air channel square_rules _ _ _ moving_unknowns moving other_end t); trivial.
  - cbn. lra.
  - split; cbn; lra.
  - intros x. split; reflexivity.
  - intros x. split; reflexivity.
  - intros w y [I|I]; now apply (square_normals _ _ w).
  - apply channel_sides.
  - left. reflexivity.
  - right. split.
    + exists 1, 10, (1 / 2). repeat split. unfold reference_reynolds_number. cbn. destruct (Rle_dec 1 0); [lra|]. cbn. f_equal. field.
    + intros x. exists (mk_matrix 2 2 [0; 0; 0; 0]), [0; 0]. split; [repeat split|]. split; [intros i j I J|intros j; do 2 (destruct j as [|j]; [reflexivity|]); destruct j; reflexivity].
      cbn in I, J. destruct i as [|[|i]]; [| |lia]; (destruct j as [|[|j]]; [| |lia]); reflexivity.
  - intros b w y [<-|[]] I. cbn [slip_walls b_rule b_vector] in *.
    assert (Hy : y = 3%nat \/ y = 4%nat) by (cbn in I; destruct I as [I|[I|[]]]; injection I as <- <-; auto).
    now destruct (moving_slips viscous_air y eq_refl eq_refl Hy) as (_ & _ & _ & _ & r).
  - intros l w x [<-|[]] I. cbn [moving_sponge s_target]. unfold conservative_vector, moving, conservative_list, q_rho_u, q_rho_E, q_E, q_Ei, q_rho_Ei, q_Ek. cbn. apply f_equal. apply f_equal2; [reflexivity|]. apply f_equal2; [ring|]. apply f_equal2; [ring|]. apply f_equal2; [field|reflexivity].
Qed.

(** The inviscid gas in the channel: walls on two sides, so that its mass and energy stay. *)
Example c61_example :
  has_constants 2 channel (square_tests channel other_end) /\
  (forall n : nat, solves air channel square_rules [slip_walls air channel moving_unknowns [(1, 3%nat); (1, 4%nat)]] [] (IE 1 (uU moving_unknowns)) (square_tests channel other_end) moving_unknowns) /\
  (forall w y, In (w, y) (r_cbnd square_rules) -> outer_facet channel (facet channel y) = true -> slips air channel moving_unknowns y) /\
  valid wave_state /\ unit2 [3 / 5; 4 / 5] (3 / 5) (4 / 5) /\ (exists f, get_convective_numerical_flux (with_riemann air Upwind) (conservative_list (7 / 5) wave_state) (conservative_list (7 / 5) (slip wave_state [3 / 5; 4 / 5] (7 / 5))) [3 / 5; 4 / 5] = Ok f) /\
  st_rho wave_state * inner (st_u wave_state) [3 / 5; 4 / 5] / 2 = 7 / 2.
Proof.
  assert (Va : valid wave_state) by (split; cbn; lra).
  split; [apply square_constants, channel_sides|]. split; [|split; [|split; [exact Va|split; [split; [reflexivity|lra]|split]]]].
  - intros n t (Wf & Gs & Sv). apply (c62_stays air channel square_rules _ _ _ moving_unknowns moving other_end t); trivial.
    + cbn. lra.
    + split; cbn; lra.
    + intros x. split; reflexivity.
    + intros x. reflexivity.
    + intros w y [I|I]; now apply (square_normals _ _ w).
    + apply channel_sides.
    + left. reflexivity.
    + left. reflexivity.
    + intros b w y [<-|[]] I. cbn [slip_walls b_rule b_vector] in *.
      assert (Hy : y = 3%nat \/ y = 4%nat) by (cbn in I; destruct I as [I|[I|[]]]; injection I as <- <-; auto).
      now destruct (moving_slips air y eq_refl eq_refl Hy) as (_ & _ & _ & _ & r).
    + intros l w x [].
  - intros w y I O. apply moving_slips; trivial. cbn in I. repeat destruct I as [I|I]; try contradiction; injection I as <- <-; auto; discriminate O.
  - destruct (c50_slip wave_state [3 / 5; 4 / 5] (7 / 5)) as (V' & _); trivial; [lra|cbn; lra|].
    apply (c47_exists (with_riemann air Upwind) _ (slip wave_state [3 / 5; 4 / 5] (7 / 5)) [3 / 5; 4 / 5]); try reflexivity; [cbn; lra|exact V'|left; reflexivity].
  - unfold wave_state. cbn. field.
Qed.

(** Viscous gas at rest in a box with isothermal walls of its temperature 7/2. *)
Definition resting : state := mk_state 1 [0; 0] 1.
Definition resting_unknowns : unknowns :=
  mk_unknowns (fun _ => conservative_list (7 / 5) resting) (fun _ => conservative_list (7 / 5) resting) (fun _ => still).

Example c61_box_example :
  has_constants 2 box (square_tests box (fun y => y)) /\
  (forall n : nat, solves viscous_air box square_rules [mk_bterm sides (fun y => isothermal_wall_residual viscous_air (7 / 2) (uU resting_unknowns y) (uUhat resting_unknowns y))] []
     (IE 1 (uU resting_unknowns)) (square_tests box (fun y => y)) resting_unknowns) /\
  (forall w y, In (w, y) (r_cbnd square_rules) -> outer_facet box (facet box y) = true -> sticks viscous_air box resting_unknowns (7 / 2) y).
Proof.
  assert (V : valid resting) by (split; cbn; lra). assert (G : 1 < s_gamma viscous_air) by (cbn; lra).
  destruct (c50_isothermal_wall viscous_air resting (7 / 2) (conservative_list (7 / 5) resting) G V eq_refl ltac:(lra) eq_refl) as (_ & _ & r & Er & _ & Iff).
  assert (Z : vanishes r). { apply Iff. cbn [viscous_air s_gamma s_dim]. f_equal. unfold isothermal, resting. cbn. f_equal. field. }
  split; [apply square_constants; reflexivity|]. split.
  - intros n t (Wf & Gs & Sv). apply (c62_stays viscous_air box square_rules _ _ _ resting_unknowns resting (fun y => y) t); trivial.
    + intros x. split; reflexivity.
    + intros x. reflexivity.
    + intros w y [I|I]; now apply (square_normals _ _ w).
    + apply box_sides.
    + left. reflexivity.
    + right. split.
      * exists 1, 10, (1 / 2). repeat split. unfold reference_reynolds_number. cbn. destruct (Rle_dec 1 0); [lra|]. cbn. f_equal. field.
      * intros x. exists (mk_matrix 2 2 [0; 0; 0; 0]), [0; 0]. split; [repeat split|]. split; [intros i j I J|intros j; do 2 (destruct j as [|j]; [reflexivity|]); destruct j; reflexivity].
        cbn in I, J. destruct i as [|[|i]]; [| |lia]; (destruct j as [|[|j]]; [| |lia]); reflexivity.
    + intros b w y [<-|[]] I. exists r. split; [exact Er|exact Z].
    + intros l w x [].
  - intros w y I O. split; [lra|]. split; [now apply (square_normals _ _ w)|]. split; [reflexivity|]. split; [exists resting; repeat split; trivial; apply V|]. exists r. split; [exact Er|exact Z].
Qed.
