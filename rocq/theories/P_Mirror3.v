(** C82: viscous fluxes at a symmetry boundary, and examples. *)
From Coq Require Import Reals String List Arith Bool Lia Lra.
From Coquelicot Require Import Coquelicot.
From Verif Require Import Base M_Bla M_Flow M_Formulation M_Weak M_Mixed S_Flow S_Chars S_Formulation S_Stress S_Weak S_Mixed S_Trace S_Turn S_Mirror L_Flow L_Formulation L_Weak P_Eos P_Chars P_Jacobian P_Split P_Riemann P_Boundary P_Unknowns P_Walls L_Small L_Curve L_Turn P_Stress P_Trace L_Turn2 P_Mixed P_Turn P_Turn2 P_Turn3 P_Uniform P_Mirror P_Mirror2.
From Verif Require Import P_Bla S_Formulation.
Import ListNotations.
Open Scope R_scope.
Open Scope list_scope.

(** The viscous fluxes of a flow and its image balance on the plane exactly if there is no shear stress along it and no flux of energy through it. *)
Theorem c82_viscous : forall s st dU dU' n f, 1 < s_gamma s -> valid st -> length (st_u st) = s_dim s -> length n = s_dim s -> inner n n = 1 ->
  turned_gradients s (reflection n) dU dU' ->
  let U := conservative_list (s_gamma s) st in let Uhat := conservative_list (s_gamma s) (slip st n (s_gamma s)) in
  get_diffusive_numerical_flux s U Uhat dU n = Ok f ->
  exists f', get_diffusive_numerical_flux s (turn (s_dim s) (reflection n) U) Uhat dU' (map Ropp n) = Ok f' /\
    ((forall i, (i < s_dim s + 2)%nat -> nth i f 0 + nth i f' 0 = 0) <->
     nth 0 f 0 = 0 /\ nth (s_dim s + 1) f 0 = 0 /\ forall t, length t = s_dim s -> inner n t = 0 -> total (s_dim s) (fun k => nth (k + 1) f 0 * nth k t 0) = 0).
Proof.
  intros s st dU dU' n f G V Dim Ln N Tg U Uhat E. set (d := s_dim s) in *. pose proof (reflection_orthogonal d n Ln N) as O.
  destruct (c50_slip st n (s_gamma s) G V ltac:(congruence) N) as (Vs & Ls & _). rewrite Dim in Ls.
  destruct (c81_diffusion s (reflection n) (slip st n (s_gamma s)) dU dU' U n f G O Vs Ls ltac:(unfold U; rewrite conservative_list_length; fold d; lia) Ln Tg E) as [Lf E'].
  fold d in Lf, E'. pose proof (reflection_slip n st (s_gamma s) G V ltac:(congruence) N) as Sl. rewrite Dim in Sl. rewrite Sl, (reflection_normal d n Ln N) in E'.
  exists (turn d (reflection n) f). split; [exact E'|].
  set (fn := total d (fun k => nth k n 0 * nth (k + 1) f 0)).
  assert (T0 : nth 0 (turn d (reflection n) f) 0 = nth 0 f 0) by (rewrite turn_nth by lia; reflexivity).
  assert (T1 : nth (d + 1) (turn d (reflection n) f) 0 = nth (d + 1) f 0).
  { rewrite turn_nth by lia. unfold carry. destruct (Nat.eqb_spec (d + 1) 0); [lia|]. destruct (Nat.leb_spec (d + 1) d); [lia|reflexivity]. }
  assert (Tk : forall k, (k < d)%nat -> nth (k + 1) (turn d (reflection n) f) 0 = nth (k + 1) f 0 - 2 * nth k n 0 * fn).
  { intros k K. rewrite turn_nth by lia. unfold carry. destruct (Nat.eqb_spec (k + 1) 0); [lia|]. destruct (Nat.leb_spec (k + 1) d); [|lia].
    replace (k + 1 - 1)%nat with k by lia. now rewrite reflection_of. }
  split.
  - intros B. split; [specialize (B 0%nat ltac:(lia)); lra|]. split; [specialize (B (d + 1)%nat ltac:(lia)); lra|].
    intros t Lt Nt. rewrite (total_ext _ (fun k => fn * (nth k n 0 * nth k t 0))).
    + rewrite total_scale. rewrite <- Ln, <- inner_total, Nt by congruence. ring.
    + intros k K. specialize (B (k + 1)%nat ltac:(lia)). rewrite Tk in B by exact K. replace (nth (k + 1) f 0) with (nth k n 0 * fn) by lra. ring.
  - intros (Z0 & Z1 & Zt).
    assert (Ev : forall k, (k < d)%nat -> nth (k + 1) f 0 = nth k n 0 * fn).
    { set (v := map (fun k => nth (k + 1) f 0 - nth k n 0 * fn) (seq 0 d)).
      assert (Lv : length v = d) by (unfold v; now rewrite map_length, seq_length).
      assert (Nv : forall k, (k < d)%nat -> nth k v 0 = nth (k + 1) f 0 - nth k n 0 * fn).
      { intros k K. unfold v. set (h := fun k : nat => nth (k + 1) f 0 - nth k n 0 * fn). rewrite (nth_indep _ 0 (h 0%nat)) by (rewrite map_length, seq_length; exact K). rewrite (map_nth h), seq_nth by exact K. reflexivity. }
      assert (Iv : inner n v = 0).
      { rewrite inner_total by congruence. rewrite Ln, (total_ext _ (fun k => nth k n 0 * nth (k + 1) f 0 + (- fn) * (nth k n 0 * nth k n 0))) by (intros k K; rewrite Nv by exact K; ring).
        rewrite total_plus, total_scale, (normal_square d n Ln N). fold fn. ring. }
      specialize (Zt v Lv Iv).
      assert (Vv : inner v v = 0).
      { rewrite inner_total by reflexivity. rewrite Lv, (total_ext _ (fun k => nth (k + 1) f 0 * nth k v 0 + (- fn) * (nth k n 0 * nth k v 0))) by (intros k K; rewrite (Nv k K) at 1; ring).
        rewrite total_plus, total_scale, Zt. rewrite <- Ln, <- inner_total, Iv by congruence. ring. }
      intros k K. assert (X : nth k v 0 = 0); [|rewrite Nv in X by exact K; lra].
      now apply squares_none. }
    intros i I. destruct (Nat.eq_dec i 0) as [->|N0]; [lra|]. destruct (Nat.eq_dec i (d + 1)) as [->|N1]; [lra|].
    replace i with ((i - 1) + 1)%nat by lia. rewrite Tk by lia. rewrite (Ev (i - 1)%nat) by lia. ring.
Qed.
Print Assumptions c82_viscous.

(** The symmetry condition of the code does not see to it: for a viscous flow along the plane that satisfies it, any shear stress is left as a force. *)
Theorem c82_viscous_refuted : forall s st dU dU' eps dT n t mu re pr, 1 < s_gamma s -> valid st -> length (st_u st) = s_dim s -> length n = s_dim s -> inner n n = 1 ->
  inner (st_u st) n = 0 -> viscous_gradients s eps dT dU -> turned_gradients s (reflection n) dU dU' ->
  viscosity s (full_fields s st) = Ok mu -> reference_reynolds_number s = Ok re -> prandtl_number s = Ok pr -> mu <> 0 -> re <> 0 ->
  length t = s_dim s -> inner n t = 0 -> total (s_dim s) (fun i => nth i t 0 * total (s_dim s) (fun j => entry eps i j * nth j n 0)) <> 0 ->
  let U := conservative_list (s_gamma s) st in
  (exists r, inviscid_wall_residual s U U n = Ok r /\ vanishes r) /\
  exists f f', get_diffusive_numerical_flux s U U dU n = Ok f /\ get_diffusive_numerical_flux s (turn (s_dim s) (reflection n) U) U dU' (map Ropp n) = Ok f' /\
    ~ (forall i, (i < s_dim s + 2)%nat -> nth i f 0 + nth i f' 0 = 0).
Proof.
  intros s st dU dU' eps dT n t mu re pr G V Dim Ln N Un Vg Tg Em Er Ep M0 R0 Lt Nt Sh U.
  assert (Es : slip st n (s_gamma s) = st).
  { unfold slip. rewrite Un. destruct st as [rho u p]. cbn [st_rho st_u st_p] in *. f_equal.
    - apply (nth_ext _ _ 0 0); [rewrite vsub_length, vscale_length; lia|]. intros i I. rewrite vsub_nth by (rewrite vscale_length; congruence). rewrite vscale_nth. ring.
    - ring. }
  split.
  - destruct (c50_inviscid_wall s st n U G V Dim Ln N ltac:(unfold U; rewrite conservative_list_length; lia)) as (r & Er' & _ & Eq). exists r. split; [exact Er'|]. apply Eq. now rewrite Es.
  - destruct (c51_numerical_flux s st U dU eps dT n mu re pr G V Dim ltac:(unfold U; rewrite conservative_list_length; lia) Ln Vg Em Er Ep) as (Gm & f & EG & Ef & Lf & _ & Eq).
    specialize (Eq eq_refl). pose proof (c82_viscous s st dU dU' n f G V Dim Ln N Tg) as X. cbv zeta in X. rewrite Es in X. destruct (X Ef) as (f' & Ef' & B).
    exists f, f'. split; [exact Ef|]. split; [exact Ef'|]. intros Bal. apply B in Bal. destruct Bal as (_ & _ & Z). specialize (Z t Lt Nt). apply Sh.
    assert (Dt : determined velocity_sources (full_fields s st)) by (exists [Uu]; split; [left; reflexivity|]; intros g [<-|[]]; reflexivity).
    destruct (c51_flux s st (full_fields s st) dU eps dT mu re pr G V (full_describes s st) Dt Dim Vg Em Er Ep) as (G2 & EG2 & Rg & Cg & Lg & H).
    rewrite EG in EG2. apply ok_inj in EG2. subst G2.
    assert (Zs : (2 * mu / re) * total (s_dim s) (fun i => nth i t 0 * total (s_dim s) (fun j => entry eps i j * nth j n 0)) = 0).
    { transitivity (total (s_dim s) (fun k => nth (k + 1) f 0 * nth k t 0)); [|exact Z]. rewrite <- total_scale. apply total_ext. intros k K. rewrite Eq, Nat.add_1_r, mvmul_total by lia. rewrite Cg.
      rewrite (total_ext (fun j => entry Gm (S k) j * nth j n 0) (fun j => (2 * mu / re) * (entry eps k j * nth j n 0))).
      - rewrite total_scale. ring.
      - intros j J. destruct (H j J) as (_ & Hk & _). rewrite (Hk k K). ring. }
    apply Rmult_integral in Zs as [Zs|Zs]; [exfalso|exact Zs].
    assert (Zm : 2 * mu = 2 * mu / re * re) by (field; exact R0). rewrite Zs in Zm. lra.
Qed.
Print Assumptions c82_viscous_refuted.

(** ** Examples *)

(** A viscous flow along a symmetry boundary with velocity (2, 0), sheared by it. *)
Example c82_example_viscous :
  let s := mk_settings (7 / 5) 1 10 (1 / 2) Aerodynamic Constant LaxFriedrich 293 2 in
  let st := mk_state 1 [2; 0] 1 in let n := [0; -1] in
  let eps := mk_matrix 2 2 [0; 1 / 2; 1 / 2; 0] in
  let g e := mk_grads None None None None (Some [0; 0]) None None None None None None None (Some e) in
  inner (st_u st) n = 0 /\ viscous_gradients s eps [0; 0] (g eps) /\ turned_gradients s (reflection n) (g eps) (g (turn_tensor 2 (reflection n) eps)) /\
  viscosity s (full_fields s st) = Ok 1 /\ reference_reynolds_number s = Ok 10 /\ prandtl_number s = Ok (1 / 2) /\
  total 2 (fun i => nth i [1; 0] 0 * total 2 (fun j => entry eps i j * nth j n 0)) = - (1 / 2) /\
  exists f f', get_diffusive_numerical_flux s (conservative_list (7 / 5) st) (conservative_list (7 / 5) st) (g eps) n = Ok f /\
    get_diffusive_numerical_flux s (turn 2 (reflection n) (conservative_list (7 / 5) st)) (conservative_list (7 / 5) st) (g (turn_tensor 2 (reflection n) eps)) (map Ropp n) = Ok f' /\
    ~ (forall i, (i < 4)%nat -> nth i f 0 + nth i f' 0 = 0).
Proof.
  intros s st n eps g.
  assert (Un : inner (st_u st) n = 0) by (cbn; ring). assert (V : valid st) by (split; cbn; lra).
  assert (Vg : viscous_gradients s eps [0; 0] (g eps)) by (repeat split).
  assert (Zt : turn_vector 2 (reflection n) [0; 0] = [0; 0]) by (unfold turn_vector, turn_of; cbn; repeat (apply f_equal2; [ring|]); reflexivity).
  assert (Tg : turned_gradients s (reflection n) (g eps) (g (turn_tensor 2 (reflection n) eps))).
  { exists eps, [0; 0]. split; [exact Vg|]. change (s_dim s) with 2%nat. rewrite Zt. repeat split. }
  assert (Er : reference_reynolds_number s = Ok 10) by (unfold reference_reynolds_number; cbn; destruct (Rle_dec 10 0); [lra|]; cbn; f_equal; field).
  assert (Sh : total 2 (fun i => nth i [1; 0] 0 * total 2 (fun j => entry eps i j * nth j n 0)) = - (1 / 2)) by (unfold entry; cbn; field).
  do 3 (split; [assumption|]). split; [reflexivity|]. split; [exact Er|]. split; [reflexivity|]. split; [exact Sh|].
  exact (proj2 (c82_viscous_refuted s st (g eps) _ eps [0; 0] n [1; 0] 1 10 (1 / 2) ltac:(cbn; lra) V eq_refl eq_refl ltac:(cbn; ring) Un Vg Tg eq_refl Er eq_refl ltac:(lra) ltac:(lra) eq_refl ltac:(cbn; ring)
    ltac:(change (s_dim s) with 2%nat; rewrite Sh; lra))).
Qed.

(** The lower half of a channel: gas moves along the symmetry boundary below and the wall above, its ends are joined. *)
Definition half : mesh :=
  mk_mesh (element channel) (facet channel) (fun y => nth y [[0; -1]; [1; 0]; [-1; 0]; [0; 1]; [0; -1]] [0; -1]) (outer_facet channel).

Lemma half_normal y : y = 3%nat \/ y = 4%nat -> normal half y = normal channel y.
Proof. now intros [-> | ->]. Qed.

Lemma half_slips y : y = 3%nat \/ y = 4%nat -> slips air half moving_unknowns y.
Proof.
  intros Hy. pose proof (moving_slips air y eq_refl eq_refl Hy) as H. unfold slips in *. now rewrite (half_normal y Hy).
Qed.

Example c82_example :
  let A := reflection [0; -1] in let plane f := (f =? 2)%nat in let sc := IE (1 / 10) (uU moving_unknowns) in
  let wall := slip_walls air half moving_unknowns [(1, 3%nat)] in
  let wall' := slip_walls air (turn_mesh 2 A half) (turn_unknowns 2 A (uQ moving_unknowns) moving_unknowns) [(1, 3%nat)] in
  fair air /\ gas air moving_unknowns /\ unit_normals 2 half /\ turned_terms 2 A [wall] [wall'] /\
  (exists t, square_tests half other_end t /\ nth 0 (tV t 0%nat) 0 = 1 /\ nth 0 (tVhat t 4%nat) 0 = 1) /\
  solves air half square_rules [symmetry_term air half moving_unknowns [(1, 4%nat)]; wall] [] sc (square_tests half other_end) moving_unknowns /\
  solves air (doubled_mesh 2 A plane half) (doubled_rules square_rules) (doubled_terms [wall] [wall']) [] (doubled_scheme 2 A sc)
    (doubled_space 2 A plane half (square_tests half other_end)) (doubled_unknowns 2 A moving_unknowns).
Proof.
  intros A plane sc wall wall'.
  assert (V : valid moving) by (split; cbn; lra).
  assert (G : 1 < s_gamma air) by (cbn; lra).
  assert (Fa : fair air) by (split; [discriminate|left; reflexivity]).
  assert (Gas : gas air moving_unknowns) by (intros x; split; exists moving; (split; [exact V|split; reflexivity])).
  assert (Nm : unit_normals 2 half).
  { intros y. cbn [normal half]. do 5 (destruct y as [|y]; [split; [reflexivity|cbn; ring]|]). destruct y; (split; [reflexivity|cbn; ring]). }
  assert (O : orthogonal 2 A) by (apply reflection_orthogonal; [reflexivity|cbn; ring]).
  assert (Tt : turned_terms 2 A [wall] [wall']).
  { constructor; [|constructor]. split; [reflexivity|]. intros w y I. cbn [wall wall' slip_walls b_vector turn_unknowns uU uUhat turn_mesh normal].
    apply (proj1 (proj2 (c81_walls air A moving (uUhat moving_unknowns y) (normal half y) 1 1 G O V eq_refl eq_refl (proj1 (Nm y)) (proj2 (Nm y))))). }
  assert (Tw : two_sided half sides other_end).
  { split; [exact (proj1 (proj1 channel_sides))|]. intros w y I. cbn in I. repeat destruct I as [I|I]; try contradiction; injection I as <- <-; cbn; repeat f_equal; ring. }
  assert (So : solves air half square_rules [symmetry_term air half moving_unknowns [(1, 4%nat)]; wall] [] sc (square_tests half other_end) moving_unknowns).
  { intros t (Wf & Gs & Sv). apply (c62_stays air half square_rules _ _ _ moving_unknowns moving other_end t); trivial.
    - intros x. split; reflexivity.
    - intros x. reflexivity.
    - intros w y _. apply Nm.
    - left. reflexivity.
    - left. reflexivity.
    - intros b w y [<-|[<-|[]]] I; cbn [wall slip_walls symmetry_term b_rule b_vector] in *.
      + destruct I as [I|[]]. injection I as <- <-. now destruct (half_slips 4 (or_intror eq_refl)) as (_ & _ & _ & _ & r).
      + destruct I as [I|[]]. injection I as <- <-. now destruct (half_slips 3 (or_introl eq_refl)) as (_ & _ & _ & _ & r).
    - intros l w x []. }
  do 4 (split; [assumption|]). split; [|split; [exact So|]].
  - exists (constant_test 2 half 0 (fun _ => true) (fun _ => true)). split; [|split; reflexivity].
    destruct (square_constants [0; 0; 0; 1; 2]%nat (outer_facet channel) other_end (proj2 channel_sides) 0%nat (fun _ => true) (fun _ => true) ltac:(lia)) as (Wf & Gs & Sv).
    split; [exact Wf|]. split; [|exact Sv]. intros i j I J. specialize (Gs i j I J).
    destruct j as [|[|j]]; [exact Gs|exact Gs|lia].
  - destruct (c82_half air [0; -1] plane half square_rules [wall] [wall'] [] [] (IE (1 / 10) (uU moving_unknowns)) [(1, 4%nat)] (square_tests half other_end) moving_unknowns) as (H & _); trivial.
    + cbn. ring.
    + intros y Py. unfold plane in Py. cbn [facet half channel square] in Py.
      do 4 (destruct y as [|y]; [discriminate Py|]). destruct y as [|y]; [split; reflexivity|]. destruct y; discriminate Py.
    + now intros t (Wf & _).
    + intros x. reflexivity.
    + constructor.
    + intros w y [I|[]]. injection I as <- <-. apply half_slips. now right.
    + intros w y I Py. apply half_slips. right. unfold plane in Py. cbn [facet half channel square] in Py.
      do 4 (destruct y as [|y]; [discriminate Py|]). destruct y as [|y]; [reflexivity|]. destruct y; discriminate Py.
Qed.

(** The balance at a point of the plane, for a gas that moves towards it. *)
Example c82_example_balance :
  valid wave_state /\ inner [3 / 5; 4 / 5] [3 / 5; 4 / 5] = 1 /\ inner (st_u wave_state) [3 / 5; 4 / 5] <> 0.
Proof.
  split; [split; cbn; lra|]. split; [cbn; field|]. unfold wave_state. cbn. intros H. lra.
Qed.
