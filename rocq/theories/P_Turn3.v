(** C81: the whole problem in a turned coordinate system. *)
From Coq Require Import Reals String List Arith Bool Lia Lra.
From Coquelicot Require Import Coquelicot.
From Verif Require Import Base M_Bla M_Flow M_Formulation M_Weak M_Mixed S_Flow S_Chars S_Formulation S_Stress S_Weak S_Mixed S_Turn L_Flow L_Formulation L_Weak P_Eos P_Chars P_Jacobian P_Split P_Riemann P_Boundary P_Unknowns L_Small L_Curve L_Turn P_Stress P_Trace L_Turn2 P_Mixed P_Cbc P_Turn P_Turn2.
From Verif Require Import S_Formulation.
Import ListNotations.
Open Scope R_scope.
Open Scope list_scope.

Lemma integral_same q f f' v : integral q f = Ok v -> (forall w x, In (w, x) q -> forall a, f x = Ok a -> f' x = Ok a) -> integral q f' = Ok v.
Proof.
  revert v. induction q as [|[w x] q IH]; intros v H K; [exact H|]. cbn [integral] in *. apply bind_ok in H as (a & Ea & H). apply bind_ok in H as (b & Eb & H).
  rewrite (K w x (or_introl eq_refl) a Ea), (IH b Eb); [exact H|]. intros w' x' I. exact (K w' x' (or_intror I)).
Qed.

Section Forms.
Variables (s : settings) (A : nat -> nat -> R) (m : mesh) (u : unknowns) (t : test) (Q' : nat -> grads).
Notation d := (s_dim s).
Hypothesis G : 1 < s_gamma s.
Hypothesis O : orthogonal d A.
Hypothesis Gas : gas s u.
Hypothesis Nm : unit_normals d m.
Hypothesis Wf : well_formed d t.
Notation u' := (turn_unknowns d A Q' u).
Notation t' := (turn_test d A t).
Notation m' := (turn_mesh d A m).

Lemma gas_lengths x : length (uU u x) = (d + 2)%nat /\ length (uUhat u x) = (d + 2)%nat.
Proof.
  destruct (Gas x) as [(st & _ & L & ->) (sth & _ & Lh & ->)]. rewrite !conservative_list_length, L, Lh. split; reflexivity.
Qed.

Lemma convection_form_turn vol bnd v : convection_form s m vol bnd u t = Ok v -> convection_form s m' vol bnd u' t' = Ok v.
Proof.
  assert (Fl : forall y f, convection_Fn s m u y = Ok f -> length f = (d + 2)%nat /\ convection_Fn s m' u' y = Ok (turn d A f)).
  { intros y f H. unfold convection_Fn in *. destruct (Nm y) as [Ln N1]. pose proof (gas_lengths y) as [LU _]. destruct (Gas y) as [_ (st & V & Dim & E)].
    cbn [uU uUhat turn_unknowns normal turn_mesh]. rewrite E in H |- *. exact (c81_flux s A st (uU u y) (normal m y) f G O V Dim LU Ln N1 H). }
  unfold convection_form. intros H. apply bind_ok in H as (a & Ha & H). apply bind_ok in H as (b & Hb & H). apply bind_ok in H as (c & Hc & H).
  rewrite (integral_same _ _ (fun x => let* F := convection_F s u' x in Ok (- inner (entries F) (entries (tdV t' x)))) _ Ha).
  2:{ intros w x _ z Hz. apply bind_ok in Hz as (F & EF & Hz). apply ok_inj in Hz. subst z. unfold convection_F in *. cbn [uU turn_unknowns tdV turn_test].
      destruct (Gas x) as [(st & V & Dim & E) _]. rewrite E in EF |- *. rewrite (fields_ok s st G V Dim) in EF. cbn [bind] in EF.
      rewrite <- (turn_state_list _ A O (s_gamma s) st Dim). rewrite (fields_ok s (turn_state A st) G V (turn_state_dim _ A st Dim)). cbn [bind].
      destruct (c45_flux s false st (full_fields s st) F G V (full_describes s st) ltac:(discriminate) EF) as (RF & CF & LF & BF). rewrite Dim in RF, CF, LF, BF.
      assert (EF' : exists F', get_convective_flux s false (full_fields s (turn_state A st)) = Ok F') by (unfold get_convective_flux, full_fields; eexists; reflexivity).
      destruct EF' as (F' & EF').
      destruct (c45_flux s false (turn_state A st) _ F' G V (full_describes s (turn_state A st)) ltac:(discriminate) EF') as (RF' & CF' & LF' & BF').
      rewrite (turn_state_dim _ A st Dim) in RF', CF', LF', BF'. rewrite EF'. cbn [bind]. do 2 f_equal. destruct (Wf x) as (_ & _ & Rt & Ct & Lt).
      rewrite (turn_gradient_inner d A O F F' (tdV t x)); trivial. intros i j I J. rewrite (BF' i j I J), (euler_flux_turn d A O (s_gamma s) st Dim i j I J).
      apply carry_ext; [exact I|]. intros k K. apply total_ext. intros l L. now rewrite BF. }
  rewrite (integral_same _ _ (fun y => let* Fn := convection_Fn s m' u' y in Ok (inner Fn (tV t' y))) _ Hb).
  2:{ intros w y _ z Hz. apply bind_ok in Hz as (f & Ef & Hz). destruct (Fl y f Ef) as [Lf Ef']. rewrite Ef'. cbn [bind tV turn_test].
      destruct (Wf y) as (Lv & _). rewrite (turn_inner d A O f (tV t y) Lf Lv). exact Hz. }
  rewrite (integral_same _ _ (fun y => let* Fn := convection_Fn s m' u' y in Ok (- mask m' y * inner Fn (tVhat t' y))) _ Hc).
  2:{ intros w y _ z Hz. apply bind_ok in Hz as (f & Ef & Hz). destruct (Fl y f Ef) as [Lf Ef']. rewrite Ef'. cbn [bind tVhat turn_test].
      destruct (Wf y) as (_ & Lv & _). rewrite (turn_inner d A O f (tVhat t y) Lf Lv). exact Hz. }
  exact H.
Qed.

Lemma diffusion_form_turn vol bnd v : (forall x, turned_gradients s A (uQ u x) (Q' x)) -> diffusion_form s m vol bnd u t = Ok v -> diffusion_form s m' vol bnd u' t' = Ok v.
Proof.
  intros Tg.
  assert (Fl : forall y f, diffusion_Gn s m u y = Ok f -> length f = (d + 2)%nat /\ diffusion_Gn s m' u' y = Ok (turn d A f)).
  { intros y f H. unfold diffusion_Gn in *. destruct (Nm y) as [Ln N1]. pose proof (gas_lengths y) as [LU _]. destruct (Gas y) as [_ (st & V & Dim & E)].
    cbn [uU uUhat uQ turn_unknowns normal turn_mesh]. rewrite E in H |- *. exact (c81_diffusion s A st (uQ u y) (Q' y) (uU u y) (normal m y) f G O V Dim LU Ln (Tg y) H). }
  unfold diffusion_form. intros H. apply bind_ok in H as (a & Ha & H). apply bind_ok in H as (b & Hb & H). apply bind_ok in H as (c & Hc & H).
  rewrite (integral_same _ _ (fun x => let* F := diffusion_G s u' x in Ok (inner (entries F) (entries (tdV t' x)))) _ Ha).
  2:{ intros w x _ z Hz. apply bind_ok in Hz as (F & EF & Hz). apply ok_inj in Hz. subst z. unfold diffusion_G in *. cbn [uU uQ turn_unknowns tdV turn_test].
      destruct (Gas x) as [(st & V & Dim & E) _]. rewrite E in EF |- *. rewrite (fields_ok s st G V Dim) in EF. cbn [bind] in EF.
      rewrite <- (turn_state_list _ A O (s_gamma s) st Dim). rewrite (fields_ok s (turn_state A st) G V (turn_state_dim _ A st Dim)). cbn [bind].
      destruct (diffusive_flux_turn s A st (uQ u x) (Q' x) G O V Dim (Tg x) F EF) as (RF & CF & LF & F' & EF' & RF' & CF' & LF' & BF').
      rewrite EF'. cbn [bind]. f_equal. destruct (Wf x) as (_ & _ & Rt & Ct & Lt).
      now rewrite (turn_gradient_inner d A O F F' (tdV t x)). }
  rewrite (integral_same _ _ (fun y => let* Fn := diffusion_Gn s m' u' y in Ok (inner Fn (tV t' y))) _ Hb).
  2:{ intros w y _ z Hz. apply bind_ok in Hz as (f & Ef & Hz). destruct (Fl y f Ef) as [Lf Ef']. rewrite Ef'. cbn [bind tV turn_test].
      destruct (Wf y) as (Lv & _). rewrite (turn_inner d A O f (tV t y) Lf Lv). exact Hz. }
  rewrite (integral_same _ _ (fun y => let* Fn := diffusion_Gn s m' u' y in Ok (mask m' y * inner Fn (tVhat t' y))) _ Hc).
  2:{ intros w y _ z Hz. apply bind_ok in Hz as (f & Ef & Hz). destruct (Fl y f Ef) as [Lf Ef']. rewrite Ef'. cbn [bind tVhat turn_test].
      destruct (Wf y) as (_ & Lv & _). rewrite (turn_inner d A O f (tVhat t y) Lf Lv). exact Hz. }
  exact H.
Qed.

Lemma boundary_form_turn bs bs' v : turned_terms d A bs bs' -> boundary_form bs t = Ok v -> boundary_form bs' t' = Ok v.
Proof.
  intros T. revert v. induction T as [|b b' bs bs' [Er Tb] T IH]; intros v H; [exact H|]. cbn [boundary_form] in *.
  apply bind_ok in H as (a & Ha & H). apply bind_ok in H as (c & Hc & H). rewrite Er.
  rewrite (integral_same _ _ (fun y => let* r := b_vector b' y in Ok (inner r (tVhat t' y))) _ Ha).
  2:{ intros w y I z Hz. apply bind_ok in Hz as (f & Ef & Hz). destruct (Tb w y I f Ef) as [Lf Ef']. rewrite Ef'. cbn [bind tVhat turn_test].
      destruct (Wf y) as (_ & Lv & _). rewrite (turn_inner d A O f (tVhat t y) Lf Lv). exact Hz. }
  rewrite (IH c Hc). exact H.
Qed.

Lemma domain_form_turn ls ls' v : turned_layers s A ls ls' -> domain_form s ls u t = Ok v -> domain_form s ls' u' t' = Ok v.
Proof.
  intros T. revert v. induction T as [|l l' ls ls' [Er Tb] T IH]; intros v H; [exact H|]. cbn [domain_form] in *.
  apply bind_ok in H as (a & Ha & H). apply bind_ok in H as (c & Hc & H). rewrite Er.
  rewrite (integral_same _ _ (fun x => let* r := sponge_residual s (s_target l' x) (s_function l' x) (uU u' x) in Ok (inner r (tV t' x))) _ Ha).
  2:{ intros w x I z Hz. apply bind_ok in Hz as (f & Ef & Hz). unfold sponge_residual in *. apply bind_ok in Ef as (tg & Et & Ef). apply ok_inj in Ef. subst f.
      destruct (Tb w x I) as [Ew Tt]. destruct (Tt tg Et) as [Lt Et']. rewrite Et', Ew. cbn [bind uU turn_unknowns tV turn_test].
      destruct (Wf x) as (Lv & _). pose proof (gas_lengths x) as [LU _]. assert (Ld : length (vsub (uU u x) tg) = (d + 2)%nat) by (rewrite vsub_length; lia).
      rewrite (turn_vsub d A) by assumption. rewrite turn_vscale by exact Ld. rewrite (turn_inner d A O) by (rewrite ?vscale_length; assumption). exact Hz. }
  rewrite (IH c Hc). exact H.
Qed.

Lemma time_form_turn sc q v : levels_have (d + 2) sc -> time_form sc q u t = Ok v -> time_form (turn_scheme d A sc) q u' t' = Ok v.
Proof.
  intros L H. unfold time_form in *. refine (integral_same _ _ _ _ H _). intros w x _ a Ea. rewrite <- Ea. f_equal. cbn [uU turn_unknowns tV turn_test].
  destruct (Wf x) as (Lv & _). pose proof (gas_lengths x) as [LU _].
  destruct sc as [dt n|dt n nm1]; cbn [turn_scheme time_derivative levels_have] in *.
  - assert (Ld : length (vsub (uU u x) (n x)) = (d + 2)%nat) by (rewrite vsub_length, LU, L; apply Nat.min_id).
    rewrite (turn_vsub d A), turn_vdiv by (trivial; apply L). apply (turn_inner d A O); [rewrite vdiv_length; exact Ld|exact Lv].
  - destruct (L x) as [Ln Lm].
    assert (L1 : length (vsub (vscale 3 (uU u x)) (vscale 4 (n x))) = (d + 2)%nat) by (rewrite vsub_length, !vscale_length, LU, Ln; apply Nat.min_id).
    assert (L2 : length (vadd (vsub (vscale 3 (uU u x)) (vscale 4 (n x))) (nm1 x)) = (d + 2)%nat) by (rewrite vadd_length, L1, Lm; apply Nat.min_id).
    rewrite !turn_vscale by assumption. rewrite (turn_vsub d A) by (rewrite vscale_length; assumption). rewrite (turn_vadd d A) by assumption. rewrite turn_vdiv by assumption.
    apply (turn_inner d A O); [rewrite vdiv_length; exact L2|exact Lv].
Qed.
End Forms.

(** The weak form of the turned problem at the turned flow, tested with the turned functions. *)
Theorem c81_form : forall s A m r bs bs' ls ls' sc u Q' t v, 1 < s_gamma s -> orthogonal (s_dim s) A -> gas s u -> unit_normals (s_dim s) m -> well_formed (s_dim s) t ->
  levels_have (s_dim s + 2) sc -> turned_terms (s_dim s) A bs bs' -> turned_layers s A ls ls' ->
  (s_law s <> Inviscid -> forall x, turned_gradients s A (uQ u x) (Q' x)) ->
  weak_form s m r bs ls sc u t = Ok v ->
  weak_form s (turn_mesh (s_dim s) A m) r bs' ls' (turn_scheme (s_dim s) A sc) (turn_unknowns (s_dim s) A Q' u) (turn_test (s_dim s) A t) = Ok v.
Proof.
  intros s A m r bs bs' ls ls' sc u Q' t v G O Gas Nm Wf Lv Tb Tl Tg H. unfold weak_form in *.
  apply bind_ok in H as (c & Hc & H). apply bind_ok in H as (e & He & H). apply bind_ok in H as (b & Hb & H). apply bind_ok in H as (l & Hl & H). apply bind_ok in H as (h & Hh & H).
  rewrite (convection_form_turn s A m u t Q' G O Gas Nm Wf _ _ _ Hc).
  assert (He' : match s_law s with Inviscid => Ok 0 | _ => diffusion_form s (turn_mesh (s_dim s) A m) (r_dvol r) (r_dbnd r) (turn_unknowns (s_dim s) A Q' u) (turn_test (s_dim s) A t) end = Ok e).
  { destruct (s_law s); [exact He| |]; apply (diffusion_form_turn s A m u t Q' G O Gas Nm Wf); trivial; apply Tg; discriminate. }
  rewrite He'. cbn [bind]. rewrite (boundary_form_turn s A t O Wf bs bs' b Tb Hb), (domain_form_turn s A u t Q' O Gas Wf ls ls' l Tl Hl), (time_form_turn s A u t Q' O Gas Wf sc _ _ Lv Hh). exact H.
Qed.
Print Assumptions c81_form.

(** A solution of the discrete problem, turned, solves the turned discrete problem. *)
Theorem c81_solution : forall s A m r bs bs' ls ls' sc (W : test -> Prop) u Q', 1 < s_gamma s -> orthogonal (s_dim s) A -> gas s u -> unit_normals (s_dim s) m ->
  (forall t, W t -> well_formed (s_dim s) t) -> levels_have (s_dim s + 2) sc -> turned_terms (s_dim s) A bs bs' -> turned_layers s A ls ls' ->
  (s_law s <> Inviscid -> forall x, turned_gradients s A (uQ u x) (Q' x)) ->
  solves s m r bs ls sc W u ->
  solves s (turn_mesh (s_dim s) A m) r bs' ls' (turn_scheme (s_dim s) A sc) (turn_space (s_dim s) A W) (turn_unknowns (s_dim s) A Q' u).
Proof.
  intros s A m r bs bs' ls ls' sc W u Q' G O Gas Nm Wf Lv Tb Tl Tg H t' (t & Wt & ->).
  exact (c81_form s A m r bs bs' ls ls' sc u Q' t 0 G O Gas Nm (Wf t Wt) Lv Tb Tl Tg (H t Wt)).
Qed.
Print Assumptions c81_solution.

(** ** The mixed unknown in the plane *)

Lemma plane_matrix A : orthogonal 2 A -> exists a b g, (g = 1 \/ g = -1) /\ a ^ 2 = 1 - b ^ 2 /\ A 0%nat 0%nat = a /\ A 0%nat 1%nat = - g * b /\ A 1%nat 0%nat = b /\ A 1%nat 1%nat = g * a.
Proof.
  intros O. destruct (orthogonal_plane A O) as (a & b & g & Ab & Gg & E). exists a, b, g. split; [|split; [lra|exact E]].
  assert (Z : (g - 1) * (g + 1) = 0) by lra. apply Rmult_integral in Z as [Z|Z]; [left|right]; lra.
Qed.

(** A polynomial identity in the entries of the matrix. *)
Ltac plane O := let a := fresh "a" in let b := fresh "b" in let g := fresh "g" in let Gg := fresh in let Ab := fresh in let E0 := fresh in let E1 := fresh in let E2 := fresh in let E3 := fresh in
  destruct (plane_matrix _ O) as (a & b & g & Gg & Ab & E0 & E1 & E2 & E3); rewrite ?E0, ?E1, ?E2, ?E3; destruct Gg as [-> | ->]; try field [Ab].

Lemma five_list (l : list R) : length l = 5%nat -> l = [nth 0 l 0; nth 1 l 0; nth 2 l 0; nth 3 l 0; nth 4 l 0].
Proof. destruct l as [|x0 [|x1 [|x2 [|x3 [|x4 [|]]]]]]; try discriminate. reflexivity. Qed.

Section Mixed.
Variables (s : settings) (A : nat -> nat -> R).
Hypothesis G : 1 < s_gamma s.
Hypothesis D2 : s_dim s = 2%nat.
Hypothesis O : orthogonal 2 A.

Lemma turn_five_length Q : length (turn_five A Q) = 5%nat.
Proof. reflexivity. Qed.

Lemma stress_product Q P : inner [1 * nth 0 (turn_five A Q) 0; 1 * nth 1 (turn_five A Q) 0; 1 * nth 1 (turn_five A Q) 0; 1 * nth 2 (turn_five A Q) 0]
    [1 * nth 0 (turn_five A P) 0; 1 * nth 1 (turn_five A P) 0; 1 * nth 1 (turn_five A P) 0; 1 * nth 2 (turn_five A P) 0]
  = inner [1 * nth 0 Q 0; 1 * nth 1 Q 0; 1 * nth 1 Q 0; 1 * nth 2 Q 0] [1 * nth 0 P 0; 1 * nth 1 P 0; 1 * nth 1 P 0; 1 * nth 2 P 0].
Proof.
  unfold turn_five, turn_of, stored. cbn [total nth map app Nat.add inner].
  generalize (nth 0 Q 0) (nth 1 Q 0) (nth 2 Q 0) (nth 0 P 0) (nth 1 P 0) (nth 2 P 0). intros. plane O.
Qed.

Lemma heat_product Q P : inner [nth 3 (turn_five A Q) 0; nth 4 (turn_five A Q) 0] [nth 3 (turn_five A P) 0; nth 4 (turn_five A P) 0] = inner [nth 3 Q 0; nth 4 Q 0] [nth 3 P 0; nth 4 P 0].
Proof.
  unfold turn_five, turn_of, stored. cbn [total nth map app Nat.add inner].
  generalize (nth 3 Q 0) (nth 4 Q 0) (nth 3 P 0) (nth 4 P 0). intros. plane O.
Qed.

Lemma stress_divergence v g : length v = 2%nat ->
  inner (turn_vector 2 A v) (div_dev_zeta (tabulate 5 2 (fun k j => total 2 (fun l => A j l * nth k (turn_five A (map (fun i => entry g i l) (seq 0 5))) 0)))) = inner v (div_dev_zeta g).
Proof.
  intros L. destruct (two_entries v L) as (x & y & ->). unfold div_dev_zeta. rewrite !entry_tabulate by lia.
  unfold turn_five, turn_of, turn_vector, stored. cbn [total nth map app Nat.add inner seq vsub vscale].
  generalize (entry g 0 0) (entry g 0 1) (entry g 1 0) (entry g 1 1) (entry g 2 0) (entry g 2 1). intros. cbn. plane O.
Qed.

Lemma heat_divergence g : div_xi (tabulate 5 2 (fun k j => total 2 (fun l => A j l * nth k (turn_five A (map (fun i => entry g i l) (seq 0 5))) 0))) = div_xi g.
Proof.
  unfold div_xi. rewrite !entry_tabulate by lia. unfold turn_five, turn_of, turn_vector, stored. cbn [total nth map app Nat.add inner seq].
  generalize (entry g 3 0) (entry g 3 1) (entry g 4 0) (entry g 4 1). intros. plane O.
Qed.

Lemma dev_value Q : dev_zeta s (mk_matrix 2 2 [1 * nth 0 Q 0; 1 * nth 1 Q 0; 1 * nth 1 Q 0; 1 * nth 2 Q 0]) =
  Ok (mk_matrix 2 2 [1 * nth 0 Q 0 - (nth 0 Q 0 + nth 2 Q 0) / 3; 1 * nth 1 Q 0; 1 * nth 1 Q 0; 1 * nth 2 Q 0 - (nth 0 Q 0 + nth 2 Q 0) / 3]).
Proof.
  unfold dev_zeta. rewrite D2. cbn. apply f_equal, (f_equal (mk_matrix 2 2)). cbn. repeat (apply f_equal2; [field|]). reflexivity.
Qed.

Lemma stress_boundary v n Q : length v = 2%nat -> length n = 2%nat ->
  inner (turn_vector 2 A v) (mvmul (mk_matrix 2 2 [1 * nth 0 (turn_five A Q) 0 - (nth 0 (turn_five A Q) 0 + nth 2 (turn_five A Q) 0) / 3; 1 * nth 1 (turn_five A Q) 0; 1 * nth 1 (turn_five A Q) 0; 1 * nth 2 (turn_five A Q) 0 - (nth 0 (turn_five A Q) 0 + nth 2 (turn_five A Q) 0) / 3]) (turn_vector 2 A n))
  = inner v (mvmul (mk_matrix 2 2 [1 * nth 0 Q 0 - (nth 0 Q 0 + nth 2 Q 0) / 3; 1 * nth 1 Q 0; 1 * nth 1 Q 0; 1 * nth 2 Q 0 - (nth 0 Q 0 + nth 2 Q 0) / 3]) n).
Proof.
  intros Lv Ln. destruct (two_entries v Lv) as (x & y & ->). destruct (two_entries n Ln) as (x' & y' & ->).
  unfold turn_five, turn_of, turn_vector, stored. cbn [total nth map app Nat.add inner seq]. generalize (nth 0 Q 0) (nth 1 Q 0) (nth 2 Q 0). intros. cbn. plane O.
Qed.

Lemma heat_boundary T n P : length n = 2%nat ->
  inner (vscale T (turn_vector 2 A n)) [nth 3 (turn_five A P) 0; nth 4 (turn_five A P) 0] = inner (vscale T n) [nth 3 P 0; nth 4 P 0].
Proof.
  intros Ln. destruct (two_entries n Ln) as (x' & y' & ->). unfold turn_five, turn_of, turn_vector, stored. cbn [total nth map app Nat.add inner seq].
  generalize (nth 3 P 0) (nth 4 P 0). intros. cbn. plane O.
Qed.
End Mixed.

(** The form that defines the strain rate and the temperature gradient. *)
Theorem c81_mixed : forall s A m dx vol bnd u Q P Q' v, 1 < s_gamma s -> s_dim s = 2%nat -> orthogonal 2 A -> gas s u -> unit_normals 2 m -> five Q P ->
  mixed_form s m dx vol bnd u Q P = Ok v ->
  mixed_form s (turn_mesh 2 A m) dx vol bnd (turn_unknowns 2 A Q' u) (fun x => turn_five A (Q x)) (turn_mixed A P) = Ok v.
Proof.
  intros s A m dx vol bnd u Q P Q' v G D2 O Gas Nm F H. unfold mixed_form in *. rewrite D2 in *. cbn [Nat.eqb] in *.
  assert (Pq : forall x, mixed_parts s (Q x) = Ok (mk_matrix 2 2 [1 * nth 0 (Q x) 0; 1 * nth 1 (Q x) 0; 1 * nth 1 (Q x) 0; 1 * nth 2 (Q x) 0], [nth 3 (Q x) 0; nth 4 (Q x) 0])) by (intros x; apply parts_five; [exact D2|apply F]).
  assert (Pp : forall x, mixed_parts s (tP P x) = Ok (mk_matrix 2 2 [1 * nth 0 (tP P x) 0; 1 * nth 1 (tP P x) 0; 1 * nth 1 (tP P x) 0; 1 * nth 2 (tP P x) 0], [nth 3 (tP P x) 0; nth 4 (tP P x) 0])) by (intros x; apply parts_five; [exact D2|apply F]).
  assert (Ve : forall x, exists w T, length w = 2%nat /\ velocity_and_temperature s (uU u x) = Ok (w, T) /\ velocity_and_temperature s (turn 2 A (uU u x)) = Ok (turn_vector 2 A w, T)).
  { intros x. destruct (Gas x) as [(st & V & Dim & E) _]. rewrite E. exists (st_u st), (q_T (s_gamma s) st). split; [congruence|]. split; [now apply velocity_temperature|].
    rewrite D2 in Dim. rewrite <- (turn_state_list 2 A O (s_gamma s) st Dim), <- (turn_state_u 2 A st Dim). apply (velocity_temperature s (turn_state A st)); trivial. rewrite D2. now apply turn_state_dim. }
  assert (Vh : forall x, exists w T, length w = 2%nat /\ velocity_and_temperature s (uUhat u x) = Ok (w, T) /\ velocity_and_temperature s (turn 2 A (uUhat u x)) = Ok (turn_vector 2 A w, T)).
  { intros x. destruct (Gas x) as [_ (st & V & Dim & E)]. rewrite E. exists (st_u st), (q_T (s_gamma s) st). split; [congruence|]. split; [now apply velocity_temperature|].
    rewrite D2 in Dim. rewrite <- (turn_state_list 2 A O (s_gamma s) st Dim), <- (turn_state_u 2 A st Dim). apply (velocity_temperature s (turn_state A st)); trivial. rewrite D2. now apply turn_state_dim. }
  apply bind_ok in H as (a & Ha & H). apply bind_ok in H as (b & Hb & H). apply bind_ok in H as (c & Hc & H). apply bind_ok in H as (d & Hd & H). apply bind_ok in H as (e & He & H). apply bind_ok in H as (f & Hf & H).
  erewrite (integral_same dx _ _ _ Ha).
  2:{ intros w x _ z Hz. rewrite Pq, Pp in Hz. rewrite !parts_five by (trivial; apply turn_five_length). cbn [bind fst] in Hz |- *. rewrite <- Hz. f_equal. apply stress_product; assumption. }
  cbn [bind]. erewrite (integral_same vol _ _ _ Hb).
  2:{ intros w x _ z Hz. destruct (Ve x) as (y & T & Ly & E & E'). rewrite E in Hz. cbn [uU turn_unknowns]. rewrite E'. cbn [bind fst tdP turn_mixed] in Hz |- *. rewrite <- Hz. f_equal. now apply (stress_divergence s A D2 O). }
  cbn [bind]. erewrite (integral_same bnd _ _ _ Hc).
  2:{ intros w x _ z Hz. destruct (Vh x) as (y & T & Ly & E & E'). rewrite E, Pp in Hz. cbn [uUhat turn_unknowns]. rewrite E', parts_five by (trivial; apply turn_five_length).
      cbn [bind fst] in Hz |- *. rewrite (dev_value s D2) in Hz |- *. cbn [bind fst normal turn_mesh] in Hz |- *. rewrite <- Hz. f_equal. apply stress_boundary; trivial. apply Nm. }
  cbn [bind]. erewrite (integral_same dx _ _ _ Hd).
  2:{ intros w x _ z Hz. rewrite Pq, Pp in Hz. rewrite !parts_five by (trivial; apply turn_five_length). cbn [bind snd] in Hz |- *. rewrite <- Hz. f_equal. apply heat_product; assumption. }
  cbn [bind]. erewrite (integral_same vol _ _ _ He).
  2:{ intros w x _ z Hz. destruct (Ve x) as (y & T & Ly & E & E'). rewrite E in Hz. cbn [uU turn_unknowns]. rewrite E'. cbn [bind snd tdP turn_mixed] in Hz |- *. rewrite <- Hz. do 2 f_equal. now apply (heat_divergence s A D2 O). }
  cbn [bind]. erewrite (integral_same bnd _ _ _ Hf).
  2:{ intros w x _ z Hz. destruct (Vh x) as (y & T & Ly & E & E'). rewrite E, Pp in Hz. cbn [uUhat turn_unknowns]. rewrite E', parts_five by (trivial; apply turn_five_length).
      cbn [bind fst snd normal turn_mesh] in Hz |- *. rewrite <- Hz. f_equal. apply heat_boundary; trivial. apply Nm. }
  exact H.
Qed.
Print Assumptions c81_mixed.

(** The gradients that the turned mixed unknown stands for are the turned ones. *)
Theorem c81_gradients : forall s A Q, s_dim s = 2%nat -> length Q = 5%nat ->
  exists dU dU', strain_heat_fields s Q = Ok dU /\ strain_heat_fields s (turn_five A Q) = Ok dU' /\ turned_gradients s A dU dU'.
Proof.
  intros s A Q D2 L. destruct Q as [|q0 [|q1 [|q2 [|q3 [|q4 [|]]]]]]; try discriminate L. unfold strain_heat_fields. rewrite D2. cbn -[turn_five].
  eexists. eexists. split; [reflexivity|]. split; [reflexivity|]. eexists. eexists. split.
  - unfold viscous_gradients, strain_rate_tensor. rewrite D2. cbn. split; [reflexivity|]. split; [|split; reflexivity]. split; [reflexivity|split; reflexivity].
  - unfold viscous_gradients, strain_rate_tensor. rewrite D2. cbn [g_eps g_T equation]. unfold turn_tensor, turn_vector, turn_five, turn_of, stored, entry. cbn. split; [|split; [|split; [reflexivity|reflexivity]]].
    + apply f_equal, (f_equal (mk_matrix 2 2)). cbn. repeat (apply f_equal2; [ring|]). reflexivity.
    + split; [reflexivity|split; reflexivity].
Qed.
Print Assumptions c81_gradients.

(** The rotation with cosine 3/5 and sine 4/5 turns a flow along (3/5, -4/5) into one along the first axis. *)
Example c81_example :
  orthogonal 2 (rotation (3 / 5) (4 / 5)) /\
  turn_vector 2 (rotation (3 / 5) (4 / 5)) [3; -4] = [5; 0] /\
  (let st := mk_state (7 / 5) [3; -4] 4 in
   turn_state (rotation (3 / 5) (4 / 5)) st = mk_state (7 / 5) [5; 0] 4 /\
   gas air (mk_unknowns (fun _ => conservative_list (7 / 5) st) (fun _ => conservative_list (7 / 5) st) (fun _ => no_grads)) /\
   sized 2 (full_fields air st) /\
   exists f, get_convective_numerical_flux air (conservative_list (7 / 5) st) (conservative_list (7 / 5) st) [3 / 5; - (4 / 5)] = Ok f /\
     get_convective_numerical_flux air (conservative_list (7 / 5) (mk_state (7 / 5) [5; 0] 4)) (conservative_list (7 / 5) (mk_state (7 / 5) [5; 0] 4)) [1; 0] = Ok (turn 2 (rotation (3 / 5) (4 / 5)) f)).
Proof.
  assert (O : orthogonal 2 (rotation (3 / 5) (4 / 5))).
  { intros j k J K. destruct j as [|[|]], k as [|[|]]; try lia; unfold delta; cbn; split; field. }
  assert (T : turn_vector 2 (rotation (3 / 5) (4 / 5)) [3; -4] = [5; 0]).
  { unfold turn_vector, turn_of. cbn. repeat (apply f_equal2; [field|]). reflexivity. }
  split; [exact O|]. split; [exact T|]. cbn zeta. set (st := mk_state (7 / 5) [3; -4] 4).
  assert (Ts : turn_state (rotation (3 / 5) (4 / 5)) st = mk_state (7 / 5) [5; 0] 4) by (unfold turn_state, st; cbn [st_u st_rho st_p length]; rewrite T; reflexivity).
  assert (V : valid st) by (split; cbn; lra). split; [exact Ts|]. split.
  { intros x. split; exists st; (split; [exact V|split; reflexivity]). }
  split; [apply full_sized; reflexivity|].
  destruct (proj1 (c47_exists air (conservative_list (7 / 5) st) st [3 / 5; - (4 / 5)] ltac:(cbn; lra) V eq_refl eq_refl) (or_introl eq_refl)) as (f & Ef).
  exists f. split; [exact Ef|].
  pose proof (c81_flux air (rotation (3 / 5) (4 / 5)) st (conservative_list (7 / 5) st) [3 / 5; - (4 / 5)] f ltac:(cbn; lra) O V eq_refl eq_refl eq_refl ltac:(cbn; field) Ef) as [_ X].
  change (s_gamma air) with (7 / 5) in X. cbn [s_dim air] in X. rewrite <- X. rewrite <- (turn_state_list 2 _ O (7 / 5) st eq_refl), Ts.
  replace (turn_vector 2 (rotation (3 / 5) (4 / 5)) [3 / 5; - (4 / 5)]) with [1; 0]; [reflexivity|]. unfold turn_vector, turn_of. cbn. repeat (apply f_equal2; [field|]). reflexivity.
Qed.

(** A steady flow that leaves through an outflow, and the same flow in the turned coordinate system. *)
Example c81_example_problem :
  let A := rotation (3 / 5) (4 / 5) in
  let H := conservative_list (7 / 5) (mk_state (7 / 5) [3; -4] 4) in
  let H' := conservative_list (7 / 5) (mk_state (7 / 5) [5; 0] 4) in
  let m := mk_mesh (fun _ => 0%nat) (fun _ => 0%nat) (fun _ => [3 / 5; - (4 / 5)]) (fun _ => true) in
  let r := mk_rules [] [] [] [] [(1, 0%nat)] in
  let u := mk_unknowns (fun _ => H) (fun _ => H) (fun _ => no_grads) in
  let b h := [mk_bterm [(1, 0%nat)] (fun _ => outflow_residual air 4 h h)] in
  let W := well_formed 2 in
  solves air m r (b H) [] (IE 1 (fun _ => H)) W u /\ turned_terms 2 A (b H) (b H') /\ unit_normals 2 m /\
  solves air (turn_mesh 2 A m) r (b H') [] (IE 1 (fun _ => turn 2 A H)) (turn_space 2 A W) (turn_unknowns 2 A (fun _ => no_grads) u).
Proof.
  intros A H H' m r u b W. destruct c81_example as (O & _ & Ts & Gs & _). fold A in O, Ts. fold H in Gs. fold u in Gs.
  set (st := mk_state (7 / 5) [3; -4] 4) in *. assert (V : valid st) by (split; cbn; lra).
  assert (TH : turn 2 A H = H') by (unfold H; rewrite <- (turn_state_list 2 A O (7 / 5) st eq_refl), Ts; reflexivity).
  assert (Nm : unit_normals 2 m) by (intros y; split; [reflexivity|cbn; field]).
  assert (Tb : turned_terms 2 A (b H) (b H')).
  { constructor; [|constructor]. split; [reflexivity|]. intros w y _. cbn [b_vector]. rewrite <- TH.
    exact (proj1 (c81_walls air A st H [3 / 5; - (4 / 5)] 4 1 ltac:(cbn; lra) O V eq_refl eq_refl eq_refl ltac:(cbn; field))). }
  assert (Sv : solves air m r (b H) [] (IE 1 (fun _ => H)) W u).
  { intros t Wt. destruct (c50_outflow air st 4 H ltac:(cbn; lra) V eq_refl eq_refl) as (v & Ev & Lv & Hv).
    assert (Z : vanishes v) by (apply Hv; reflexivity). change (conservative_list (s_gamma air) st) with H in Ev.
    assert (In0 : forall x y, length x = length y -> inner (vsub x x) y = 0).
    { intros x y L. rewrite inner_vsub by reflexivity. ring. }
    unfold weak_form. cbn [r r_cvol r_cbnd r_time convection_form integral bind s_law air boundary_form b b_rule b_vector domain_form time_form]. rewrite Ev. cbn [bind].
    unfold time_form. cbn [integral bind time_derivative uU u]. f_equal. destruct (Wt 0%nat) as (L0 & L1 & _).
    assert (Z1 : inner v (tVhat t 0%nat) = 0).
    { unfold outflow_residual in Ev. apply bind_ok in Ev as (w & Ew & Ev). apply ok_inj in Ev.
      rewrite inner_total by (rewrite Lv, L1; reflexivity). rewrite (total_ext _ (fun _ => 0)); [apply total_zero|]. intros k K. rewrite (Z k). ring. }
    rewrite Z1. assert (Z2 : inner (vdiv (vsub H H) 1) (tV t 0%nat) = 0).
    { rewrite <- (In0 H (tV t 0%nat)) by (rewrite L0; reflexivity). f_equal. unfold vdiv. rewrite <- map_id. apply map_ext. intros a. field. }
    rewrite Z2. ring. }
  split; [exact Sv|]. split; [exact Tb|]. split; [exact Nm|].
  exact (c81_solution air A m r (b H) (b H') [] [] (IE 1 (fun _ => H)) W u (fun _ => no_grads) ltac:(cbn; lra) O Gs Nm (fun t Wt => Wt) (fun _ => eq_refl) Tb (Forall2_nil _) (fun F => False_ind _ (F eq_refl)) Sv).
Qed.
