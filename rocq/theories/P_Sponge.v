(** C68: damping in sponge layers. *)
From Coq Require Import Reals String List Arith Bool Lia Lra Permutation.
From Coquelicot Require Import Coquelicot.
From Verif Require Import Base M_Bla M_Buffer M_Flow M_Formulation M_Weak S_Flow S_Chars S_Stress S_Formulation S_Weak S_Sponge L_Flow L_Formulation L_Weak P_Eos P_Chars P_Jacobian P_Buffer P_Unknowns P_Boundary P_Stress P_Weak P_Uniform.
From Verif Require Import S_Formulation.
Import ListNotations.
Open Scope R_scope.
Open Scope list_scope.

Lemma conservative_length g s : length (conservative_list g s) = (length (st_u s) + 2)%nat.
Proof. unfold conservative_list, q_rho_u. cbn [length]. rewrite app_length, map_length. cbn [length]. lia. Qed.

Lemma distance2_pos n U V : 0 <= distance2 n U V.
Proof. unfold distance2. induction n as [|n IH]; cbn [total]; [apply Rle_refl|]. apply Rplus_le_le_0_compat; [exact IH|apply pow2_ge_0]. Qed.

Lemma distance2_zero n U V : distance2 n U V = 0 <-> forall k, (k < n)%nat -> nth k U 0 = nth k V 0.
Proof.
  unfold distance2. split.
  - induction n as [|n IH]; intros H k K; [lia|]. cbn [total] in H.
    pose proof (distance2_pos n U V) as P. unfold distance2 in P. pose proof (pow2_ge_0 (nth n U 0 - nth n V 0)) as Q.
    destruct (Nat.eq_dec k n) as [->|N].
    + assert (Z : (nth n U 0 - nth n V 0) ^ 2 = 0) by lra. assert (nth n U 0 - nth n V 0 = 0) by (apply Rsqr_0_uniq; unfold Rsqr; lra). lra.
    + apply IH; [lra|lia].
  - intros H. rewrite (total_ext _ (fun _ => 0)) by (intros k K; rewrite H by exact K; ring). apply total_zero.
Qed.

(** ** What a layer adds *)

(** The layer pulls towards the conservative variables of its target state, however the target is given, and its power in
    the difference to the target is the strength times the squared distance. It adds nothing exactly where its function
    vanishes or the flow is the target. *)
Theorem c68_residual : forall cfg s target w U, 1 < s_gamma cfg -> valid s -> length (st_u s) = s_dim cfg -> describes (s_gamma cfg) s target ->
  determined density_sources target -> determined momentum_sources target -> determined energy_sources target ->
  length U = (s_dim cfg + 2)%nat ->
  let V := conservative_list (s_gamma cfg) s in
  exists r, sponge_residual cfg target w U = Ok r /\ length r = (s_dim cfg + 2)%nat /\
    (forall k, (k < s_dim cfg + 2)%nat -> nth k r 0 = w * (nth k U 0 - nth k V 0)) /\
    total (s_dim cfg + 2) (fun k => nth k r 0 * (nth k U 0 - nth k V 0)) = w * distance2 (s_dim cfg + 2) U V /\
    ((forall k, (k < s_dim cfg + 2)%nat -> nth k r 0 = 0) <-> w = 0 \/ U = V).
Proof.
  intros cfg s target w U G Va Ls D Dr Dm De L V.
  destruct (c57_vector cfg s target G Va D) as (Ok1 & Iff & _).
  destruct (proj2 Iff (conj Dr (conj Dm De))) as [v Ev]. pose proof (Ok1 v Ev) as ->. fold V in Ev.
  assert (LV : length V = (s_dim cfg + 2)%nat) by (unfold V; rewrite conservative_length, Ls; reflexivity).
  exists (vscale w (vsub U V)). unfold sponge_residual. rewrite Ev. cbn [bind]. split; [reflexivity|].
  split; [rewrite vscale_length, vsub_length, L, LV; apply Nat.min_id|].
  assert (E : forall k, (k < s_dim cfg + 2)%nat -> nth k (vscale w (vsub U V)) 0 = w * (nth k U 0 - nth k V 0)).
  { intros k K. rewrite vscale_nth, vsub_nth by congruence. reflexivity. }
  split; [exact E|]. split.
  - unfold distance2. rewrite <- total_scale. apply total_ext. intros k K. rewrite E by exact K. ring.
  - split.
    + intros Z. destruct (Req_dec w 0) as [W|W]; [left; exact W|right].
      apply (nth_ext _ _ 0 0); [congruence|]. intros k K. rewrite L in K. specialize (Z k K). rewrite E in Z by exact K.
      apply Rmult_integral in Z as [Z|Z]; [contradiction|lra].
    + intros [-> | ->] k K; rewrite E by exact K; ring.
Qed.
Print Assumptions c68_residual.

(** Target fields that determine no state stop the set-up. *)
Theorem c68_raises : forall cfg target w U,
  ~ determined density_sources target \/ ~ determined momentum_sources target \/ ~ determined energy_sources target ->
  sponge_residual cfg target w U = Err ValueError.
Proof.
  intros cfg target w U H. unfold sponge_residual, conservative_vector.
  pose proof (c41_determined cfg false target) as (A & _ & _ & _ & _ & _ & _ & B & _ & _ & _ & _ & C).
  destruct A as [[DA [x ->]]|[_ ->]]; [|reflexivity]. cbn [bind].
  destruct C as [[DC [y ->]]|[_ ->]]; [|reflexivity]. cbn [bind].
  destruct B as [[DB [z ->]]|[_ ->]]; [|reflexivity]. exfalso. tauto.
Qed.
Print Assumptions c68_raises.

(** With the profiles offered and a weight that is not negative, the layer adds nothing before its start, has the full weight behind its
    end, and damps everywhere: its power in the difference to the target is never negative. *)
Theorem c68_layer : forall cfg s target U weight order x x0 xn w, 1 < s_gamma cfg -> valid s -> length (st_u s) = s_dim cfg -> describes (s_gamma cfg) s target ->
  determined density_sources target -> determined momentum_sources target -> determined energy_sources target -> length U = (s_dim cfg + 2)%nat ->
  0 <= weight -> (1 <= order)%nat -> x0 <> xn ->
  sponge_polynomial weight (M_Buffer.Buffer (buffer_coord x x0 xn)) order = Ok w \/ sponge_penta weight (M_Buffer.Buffer (buffer_coord x x0 xn)) = Ok w ->
  let V := conservative_list (s_gamma cfg) s in
  exists r, sponge_residual cfg target w U = Ok r /\
    (P_Buffer.before x0 xn x -> forall k, (k < s_dim cfg + 2)%nat -> nth k r 0 = 0) /\
    (behind x0 xn x -> forall k, (k < s_dim cfg + 2)%nat -> nth k r 0 = weight * (nth k U 0 - nth k V 0)) /\
    0 <= total (s_dim cfg + 2) (fun k => nth k r 0 * (nth k U 0 - nth k V 0)) <= weight * distance2 (s_dim cfg + 2) U V.
Proof.
  intros cfg s target U weight order x x0 xn w G Va Ls D Dr Dm De L W O N Hw V.
  destruct (c68_residual cfg s target w U G Va Ls D Dr Dm De L) as (r & E & _ & Er & Ep & _). fold V in Er, Ep.
  destruct (c38_bounds weight order x x0 xn W O N) as (p & q & P & Q & Bp & Bq & Z & F). cbv zeta in P, Q.
  assert (B : 0 <= w <= weight /\ (P_Buffer.before x0 xn x -> w = 0) /\ (behind x0 xn x -> w = weight)).
  { destruct Hw as [Hw|Hw]; [rewrite P in Hw|rewrite Q in Hw]; apply ok_inj in Hw; subst w;
      (split; [assumption|]); (split; [intros Hb; now destruct (Z Hb)|intros Hb; now destruct (F Hb)]). }
  destruct B as ((B0 & B1) & B2 & B3). exists r. split; [exact E|]. split; [|split].
  - intros Hb k K. rewrite Er, (B2 Hb) by exact K. ring.
  - intros Hb k K. rewrite Er, (B3 Hb) by exact K. reflexivity.
  - rewrite Ep. pose proof (distance2_pos (s_dim cfg + 2) U V) as DP. split; [apply Rmult_le_pos; assumption|apply Rmult_le_compat_r; assumption].
Qed.
Print Assumptions c68_layer.

(** ** Time steps *)

Lemma relaxes_value n dt w U V U' : 0 < dt -> 0 <= w -> relaxes n dt w U V U' ->
  forall k, (k < n)%nat -> nth k U' 0 = (1 * nth k U 0 + dt * w * nth k V 0) / (1 + dt * w).
Proof.
  intros T W [L H] k K. specialize (H k K). assert (0 <= dt * w) by (apply Rmult_le_pos; lra).
  assert (E : nth k U' 0 - nth k U 0 = dt * (w * (nth k V 0 - nth k U' 0))) by (rewrite <- H; field; lra).
  apply Rmult_eq_reg_r with (1 + dt * w); [|lra]. unfold Rdiv. rewrite Rmult_assoc, Rinv_l by lra. lra.
Qed.

Section Step.
Variables (cfg : settings) (m : mesh) (r : rules) (bs : list bterm) (l : sponge) (w dt : R) (n : nat -> list R) (u : unknowns) (st target : state)
  (twin : nat -> nat) (t : test).
Hypothesis G : 1 < s_gamma cfg.
Hypothesis V : valid st.
Hypothesis Dim : length (st_u st) = s_dim cfg.
Hypothesis Un : uniform cfg u st.
Hypothesis Hn : forall x, n x = n 0%nat.
Hypothesis Ln : length (n 0%nat) = (s_dim cfg + 2)%nat.
Hypothesis Vt : valid target.
Hypothesis Lt : length (st_u target) = s_dim cfg.
Hypothesis Hl : forall v x, In (v, x) (s_rule l) -> s_function l x = w /\ describes (s_gamma cfg) target (s_target l x) /\
  determined density_sources (s_target l x) /\ determined momentum_sources (s_target l x) /\ determined energy_sources (s_target l x).
Hypothesis Cv : covers (s_dim cfg) (s_rule l) (r_time r) t.
Hypothesis Nl : forall v y, In (v, y) (r_cbnd r) \/ In (v, y) (r_dbnd r) -> length (normal m y) = s_dim cfg.
Hypothesis Gs : gauss (s_dim cfg) m (r_cvol r) (r_cbnd r) t.
Hypothesis Tw : two_sided m (r_cbnd r) twin.
Hypothesis Wf : well_formed (s_dim cfg) t.
Hypothesis Sv : single_valued twin t.
Hypothesis Rs : s_dim cfg = 2%nat \/ s_riemann cfg = LaxFriedrich \/ s_riemann cfg = HLL.
Hypothesis Vi : s_law cfg = Inviscid \/
   (exists mu re pr, viscosity cfg (full_fields cfg st) = Ok mu /\ reference_reynolds_number cfg = Ok re /\ prandtl_number cfg = Ok pr) /\
   forall x, exists eps dT, viscous_gradients cfg eps dT (uQ u x) /\ zero_matrix (s_dim cfg) eps /\ forall j, nth j dT 0 = 0.
Hypothesis Hb : forall b v y, In b bs -> In (v, y) (b_rule b) -> exists z, b_vector b y = Ok z /\ vanishes z.

Lemma uniform_layer : let U := conservative_list (s_gamma cfg) st in let W := conservative_list (s_gamma cfg) target in
  weak_form cfg m r bs [l] (IE dt n) u t =
  Ok (total (s_dim cfg + 2) (fun k => (w * (nth k U 0 - nth k W 0) + (nth k U 0 - nth k (n 0%nat) 0) / dt) * weighted (r_time r) (fun x => nth k (tV t x) 0))).
Proof.
  intros U W. unfold weak_form.
  rewrite (c62_convection cfg m u st twin t (r_cvol r) (r_cbnd r)) by (trivial; intros v y I; apply (Nl v y); now left). cbn [bind].
  assert (Dz : match s_law cfg with Inviscid => Ok 0 | _ => diffusion_form cfg m (r_dvol r) (r_dbnd r) u t end = Ok 0).
  { destruct Vi as [-> | [(mu & re & pr & Em & Er & Ep) Zg]]; [reflexivity|].
    rewrite (c62_diffusion cfg m u st t (r_dvol r) (r_dbnd r) mu re pr) by (trivial; intros v y I; apply (Nl v y); now right). now destruct (s_law cfg). }
  rewrite Dz. cbn [bind].
  assert (Bz : boundary_form bs t = Ok 0).
  { clear - Hb. induction bs as [|b bs' IH]; [reflexivity|]. cbn [boundary_form]. rewrite (integral_make (b_rule b) _ (fun _ => 0)).
    - rewrite IH by (intros b' v y I J; apply (Hb b' v y); [now right|exact J]). cbn [bind]. rewrite weighted_zero by reflexivity. f_equal. ring.
    - intros v y I. destruct (Hb b v y (or_introl eq_refl) I) as (z & -> & Z). cbn [bind]. f_equal. now apply inner_nil. }
  rewrite Bz. cbn [bind domain_form].
  assert (LU : length U = (s_dim cfg + 2)%nat) by (unfold U; rewrite conservative_length, Dim; reflexivity).
  rewrite (integral_make (s_rule l) _ (fun x => total (s_dim cfg + 2) (fun k => w * (nth k U 0 - nth k W 0) * nth k (tV t x) 0))).
  2: { intros v x I. destruct (Hl v x I) as (Ef & Dt & D1 & D2 & D3). rewrite (proj1 (Un x)). fold U.
    destruct (c68_residual cfg target (s_target l x) (s_function l x) U G Vt Lt Dt D1 D2 D3 LU) as (z & Ez & Lz & En & _). rewrite Ez. cbn [bind]. f_equal.
    rewrite inner_total by (rewrite Lz; symmetry; apply Wf). rewrite Lz. apply total_ext. intros k K. rewrite En, Ef by exact K. reflexivity. }
  cbn [bind]. unfold time_form.
  rewrite (integral_make (r_time r) _ (fun x => total (s_dim cfg + 2) (fun k => (nth k U 0 - nth k (n 0%nat) 0) / dt * nth k (tV t x) 0))).
  2: { intros v x I. f_equal. rewrite (proj1 (Un x)). fold U. cbn [time_derivative]. rewrite Hn.
    rewrite inner_total by (unfold vdiv; rewrite map_length, vsub_length, LU, Ln, Nat.min_id; symmetry; apply Wf).
    unfold vdiv at 1. rewrite map_length, vsub_length, LU, Ln, Nat.min_id. apply total_ext. intros k K. rewrite vdiv_nth, vsub_nth by congruence. reflexivity. }
  cbn [bind]. f_equal. rewrite !weighted_total.
  transitivity (total (s_dim cfg + 2) (fun k => w * (nth k U 0 - nth k W 0) * weighted (r_time r) (fun x => nth k (tV t x) 0) + (nth k U 0 - nth k (n 0%nat) 0) / dt * weighted (r_time r) (fun x => nth k (tV t x) 0))).
  - rewrite total_plus.
    rewrite (total_ext (fun k => weighted (s_rule l) (fun x => w * (nth k U 0 - nth k W 0) * nth k (tV t x) 0)) (fun k => w * (nth k U 0 - nth k W 0) * weighted (r_time r) (fun x => nth k (tV t x) 0)))
      by (intros k K; rewrite weighted_scale, (Cv k K); reflexivity).
    rewrite (total_ext (fun k => weighted (r_time r) (fun x => (nth k U 0 - nth k (n 0%nat) 0) / dt * nth k (tV t x) 0)) (fun k => (nth k U 0 - nth k (n 0%nat) 0) / dt * weighted (r_time r) (fun x => nth k (tV t x) 0)))
      by (intros k K; apply weighted_scale). ring.
  - apply total_ext. intros k K. ring.
Qed.
End Step.

(** A uniform flow in a domain that the layer covers and whose boundary conditions accept the new state: the implicit Euler
    step of the whole discrete problem is that of the relaxation towards the target, for every space of test functions; and
    no other uniform flow is a solution. *)
Theorem c68_step : forall cfg m r bs l w dt n u st target twin (W : test -> Prop), 1 < s_gamma cfg -> valid st -> length (st_u st) = s_dim cfg -> uniform cfg u st ->
  (forall x, n x = n 0%nat) -> length (n 0%nat) = (s_dim cfg + 2)%nat -> valid target -> length (st_u target) = s_dim cfg ->
  (forall v x, In (v, x) (s_rule l) -> s_function l x = w /\ describes (s_gamma cfg) target (s_target l x) /\
     determined density_sources (s_target l x) /\ determined momentum_sources (s_target l x) /\ determined energy_sources (s_target l x)) ->
  (forall v y, In (v, y) (r_cbnd r) \/ In (v, y) (r_dbnd r) -> length (normal m y) = s_dim cfg) -> two_sided m (r_cbnd r) twin ->
  (forall t, W t -> covers (s_dim cfg) (s_rule l) (r_time r) t /\ gauss (s_dim cfg) m (r_cvol r) (r_cbnd r) t /\ well_formed (s_dim cfg) t /\ single_valued twin t) ->
  s_dim cfg = 2%nat \/ s_riemann cfg = LaxFriedrich \/ s_riemann cfg = HLL ->
  (s_law cfg = Inviscid \/
   (exists mu re pr, viscosity cfg (full_fields cfg st) = Ok mu /\ reference_reynolds_number cfg = Ok re /\ prandtl_number cfg = Ok pr) /\
   forall x, exists eps dT, viscous_gradients cfg eps dT (uQ u x) /\ zero_matrix (s_dim cfg) eps /\ forall j, nth j dT 0 = 0) ->
  (forall b v y, In b bs -> In (v, y) (b_rule b) -> exists z, b_vector b y = Ok z /\ vanishes z) ->
  let step := relaxes (s_dim cfg + 2) dt w (n 0%nat) (conservative_list (s_gamma cfg) target) (conservative_list (s_gamma cfg) st) in
  (step -> solves cfg m r bs [l] (IE dt n) W u) /\
  (has_constants (s_dim cfg) m W -> weighted (r_time r) (fun _ => 1) <> 0 -> solves cfg m r bs [l] (IE dt n) W u -> step).
Proof.
  intros cfg m r bs l w dt n u st target twin W G V Dim Un Hn Ln Vt Lt Hl Nl Tw HW Rs Vi Hb step.
  assert (LU : length (conservative_list (s_gamma cfg) st) = (s_dim cfg + 2)%nat) by (rewrite conservative_length, Dim; reflexivity).
  assert (F : forall t, W t -> weak_form cfg m r bs [l] (IE dt n) u t = Ok (total (s_dim cfg + 2) (fun k =>
    (w * (nth k (conservative_list (s_gamma cfg) st) 0 - nth k (conservative_list (s_gamma cfg) target) 0) + (nth k (conservative_list (s_gamma cfg) st) 0 - nth k (n 0%nat) 0) / dt) * weighted (r_time r) (fun x => nth k (tV t x) 0)))).
  { intros t Ht. destruct (HW t Ht) as (Cv & Gs & Wf & Sv). apply (uniform_layer cfg m r bs l w dt n u st target twin t); assumption. }
  split.
  - intros [_ Rx] t Ht. rewrite (F t Ht). f_equal. rewrite (total_ext _ (fun _ => 0)); [apply total_zero|]. intros k K. rewrite (Rx k K). ring.
  - intros Hc M So. split; [exact LU|]. intros k K. pose proof (So _ (Hc k (fun _ => true) (fun _ => true) K)) as Z. rewrite (F _ (Hc k (fun _ => true) (fun _ => true) K)) in Z. apply ok_inj in Z.
    rewrite (total_ext _ (fun i => delta k i * ((w * (nth i (conservative_list (s_gamma cfg) st) 0 - nth i (conservative_list (s_gamma cfg) target) 0) + (nth i (conservative_list (s_gamma cfg) st) 0 - nth i (n 0%nat) 0) / dt) * weighted (r_time r) (fun _ => 1)))) in Z.
    + rewrite total_delta in Z by exact K. apply Rmult_integral in Z as [Z|Z]; [|contradiction]. lra.
    + intros i I. cbn [constant_test tV]. rewrite (weighted_ext _ _ (fun x => delta k i * 1)).
      * rewrite weighted_scale. ring.
      * intros v x _. unfold basis. rewrite (nth_indep _ 0 (delta k 0)) by (rewrite map_length, seq_length; exact I). rewrite map_nth, seq_nth by exact I. cbn. ring.
Qed.
Print Assumptions c68_step.

(** The step from a physical state towards a physical target is physical: density and pressure stay positive, whatever the time step
    and the strength of the layer. *)
Theorem c68_positive : forall d dt w U V U', 0 < dt -> 0 <= w -> physical d U -> physical d V -> relaxes (d + 2) dt w U V U' -> physical d U'.
Proof.
  intros d dt w U V U' T W (LU & RU & PU) (LV & RV & PV) H. assert (P : 0 <= dt * w) by (apply Rmult_le_pos; lra).
  pose proof (relaxes_value (d + 2) dt w U V U' T W H) as E. set (k := 1 + dt * w) in *. assert (K : 0 < k) by (unfold k; lra).
  set (r := nth 0 U 0) in *. set (q := nth 0 V 0) in *. set (e := nth (d + 1) U 0) in *. set (f := nth (d + 1) V 0) in *.
  set (M := total d (fun j => nth (j + 1) U 0 ^ 2)) in *. set (N := total d (fun j => nth (j + 1) V 0 ^ 2)) in *.
  set (X := total d (fun j => nth (j + 1) U 0 * nth (j + 1) V 0)).
  assert (C : 0 <= q ^ 2 * M + r ^ 2 * N - 2 * r * q * X).
  { replace (q ^ 2 * M + r ^ 2 * N - 2 * r * q * X) with (total d (fun j => (q * nth (j + 1) U 0 - r * nth (j + 1) V 0) ^ 2)).
    - clear. induction d as [|d IH]; cbn [total]; [apply Rle_refl|apply Rplus_le_le_0_compat; [exact IH|apply pow2_ge_0]].
    - unfold M, N, X. transitivity (total d (fun j => q ^ 2 * nth (j + 1) U 0 ^ 2 + (r ^ 2 * nth (j + 1) V 0 ^ 2 + - (2 * r * q) * (nth (j + 1) U 0 * nth (j + 1) V 0)))).
      + apply total_ext. intros j _. ring.
      + rewrite !total_plus, !total_scale. ring. }
  assert (RQ : 0 < r * q) by (apply Rmult_lt_0_compat; assumption).
  assert (XB : X < q * e + r * f).
  { assert (A1 : q ^ 2 * M < q ^ 2 * (2 * r * e)) by (apply Rmult_lt_compat_l; [apply pow_lt; exact RV|exact PU]).
    assert (A2 : r ^ 2 * N < r ^ 2 * (2 * q * f)) by (apply Rmult_lt_compat_l; [apply pow_lt; exact RU|exact PV]).
    apply Rmult_lt_reg_l with (2 * (r * q)); [lra|]. lra. }
  assert (E0 : nth 0 U' 0 = (1 * r + dt * w * q) / k) by (apply (E 0%nat); lia).
  assert (Ee : nth (d + 1) U' 0 = (1 * e + dt * w * f) / k) by (apply (E (d + 1)%nat); lia).
  set (b := dt * w) in *.
  assert (Q' : 0 <= b * q) by (apply Rmult_le_pos; lra).
  split; [apply H|]. split.
  - rewrite E0. apply Rdiv_lt_0_compat; lra.
  - rewrite (total_ext _ (fun j => (/ k) ^ 2 * (nth (j + 1) U 0 ^ 2 + (2 * b * (nth (j + 1) U 0 * nth (j + 1) V 0) + b ^ 2 * nth (j + 1) V 0 ^ 2))))
      by (intros j J; rewrite (E (j + 1)%nat) by lia; field; lra).
    rewrite total_scale, !total_plus, !total_scale. fold M N X. rewrite E0, Ee.
    replace (2 * ((1 * r + b * q) / k) * ((1 * e + b * f) / k)) with ((/ k) ^ 2 * (2 * r * e + (2 * b * (q * e + r * f) + b ^ 2 * (2 * q * f)))) by (field; lra).
    apply Rmult_lt_compat_l; [apply pow_lt, Rinv_0_lt_compat; exact K|].
    apply Rplus_lt_le_compat; [exact PU|]. apply Rplus_le_compat; apply Rmult_le_compat_l; try (apply Rlt_le; assumption); [lra|apply pow2_ge_0].
Qed.
Print Assumptions c68_positive.

(** Every step reduces the distance to the target by the factor 1 + dt w, so that the flow tends to the target. *)
Theorem c68_converges : forall n dt w V (U : nat -> list R), 0 < dt -> 0 <= w -> (forall m, relaxes n dt w (U m) V (U (S m))) ->
  (forall m, distance2 n (U (S m)) V * (1 + dt * w) ^ 2 = distance2 n (U m) V) /\
  (forall m k, (k < n)%nat -> nth k (U m) 0 - nth k V 0 = (nth k (U 0%nat) 0 - nth k V 0) / (1 + dt * w) ^ m) /\
  (0 < w -> forall k, (k < n)%nat -> is_lim_seq (fun m => nth k (U m) 0) (nth k V 0)).
Proof.
  intros n dt w V U T W H. assert (P : 0 <= dt * w) by (apply Rmult_le_pos; lra).
  assert (S1 : forall m k, (k < n)%nat -> nth k (U (S m)) 0 - nth k V 0 = (nth k (U m) 0 - nth k V 0) / (1 + dt * w)).
  { intros m k K. rewrite (relaxes_value n dt w (U m) V (U (S m)) T W (H m) k K). field. lra. }
  assert (S2 : forall m k, (k < n)%nat -> nth k (U m) 0 - nth k V 0 = (nth k (U 0%nat) 0 - nth k V 0) / (1 + dt * w) ^ m).
  { induction m as [|m IH]; intros k K; [cbn; field|]. rewrite S1, IH by exact K. cbn [pow]. assert (K0 : 1 + dt * w <> 0) by lra. pose proof (pow_nonzero _ m K0). field. split; assumption. }
  split; [|split; [exact S2|]].
  - intros m. unfold distance2. rewrite Rmult_comm, <- total_scale. apply total_ext. intros k K. rewrite S1 by exact K. field. lra.
  - intros W0 k K. assert (P0 : 0 < dt * w) by (apply Rmult_lt_0_compat; assumption).
    apply (is_lim_seq_ext (fun m => (nth k (U 0%nat) 0 - nth k V 0) * (/ (1 + dt * w)) ^ m + nth k V 0)).
    { intros m. match goal with |- ?a = ?b => change (@eq R a b) end. pose proof (S2 m k K) as E. assert (K0 : 1 + dt * w <> 0) by lra. rewrite <- (Rinv_pow (1 + dt * w) m K0). unfold Rdiv in E. rewrite <- E. ring. }
    replace (Finite (nth k V 0)) with (Finite ((nth k (U 0%nat) 0 - nth k V 0) * 0 + nth k V 0)) by (f_equal; ring).
    apply is_lim_seq_plus'; [|apply is_lim_seq_const]. apply (is_lim_seq_mult' (fun _ => nth k (U 0%nat) 0 - nth k V 0)); [apply is_lim_seq_const|].
    apply is_lim_seq_geom. rewrite Rabs_pos_eq by (apply Rlt_le, Rinv_0_lt_compat; lra). rewrite <- Rinv_1. apply Rinv_lt_contravar; lra.
Qed.
Print Assumptions c68_converges.

(** A whole run without viscosity in a periodic domain covered by the layer: from every uniform physical flow there is a sequence of
    uniform physical flows that solve all time steps, and it tends to the target. *)
Theorem c68_run : forall cfg m r l w dt target twin (W : test -> Prop) U0 q, 1 < s_gamma cfg -> s_law cfg = Inviscid ->
  s_dim cfg = 2%nat \/ s_riemann cfg = LaxFriedrich \/ s_riemann cfg = HLL -> valid target -> length (st_u target) = s_dim cfg ->
  (forall v x, In (v, x) (s_rule l) -> s_function l x = w /\ describes (s_gamma cfg) target (s_target l x) /\
     determined density_sources (s_target l x) /\ determined momentum_sources (s_target l x) /\ determined energy_sources (s_target l x)) ->
  (forall v y, In (v, y) (r_cbnd r) \/ In (v, y) (r_dbnd r) -> length (normal m y) = s_dim cfg) -> two_sided m (r_cbnd r) twin ->
  (forall t, W t -> covers (s_dim cfg) (s_rule l) (r_time r) t /\ gauss (s_dim cfg) m (r_cvol r) (r_cbnd r) t /\ well_formed (s_dim cfg) t /\ single_valued twin t) ->
  0 < dt -> 0 < w -> physical (s_dim cfg) U0 ->
  exists U : nat -> list R, U 0%nat = U0 /\ (forall i, physical (s_dim cfg) (U i)) /\
    (forall i, solves cfg m r [] [l] (IE dt (fun _ => U i)) W (mk_unknowns (fun _ => U (S i)) (fun _ => U (S i)) (fun _ => q))) /\
    (forall i, distance2 (s_dim cfg + 2) (U (S i)) (conservative_list (s_gamma cfg) target) <= distance2 (s_dim cfg + 2) (U i) (conservative_list (s_gamma cfg) target)) /\
    forall k, (k < s_dim cfg + 2)%nat -> is_lim_seq (fun i => nth k (U i) 0) (nth k (conservative_list (s_gamma cfg) target) 0).
Proof.
  intros cfg m r l w dt target twin W U0 q G La Rs Vt Lt Hl Nl Tw HW T W0 P0. set (V := conservative_list (s_gamma cfg) target). set (d := s_dim cfg) in *.
  assert (Pdw : 0 < dt * w) by (apply Rmult_lt_0_compat; assumption).
  set (f := fun A : list R => map (fun k => (nth k A 0 + dt * w * nth k V 0) / (1 + dt * w)) (seq 0 (d + 2))).
  set (U := fun i => Nat.iter i f U0).
  assert (Nf : forall A k, (k < d + 2)%nat -> nth k (f A) 0 = (nth k A 0 + dt * w * nth k V 0) / (1 + dt * w)).
  { intros A k K. unfold f. set (h := fun i => (nth i A 0 + dt * w * nth i V 0) / (1 + dt * w)). rewrite (nth_indep _ 0 (h 0%nat)) by (rewrite map_length, seq_length; exact K).
    rewrite map_nth, seq_nth by exact K. reflexivity. }
  assert (Rx : forall A, relaxes (d + 2) dt w A V (f A)).
  { intros A. split; [unfold f; rewrite map_length, seq_length; reflexivity|]. intros k K. rewrite Nf by exact K. field. split; lra. }
  assert (PV : physical d V) by (apply (c57_physical (s_gamma cfg) d V G); exists target; repeat split; trivial; apply Vt).
  assert (PU : forall i, physical d (U i)).
  { induction i as [|i IH]; [exact P0|]. exact (c68_positive d dt w (U i) V (f (U i)) T (Rlt_le _ _ W0) IH PV (Rx (U i))). }
  destruct (c68_converges (d + 2) dt w V U T (Rlt_le _ _ W0) (fun i => Rx (U i))) as (C1 & _ & C3).
  exists U. split; [reflexivity|]. split; [exact PU|]. split; [|split; [|exact (C3 W0)]].
  - intros i. destruct (proj1 (c57_physical (s_gamma cfg) d (U (S i)) G) (PU (S i))) as (st & Vs & Ls & Es).
    apply (proj1 (c68_step cfg m r [] l w dt (fun _ => U i) (mk_unknowns (fun _ => U (S i)) (fun _ => U (S i)) (fun _ => q)) st target twin W G Vs Ls
      (fun x => conj (eq_sym Es) (eq_sym Es)) (fun _ => eq_refl) (proj1 (PU i)) Vt Lt Hl Nl Tw HW Rs (or_introl La) (fun b v y (I : In b []) => match I with end))).
    rewrite Es. exact (Rx (U i)).
  - intros i. rewrite <- (C1 i). rewrite <- (Rmult_1_r (distance2 (d + 2) (U (S i)) V)) at 1. apply Rmult_le_compat_l; [apply distance2_pos|].
    assert (1 <= (1 + dt * w) ^ 2) by (apply pow_R1_Rle; lra). exact H.
Qed.
Print Assumptions c68_run.

(** ** Example: the layer [relaxation] of strength 1 on the periodic square, time step 1, gas of double density and pressure. *)
Example c68_example :
  (exists U : nat -> list R, U 0%nat = [2; 0; 0; 5] /\ (forall i, physical 2 (U i)) /\
    (forall i, solves air periodic_square square_rules [] [relaxation] (IE 1 (fun _ => U i)) (square_tests periodic_square opposite_side) (mk_unknowns (fun _ => U (S i)) (fun _ => U (S i)) (fun _ => still))) /\
    is_lim_seq (fun i => nth 0 (U i) 0) 1) /\
  relaxes 4 1 1 [2; 0; 0; 5] [1; 0; 0; 5 / 2] [3 / 2; 0; 0; 15 / 4] /\
  sponge_residual air (mk_flow (Some 1) (Some [0; 0]) None None None None None None None None None None None None) 1 [2; 0; 0; 5] = Err ValueError.
Proof.
  split; [|split].
  - destruct (c68_run air periodic_square square_rules relaxation 1 1 (mk_state 1 [0; 0] 1) opposite_side (square_tests periodic_square opposite_side) [2; 0; 0; 5] still) as (U & E & P & S1 & _ & Lim).
    + cbn. lra.
    + reflexivity.
    + left. reflexivity.
    + split; cbn; lra.
    + reflexivity.
    + intros v x I. split; [reflexivity|]. cbn [relaxation s_target]. split; [|repeat split].
      * unfold describes. repeat split; cbn; intros y Y; try discriminate Y; injection Y as <-; try reflexivity.
      * apply determined_bool. reflexivity.
      * apply determined_bool. reflexivity.
      * apply determined_bool. reflexivity.
    + intros v y [I|I]; exact (square_normals _ _ v y I).
    + apply periodic_sides.
    + intros t (Wf & Gs & Sv). repeat split; try assumption; apply Wf || apply Gs.
    + lra.
    + lra.
    + split; [reflexivity|]. split; cbn; lra.
    + exists U. split; [exact E|]. split; [exact P|]. split; [exact S1|]. exact (Lim 0%nat ltac:(cbn; lia)).
  - split; [reflexivity|]. intros k K. destruct k as [|[|[|[|k]]]]; try lia; cbn; lra.
  - apply c68_raises. right. right. intros D. apply determined_bool in D. discriminate D.
Qed.
