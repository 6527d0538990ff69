(** C94: what an assignment to an option stores. *)
From Coq Require Import String List Bool Arith ZArith QArith Lia Lqa.
From Verif Require Import Base Dict M_Config M_Classes S_Config S_Options M_Scheme S_Scheme P_Scheme P_Config.
Import ListNotations.
Local Open Scope string_scope.
Local Open Scope list_scope.

Lemma whole_quot q : whole_part q (Z.quot (Qnum q) (Zpos (Qden q))).
Proof.
  destruct q as [n d]. cbn [Qnum Qden]. set (z := Z.quot n (Zpos d)).
  pose proof (Z.quot_rem' n (Zpos d)) as E. fold z in E.
  split; intros S; unfold Qle, Qlt, Qminus, Qplus, Qopp, inject_Z in *; cbn [Qnum Qden] in *.
  - assert (N : (0 <= n)%Z) by lia. pose proof (Z.rem_bound_pos n (Zpos d) N ltac:(lia)). split; nia.
  - assert (N : (n <= 0)%Z) by lia. pose proof (Z.rem_opp_l' n (Zpos d)) as R. pose proof (Z.rem_bound_pos (- n) (Zpos d) ltac:(lia) ltac:(lia)). split; nia.
Qed.

Lemma whole_int z : whole_part (inject_Z z) z.
Proof. split; intros _; unfold Qle, Qlt, Qminus, Qplus, Qopp, inject_Z; cbn [Qnum Qden]; lia. Qed.

Lemma to_int_spec v : (forall q, is_number v q -> exists z, whole_part q z /\ to_int v = Ok (VAtom (AInt z))) /\
  ((forall q, ~ is_number v q) -> (forall s, v <> VStr s) -> to_int v = Err TypeError).
Proof.
  split.
  - intros q N. destruct N as [z|q| |].
    + exists z. split; [apply whole_int|reflexivity].
    + eexists. split; [apply whole_quot|reflexivity].
    + exists 1%Z. split; [apply (whole_int 1)|reflexivity].
    + exists 0%Z. split; [apply (whole_int 0)|reflexivity].
  - intros N S. destruct v as [[|z|q|l|d]|[]|s|d|c]; try reflexivity; exfalso; try (eapply N; constructor). now apply (S s).
Qed.

Lemma number_spec v q : is_number v q -> number v = Some q.
Proof. now destruct 1. Qed.

Lemma number_none v : (forall q, ~ is_number v q) -> number v = None.
Proof. intros N. destruct v as [[|z|q|l|d]|[]|s|d|c]; try reflexivity; exfalso; eapply N; constructor. Qed.

Lemma stored_plain c name next v w d fset : find_kind (repo_classes true) (cfg_class c) name = Some (KPlain d fset) -> fset v = Ok w -> stores c name next (repo_assign c name v next) w.
Proof.
  intros K F. unfold assign, set_option. rewrite K, F. eexists. split; [reflexivity|]. destruct c as [k r m data]. cbn [with_data cfg_data]. split.
  - repeat split. intros n N. cbn [cfg_data]. apply dget_dset_other. congruence.
  - apply dget_dset_same.
Qed.

Lemma refused_plain c name next v e d fset : find_kind (repo_classes true) (cfg_class c) name = Some (KPlain d fset) -> fset v = Err e -> refuses c next (repo_assign c name v next) e.
Proof. intros K F. unfold refuses, assign, set_option. now rewrite K, F. Qed.

Ltac each H := repeat (destruct H as [H|H]; [injection H as <- <-; eexists; reflexivity|]); contradiction H.

Lemma integer_kind cls name : In (cls, name) integer_options -> exists d, find_kind (repo_classes true) cls name = Some (KPlain d to_int).
Proof. intros I. cbn [integer_options In] in I. each I. Qed.
Lemma rate_kind cls name : In (cls, name) rate_options -> exists d, find_kind (repo_classes true) cls name = Some (KPlain d to_rate).
Proof. intros I. cbn [rate_options In] in I. each I. Qed.
Lemma float_kind cls name : In (cls, name) float_options -> exists d, find_kind (repo_classes true) cls name = Some (KPlain d to_float).
Proof. intros I. cbn [float_options In] in I. each I. Qed.
Lemma positive_kind cls name : In (cls, name) positive_options -> exists d, find_kind (repo_classes true) cls name = Some (KPlain d to_positive_float).
Proof. intros I. cbn [positive_options In] in I. each I. Qed.
Lemma truth_kind cls name : In (cls, name) truth_options -> exists d, find_kind (repo_classes true) cls name = Some (KPlain d to_bool).
Proof. intros I. cbn [truth_options In] in I. each I. Qed.

(** Options of whole numbers store the whole part of every number; what is no number (and no text) raises TypeError. *)
Theorem c94_integers : forall c name v next, In (cfg_class c, name) integer_options ->
  (forall q, is_number v q -> exists z, whole_part q z /\ stores c name next (repo_assign c name v next) (VAtom (AInt z))) /\
  ((forall q, ~ is_number v q) -> (forall s, v <> VStr s) -> refuses c next (repo_assign c name v next) TypeError).
Proof.
  intros c name v next I. destruct (integer_kind _ _ I) as [d K]. destruct (to_int_spec v) as [A B]. split.
  - intros q N. destruct (A q N) as (z & W & E). exists z. split; [exact W|]. exact (stored_plain c name next v _ d to_int K E).
  - intros N S. exact (refused_plain c name next v TypeError d to_int K (B N S)).
Qed.
Print Assumptions c94_integers.

(** Rates too, if the whole part is positive, which means that the number is one at least; smaller numbers raise ValueError. *)
Theorem c94_rates : forall c name v next q, In (cfg_class c, name) rate_options -> is_number v q ->
  ((1 <= q)%Q -> exists z, whole_part q z /\ (0 < z)%Z /\ stores c name next (repo_assign c name v next) (VAtom (AInt z))) /\
  ((q < 1)%Q -> refuses c next (repo_assign c name v next) ValueError).
Proof.
  intros c name v next q I N. destruct (rate_kind _ _ I) as [d K]. destruct (proj1 (to_int_spec v) q N) as (z & [W1 W2] & E). split; intros Q.
  - destruct (W1 ltac:(lra)) as [A B]. assert (Z : (0 < z)%Z) by (assert (H : (0 < inject_Z z)%Q) by lra; unfold Qlt, inject_Z in H; cbn in H; lia).
    exists z. split; [split; assumption|]. split; [exact Z|]. apply (stored_plain c name next v _ d to_rate K). unfold to_rate. rewrite E. cbn [bind].
    destruct (Z.leb_spec z 0); [lia|reflexivity].
  - apply (refused_plain c name next v ValueError d to_rate K). unfold to_rate. rewrite E. cbn [bind].
    assert (Z : (z <= 0)%Z).
    { destruct (Qlt_le_dec q 0) as [S|S].
      - destruct (W2 ltac:(lra)) as [A B]. assert (H : (inject_Z z < 1)%Q) by lra. unfold Qlt, inject_Z in H. cbn in H. lia.
      - destruct (W1 S) as [A B]. assert (H : (inject_Z z < 1)%Q) by lra. unfold Qlt, inject_Z in H. cbn in H. lia. }
    destruct (Z.leb_spec z 0); [reflexivity|lia].
Qed.
Print Assumptions c94_rates.

(** Options of numbers store the number; the convergence criterion must be positive. *)
Theorem c94_numbers : forall c name v next,
  (In (cfg_class c, name) float_options ->
     (forall q, is_number v q -> stores c name next (repo_assign c name v next) (VAtom (AFloat q))) /\
     ((forall q, ~ is_number v q) -> (forall s, v <> VStr s) -> refuses c next (repo_assign c name v next) TypeError)) /\
  (In (cfg_class c, name) positive_options ->
     (forall q, is_number v q -> (0 < q)%Q -> stores c name next (repo_assign c name v next) (VAtom (AFloat q))) /\
     (forall q, is_number v q -> (q <= 0)%Q -> refuses c next (repo_assign c name v next) ValueError) /\
     ((forall q, ~ is_number v q) -> refuses c next (repo_assign c name v next) TypeError)).
Proof.
  intros c name v next. split; intros I.
  - destruct (float_kind _ _ I) as [d K]. split.
    + intros q N. apply (stored_plain c name next v _ d to_float K). unfold to_float. rewrite (number_spec v q N). now destruct N.
    + intros N S. apply (refused_plain c name next v TypeError d to_float K). unfold to_float. rewrite (number_none v N). destruct v; try reflexivity. exfalso. now apply (S s).
  - destruct (positive_kind _ _ I) as [d K]. split; [|split].
    + intros q N P. apply (stored_plain c name next v _ d to_positive_float K). unfold to_positive_float. rewrite (number_spec v q N).
      destruct (Qle_bool q 0) eqn:E; [apply Qle_bool_iff in E; lra|reflexivity].
    + intros q N P. apply (refused_plain c name next v ValueError d to_positive_float K). unfold to_positive_float. rewrite (number_spec v q N).
      apply Qle_bool_iff in P. now rewrite P.
    + intros N. apply (refused_plain c name next v TypeError d to_positive_float K). unfold to_positive_float. now rewrite (number_none v N).
Qed.
Print Assumptions c94_numbers.

(** Switches take every value, and are off exactly for nothing, zero and everything empty. *)
Theorem c94_switches : forall c name v next, In (cfg_class c, name) truth_options ->
  exists b, stores c name next (repo_assign c name v next) (VBool b) /\ (b = false <-> is_nothing v).
Proof.
  intros c name v next I. destruct (truth_kind _ _ I) as [d K].
  assert (T : exists b, to_bool v = Ok (VBool b) /\ (b = false <-> is_nothing v)).
  { unfold to_bool. eexists. split; [reflexivity|]. destruct v as [[|z|q|l|f]|b|s|e|s]; cbn.
    - split; [constructor|reflexivity].
    - destruct (Z.eqb_spec z 0) as [->|N]; cbn; split; try discriminate; try reflexivity; [constructor|]. intros H. inversion H. congruence.
    - destruct (Z.eqb_spec (Qnum q) 0) as [E|N]; cbn; split; try discriminate; try reflexivity.
      + intros _. constructor. unfold Qeq. rewrite E. reflexivity.
      + intros H. inversion H as [| | |q' E| | | | |]. unfold Qeq in E. cbn in E. lia.
    - destruct l; split; try discriminate; try reflexivity; [constructor|]. intros H. inversion H.
    - destruct f; split; try discriminate; try reflexivity; [constructor|]. intros H. inversion H.
    - destruct b; split; try discriminate; try reflexivity; [|constructor]. intros H. inversion H.
    - destruct (String.eqb_spec s "") as [->|N]; cbn; split; try discriminate; try reflexivity; [constructor|]. intros H. inversion H. congruence.
    - destruct e; split; try discriminate; try reflexivity; [constructor|]. intros H. inversion H.
    - destruct s as [k r m data]. destruct data; split; try discriminate; try reflexivity; [constructor|]. intros H. inversion H. }
  destruct T as (b & E & H). exists b. split; [|exact H]. exact (stored_plain c name next v _ d to_bool K E).
Qed.
Print Assumptions c94_switches.

(** So the words for off switch on. *)
Theorem c94_words_refuted : forall c name s next, In (cfg_class c, name) truth_options -> s <> "" ->
  stores c name next (repo_assign c name (VStr s) next) (VBool true).
Proof.
  intros c name s next I S. destruct (c94_switches c name (VStr s) next I) as ([] & St & H); [exact St|]. exfalso. pose proof (proj1 H eq_refl) as N. inversion N. congruence.
Qed.
Print Assumptions c94_words_refuted.

(** And an increment factor between one and two does nothing: the time step is never increased. *)
Theorem c94_factor_refuted : forall c v next q, cfg_class c = "PseudoTimeSteppingConfig" -> is_number v q -> (1 <= q)%Q -> (q < 2)%Q ->
  stores c "increment_factor" next (repo_assign c "increment_factor" v next) (VAtom (AInt 1)) /\
  forall m at_ h0 n, (at_ <> 0)%Z -> (0 < h0)%Q -> exists h, pseudo_time_step (mk_pseudo m at_ 1) h0 n = Ok h /\ (h == h0)%Q.
Proof.
  intros c v next q C N L U. split.
  - destruct (proj1 (c94_integers c "increment_factor" v next ltac:(rewrite C; cbn; tauto)) q N) as (z & [W _] & S).
    destruct (W ltac:(lra)) as [A B]. assert (Z : z = 1%Z).
    { assert (H1 : (inject_Z z < 2)%Q) by lra. assert (H2 : (0 < inject_Z z)%Q) by lra. unfold Qlt, inject_Z in H1, H2. cbn in H1, H2. lia. }
    now rewrite Z in S.
  - intros m at_ h0 n A P. destruct (Qlt_le_dec m h0) as [H|H].
    + exists h0. split; [|reflexivity]. apply c06_constant_above_maximum; cbn; [exact A|lra].
    + destruct (c06_closed_form (mk_pseudo m at_ 1) h0 n) as (h & E & Hh); cbn; trivial; try lia. exists h. split; [exact E|]. rewrite Hh. cbn [ps_max_time_step ps_increment_factor].
      rewrite Z.pow_1_l by lia. unfold smaller. destruct (Qle_bool m (h0 * inject_Z 1)) eqn:F; [apply Qle_bool_iff in F; change (inject_Z 1) with 1%Q in F; lra|]. change (inject_Z 1) with 1%Q. lra.
Qed.
Print Assumptions c94_factor_refuted.

(** File names are stored as given, None as the name of the stream; the additional information is a dictionary, None an empty one, and everything
    else raises ValueError. *)
Theorem c94_names : forall c v next,
  (forall default, In (cfg_class c, default) filename_options ->
     (v = VAtom ANone -> stores c "filename" next (repo_assign c "filename" v next) (VStr default)) /\
     (v <> VAtom ANone -> stores c "filename" next (repo_assign c "filename" v next) v)) /\
  (cfg_class c = "CompressibleFlowSolver" ->
     (v = VAtom ANone -> stores c "info" next (repo_assign c "info" v next) (VDict [])) /\
     (forall d, v = VDict d -> stores c "info" next (repo_assign c "info" v next) v) /\
     (v <> VAtom ANone -> (forall d, v <> VDict d) -> refuses c next (repo_assign c "info" v next) ValueError)).
Proof.
  intros c v next. split.
  - intros default I.
    assert (K : exists d, find_kind (repo_classes true) (cfg_class c) "filename" = Some (KPlain d (to_filename default))).
    { cbn [filename_options In] in I. repeat (destruct I as [I|I]; [injection I as <- <-; eexists; reflexivity|]). contradiction I. }
    destruct K as [d K]. split.
    + intros ->. now apply (stored_plain c "filename" next (VAtom ANone) (VStr default) d _ K).
    + intros N. apply (stored_plain c "filename" next v v d _ K). destruct v as [[]| | | |]; try reflexivity. now contradiction N.
  - intros C. assert (K : exists d, find_kind (repo_classes true) (cfg_class c) "info" = Some (KPlain d to_info)) by (rewrite C; eexists; reflexivity).
    destruct K as [d K]. split; [|split].
    + intros ->. now apply (stored_plain c "info" next (VAtom ANone) (VDict []) d _ K).
    + intros e ->. now apply (stored_plain c "info" next (VDict e) (VDict e) d _ K).
    + intros N D. apply (refused_plain c "info" next v ValueError d _ K). destruct v as [[]| | |e|]; try reflexivity; [now contradiction N|]. exfalso. now apply (D e).
Qed.
Print Assumptions c94_names.

Lemma parameter_kind cls name (allowed : Q -> Prop) : In (cls, name, allowed) parameter_options -> exists d fset, find_kind (repo_classes true) cls name = Some (KParam d fset) /\
  (forall v q, is_number v q -> allowed q -> fset v = Ok (VAtom (AFloat q))) /\ (forall v q, is_number v q -> ~ allowed q -> fset v = Err ValueError) /\
  (forall v, (forall q, ~ is_number v q) -> fset v = Err TypeError).
Proof.
  assert (P : (forall v q, is_number v q -> True -> to_parameter v = Ok (VAtom (AFloat q))) /\ (forall v q, is_number v q -> ~ True -> to_parameter v = Err ValueError) /\
    (forall v, (forall q, ~ is_number v q) -> to_parameter v = Err TypeError)).
  { unfold to_parameter. split; [|split].
    - intros v q N _. now rewrite (number_spec v q N).
    - intros v q _ F. exfalso. now apply F.
    - intros v N. now rewrite (number_none v N). }
  assert (B : forall b : bool, (forall v q, is_number v q -> (if b then 0 < q else 0 <= q)%Q -> reject_below b v = Ok (VAtom (AFloat q))) /\
    (forall v q, is_number v q -> ~ (if b then 0 < q else 0 <= q)%Q -> reject_below b v = Err ValueError) /\ (forall v, (forall q, ~ is_number v q) -> reject_below b v = Err TypeError)).
  { intros b. unfold reject_below. split; [|split].
    - intros v q N A. rewrite (number_spec v q N). destruct b.
      + destruct (Qle_bool q 0) eqn:E; [apply Qle_bool_iff in E; lra|reflexivity].
      + apply Qle_bool_iff in A. now rewrite A.
    - intros v q N A. rewrite (number_spec v q N). destruct b.
      + destruct (Qle_bool q 0) eqn:E; [reflexivity|]. exfalso. apply A. apply Qnot_le_lt. intros H. apply Qle_bool_iff in H. congruence.
      + destruct (Qle_bool 0 q) eqn:E; [|reflexivity]. exfalso. apply A. now apply Qle_bool_iff.
    - intros v N. now rewrite (number_none v N). }
  intros I. cbn [parameter_options In] in I.
  repeat (destruct I as [I|I]; [injection I as <- <- <-; do 2 eexists; split; [reflexivity|]; first [exact P | exact (B true) | exact (B false)]|]). contradiction I.
Qed.

(** Parameters take the numbers that make sense and stay the same objects, so that what was built with them follows. *)
Theorem c94_parameters : forall c name allowed v next id old, In (cfg_class c, name, allowed) parameter_options -> dget (cfg_data c) name = Some (SParam id old) ->
  (forall q, is_number v q -> allowed q -> sets c name id next (repo_assign c name v next) (VAtom (AFloat q))) /\
  (forall q, is_number v q -> ~ allowed q -> refuses c next (repo_assign c name v next) ValueError) /\
  ((forall q, ~ is_number v q) -> refuses c next (repo_assign c name v next) TypeError).
Proof.
  intros c name allowed v next id old I D. destruct (parameter_kind _ _ _ I) as (d & fset & K & A & B & C). unfold refuses, assign, set_option. rewrite K. split; [|split].
  - intros q N P. rewrite (A v q N P), D. eexists. split; [reflexivity|]. destruct c as [k r m data]. cbn [with_data cfg_data]. split.
    + repeat split. intros n Hn. cbn [cfg_data]. apply dget_dset_other. congruence.
    + apply dget_dset_same.
  - intros q N P. now rewrite (B v q N P).
  - intros N. now rewrite (C v N).
Qed.
Print Assumptions c94_parameters.

(** ** Example: in the solver of [P_Config] 2.9 iterations are 2, a convergence criterion of -1 is refused and the static condensation "off" is on. *)
Definition stored_in (path : list string) (name : string) (v : val atom) : option (slot atom) :=
  look (fst (repo_run a_solver a_next [OAssign [] "time" (VStr "pseudo"); OAssign path name v])) path name.
Example c94_example :
  stored_in ["nonlinear_solver"] "max_iterations" (VAtom (AFloat (29 # 10))) = Some (SPlain (VAtom (AInt 2))) /\
  stored_in ["nonlinear_solver"] "convergence_criterion" (VAtom (AInt (-1))) = Some (SPlain (VAtom (AFloat (1 # 100000000)))) /\
  stored_in ["optimizations"] "static_condensation" (VStr "off") = Some (SPlain (VBool true)) /\
  stored_in ["time"] "increment_factor" (VAtom (AFloat (15 # 10))) = Some (SPlain (VAtom (AInt 1))) /\
  stored_in ["fem"] "order" (VAtom (AFloat (-29 # 10))) = Some (SPlain (VAtom (AInt (-2)))).
Proof. vm_compute. auto 10. Qed.
Example c94_parameters_example :
  In ("CompressibleFlowSolver", "mach_number", fun q : Q => (0 <= q)%Q) parameter_options /\ cfg_class a_solver = "CompressibleFlowSolver" /\
  dget (cfg_data a_solver) "mach_number" = Some (SParam 0 (VAtom (AFloat (3 # 10)))).
Proof. split; [left; reflexivity|]. vm_compute. auto. Qed.
