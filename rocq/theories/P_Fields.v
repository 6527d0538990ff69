(** Properties C27, C28 and C54 (field containers). *)
From Coq Require Import String List Bool Arith Lia.
From Verif Require Import Base Dict M_Fields S_Fields L_Fields.
Import ListNotations.
Local Open Scope string_scope.
Local Open Scope list_scope.

(** The tables of the solver are proper: no quantity name is a symbol. *)
Definition properb (t : dict string) : bool :=
  forallb (fun sn => match dget t (snd sn) with None => true | Some _ => false end) t.

Lemma properb_spec : forall t, properb t = true -> proper_table t.
Proof.
  intros t H s n G. unfold properb in H. rewrite forallb_forall in H. specialize (H _ (dget_Some_In _ _ _ G)). cbn in H.
  destruct (dget t n); [discriminate | reflexivity].
Qed.

Theorem c27_tables_proper : proper_table flow_symbols /\ proper_table dimensionful_symbols.
Proof. split; apply properb_spec; vm_compute; reflexivity. Qed.
Print Assumptions c27_tables_proper.

(** Whatever was done before and whatever is done to other quantities afterwards: the attribute and the entry
    show the last value written, by whichever spelling it was written. *)
Theorem c27_last_write : forall V symbols, proper_table symbols ->
  forall (before after : list (fop V)) o s n v, dget symbols s = Some n ->
  writes symbols o n v -> (forall o', In o' after -> leaves symbols o' n) ->
  let d := frun symbols symbols [] (before ++ o :: after) in
  get_attr symbols d s = Ok (Some v) /\ get_item d n = Ok v.
Proof.
  intros V symbols T before after o s n v S W L d.
  assert (G : dget d n = Some v).
  { unfold d, frun. rewrite fold_left_app. cbn [fold_left].
    fold (frun symbols symbols [] before).
    fold (frun symbols symbols (fstep symbols symbols (frun symbols symbols [] before) o) after).
    rewrite run_leaves; [apply step_writes | | | |]; try assumption; try (exact (T _ _ S)).
    apply tidy_step; [exact T|]. apply tidy_run; [exact T | apply tidy_empty]. }
  unfold get_attr, get_item. rewrite S, G. split; reflexivity.
Qed.
Print Assumptions c27_last_write.

(** A quantity that was never written, or deleted since, reads as None. *)
Theorem c27_absent : forall V symbols, proper_table symbols ->
  forall (before after : list (fop V)) s n, dget symbols s = Some n ->
  (forall o', In o' after -> leaves symbols o' n) ->
  (before = [] \/ exists b o, before = b ++ [o] /\ deletes symbols o n) ->
  let d := frun symbols symbols [] (before ++ after) in
  get_attr symbols d s = Ok None /\ get_item d n = Err KeyError.
Proof.
  intros V symbols T before after s n S L B d.
  assert (G : dget d n = None).
  { unfold d, frun. rewrite fold_left_app. fold (frun symbols symbols [] before).
    fold (frun symbols symbols (frun symbols symbols [] before) after).
    assert (TB : tidy symbols (frun symbols symbols ([] : dict V) before)) by (apply tidy_run; [exact T | apply tidy_empty]).
    rewrite run_leaves; try assumption; [|exact (T _ _ S)].
    destruct B as [->|(b & o & -> & D)]; [reflexivity|].
    unfold frun. rewrite fold_left_app. cbn [fold_left]. apply step_deletes; [|exact D].
    apply (tidy_run symbols T b), tidy_empty. }
  unfold get_attr, get_item. rewrite S, G. split; reflexivity.
Qed.
Print Assumptions c27_absent.

(** Statements on other quantities and writing None change nothing. *)
Theorem c27_others_unaffected : forall V symbols, proper_table symbols ->
  forall (before : list (fop V)) o n, dget symbols n = None -> leaves symbols o n ->
  get_item (fstep symbols symbols (frun symbols symbols [] before) o) n = get_item (frun symbols symbols [] before) n.
Proof.
  intros V symbols T before o n N L. unfold get_item. rewrite step_leaves; [reflexivity | | | |]; try assumption.
  apply (tidy_run symbols T before), tidy_empty.
Qed.
Print Assumptions c27_others_unaffected.

Theorem c27_none_is_noop : forall V symbols (d : dict V) k,
  set_attr symbols symbols d k None = (d, None) /\ set_item symbols d k None = (d, Some TypeError).
Proof. intros V symbols d k. unfold set_attr. destruct (dget symbols k); split; reflexivity. Qed.
Print Assumptions c27_none_is_noop.

(** Every stored key is canonical and occurs once. *)
Theorem c27_canonical_keys : forall V symbols, proper_table symbols -> forall ops : list (fop V),
  let d := frun symbols symbols [] ops in NoDup (dkeys d) /\ forall k, In k (dkeys d) -> dget symbols k = None.
Proof. intros V symbols T ops. apply tidy_run; [exact T | apply tidy_empty]. Qed.
Print Assumptions c27_canonical_keys.

(** The full claim (writing, reading and deleting by either spelling) is false: items cannot be read or deleted
    by their symbol, whatever was written. *)
Theorem c27_read_by_symbol_refuted : forall V symbols, proper_table symbols -> forall (ops : list (fop V)) s n,
  dget symbols s = Some n ->
  let d := frun symbols symbols [] ops in get_item d s = Err KeyError /\ del_item d s = (d, Some KeyError).
Proof.
  intros V symbols T ops s n S d. assert (G : dget d s = None).
  { apply dget_None_not_In. intros I. destruct (c27_canonical_keys V symbols T ops) as [_ K]. apply K in I. congruence. }
  unfold get_item, del_item. rewrite G. split; reflexivity.
Qed.
Print Assumptions c27_read_by_symbol_refuted.

(** A subclass that redeclares a symbol of its base class breaks the link between the attribute and the item of
    that symbol. *)
Theorem c27_redeclared_symbol_refuted : forall V (v : V) s n m, n <> m ->
  let symbols := subclass_symbols [(s, m)] [(s, n)] in let attrs := subclass_attrs [(s, m)] [(s, n)] in
  get_attr attrs (fst (set_item symbols [] s (Some v))) s = Ok None.
Proof.
  intros V v s n m D symbols attrs. unfold symbols, attrs, subclass_symbols, subclass_attrs, get_attr, set_item, canon. cbn.
  rewrite !String.eqb_refl. cbn. rewrite !String.eqb_refl. destruct (String.eqb_spec m n); [congruence | reflexivity].
Qed.
Print Assumptions c27_redeclared_symbol_refuted.

(** The names of the flow quantities: densities per volume carry a prefix rho in their symbol, the corresponding
    specific quantity is the one without it, and gradients are named after their quantity.  Symbols that reference
    values share with flow quantities denote the same quantity. *)
Theorem c27_flow_names :
  (forall s n, In (s, n) [("rho", "density"); ("u", "velocity"); ("p", "pressure"); ("T", "temperature"); ("c", "speed_of_sound"); ("rho_u", "momentum");
     ("eps", "strain_rate_tensor")] -> dget flow_symbols s = Some n) /\
  (forall s n, In (s, n) [("E", "energy"); ("Ei", "inner_energy"); ("Ek", "kinetic_energy"); ("H", "enthalpy")] ->
     dget flow_symbols ("rho_" ++ s)%string = Some n /\ dget flow_symbols s = Some ("specific_" ++ n)%string) /\
  (forall s n, dget flow_symbols s = Some n -> s <> "eps" -> String.prefix "grad_" s = false ->
     dget flow_symbols ("grad_" ++ s)%string = Some (n ++ "_gradient")%string) /\
  (forall s n, dget dimensionful_symbols s = Some n -> s <> "L" -> dget flow_symbols s = Some n) /\
  dget dimensionful_symbols "L" = Some "length".
Proof.
  repeat match goal with |- _ /\ _ => split end.
  - intros s n I. cbn [In] in I. repeat destruct I as [I|I]; try contradiction; injection I as <- <-; vm_compute; reflexivity.
  - intros s n I. cbn [In] in I. repeat destruct I as [I|I]; try contradiction; injection I as <- <-; vm_compute; split; reflexivity.
  - intros s n H. assert (I : In (s, n) flow_symbols) by (apply dget_Some_In; exact H).
    vm_compute in I. repeat destruct I as [I|I]; try contradiction; injection I as <- <-; intros E P; vm_compute in E, P |- *;
      first [reflexivity | discriminate P | exfalso; apply E; reflexivity].
  - intros s n H E. assert (I : In (s, n) dimensionful_symbols) by (apply dget_Some_In; exact H).
    vm_compute in I. repeat destruct I as [I|I]; try contradiction; injection I as <- <-; vm_compute in E |- *; first [reflexivity | exfalso; apply E; reflexivity].
  - vm_compute. reflexivity.
Qed.
Print Assumptions c27_flow_names.

(** Subclasses that do not redeclare keep both tables equal. *)
Theorem c27_subclass_tables : forall own inherited, NoDup (dkeys own) -> NoDup (dkeys inherited) ->
  (forall s, In s (dkeys own) -> ~ In s (dkeys inherited)) ->
  forall s, dget (subclass_symbols own inherited) s = dget (subclass_attrs own inherited) s.
Proof.
  intros own inherited N1 N2 D s. unfold subclass_symbols, subclass_attrs. rewrite !fold_dset_get by assumption.
  destruct (dget own s) as [n|] eqn:E, (dget inherited s) as [m|] eqn:F; try reflexivity.
  exfalso. apply (D s); eapply dget_In_keys; eassumption.
Qed.
Print Assumptions c27_subclass_tables.

Example c27_example :
  let ops := [SetAttr "rho" (Some 1); SetItem "u" (Some 2); SetItem "density" (Some 3); SetAttr "rho" None;
              Update [("p", Some 4); ("alpha", Some 7)]; DelAttr "u"] in
  writes flow_symbols (SetItem "density" (Some 3)) "density" 3 /\
  (forall o, In o [SetAttr "rho" None; Update [("p", Some 4); ("alpha", Some 7)]; DelAttr "u"] -> leaves flow_symbols o "density") /\
  frun flow_symbols flow_symbols [] ops = [("density", 3); ("pressure", 4); ("alpha", 7)].
Proof.
  cbn zeta. split; [|split].
  - cbn. split; [left|]; reflexivity.
  - intros o I. cbn in I. destruct I as [<-|[<-|[<-|[]]]]; cbn; [exact Logic.I | | discriminate].
    intros k w [E|[E|[]]]; injection E as <- <-; unfold spells; vm_compute; intros [H|H]; discriminate.
  - vm_compute. reflexivity.
Qed.

(** * C28 *)

(** The field is returned exactly if it can be provided and one of its spellings is asked for; its value is the
    one provided. *)
Theorem c28_fields : forall V symbols, proper_table symbols ->
  forall (u : dict V) (q : dict bool), (forall k, In k (dkeys u) -> dget symbols k = None) -> NoDup (dkeys q) ->
  let fields := fst (solver_get_fields symbols u q) in
  NoDup (dkeys fields) /\
  forall n v, dget symbols n = None ->
    (dget fields n = Some v <-> dget u n = Some v /\ exists k, spells symbols k n /\ asked q k).
Proof.
  intros V symbols T u q K N fields. unfold fields, solver_get_fields.
  set (sel := fold_left (fun d kv => dset d (fst kv) (snd kv)) q default_selection) in *.
  assert (G0 : get_fields symbols u q = fold_left (select_one symbols u) sel ([], q)) by reflexivity.
  destruct (get_fields symbols u q) as [fs rest] eqn:GF. cbn [fst].
  assert (F : fs = fst (fold_left (select_one symbols u) sel ([], q))) by (rewrite <- G0; reflexivity).
  split. { rewrite F. apply NoDup_select. constructor. }
  assert (ND : NoDup (dkeys sel)).
  { apply NoDup_fold_dset. cbn. repeat (constructor; [cbn; intuition discriminate|]). constructor. }
  intros n v NS. rewrite F, select_fields by assumption. cbn [fst dget].
  assert (E : existsb (fun sv => snd sv && String.eqb (canon symbols (fst sv)) n) sel = true
              <-> exists k, spells symbols k n /\ asked q k).
  { rewrite existsb_exists. split.
    - intros ([k b] & I & H). cbn in H. apply andb_true_iff in H. destruct H as [-> H]. apply String.eqb_eq in H.
      exists k. split; [apply canon_spells; assumption|].
      apply NoDup_In_dget in I; [|exact ND]. unfold sel in I. rewrite fold_dset_get in I by exact N. unfold asked.
      destruct (dget q k); [left; exact I | right; split; [reflexivity|]].
      apply dget_In_keys in I. exact I.
    - intros (k & S & A). exists (k, true). split.
      + apply dget_Some_In. unfold sel. rewrite fold_dset_get by exact N. unfold asked in A.
        destruct A as [A|[A I]]; rewrite A; [reflexivity|].
        cbn in I. destruct I as [<-|[<-|[<-|[<-|[]]]]]; reflexivity.
      + cbn. apply String.eqb_eq, canon_spells; assumption. }
  destruct (existsb _ sel).
  - split.
    + intros H. split; [destruct (dget u n); [exact H | discriminate]|]. apply E. reflexivity.
    + intros [-> _]. reflexivity.
  - split; [discriminate|]. intros [_ H]. apply E in H. discriminate.
Qed.
Print Assumptions c28_fields.

(** A requested name is reported exactly if it cannot be provided; nothing that was not mentioned is reported. *)
Theorem c28_reported : forall V symbols, proper_table symbols ->
  forall (u : dict V) (q : dict bool), (forall k, In k (dkeys u) -> dget symbols k = None) -> NoDup (dkeys q) ->
  let reported := snd (solver_get_fields symbols u q) in
  (forall k, In k reported -> In k (dkeys q)) /\
  (forall k, dget q k = Some true -> (In k reported <-> forall n, dget symbols n = None -> spells symbols k n -> dget u n = None)).
Proof.
  intros V symbols T u q K N reported. unfold reported, solver_get_fields.
  set (sel := fold_left (fun d kv => dset d (fst kv) (snd kv)) q default_selection) in *.
  assert (G0 : get_fields symbols u q = fold_left (select_one symbols u) sel ([], q)) by reflexivity.
  destruct (get_fields symbols u q) as [fs rest] eqn:GF. cbn [snd].
  assert (F : rest = snd (fold_left (select_one symbols u) sel ([], q))) by (rewrite <- G0; reflexivity).
  split.
  - intros k I. apply In_keys_dget in I. destruct I as [v G]. rewrite F in G.
    apply select_rest_sub in G; [|exact N]. cbn in G. eapply dget_In_keys. exact G.
  - intros k Q.
    assert (C : dget symbols (canon symbols k) = None).
    { unfold canon. destruct (dget symbols k) as [m|] eqn:E; [apply (T _ _ E) | exact E]. }
    assert (E : (forall n, dget symbols n = None -> spells symbols k n -> dget u n = None) <-> dget u (canon symbols k) = None).
    { split; intros H.
      - apply H; [exact C | apply canon_spells; [exact C | reflexivity]].
      - intros n NS S. apply canon_spells in S; [|exact NS]. subst n. exact H. }
    rewrite E. destruct (dget u (canon symbols k)) as [x|] eqn:U.
    + split; [|discriminate]. intros I. exfalso. apply In_keys_dget in I. destruct I as [v G].
      assert (Z : dget rest k = None).
      { rewrite F. apply select_rest_provided; [exact N | | congruence].
        apply dget_Some_In. unfold sel. rewrite fold_dset_get by exact N. rewrite Q. reflexivity. }
      congruence.
    + split; [reflexivity|]. intros _. eapply dget_In_keys. rewrite F.
      rewrite select_rest_missing by assumption. exact Q.
Qed.
Print Assumptions c28_reported.

(** Without a selection the default fields are returned and nothing is reported. *)
Theorem c28_defaults : forall V (value : string -> V),
  let '(fields, reported) := solver_get_fields flow_symbols (conservative_fields value) [] in
  reported = [] /\ fields = [("density", value "rho"); ("velocity", value "u"); ("pressure", value "p"); ("temperature", value "T")].
Proof. intros V value. vm_compute. split; reflexivity. Qed.
Print Assumptions c28_defaults.

(** The full claim (defaults can be deselected by either spelling and only unknown names are reported) is false:
    deselecting a default by its quantity name keeps it, and deselecting it by its symbol reports it. *)
Theorem c28_deselect_refuted : forall V (value : string -> V),
  solver_get_fields flow_symbols (conservative_fields value) [("density", false)] =
    ([("density", value "rho"); ("velocity", value "u"); ("pressure", value "p"); ("temperature", value "T")], []) /\
  solver_get_fields flow_symbols (conservative_fields value) [("rho", false)] =
    ([("velocity", value "u"); ("pressure", value "p"); ("temperature", value "T")], ["rho"]).
Proof. intros V value. split; vm_compute; reflexivity. Qed.
Print Assumptions c28_deselect_refuted.

(** The selection meets the hypotheses, for every grid function. *)
Example c28_example : forall V (value : string -> V),
  let u := conservative_fields value in
  (forallb (fun k => match dget flow_symbols k with None => true | Some _ => false end) (dkeys u) = true) /\
  solver_get_fields flow_symbols u [("T", false); ("speed_of_sound", true); ("E", true); ("grad_p", true); ("vorticity", true)] =
    ([("density", value "rho"); ("velocity", value "u"); ("pressure", value "p"); ("speed_of_sound", value "c");
      ("pressure_gradient", value "grad_p")], ["T"; "E"; "vorticity"]).
Proof. intros V value. split; vm_compute; reflexivity. Qed.

(** * C54 *)

(** The dimensional state contains exactly the quantities that have a reference value, multiplied by it. *)
Theorem c54_dimensionful : forall V times (ops : list (fop V)) (ref_ops : list (fop V)) n,
  let u := frun flow_symbols flow_symbols [] ops in
  let ref := frun dimensionful_symbols dimensionful_symbols [] ref_ops in
  let state := dimensionful_state flow_symbols times ref u in
  (forall v r, dget u n = Some v -> dget ref n = Some r -> dget state n = Some (times v r)) /\
  (dget u n = None \/ dget ref n = None -> dget state n = None).
Proof.
  intros V times ops ref_ops n u ref state. destruct (c27_canonical_keys V flow_symbols (proj1 c27_tables_proper) ops) as [N K].
  assert (E := dimensionful_get V flow_symbols times ref u n N K). fold state in E. split.
  - intros v r U R. rewrite E, U, R. reflexivity.
  - intros [H|H]; rewrite E, H; [reflexivity|]. destruct (dget u n); reflexivity.
Qed.
Print Assumptions c54_dimensionful.

Example c54_example :
  dimensionful_state flow_symbols Nat.mul
    (frun dimensionful_symbols dimensionful_symbols [] [SetItem "T" (Some 20); SetItem "L" (Some 1); SetItem "p" (Some 5)])
    (frun flow_symbols flow_symbols [] [SetAttr "p" (Some 3); SetAttr "rho_E" (Some 9); SetAttr "T" (Some 2)])
  = [("pressure", 15); ("temperature", 40)].
Proof. vm_compute. reflexivity. Qed.
