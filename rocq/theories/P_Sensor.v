(** C69: sensors measure the regions asked for. *)
From Coq Require Import Reals Lra String List Arith Bool Lia Permutation.
From Verif Require Import Base Dict L_Stream M_Header M_Conditions S_Header S_Conditions L_Header L_Conditions M_Sensor S_Sensor.
From Verif Require P_Context.
Import ListNotations.
Local Open Scope R_scope.
Local Open Scope list_scope.

(** * Lemmas *)

Lemma quadrature_weigh f e : quadrature f e = weigh (e_rule e) f.
Proof. unfold quadrature. induction (e_rule e) as [|[w x] q IH]; cbn; [reflexivity|]. rewrite IH. reflexivity. Qed.

Lemma contains_iff l x : contains l x = true <-> In x l.
Proof.
  unfold contains. rewrite existsb_exists. split.
  - intros (y & I & E). apply String.eqb_eq in E. subst. exact I.
  - intros I. exists x. split; [exact I | apply String.eqb_refl].
Qed.

Lemma sum_over es f (p : element -> bool) names : (forall e, In e es -> (p e = true <-> In (e_name e) names)) ->
  sum_elements f (filter p es) = over es names f.
Proof.
  induction es as [|e es IH]; intros H; [reflexivity|]. cbn [filter over].
  assert (IH' := IH (fun e' I => H e' (or_intror I))). specialize (H e (or_introl eq_refl)).
  destruct (p e) eqn:E; destruct (in_dec string_dec (e_name e) names) as [I|I].
  - cbn. fold (sum_elements f (filter p es)). rewrite IH', quadrature_weigh. reflexivity.
  - exfalso. apply I, H. reflexivity.
  - apply H in I. discriminate.
  - rewrite IH'. lra.
Qed.

Lemma over_same es a b f : (forall e, In e es -> (In (e_name e) a <-> In (e_name e) b)) -> over es a f = over es b f.
Proof.
  induction es as [|e es IH]; intros H; [reflexivity|]. cbn. rewrite IH by (intros e' I; apply H; right; exact I).
  specialize (H e (or_introl eq_refl)).
  destruct (in_dec string_dec (e_name e) a), (in_dec string_dec (e_name e) b); try reflexivity; tauto.
Qed.

Lemma over_nil es f : over es [] f = 0.
Proof. induction es as [|e es IH]; [reflexivity|]. cbn. rewrite IH. lra. Qed.

Lemma over_cons es n names f : ~ In n names -> over es (n :: names) f = over es [n] f + over es names f.
Proof.
  intros N. induction es as [|e es IH]; [cbn; lra|]. cbn [over]. rewrite IH.
  destruct (in_dec string_dec (e_name e) (n :: names)) as [I|I], (in_dec string_dec (e_name e) [n]) as [J|J],
    (in_dec string_dec (e_name e) names) as [K|K]; cbn in I, J; try (exfalso; intuition congruence); lra.
Qed.

Lemma over_all es names f : (forall e, In e es -> In (e_name e) names) -> sum_elements f es = over es names f.
Proof.
  intros H. rewrite <- (sum_over es f (fun _ => true) names).
  - f_equal. induction es as [|e es IH]; [reflexivity|]. cbn. rewrite <- IH; [reflexivity|]. intros e' I. apply H. right. exact I.
  - intros e I. split; [intros _; apply H, I | reflexivity].
Qed.

(** The value that the code computes for a region given by a pattern. *)
Lemma integrate_region stray k m p f :
  integrate m (Some (match k with Domain => Materials | Boundary => Boundaries end p)) (compound stray k f) = over (part k m) (split_bar p) (values k f).
Proof.
  assert (S : forall e, selected p e = true <-> In (e_name e) (split_bar p)) by (intros e; apply (contains_iff (split_bar p))).
  destruct k; cbn [integrate compound on_surface part values]; apply sum_over; intros e _; apply S.
Qed.

Lemma measure_row es (covered : string -> list string) (f : string -> nat -> nat -> R) fs keys :
  concat (map (fun key => measure_at (fun l g i => over es (covered l) (f g i)) fs key) keys) = row_of es covered f (columns keys fs).
Proof.
  pose proof (measure_columns (fun l g i => over es (covered l) (f g i)) keys fs) as H. unfold measure in H. etransitivity; [exact H|reflexivity].
Qed.

Lemma dict_of_diag {V} (g : string -> V) l : forall k v, In (k, v) (dict_of (map (fun d => (d, g d)) l)) -> v = g k.
Proof.
  unfold dict_of.
  assert (A : forall l (d : @dict V), (forall k v, In (k, v) d -> v = g k) -> forall k v, In (k, v) (fold_left (fun d kv => dset d (fst kv) (snd kv)) (map (fun d => (d, g d)) l) d) -> v = g k).
  { intros l0. induction l0 as [|x l0 IH]; intros d D k v I; [apply (D k v I)|]. cbn [map fold_left fst snd] in I. refine (IH _ _ k v I).
    clear - D. intros k v. induction d as [|[k' v'] d IH]; cbn.
    - intros [E|[]]. injection E as <- <-. reflexivity.
    - destruct (String.eqb x k') eqn:E; cbn.
      + apply String.eqb_eq in E. subst. intros [Q|Q]; [injection Q as <- <-; reflexivity | apply D; right; exact Q].
      + intros [Q|Q]; [apply D; left; exact Q|]. apply IH; [|exact Q]. intros k0 v0 I. apply D. right. exact I. }
  intros k v. apply A. intros k0 v0 [].
Qed.

(** The keys of such a dictionary: every name once, in the order of the first mention. *)
Lemma dset_keys {V} (d : @dict V) x v : dkeys (dset d x v) = if in_dec string_dec x (dkeys d) then dkeys d else dkeys d ++ [x].
Proof.
  unfold dkeys. induction d as [|[k' v'] d IH]; [reflexivity|]. cbn [dset].
  destruct (String.eqb x k') eqn:E; cbn [map fst].
  - apply String.eqb_eq in E. subst. destruct (in_dec string_dec k' (k' :: map fst d)) as [I|I]; [reflexivity|]. exfalso. apply I. left. reflexivity.
  - rewrite IH. apply String.eqb_neq in E.
    destruct (in_dec string_dec x (map fst d)) as [I|I], (in_dec string_dec x (k' :: map fst d)) as [J|J]; try reflexivity.
    + exfalso. apply J. right. exact I.
    + exfalso. destruct J as [J|J]; [congruence | exact (I J)].
Qed.

Lemma filter_filter {A} (p q : A -> bool) l : filter p (filter q l) = filter (fun x => q x && p x) l.
Proof. induction l as [|a l IH]; [reflexivity|]. cbn. destruct (q a); cbn; [destruct (p a); rewrite IH; reflexivity | exact IH]. Qed.

Lemma dict_of_keys {V} (g : string -> V) l : dkeys (dict_of (map (fun d => (d, g d)) l)) = first_mentions l.
Proof.
  unfold dict_of.
  assert (A : forall l (d : @dict V), dkeys (fold_left (fun d kv => dset d (fst kv) (snd kv)) (map (fun d => (d, g d)) l) d) =
    dkeys d ++ filter (fun x => if in_dec string_dec x (dkeys d) then false else true) (first_mentions l)).
  { intros l0. induction l0 as [|x l0 IH]; intros d; cbn [map fold_left fst snd first_mentions filter]; [symmetry; apply app_nil_r|].
    rewrite (IH (dset d x (g x))), (dset_keys d x (g x)), filter_filter. destruct (in_dec string_dec x (dkeys d)) as [I|I].
    - f_equal. apply filter_ext. intros y. destruct (string_dec y x) as [->|N]; [|reflexivity]. destruct (in_dec string_dec x (dkeys d)); [reflexivity|contradiction].
    - rewrite <- app_assoc. cbn [app]. do 2 f_equal. apply filter_ext. intros y.
      destruct (in_dec string_dec y (dkeys d ++ [x])) as [J|J], (in_dec string_dec y (dkeys d)) as [K|K], (string_dec y x) as [E|N]; try reflexivity; exfalso.
      all: rewrite in_app_iff in J; cbn [In] in J; intuition congruence. }
  rewrite A. cbn [dkeys map app]. induction (first_mentions l) as [|x r IH]; [reflexivity|]. cbn [filter]. rewrite IH. reflexivity.
Qed.

Lemma first_mentions_in l x : In x (first_mentions l) <-> In x l.
Proof.
  induction l as [|y l IH]; [reflexivity|]. cbn [first_mentions In]. rewrite filter_In, IH.
  destruct (string_dec x y) as [->|N]; [intuition|]. intuition.
Qed.

Lemma first_mentions_nodup l : NoDup (first_mentions l).
Proof.
  induction l as [|y l IH]; [constructor|]. cbn [first_mentions]. constructor.
  - rewrite filter_In. intros [_ E]. destruct (string_dec y y) as [_|N]; [discriminate|apply N; reflexivity].
  - apply NoDup_filter, IH.
Qed.

Lemma split_name k m n : well_named k m -> In n (region_names k m) -> split_bar n = [n].
Proof. intros [_ W] I. apply split_plain, W, I. Qed.

Lemma total_components fs : total_dim fs = components fs.
Proof. unfold total_dim. induction fs as [|[f d] fs IH]; [reflexivity|]. cbn [map fold_right components snd]. rewrite IH. reflexivity. Qed.

Lemma L2_components fs : components (L2_fields fs) = length fs.
Proof. unfold L2_fields. induction fs as [|[f d] fs IH]; [reflexivity|]. cbn. f_equal. exact IH. Qed.

(** The value of every location of an opened sensor, when the location stands for [covered]. *)
Lemma measure_covered stray k m value fs (covered : string -> list string) (ls : dict (option region)) : components fs <> 1%nat -> ls <> [] ->
  (forall key r, In (key, r) ls -> forall f, integrate m r (compound stray k f) = over (part k m) (covered key) (values k f)) ->
  sensor_measure stray k m value fs ls = Ok (row_of (part k m) covered (fun f i => values k (value f i)) (columns (dkeys ls) fs)).
Proof.
  intros C N H. unfold sensor_measure. destruct ls as [|[key r] rest]; [contradiction|]. rewrite total_components, (proj2 (Nat.eqb_neq _ _) C). f_equal. rewrite <- measure_row. f_equal. unfold dkeys. rewrite map_map.
  apply map_ext_in. intros [key' r'] I. cbn [fst snd]. unfold measure_at. apply flat_map_ext. intros g. apply map_ext. intros i. apply H, I.
Qed.

(** * Theorems *)

(** A sequence of names: one location per existing name, each measured over exactly its elements. *)
Theorem c69_sequence : forall k m fs l, fs <> [] -> components fs <> 1%nat -> well_named k m ->
  let found := filter (fun n => if in_dec string_dec n (region_names k m) then true else false) l in
  exists o, open_sensor k m fs (RSeq l) = Ok o /\ dkeys (o_locations o) = first_mentions found /\
    (found <> [] -> forall stray value, sensor_measure stray k m value fs (o_locations o) =
       Ok (row_of (part k m) (fun n => [n]) (fun f i => values k (value f i)) (columns (first_mentions found) fs))).
Proof.
  intros k m fs l N C W found. unfold open_sensor. destruct fs as [|f0 fs0]; [contradiction|]. set (fs := f0 :: fs0) in *.
  set (fregion := match k with Domain => Materials | Boundary => Boundaries end).
  assert (F : filter (contains (region_names k m)) l = found).
  { apply filter_ext. intros n. destruct (in_dec string_dec n (region_names k m)) as [I|I]; [apply contains_iff, I|].
    apply not_true_is_false. intros E. apply I, contains_iff, E. }
  set (ls := dict_of (map (fun d => (d, Some (fregion d))) found)).
  assert (K : dkeys ls = first_mentions found) by apply dict_of_keys.
  exists (mk_opened (RSeq found) ls (filter (fun x => negb (contains found x)) (distinct l))). split; [|split].
  - destruct k; cbn [set_regions]; cbn [region_names] in F; rewrite F; reflexivity.
  - exact K.
  - intros E stray value. cbn [o_locations]. rewrite <- K. apply measure_covered; [exact C| |].
    + intros Z. apply E. rewrite Z in K. destruct found as [|x r]; [reflexivity|discriminate].
    + intros key r I f. assert (R : r = Some (fregion key)) by exact (dict_of_diag (fun d => Some (fregion d)) found key r I). subst r. unfold fregion. rewrite integrate_region.
      assert (I' : In key found). { apply first_mentions_in. rewrite <- K. unfold dkeys. apply in_map_iff. exists (key, Some (fregion key)). split; [reflexivity|exact I]. }
      unfold found in I'. apply filter_In in I'. destruct (in_dec string_dec key (region_names k m)) as [J|J]; [|destruct I'; discriminate].
      rewrite (split_name k m key W J). reflexivity.
Qed.
Print Assumptions c69_sequence.

(** A string: one location, labelled with the existing names, measured over all elements in the regions named. *)
Theorem c69_pattern : forall k m fs s names, fs <> [] -> components fs <> 1%nat -> well_named k m -> names_of (PStr s) names ->
  let found := filter (fun n => if in_dec string_dec n (region_names k m) then true else false) names in
  let label := String.concat "|" found in
  exists o, open_sensor k m fs (RStr s) = Ok o /\ dkeys (o_locations o) = [label] /\ (found <> [] -> names_of (PStr label) found) /\
    (found <> [] -> forall stray value, sensor_measure stray k m value fs (o_locations o) =
       Ok (row_of (part k m) (fun _ => names) (fun f i => values k (value f i)) (columns [label] fs))).
Proof.
  intros k m fs s names N C W E found label. apply names_unique in E. cbn [pattern_names] in E.
  unfold open_sensor. destruct fs as [|f0 fs0]; [contradiction|]. set (fs := f0 :: fs0) in *.
  set (fregion := match k with Domain => Materials | Boundary => Boundaries end).
  assert (F : filter (contains (region_names k m)) (split_bar s) = found).
  { rewrite <- E. apply filter_ext. intros n. destruct (in_dec string_dec n (region_names k m)) as [I|I]; [apply contains_iff, I|].
    apply not_true_is_false. intros E'. apply I, contains_iff, E'. }
  assert (G : forall n, In n found -> In n names /\ In n (region_names k m)).
  { intros n I. unfold found in I. apply filter_In in I. destruct (in_dec string_dec n (region_names k m)) as [J|J]; [tauto|destruct I; discriminate]. }
  exists (mk_opened (RStr label) [(label, Some (fregion label))] (filter (fun x => negb (contains found x)) (distinct (split_bar s)))). split; [|split; [|split]].
  - destruct k; cbn [set_regions]; cbn [region_names] in F; rewrite F; reflexivity.
  - reflexivity.
  - intros H. split; [exact H|]. split; [|reflexivity]. intros n I. apply W, G, I.
  - intros H stray value. cbn [o_locations]. change [label] with (dkeys [(label, Some (fregion label))]). apply measure_covered; [exact C|discriminate|].
    intros key r [I|[]] f. injection I as <- <-. unfold fregion. rewrite integrate_region.
    unfold label. rewrite join_split by (try exact H; intros n I; apply W, G, I).
    apply over_same. intros e I. split; [intros J; apply G, J|]. intros J. unfold found. apply filter_In. split; [exact J|].
    destruct (in_dec string_dec (e_name e) (region_names k m)) as [_|Q]; [reflexivity|]. exfalso. apply Q, W, I.
Qed.
Print Assumptions c69_pattern.

(** A pattern of different existing names measures the sum of what the sensors of the single regions measure. *)
Theorem c69_pattern_sums : forall k m fs s names stray value, fs <> [] -> components fs <> 1%nat -> well_named k m -> names_of (PStr s) names -> NoDup names ->
  (forall n, In n names -> In n (region_names k m)) ->
  exists o row, open_sensor k m fs (RStr s) = Ok o /\ sensor_measure stray k m value fs (o_locations o) = Ok row /\
    exists single : string -> list R,
      (forall n, In n names -> exists o', open_sensor k m fs (RSeq [n]) = Ok o' /\ sensor_measure stray k m value fs (o_locations o') = Ok (single n)) /\
      forall j, nth j row 0 = fold_right (fun n a => nth j (single n) 0 + a) 0 names.
Proof.
  intros k m fs s names stray value N C W E D X.
  destruct (c69_pattern k m fs s names N C W E) as (o & O & K & L & M). cbn zeta in *.
  assert (F : filter (fun n => if in_dec string_dec n (region_names k m) then true else false) names = names).
  { clear - X. induction names as [|n names IH]; [reflexivity|]. cbn [filter]. destruct (in_dec string_dec n (region_names k m)) as [_|Q].
    - rewrite IH by (intros n' I; apply X; right; exact I). reflexivity.
    - exfalso. apply Q, X. left. reflexivity. }
  rewrite F in *. assert (NE : names <> []) by apply E. specialize (M NE stray value).
  exists o. eexists. split; [exact O|]. split; [exact M|].
  exists (fun n => row_of (part k m) (fun n => [n]) (fun f i => values k (value f i)) (columns [n] fs)). split.
  - intros n I. destruct (c69_sequence k m fs [n] N C W) as (o' & O' & K' & M'). cbn zeta in *. exists o'. split; [exact O'|].
    cbn [filter] in M'. destruct (in_dec string_dec n (region_names k m)) as [_|Q]; [|exfalso; apply Q, X, I].
    apply (M' ltac:(discriminate)).
  - intros j. unfold row_of, columns. cbn [flat_map]. rewrite app_nil_r.
    set (g := fun c : column string => over (part k m) names (values k (value (col_field c) (col_index c)))).
    set (h := fun c : column string => over (part k m) [col_loc c] (values k (value (col_field c) (col_index c)))).
    set (cols := fun l : string => flat_map (fun f : string * list nat => map (fun i => mk_column l (fst f) (snd f) i) (seq 0 (fold_right Nat.mul 1%nat (snd f)))) fs).
    set (label := String.concat "|" names).
    assert (Z : forall n, map h (cols n) = map (fun c => over (part k m) [n] (values k (value (col_field c) (col_index c)))) (cols label)).
    { intros n. unfold cols. rewrite !map_flat_map. apply flat_map_ext. intros f. rewrite !map_map. reflexivity. }
    assert (Y : nth j (map g (cols label)) 0 = fold_right (fun n a => nth j (map (fun c => over (part k m) [n] (values k (value (col_field c) (col_index c)))) (cols label)) 0 + a) 0 names).
    { clear - D. unfold g. generalize (cols label) as cs. clear label cols g. intros cs. revert j. induction cs as [|c cs IH]; intros j.
      - destruct j; cbn [map nth]; clear D; induction names as [|n names IHn]; cbn; lra.
      - destruct j as [|j]; cbn [map nth]; [|apply IH]. clear IH. induction names as [|n names IHn]; cbn [fold_right]; [apply over_nil|].
        inversion D as [|? ? A B]; subst. rewrite (over_cons _ n names _ A), (IHn B). reflexivity. }
    change (nth j (map g (cols label)) 0 = fold_right (fun n a => nth j (map h (cols n ++ [])) 0 + a) 0 names). rewrite Y.
    clear - Z. clearbody label. induction names as [|n names IH]; [reflexivity|]. cbn [fold_right]. rewrite IH, app_nil_r, Z. reflexivity.
Qed.
Print Assumptions c69_pattern_sums.

(** A domain sensor without regions measures the whole domain and says so. *)
Theorem c69_whole_domain : forall m fs stray value, fs <> [] -> components fs <> 1%nat -> well_named Domain m ->
  exists o, open_sensor Domain m fs RNone = Ok o /\
    sensor_measure stray Domain m value fs (o_locations o) =
      Ok (row_of (volume m) (fun _ => materials m) (fun f i => in_volume (value f i)) (columns [String.concat "|" (materials m)] fs)).
Proof.
  intros m fs stray value N C W. unfold open_sensor. destruct fs as [|f0 fs0]; [contradiction|]. set (fs := f0 :: fs0) in *.
  exists (mk_opened RNone [(String.concat "|" (materials m), None)] []). split; [reflexivity|]. cbn [o_locations].
  change [String.concat "|" (materials m)] with (dkeys [(String.concat "|" (materials m), @None region)]).
  apply (measure_covered stray Domain m value fs (fun _ => materials m)); [exact C|discriminate|].
  intros key r [I|[]] f. injection I as <- <-. cbn [integrate compound part values]. apply over_all. apply W.
Qed.
Print Assumptions c69_whole_domain.

(** A boundary sensor without regions does not measure the boundary: whatever the values at the boundary, it reports the
    same numbers under a label that names all boundaries; so for some field the integral over the boundary is another. *)
Theorem c69_whole_boundary_refuted : forall stray, (forall f g, (forall x, in_volume f x = in_volume g x) -> forall x, stray f x = stray g x) ->
  (forall m fs value value' o, open_sensor Boundary m fs RNone = Ok o ->
     dkeys (o_locations o) = [String.concat "|" (boundaries m)] /\
     ((forall f i x, in_volume (value f i) x = in_volume (value' f i) x) ->
      sensor_measure stray Boundary m value fs (o_locations o) = sensor_measure stray Boundary m value' fs (o_locations o))) /\
  (forall m f i w x, surface m = [mk_element f [(w, x)]] -> boundaries m = [f] -> w <> 0 ->
     exists value o row, open_sensor Boundary m [(i, [2%nat])] RNone = Ok o /\ sensor_measure stray Boundary m value [(i, [2%nat])] (o_locations o) = Ok row /\
       row <> [over (surface m) (boundaries m) (on_surface (value i 0%nat)); over (surface m) (boundaries m) (on_surface (value i 1%nat))]).
Proof.
  intros stray S.
  assert (Q : forall f g q, (forall x, f x = g x) -> weigh q f = weigh q g).
  { intros f g q H. induction q as [|[w x] q IH]; [reflexivity|]. cbn. rewrite H, IH. reflexivity. }
  assert (T : forall f g es, (forall x, f x = g x) -> sum_elements f es = sum_elements g es).
  { intros f g es H. unfold sum_elements in *. induction es as [|e es IH]; [reflexivity|]. cbn [fold_right]. rewrite IH, !quadrature_weigh, (Q f g _ H). reflexivity. }
  split.
  - intros m fs value value' o O. unfold open_sensor in O. destruct fs as [|f0 fs0]; [discriminate|]. set (fs := f0 :: fs0) in *.
    cbn [set_regions] in O. injection O as <-. cbn [o_locations]. split; [reflexivity|]. intros H. cbn [sensor_measure map concat]. destruct (total_dim fs =? 1)%nat; [reflexivity|]. f_equal. f_equal.
    unfold measure_at. apply flat_map_ext. intros g. apply map_ext. intros i. cbn [integrate snd compound in_volume]. apply T. apply S. apply H.
  - intros m f i w x E B W. set (v0 := mk_field (fun _ => 0) (fun _ => 0)).
    set (a := sum_elements (stray v0) (volume m)). set (v := mk_field (fun _ => 0) (fun _ => (a + 1) / w)).
    exists (fun _ _ => v). eexists. eexists. split; [reflexivity|]. split; [reflexivity|]. cbn [o_locations map concat snd integrate compound in_volume fst shape_dim fold_right seq flat_map app measure_at].
    rewrite E, B. cbn [over e_name e_rule weigh]. destruct (in_dec string_dec f [f]) as [_|Z]; [|exfalso; apply Z; left; reflexivity].
    intros H. unfold measure_at in H. cbn [flat_map map seq shape_dim snd fold_right app] in H. assert (H' : sum_elements (stray v) (volume m) = w * on_surface v x + 0 + 0) by (injection H; intros; assumption).
    rewrite (T (stray v) (stray v0) (volume m)) in H' by (apply S; reflexivity). fold a in H'. unfold v in H'. cbn [on_surface] in H'.
    assert (K : w * ((a + 1) / w) = a + 1) by (field; exact W). lra.
Qed.
Print Assumptions c69_whole_boundary_refuted.

(** Warnings: exactly the names that were given and do not exist, each once. *)
Theorem c69_warnings : forall k m fs v o names, open_sensor k m fs v = Ok o ->
  match v with RNone => names = [] | RStr s => names_of (PStr s) names | RSeq l => names = l | ROther => False end ->
  NoDup (o_missing o) /\ forall n, In n (o_missing o) <-> In n names /\ ~ In n (region_names k m).
Proof.
  intros k m fs v o names O V. unfold open_sensor in O. destruct fs as [|f0 fs0]; [discriminate|].
  assert (A : forall ex l, let found := filter (contains ex) l in let miss := filter (fun x => negb (contains found x)) (distinct l) in
    NoDup miss /\ forall n, In n miss <-> In n l /\ ~ In n ex).
  { intros ex l found miss. split; [apply NoDup_filter, NoDup_nodup|]. intros n. unfold miss, distinct. rewrite filter_In, nodup_In, negb_true_iff.
    rewrite <- not_true_iff_false, contains_iff. unfold found. rewrite filter_In, contains_iff. tauto. }
  assert (G : exists fregion, set_regions v (region_names k m) fregion = Ok o) by (destruct k; eexists; exact O). clear O. destruct G as [fregion O].
  destruct v as [|s|l|]; cbn [set_regions] in O; [| | |discriminate]; injection O as <-; cbn [o_missing].
  - subst. split; [constructor|]. intros n. cbn. tauto.
  - apply names_unique in V. cbn in V. subst names. apply A.
  - subst names. apply A.
Qed.
Print Assumptions c69_warnings.

(** What can be opened: any sensor with fields whose regions are given as nothing, a string or a sequence. *)
Theorem c69_opens : forall k m fs v, (exists o, open_sensor k m fs v = Ok o) <-> fs <> [] /\ v <> ROther.
Proof.
  intros k m fs v. unfold open_sensor. destruct fs as [|f fs]; [split; [intros [o H]; discriminate|intros [H _]; contradiction]|].
  split.
  - intros [o H]. split; [discriminate|]. intros ->. destruct k; discriminate.
  - intros [_ H]. destruct v; [destruct k; eexists; reflexivity| destruct k; eexists; reflexivity | destruct k; eexists; reflexivity|contradiction].
Qed.
Print Assumptions c69_opens.

(** When none of the names exists, the sensor is opened and its header is accepted, but the first measurement raises if
    the names were a sequence, and yields zeros under an empty label if they were a string. *)
Theorem c69_no_region_refuted : forall k m fs v names, fs <> [] -> components fs <> 1%nat -> well_named k m -> ~ In ""%string (region_names k m) ->
  match v with RStr s => names_of (PStr s) names | RSeq l => names = l | _ => False end ->
  (forall n, In n names -> ~ In n (region_names k m)) ->
  exists o, open_sensor k m fs v = Ok o /\
    (forall stationary, Forall (fun f => nameable (snd f)) fs -> exists h, stream_header get_components_name stationary (dkeys (o_locations o)) fs = Ok h) /\
    forall stray value, match v with
      | RSeq _ => sensor_measure stray k m value fs (o_locations o) = Err ValueError
      | _ => sensor_measure stray k m value fs (o_locations o) = Ok (map (fun _ => 0) (columns [""%string] fs))
      end.
Proof.
  intros k m fs v names N C1 W NE V X.
  assert (H : exists o, open_sensor k m fs v = Ok o) by (apply c69_opens; split; [exact N|]; intros ->; exact V). destruct H as [o O].
  exists o. split; [exact O|]. split.
  - intros st F. eexists. apply (stream_header_aligned _ component_label). eapply Forall_impl; [|exact F]. intros f. apply names_nameable.
  - intros stray value. destruct v as [|s|l|]; try contradiction.
    + apply names_unique in V. cbn in V. unfold open_sensor in O. destruct fs as [|f0 fs0]; [contradiction|]. set (fs := f0 :: fs0) in *.
      assert (F : filter (contains (region_names k m)) (split_bar s) = []).
      { rewrite <- V. clear - X. induction names as [|n names IH]; [reflexivity|]. cbn [filter]. destruct (contains (region_names k m) n) eqn:C.
        - apply contains_iff in C. exfalso. apply (X n); [left; reflexivity|exact C].
        - apply IH. intros n' I. apply X. right. exact I. }
      set (fregion := match k with Domain => Materials | Boundary => Boundaries end).
      assert (L : o_locations o = [(""%string, Some (fregion ""%string))]).
      { destruct k; cbn [set_regions region_names] in O, F; rewrite F in O; injection O as <-; reflexivity. }
      rewrite L, (measure_covered stray k m value fs (fun _ => [""%string])).
      * f_equal. unfold row_of. apply map_ext. intros c. rewrite (over_same _ [""%string] []); [apply over_nil|]. intros e I. cbn.
        split; [|tauto]. intros [E|[]]. apply NE. rewrite E. apply W, I.
      * exact C1.
      * discriminate.
      * intros key r [I|[]] f. injection I as <- <-. unfold fregion. apply integrate_region.
    + subst names. unfold open_sensor in O. destruct fs as [|f0 fs0]; [contradiction|]. set (fs := f0 :: fs0) in *.
      assert (F : filter (contains (region_names k m)) l = []).
      { clear - X. induction l as [|n names IH]; [reflexivity|]. cbn [filter]. destruct (contains (region_names k m) n) eqn:C.
        - apply contains_iff in C. exfalso. apply (X n); [left; reflexivity|exact C].
        - apply IH. intros n' I. apply X. right. exact I. }
      assert (L : o_locations o = []) by (destruct k; cbn [set_regions region_names] in O, F; rewrite F in O; injection O as <-; reflexivity).
      rewrite L. reflexivity.
Qed.
Print Assumptions c69_no_region_refuted.

(** A domain or boundary sensor of a single component, and an L2 sensor of a single field, opens with a header and then
    can never be measured. *)
Theorem c69_single_refuted : forall k m fs v o, open_sensor k m fs v = Ok o ->
  (components fs = 1%nat ->
    (forall stationary, Forall (fun f => nameable (snd f)) fs -> exists h, stream_header get_components_name stationary (dkeys (o_locations o)) fs = Ok h) /\
    forall stray value, sensor_measure stray k m value fs (o_locations o) = Err ValueError) /\
  (length fs = 1%nat ->
    (forall stationary, exists h, stream_header get_components_name_L2 stationary (dkeys (o_locations o)) (L2_fields fs) = Ok h) /\
    forall stray value, L2_measure stray k m value fs (o_locations o) = Err ValueError).
Proof.
  assert (A : forall k m fs ls stray value, components fs = 1%nat -> sensor_measure stray k m value fs ls = Err ValueError).
  { intros k m fs ls stray value C. unfold sensor_measure. rewrite total_components, C. destruct ls; reflexivity. }
  intros k m fs v o _. split; intros C; split.
  - intros st F. eexists. apply (stream_header_aligned _ component_label). eapply Forall_impl; [|exact F]. intros f. apply names_nameable.
  - intros stray value. apply A, C.
  - intros st. eexists. apply (P_Context.c16_L2_header_aligned (fun _ _ _ => tt) st (dkeys (o_locations o)) fs).
  - intros stray value. unfold L2_measure. rewrite A; [reflexivity|]. rewrite L2_components. exact C.
Qed.
Print Assumptions c69_single_refuted.

(** Opening a sensor again finds the same regions and warns about none. *)
Theorem c69_reopen : forall k m fs v o, well_named k m -> ~ In ""%string (region_names k m) -> open_sensor k m fs v = Ok o ->
  exists o', open_sensor k m fs (o_regions o) = Ok o' /\ o_regions o' = o_regions o /\ o_locations o' = o_locations o /\
    forall n, In n (o_missing o') -> n = ""%string.
Proof.
  intros k m fs v o W NE O.
  assert (FF : forall ex l, filter (contains ex) (filter (contains ex) l) = filter (contains ex) l).
  { intros ex l. rewrite filter_filter. apply filter_ext. intros x. destruct (contains ex x); reflexivity. }
  assert (MM : forall l n, In n (filter (fun x => negb (contains l x)) (distinct l)) -> False).
  { intros l n I. apply filter_In in I. destruct I as [I C]. apply nodup_In in I. apply contains_iff in I. rewrite I in C. discriminate. }
  unfold open_sensor in *. destruct fs as [|f0 fs0]; [discriminate|].
  assert (G : exists fregion, set_regions v (region_names k m) fregion = Ok o /\
    forall v' o', set_regions v' (region_names k m) fregion = Ok o' ->
      match k with Domain => set_regions v' (materials m) Materials | Boundary => set_regions v' (boundaries m) Boundaries end = Ok o').
  { destruct k; eexists; split; [exact O|intros v' o' H; exact H|exact O|intros v' o' H; exact H]. }
  destruct G as (fregion & O' & G). clear O.
  destruct v as [|s|l|]; cbn [set_regions] in O'; [| | |discriminate]; injection O' as <-; cbn [o_regions o_locations].
  - eexists. split; [apply G; reflexivity|]. cbn. repeat split. intros n [].
  - set (found := filter (contains (region_names k m)) (split_bar s)). eexists. split; [apply G; reflexivity|]. cbn [o_regions o_locations o_missing].
    destruct found as [|x r] eqn:E.
    + change (join_bar []) with ""%string. change (split_bar "") with [""%string].
      assert (C : contains (region_names k m) ""%string = false) by (apply not_true_is_false; intros C; apply NE, contains_iff, C).
      cbn [filter]. rewrite C. repeat split. intros n. cbn. intros [<-|[]]. reflexivity.
    + assert (J : split_bar (join_bar (x :: r)) = x :: r).
      { apply join_split; [discriminate|]. intros n I. rewrite <- E in I. unfold found in I. apply filter_In in I. apply W, contains_iff, I. }
      assert (F : filter (contains (region_names k m)) (x :: r) = x :: r) by (rewrite <- E; apply FF).
      rewrite J, F. repeat split. intros n I. destruct (MM _ _ I).
  - eexists. split; [apply G; reflexivity|]. cbn [o_regions o_locations o_missing]. rewrite FF. repeat split. intros n I. destruct (MM _ _ I).
Qed.
Print Assumptions c69_reopen.

(** * L2 sensors *)

Lemma inner_squares_at (f : nat -> nat -> R) n x : fold_right (fun i s => f i x * f i x + s) 0 (seq 0 n) = squares f n x.
Proof.
  induction n as [|n IH]; [reflexivity|]. rewrite seq_S, fold_right_app. cbn [fold_right squares Nat.add].
  rewrite <- IH. generalize (seq 0 n) as l. intros l. clear IH. induction l as [|i l IHl]; cbn [fold_right]; [ring|]. rewrite IHl. ring.
Qed.

Lemma weigh_ext q f g : (forall x, f x = g x) -> weigh q f = weigh q g.
Proof. intros H. induction q as [|[w x] q IH]; [reflexivity|]. cbn. rewrite H, IH. reflexivity. Qed.

Lemma over_ext es names f g : (forall x, f x = g x) -> over es names f = over es names g.
Proof. intros H. induction es as [|e es IH]; [reflexivity|]. cbn. rewrite IH, (weigh_ext _ f g H). reflexivity. Qed.

Lemma dget_nodup {V} (d : @dict V) k v : NoDup (map fst d) -> In (k, v) d -> dget d k = Some v.
Proof.
  induction d as [|[k' v'] d IH]; intros N I; [contradiction|]. cbn in *. inversion N as [|? ? A B]; subst. destruct I as [E|I].
  - injection E as -> ->. rewrite String.eqb_refl. reflexivity.
  - destruct (String.eqb k k') eqn:E; [|apply IH; assumption]. apply String.eqb_eq in E. subst. exfalso. apply A. apply in_map_iff. exists (k', v). split; [reflexivity|exact I].
Qed.

(** An L2 sensor reports, for every location and field, the L2 norm of the field over the regions of the location. *)
Lemma L2_covered stray k m value fs (covered : string -> list string) (ls : dict (option region)) : length fs <> 1%nat -> ls <> [] -> NoDup (map fst fs) ->
  (forall key r, In (key, r) ls -> forall f, integrate m r (compound stray k f) = over (part k m) (covered key) (values k f)) ->
  L2_measure stray k m value fs ls =
    Ok (flat_map (fun l => map (fun fd => norm (part k m) (covered l) (fun i => values k (value (fst fd) i)) (fold_right Nat.mul 1%nat (snd fd))) fs) (dkeys ls)).
Proof.
  intros C N D H. unfold L2_measure. rewrite (measure_covered stray k m (L2_value value fs) (L2_fields fs) covered ls ltac:(rewrite L2_components; exact C) N H). cbn [bind]. f_equal.
  unfold row_of, columns. rewrite map_map, map_flat_map. apply flat_map_ext. intros l. unfold L2_fields.
  assert (A : forall gs, (forall g, In g gs -> In g fs) ->
    map (fun c => sqrt (over (part k m) (covered (col_loc c)) (values k (L2_value value fs (col_field c) (col_index c)))))
      (flat_map (fun f : string * list nat => map (fun i => mk_column l (fst f) (snd f) i) (seq 0 (fold_right Nat.mul 1%nat (snd f)))) (map (fun f : string * shape => (fst f, [])) gs)) =
    map (fun fd => norm (part k m) (covered l) (fun i => values k (value (fst fd) i)) (fold_right Nat.mul 1%nat (snd fd))) gs).
  { intros gs. induction gs as [|g gs IH]; intros G; [reflexivity|]. cbn [map flat_map fst snd fold_right seq app col_loc col_field col_index].
    rewrite IH by (intros g' I; apply G; right; exact I). f_equal. unfold norm. f_equal. unfold L2_value.
    destruct g as [gn gd]. cbn [fst snd]. rewrite (dget_nodup fs gn gd D (G _ (or_introl eq_refl))). apply over_ext. intros x. cbn [fst snd].
    rewrite <- inner_squares_at. destruct k; reflexivity. }
  apply A. intros g I. exact I.
Qed.

Theorem c69_l2 : forall k m fs v names o stray value, fs <> [] -> length fs <> 1%nat -> well_named k m -> NoDup (map fst fs) -> open_sensor k m fs v = Ok o ->
  match v with RStr s => names_of (PStr s) names | RSeq l => names = l | _ => False end ->
  (exists n, In n names /\ In n (region_names k m)) ->
  L2_measure stray k m value fs (o_locations o) =
    Ok (flat_map (fun l => map (fun fd => norm (part k m) (match v with RSeq _ => [l] | _ => names end)
                                            (fun i => values k (value (fst fd) i)) (fold_right Nat.mul 1%nat (snd fd))) fs) (dkeys (o_locations o))).
Proof.
  intros k m fs v names o stray value N C W D O V (n & I & J).
  apply (L2_covered stray k m value fs (fun l => match v with RSeq _ => [l] | _ => names end)); [exact C| |exact D|].
  - unfold open_sensor in O. destruct fs as [|f0 fs0]; [discriminate|]. destruct v as [|s|l|]; try contradiction.
    + destruct k; cbn [set_regions] in O; injection O as <-; discriminate.
    + subst l. set (fregion := match k with Domain => Materials | Boundary => Boundaries end). set (found := filter (contains (region_names k m)) names).
      assert (E : o_locations o = dict_of (map (fun d => (d, Some (fregion d))) found)) by (destruct k; cbn [set_regions] in O; injection O as <-; reflexivity).
      assert (X : In n (dkeys (o_locations o))) by (rewrite E, (dict_of_keys (fun d => Some (fregion d))); apply first_mentions_in, filter_In; split; [exact I|apply contains_iff; exact J]).
      intros Z. rewrite Z in X. exact X.
  - intros key r K f. unfold open_sensor in O. destruct fs as [|f0 fs0]; [discriminate|]. set (fregion := match k with Domain => Materials | Boundary => Boundaries end).
    destruct v as [|s|l|]; try contradiction.
    + apply names_unique in V. cbn in V. subst names. set (found := filter (contains (region_names k m)) (split_bar s)).
      assert (E : o_locations o = [(join_bar found, Some (fregion (join_bar found)))]) by (destruct k; cbn [set_regions] in O; injection O as <-; reflexivity).
      rewrite E in K. destruct K as [K|[]]. injection K as <- <-. unfold fregion. rewrite integrate_region.
      assert (G : forall x, In x found <-> In x (split_bar s) /\ In x (region_names k m)) by (intros x; unfold found; rewrite filter_In, contains_iff; reflexivity).
      rewrite join_split; [| |].
      * apply over_same. intros e Ie. rewrite G. split; [tauto|]. intros Q. split; [exact Q|apply W, Ie].
      * intros Z. assert (Y : In n found) by (apply G; tauto). rewrite Z in Y. exact Y.
      * intros x Ix. apply W, G, Ix.
    + subst l. set (found := filter (contains (region_names k m)) names).
      assert (E : o_locations o = dict_of (map (fun d => (d, Some (fregion d))) found)) by (destruct k; cbn [set_regions] in O; injection O as <-; reflexivity).
      rewrite E in K. assert (R : r = Some (fregion key)) by exact (dict_of_diag (fun d => Some (fregion d)) found key r K). subst r. unfold fregion. rewrite integrate_region.
      assert (Ik : In key found). { apply first_mentions_in. rewrite <- (dict_of_keys (fun d => Some (fregion d))). unfold dkeys. apply in_map_iff. exists (key, Some (fregion key)). split; [reflexivity|exact K]. }
      unfold found in Ik. apply filter_In in Ik. rewrite (split_name k m key W) by (apply contains_iff, Ik). reflexivity.
Qed.
Print Assumptions c69_l2.

Definition product (es : list element) (names : list string) (n : nat) (f g : nat -> nat -> R) : R := over es names (fun x => fold_right (fun i s => f i x * g i x + s) 0 (seq 0 n)).

Lemma over_plus es names f g : over es names (fun x => f x + g x) = over es names f + over es names g.
Proof.
  assert (A : forall q, weigh q (fun x => f x + g x) = weigh q f + weigh q g) by (induction q as [|[w x] q IH]; cbn; [lra|rewrite IH; ring]).
  induction es as [|e es' IH]; cbn; [lra|]. rewrite IH, A. destruct (in_dec string_dec (e_name e) names); ring.
Qed.
Lemma over_scale es names c f : over es names (fun x => c * f x) = c * over es names f.
Proof.
  assert (A : forall q, weigh q (fun x => c * f x) = c * weigh q f) by (induction q as [|[w x] q IH]; cbn; [ring|rewrite IH; ring]).
  induction es as [|e es' IH]; cbn; [ring|]. rewrite IH, A. destruct (in_dec string_dec (e_name e) names); ring.
Qed.

Lemma product_squares es names n f : product es names n f f = over es names (squares f n).
Proof. apply over_ext. intros x. apply inner_squares_at. Qed.

Lemma product_step es names n t f g : product es names n (fun i x => f i x + t * g i x) (fun i x => f i x + t * g i x) =
  product es names n f f + 2 * t * product es names n f g + t * t * product es names n g g.
Proof.
  unfold product. rewrite <- !over_scale, <- !over_plus. apply over_ext. intros x. generalize (seq 0 n) as l. induction l as [|i l IH]; cbn; [ring|]. rewrite IH. ring.
Qed.

Lemma squares_pos f n x : 0 <= squares f n x.
Proof. induction n as [|n IH]; cbn [squares]; [lra|]. pose proof (pow2_ge_0 (f n x)). lra. Qed.

Lemma squares_zero f n x : squares f n x = 0 <-> forall i, (i < n)%nat -> f i x = 0.
Proof.
  induction n as [|n IH]; cbn [squares]; [split; [intros _ i H; lia|reflexivity]|].
  pose proof (pow2_ge_0 (f n x)). pose proof (squares_pos f n x). split.
  - intros H1 i L. assert (A : squares f n x = 0) by lra. assert (B : f n x ^ 2 = 0) by lra.
    destruct (Nat.eq_dec i n) as [->|D]; [apply Rsqr_0_uniq; unfold Rsqr; lra|]. apply IH; [exact A|lia].
  - intros H1. rewrite (proj2 IH) by (intros i L; apply H1; lia). rewrite (H1 n) by lia. ring.
Qed.

Lemma weigh_pos q f : (forall w x, In (w, x) q -> 0 < w) -> (forall x, 0 <= f x) ->
  0 <= weigh q f /\ (weigh q f = 0 <-> forall w x, In (w, x) q -> f x = 0).
Proof.
  intros Q F. revert Q. induction q as [|[w x] q IH]; intros Q; cbn [weigh].
  - split; [lra|]. split; [intros _ w x []|reflexivity].
  - destruct IH as [IH1 IH2]; [intros w' x' I; apply (Q w' x'); right; exact I|]. assert (W : 0 < w) by (apply (Q w x); left; reflexivity). pose proof (F x) as Fx. pose proof (Rmult_le_pos w (f x) ltac:(lra) Fx) as P. split; [lra|]. split.
    + intros H w' x' [E|I]; [|apply IH2 with w'; [lra|exact I]]. injection E as <- <-. assert (Z : w * f x = 0) by lra. apply Rmult_integral in Z. destruct Z; lra.
    + intros H. rewrite (H w x) by (left; reflexivity). rewrite (proj2 IH2) by (intros w' x' I; apply (H w' x'); right; exact I). ring.
Qed.

Lemma over_pos es names f : positive es -> (forall x, 0 <= f x) -> 0 <= over es names f /\ (over es names f = 0 <-> forall x, point_of es names x -> f x = 0).
Proof.
  intros P F. revert P. induction es as [|e es IH]; intros P; cbn [over].
  - split; [lra|]. split; [intros _ x (e & w & [] & _)|reflexivity].
  - destruct IH as [IH1 IH2]; [intros e' w x I; apply (P e' w x); right; exact I|]. destruct (weigh_pos (e_rule e) f (fun w x I => P e w x (or_introl eq_refl) I) F) as [A B]. destruct (in_dec string_dec (e_name e) names) as [J|J].
    + split; [lra|]. split.
      * intros H x (e' & w & [<-|I] & N & Ix); [apply (proj1 B ltac:(lra) w x Ix)|]. apply (proj1 IH2 ltac:(lra)). exists e', w. auto.
      * intros H. rewrite (proj2 B) by (intros w x Ix; apply H; exists e, w; cbn; auto). rewrite (proj2 IH2); [ring|]. intros x (e' & w & I & N & Ix). apply H. exists e', w. cbn. auto.
    + split; [lra|]. rewrite Rplus_0_l, IH2. split; intros H x (e' & w & I & N & Ix); apply H.
      * destruct I as [<-|I]; [contradiction|]. exists e', w. auto.
      * exists e', w. cbn. auto.
Qed.

Lemma cauchy_schwarz a b c : (forall t, 0 <= a + 2 * t * b + t * t * c) -> 0 <= c -> b * b <= a * c.
Proof.
  intros H C. destruct (Req_dec c 0) as [->|N].
  - destruct (Req_dec b 0) as [->|B]; [lra|]. specialize (H (- (a + 1) / (2 * b))). replace (2 * (- (a + 1) / (2 * b)) * b) with (- (a + 1)) in H by (field; exact B). lra.
  - specialize (H (- b / c)). replace (a + 2 * (- b / c) * b + - b / c * (- b / c) * c) with ((a * c - b * b) / c) in H by (field; exact N).
    assert (Cp : 0 < c) by lra. apply (Rmult_le_compat_r c) in H; [|lra]. unfold Rdiv in H. rewrite Rmult_assoc, Rinv_l in H by exact N. lra.
Qed.

(** What L2 sensors report is a norm that grows with the regions (all weights are positive). *)
Theorem c69_l2_norm : forall es names n f g c, positive es ->
  0 <= norm es names f n /\
  (norm es names f n = 0 <-> forall i x, (i < n)%nat -> point_of es names x -> f i x = 0) /\
  norm es names (fun i x => c * f i x) n = Rabs c * norm es names f n /\
  norm es names (fun i x => f i x + g i x) n <= norm es names f n + norm es names g n /\
  (forall names', (forall m, In m names -> In m names') -> norm es names f n <= norm es names' f n).
Proof.
  intros es names n f g c P. unfold norm.
  destruct (over_pos es names (squares f n) P (squares_pos f n)) as [A B]. destruct (over_pos es names (squares g n) P (squares_pos g n)) as [A' _].
  split; [apply sqrt_pos|]. split; [|split; [|split]].
  - split.
    + intros H i x I Q. apply sqrt_eq_0 in H; [|exact A]. apply (proj1 (squares_zero f n x)); [|exact I]. apply (proj1 B H x Q).
    + intros H. rewrite (proj2 B); [apply sqrt_0|]. intros x Q. apply squares_zero. intros i I. apply (H i x I Q).
  - rewrite (over_ext es names _ (fun x => (c * c) * squares f n x)).
    + rewrite over_scale. rewrite sqrt_mult; [|apply Rle_0_sqr|exact A]. f_equal. apply sqrt_Rsqr_abs.
    + intros x. induction n as [|k IH]; cbn [squares]; [ring|]. assert (IH' : squares (fun i y => c * f i y) k x = c * c * squares f k x) by (clear; induction k as [|k IH]; cbn [squares]; [ring|rewrite IH; ring]). rewrite IH'. ring.
  - rewrite <- !product_squares. rewrite <- !product_squares in A, A'.
    set (a := product es names n f f) in *. set (b := product es names n f g). set (d := product es names n g g) in *.
    assert (E : product es names n (fun i x => f i x + g i x) (fun i x => f i x + g i x) = a + 2 * b + d).
    { transitivity (product es names n (fun i x => f i x + 1 * g i x) (fun i x => f i x + 1 * g i x)).
      - unfold product. apply over_ext. intros x. generalize (seq 0 n) as l. induction l as [|i l IH]; cbn; [reflexivity|]. rewrite IH. ring.
      - rewrite product_step. fold a b d. ring. }
    rewrite E. assert (CS : b * b <= a * d).
    { apply cauchy_schwarz; [|exact A']. intros t. unfold a, b, d. rewrite <- product_step, product_squares. apply over_pos; [exact P|apply squares_pos]. }
    assert (Z : 0 <= a + 2 * b + d).
    { rewrite <- E, product_squares. apply over_pos; [exact P|apply squares_pos]. }
    assert (BS : b <= sqrt a * sqrt d).
    { rewrite <- sqrt_mult by assumption. destruct (Rle_dec b 0) as [L|L]; [apply Rle_trans with 0; [exact L|apply sqrt_pos]|].
      rewrite <- (sqrt_square b) by lra. apply sqrt_le_1_alt. exact CS. }
    pose proof (sqrt_pos a) as Sa. pose proof (sqrt_pos d) as Sd.
    rewrite <- (sqrt_square (sqrt a + sqrt d)) by lra. apply sqrt_le_1_alt.
    replace ((sqrt a + sqrt d) * (sqrt a + sqrt d)) with (sqrt a * sqrt a + 2 * (sqrt a * sqrt d) + sqrt d * sqrt d) by ring. rewrite !sqrt_sqrt by assumption. lra.
  - intros names' S. apply sqrt_le_1_alt. clear - P S. induction es as [|e es IH]; cbn [over]; [lra|].
    assert (IH' := IH (fun e' w x I => P e' w x (or_intror I))).
    destruct (weigh_pos (e_rule e) (squares f n) (fun w x I => P e w x (or_introl eq_refl) I) (squares_pos f n)) as [W _].
    destruct (in_dec string_dec (e_name e) names) as [I|I], (in_dec string_dec (e_name e) names') as [J|J]; try lra. exfalso. apply J, S, I.
Qed.
Print Assumptions c69_l2_norm.

(** * Point sensors *)

(** A point sensor given a boundary measures every vertex of the boundary once; given points, exactly these.  Opening it
    again changes nothing, so the order of the columns stays. *)
Theorem c69_points : forall {P} (P_dec : forall a b : P, {a = b} + {a <> b}) shuffle bnd v,
  (forall l, Permutation l (shuffle l)) ->
  exists ps, open_points P_dec shuffle bnd v = PPoints ps /\ open_points P_dec shuffle bnd (PPoints ps) = PPoints ps /\
    match v with
    | PBoundary s => forall names, names_of (PStr s) names ->
        NoDup ps /\ forall p, In p ps <-> exists n vs, In (n, vs) bnd /\ In n names /\ In p vs
    | PPoints l => ps = l
    end /\
    forall (value : string -> nat -> P -> R) fs,
      (ps <> [] -> point_measure value fs (PPoints ps) = Ok (map (fun c => value (col_field c) (col_index c) (col_loc c)) (columns ps fs))) /\
      (ps = [] -> point_measure value fs (PPoints ps) = Err ValueError).
Proof.
  intros P P_dec shuffle bnd v S.
  assert (M : forall ps (value : string -> nat -> P -> R) fs,
    (ps <> [] -> point_measure value fs (PPoints ps) = Ok (map (fun c => value (col_field c) (col_index c) (col_loc c)) (columns ps fs))) /\
    (ps = [] -> point_measure value fs (PPoints ps) = Err ValueError)).
  { intros ps value fs. split; [|intros ->; reflexivity]. intros N. destruct ps as [|p ps]; [contradiction|]. cbn [point_measure]. f_equal.
    exact (measure_columns (fun p f i => value f i p) (p :: ps) fs). }
  destruct v as [s|l]; cbn [open_points].
  - eexists. split; [reflexivity|]. split; [reflexivity|]. split; [|apply M]. intros names E. apply names_unique in E. cbn in E. subst names.
    set (l := flat_map snd (filter (fun e => existsb (String.eqb (fst e)) (split_bar s)) bnd)). split.
    + eapply Permutation_NoDup; [apply S|apply NoDup_nodup].
    + intros p. rewrite <- (Permutation_in' eq_refl (S (nodup P_dec l))) , nodup_In. unfold l. rewrite in_flat_map. split.
      * intros ([n vs] & I & J). apply filter_In in I. destruct I as [I K]. exists n, vs. split; [exact I|]. split; [|exact J]. apply (contains_iff (split_bar s) n), K.
      * intros (n & vs & I & K & J). exists (n, vs). split; [|exact J]. apply filter_In. split; [exact I|]. apply (contains_iff (split_bar s) n), K.
  - exists l. split; [reflexivity|]. split; [reflexivity|]. split; [reflexivity|]. apply M.
Qed.
Print Assumptions c69_points.

(** A domain of two regions with three elements. *)
Definition example_mesh : smesh :=
  mk_smesh [mk_element "inner"%string [(1/2, 0%nat)]; mk_element "outer"%string [(1, 1%nat); (2, 2%nat)]; mk_element "inner"%string [(3, 3%nat)]]
           [mk_element "wall"%string [(1, 4%nat)]] ["inner"%string; "outer"%string] ["wall"%string].
Definition example_value (f : string) (i : nat) : field := mk_field (fun x => INR x + INR i) (fun x => INR x).

Example c69_example : forall stray,
  well_named Domain example_mesh /\ positive (volume example_mesh) /\ names_of (PStr "inner|none|outer"%string) ["inner"%string; "none"%string; "outer"%string] /\
  (exists o, open_sensor Domain example_mesh [("u"%string, [2%nat])] (RStr "inner|none|outer"%string) = Ok o /\ dkeys (o_locations o) = ["inner|outer"%string] /\
     o_missing o = ["none"%string] /\
     sensor_measure stray Domain example_mesh example_value [("u"%string, [2%nat])] (o_locations o) = Ok [14; 14 + (1/2 + 6)]) /\
  (exists o, open_sensor Domain example_mesh [("p"%string, []); ("T"%string, [])] (RSeq ["outer"%string; "outer"%string; "inner"%string]) = Ok o /\
     sensor_measure stray Domain example_mesh example_value [("p"%string, []); ("T"%string, [])] (o_locations o) = Ok [5; 5; 9; 9]) /\
  (exists o, open_sensor Domain example_mesh [("p"%string, [])] RNone = Ok o /\ sensor_measure stray Domain example_mesh example_value [("p"%string, [])] (o_locations o) = Err ValueError).
Proof.
  intros stray. split; [|split; [|split; [|split; [|split]]]].
  - split.
    + cbn. intros e [<-|[<-|[<-|[]]]]; cbn; auto.
    + cbn. intros n [<-|[<-|[]]]; cbn; intuition discriminate.
  - intros e w x. cbn. intros [<-|[<-|[<-|[]]]]; cbn; intros H; repeat destruct H as [H|H]; try contradiction; injection H as <- <-; lra.
  - apply names_unique. reflexivity.
  - eexists. split; [vm_compute; reflexivity|]. split; [reflexivity|]. split; [reflexivity|]. cbn -[INR]. unfold quadrature. cbn -[INR]. do 2 f_equal; [|f_equal]; cbn; lra.
  - eexists. split; [vm_compute; reflexivity|]. cbn -[INR]. unfold quadrature. cbn -[INR]. f_equal. repeat (apply f_equal2; [cbn; lra|]). reflexivity.
  - eexists. split; [vm_compute; reflexivity|]. reflexivity.
Qed.
