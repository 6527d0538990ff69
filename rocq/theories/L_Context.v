(** Lemmas on the output context and the CSV handles. *)
From Coq Require Import String List Bool Arith Lia.
From Verif Require Import Base Dict M_Context S_Context.
Import ListNotations.
Local Open Scope list_scope.

(** *** Dispatch *)


Lemma io_open_spec : forall l,
  (forallb can_open l = true -> io_open l = Ok (filter is_single l, filter is_file l)) /\
  (forallb can_open l = false -> io_open l = Err ValueError).
Proof.
  induction l as [|a l [IH1 IH2]]; [split; [reflexivity | discriminate]|].
  destruct a as [| | | |[]|[]]; cbn; split; intros H;
    try discriminate; rewrite ?IH1, ?IH2 by exact H; reflexivity.
Qed.

Lemma call_all_files : forall l, forallb is_file l = true -> call_all_pre l = (l, None).
Proof.
  induction l as [|a l IH]; intros H; [reflexivity|]. cbn in H. apply andb_true_iff in H. destruct H as [H1 H2].
  destruct a; try discriminate; cbn; rewrite IH by exact H2; reflexivity.
Qed.

Lemma forallb_filter : forall {A} (f : A -> bool) l, forallb f (filter f l) = true.
Proof. induction l as [|a l IH]; [reflexivity|]. cbn. destruct (f a) eqn:E; cbn; rewrite ?E; exact IH. Qed.

Lemma enter_ok : forall l, forallb can_open l = true -> existsb is_single l = false ->
  enter_solve l = (filter is_file l, None).
Proof.
  intros l C S. unfold enter_solve. rewrite (proj1 (io_open_spec l)) by exact C.
  assert (E : filter is_single l = []).
  { clear C. induction l as [|a l IH]; [reflexivity|]. cbn in *. apply orb_false_iff in S. destruct S as [S1 S2]. rewrite S1. apply IH. exact S2. }
  rewrite E. apply call_all_files, forallb_filter.
Qed.

Lemma enter_single : forall l, forallb can_open l = true -> existsb is_single l = true ->
  enter_solve l = ([], Some TypeError).
Proof.
  intros l C S. unfold enter_solve. rewrite (proj1 (io_open_spec l)) by exact C. unfold io_save_pre.
  destruct (filter is_single l) as [|a m] eqn:E.
  - exfalso. apply existsb_exists in S. destruct S as [x [I X]].
    assert (In x (filter is_single l)) by (apply filter_In; tauto). rewrite E in H. contradiction.
  - assert (X : is_single a = true). { assert (I : In a (filter is_single l)) by (rewrite E; left; reflexivity). apply filter_In in I. tauto. }
    destruct a; try discriminate; reflexivity.
Qed.

Lemma enter_unopened : forall l, forallb can_open l = false -> enter_solve l = ([], Some ValueError).
Proof. intros l C. unfold enter_solve. rewrite (proj2 (io_open_spec l)) by exact C. reflexivity. Qed.

(** *** Handles *)

Lemma update_handle_nth : forall w i f j,
  nth_error (update_handle w i f) j = if Nat.eqb i j then option_map f (nth_error w j) else nth_error w j.
Proof.
  induction w as [|h w IH]; intros i f j.
  - cbn. destruct i, j; cbn; try reflexivity; destruct (Nat.eqb i j); reflexivity.
  - destruct i, j; cbn; try reflexivity. apply IH.
Qed.

Lemma update_handle_length : forall w i f, length (update_handle w i f) = length w.
Proof. induction w as [|h w IH]; intros [|i] f; cbn; try reflexivity. rewrite IH. reflexivity. Qed.

(** What successful opening does. *)
Lemma open_csv_spec : forall append sensors w csv w' csv',
  open_csv append sensors w csv = (w', Ok csv') ->
  (forall k v, In (k, v) csv -> v < length w) ->
  w' = w ++ map (fun s => mk_handle (cs_name s) true
                   (if append then [] else match cs_header s with Ok rows => rows | _ => [] end)) sensors /\
  (forall k i, dget csv' k = Some i ->
     dget csv k = Some i \/ exists j s, i = length w + j /\ nth_error sensors j = Some s /\ cs_name s = k /\
        (forall j' s', j < j' -> nth_error sensors j' = Some s' -> cs_name s' <> k)) /\
  (forall s, In s sensors -> exists i, dget csv' (cs_name s) = Some i /\ length w <= i).
Proof.
  induction sensors as [|s rest IH]; intros w csv w' csv' H B; cbn in H.
  - injection H as <- <-. cbn. rewrite app_nil_r. repeat split; [tauto | contradiction].
  - assert (H' : exists rows, rows = (if append then [] else match cs_header s with Ok rows => rows | _ => [] end) /\
       open_csv append rest (w ++ [mk_handle (cs_name s) true rows]) (dset csv (cs_name s) (length w)) = (w', Ok csv')).
    { destruct append; [exists []; split; [reflexivity | exact H]|].
      destruct (cs_header s) as [rows|e]; [exists rows; split; [reflexivity | exact H] | discriminate]. }
    clear H. destruct H' as (rows & HR & H).
    set (h := mk_handle (cs_name s) true rows) in *.
    assert (B' : forall k v, In (k, v) (dset csv (cs_name s) (length w)) -> v < length (w ++ [h])).
    { intros k v I. rewrite app_length. cbn.
      assert (D : forall (d : dict nat) k0 v0, In (k, v) (dset d k0 v0) -> v = v0 \/ In (k, v) d).
      { clear. induction d as [|[k1 v1] d IHd]; intros k0 v0 I; cbn in *; [destruct I as [I|[]]; left; congruence|].
        destruct (String.eqb k0 k1); cbn in I; destruct I as [I|I]; try (left; congruence); try (right; tauto).
        destruct (IHd _ _ I); tauto. }
      destruct (D _ _ _ I) as [->|I']; [lia|]. specialize (B _ _ I'). lia. }
    destruct (IH _ _ _ _ H B') as (E & G & A). clear IH.
    split; [|split].
    + rewrite E. rewrite <- app_assoc. cbn. unfold h. rewrite HR. reflexivity.
    + intros k i K. destruct (G k i K) as [K'|(j & s' & -> & S1 & S2 & S3)].
      * rewrite dget_dset in K'. destruct (String.eqb_spec k (cs_name s)) as [->|D].
        -- injection K' as <-. right. exists 0, s. rewrite Nat.add_0_r. repeat split.
           intros j' s' J N C. destruct j' as [|j']; [lia|]. cbn in N.
           destruct (A s') as [i' [K1 K2]]; [eapply nth_error_In; exact N|].
           rewrite C in K1. rewrite K in K1. injection K1 as K1. rewrite app_length in K2. cbn in K2. lia.
        -- left. exact K'.
      * right. exists (S j), s'. rewrite app_length. cbn. split; [lia|]. repeat split; try assumption.
        intros j' s'' J N. destruct j' as [|j']; [lia|]. cbn in N. apply (S3 j' s''); [lia | exact N].
    + intros s' [->|I].
      * destruct (in_dec string_dec (cs_name s') (map cs_name rest)) as [M|M].
        -- apply in_map_iff in M. destruct M as [s'' [M1 M2]]. destruct (A s'' M2) as [i [K1 K2]].
           rewrite M1 in K1. exists i. split; [exact K1|]. rewrite app_length in K2. cbn in K2. lia.
        -- exists (length w). split; [|lia].
           assert (T : forall append sensors w csv w' csv' k, ~ In k (map cs_name sensors) ->
             open_csv append sensors w csv = (w', Ok csv') -> dget csv' k = dget csv k).
           { clear. induction sensors as [|s sensors IHs]; intros w csv w' csv' k N H; cbn in *; [injection H as _ <-; reflexivity|].
             destruct append.
             - rewrite (IHs _ _ _ _ k ltac:(tauto) H). apply dget_dset_other. tauto.
             - destruct (cs_header s); [|discriminate]. rewrite (IHs _ _ _ _ k ltac:(tauto) H). apply dget_dset_other. tauto. }
           rewrite (T _ _ _ _ _ _ (cs_name s') M H). apply dget_dset_same.
      * destruct (A s' I) as [i [K1 K2]]. exists i. split; [exact K1|]. rewrite app_length in K2. cbn in K2. lia.
Qed.

Lemma open_csv_keys : forall append sensors w csv w' csv',
  open_csv append sensors w csv = (w', Ok csv') -> NoDup (dkeys csv) -> NoDup (dkeys csv').
Proof.
  induction sensors as [|s rest IH]; intros w csv w' csv' H N; cbn in H; [injection H as _ <-; exact N|].
  destruct append; [eapply IH; [exact H | apply NoDup_dkeys_dset; exact N]|].
  destruct (cs_header s); [|discriminate]. eapply IH; [exact H | apply NoDup_dkeys_dset; exact N].
Qed.

(** Rows only change the row lists of open handles in the dictionary. *)
Lemma write_rows_nth : forall csv rows w i h, nth_error w i = Some h -> hd_open h = true ->
  nth_error (write_rows csv w rows) i =
  Some (mk_handle (hd_path h) true (hd_rows h ++
     map snd (filter (fun nr => match dget csv (fst nr) with Some j => Nat.eqb j i | None => false end) rows))).
Proof.
  induction rows as [|[n r] rows IH]; intros w i h H O.
  - cbn. rewrite app_nil_r. rewrite H. f_equal. destruct h; cbn in *; subst; reflexivity.
  - cbn [write_rows fold_left fst snd]. fold (write_rows csv).
    unfold write_rows in IH |- *. cbn [fold_left filter fst snd].
    unfold write_row at 2. destruct (dget csv n) as [j|] eqn:D; cbn [fst].
    + destruct (nth_error w j) as [h'|] eqn:J; cbn [fst].
      * destruct (hd_open h') eqn:O'; cbn [fst].
        -- destruct (Nat.eqb_spec j i) as [->|NE].
           ++ rewrite J in H. injection H as ->.
              rewrite (IH _ i (mk_handle (hd_path h) (hd_open h) (hd_rows h ++ [r]))).
              ** cbn. rewrite <- app_assoc. reflexivity.
              ** rewrite update_handle_nth, Nat.eqb_refl, J. reflexivity.
              ** exact O.
           ++ apply IH; [|exact O]. rewrite update_handle_nth.
              destruct (Nat.eqb_spec j i); [contradiction|]. exact H.
        -- destruct (Nat.eqb_spec j i) as [->|NE]; [|apply IH; assumption].
           rewrite J in H. injection H as ->. congruence.
      * destruct (Nat.eqb_spec j i) as [->|NE]; [congruence | apply IH; assumption].
    + apply IH; assumption.
Qed.

Lemma write_rows_closed : forall csv rows w i h, nth_error w i = Some h -> hd_open h = false ->
  nth_error (write_rows csv w rows) i = Some h.
Proof.
  induction rows as [|[n r] rows IH]; intros w i h H O; [exact H|].
  unfold write_rows in *. cbn [fold_left fst snd]. apply IH; [|exact O].
  unfold write_row. destruct (dget csv n) as [j|]; [|exact H].
  destruct (nth_error w j) as [h'|] eqn:J; [|exact H]. destruct (hd_open h') eqn:O'; [|exact H].
  cbn. rewrite update_handle_nth. destruct (Nat.eqb_spec j i) as [->|]; [|exact H].
  rewrite J in H. injection H as ->. congruence.
Qed.

Lemma write_rows_length : forall csv rows w, length (write_rows csv w rows) = length w.
Proof.
  induction rows as [|[n r] rows IH]; intros w; [reflexivity|]. unfold write_rows in *. cbn. rewrite IH.
  unfold write_row. destruct (dget csv n) as [j|]; [|reflexivity].
  destruct (nth_error w j) as [h'|]; [|reflexivity]. destruct (hd_open h'); [|reflexivity]. apply update_handle_length.
Qed.

Lemma close_csv_nth : forall (csv : dict nat) w i,
  nth_error (close_csv csv w) i =
  option_map (fun h => if existsb (fun kv => Nat.eqb (snd kv) i) csv then mk_handle (hd_path h) false (hd_rows h) else h)
             (nth_error w i).
Proof.
  induction csv as [|[k j] csv IH]; intros w i.
  - cbn. destruct (nth_error w i); reflexivity.
  - unfold close_csv in *. cbn. rewrite IH, update_handle_nth.
    destruct (Nat.eqb_spec j i) as [->|NE].
    + destruct (nth_error w i); cbn; [|reflexivity]. destruct (existsb _ csv); reflexivity.
    + reflexivity.
Qed.

Lemma close_csv_length : forall (csv : dict nat) w, length (close_csv csv w) = length w.
Proof.
  unfold close_csv. induction csv as [|x c IH]; intros w; [reflexivity|]. cbn. rewrite IH. apply update_handle_length.
Qed.

Lemma existsb_values : forall (csv : dict nat) i, NoDup (dkeys csv) ->
  existsb (fun kv => Nat.eqb (snd kv) i) csv = true <-> exists k, dget csv k = Some i.
Proof.
  intros csv i N. rewrite existsb_exists. split.
  - intros [[k v] [I E]]. apply Nat.eqb_eq in E. cbn in E. subst v. exists k. apply NoDup_In_dget; assumption.
  - intros [k H]. exists (k, i). split; [apply dget_Some_In; exact H | apply Nat.eqb_refl].
Qed.

(** The whole context for sensors whose headers are fine. *)
Lemma context_spec : forall append sensors rows w w' e,
  csv_context append sensors rows w = (w', e) ->
  (append = true \/ Forall (fun s => is_ok (cs_header s) = true) sensors) ->
  e = None /\ length w' = length w + length sensors /\
  (forall i h, nth_error w i = Some h -> nth_error w' i = Some h) /\
  (forall j s, nth_error sensors j = Some s ->
     exists h, nth_error w' (length w + j) = Some h /\ hd_path h = cs_name s /\
       ((forall j' s', j < j' -> nth_error sensors j' = Some s' -> cs_name s' <> cs_name s) ->
          hd_open h = false /\
          hd_rows h = header_rows append s ++ map snd (filter (fun nr => String.eqb (fst nr) (cs_name s)) rows)) /\
       ((exists j' s', j < j' /\ nth_error sensors j' = Some s' /\ cs_name s' = cs_name s) ->
          hd_open h = true /\ hd_rows h = header_rows append s)).
Proof.
  intros append sensors rows w w' e H HO.
  assert (OK : exists w1 csv, open_csv append sensors w [] = (w1, Ok csv)).
  { clear H. generalize (@nil (string * nat)) as csv0. revert w. induction sensors as [|s l IH]; intros w csv0; cbn.
    - eexists; eexists; reflexivity.
    - destruct append; [apply IH; left; reflexivity|].
      destruct HO as [HO|HO]; [discriminate|]. inversion HO as [|x y Hs Hl]; subst.
      destruct (cs_header s); [|discriminate]. apply IH. right. exact Hl. }
  destruct OK as (w1 & csv & OK). unfold csv_context in H. rewrite OK in H. injection H as <- <-.
  assert (B0 : forall (k : string) (v : nat), In (k, v) [] -> v < length w) by (intros; contradiction).
  destruct (open_csv_spec _ _ _ _ _ _ OK B0) as (E & G & A).
  pose proof (open_csv_keys _ _ _ _ _ _ OK (NoDup_nil _)) as NK.
  assert (LW : length w1 = length w + length sensors). { rewrite E, app_length, map_length. reflexivity. }
  assert (LC : length (close_csv csv (write_rows csv w1 rows)) = length w1).
  { rewrite close_csv_length. apply write_rows_length. }
  split; [reflexivity|]. split; [lia|].
  assert (Old : forall k i, dget csv k = Some i -> length w <= i).
  { intros k i K. destruct (G k i K) as [C|(j & s & -> & _)]; [discriminate | lia]. }
  assert (NC : forall i, i < length w -> existsb (fun kv => Nat.eqb (snd kv) i) csv = false).
  { intros i L. destruct (existsb (fun kv => Nat.eqb (snd kv) i) csv) eqn:X; [|reflexivity].
    apply existsb_values in X; [|exact NK]. destruct X as [k X]. apply Old in X. lia. }
  assert (NR : forall i h, i < length w -> nth_error w1 i = Some h -> nth_error (write_rows csv w1 rows) i = Some h).
  { intros i h L X. destruct (hd_open h) eqn:O.
    - rewrite (write_rows_nth csv rows w1 i h X O).
      assert (F : filter (fun nr : string * list string => match dget csv (fst nr) with Some j => Nat.eqb j i | None => false end) rows = []).
      { clear - Old L. induction rows as [|nr rows IH]; [reflexivity|]. cbn. destruct (dget csv (fst nr)) as [j|] eqn:D; [|exact IH].
        apply Old in D. destruct (Nat.eqb_spec j i); [lia | exact IH]. }
      rewrite F. cbn. rewrite app_nil_r. destruct h; cbn in *; subst; reflexivity.
    - apply write_rows_closed; assumption. }
  split.
  - intros i h X. assert (L : i < length w) by (apply nth_error_Some; congruence).
    rewrite close_csv_nth, NC by exact L.
    rewrite (NR i h L); [reflexivity|]. rewrite E, nth_error_app1 by exact L. exact X.
  - intros j s X.
    assert (W1 : nth_error w1 (length w + j) = Some (mk_handle (cs_name s) true (header_rows append s))).
    { rewrite E, nth_error_app2 by lia. replace (length w + j - length w) with j by lia.
      rewrite nth_error_map, X. reflexivity. }
    rewrite close_csv_nth, (write_rows_nth csv rows w1 _ _ W1 eq_refl). cbn [option_map hd_path hd_rows].
    eexists. split; [reflexivity|].
    destruct (A s (nth_error_In _ _ X)) as [i [K1 K2]].
    destruct (G _ _ K1) as [C|(j1 & s1 & -> & S1 & S2 & S3)]; [discriminate|].
    split; [destruct (existsb _ csv); reflexivity|]. split.
    + intros Last.
      assert (j1 = j).
      { destruct (Nat.lt_trichotomy j1 j) as [L|[->|L]]; [|reflexivity|].
        - exfalso. apply (S3 j s L X). reflexivity.
        - exfalso. apply (Last j1 s1 L S1). exact S2. }
      subst j1.
      assert (EX : existsb (fun kv => Nat.eqb (snd kv) (length w + j)) csv = true).
      { apply existsb_values; [exact NK|]. exists (cs_name s). exact K1. }
      rewrite EX. cbn. split; [reflexivity|]. f_equal. f_equal. apply filter_ext. intros [n r]. cbn.
      destruct (String.eqb_spec n (cs_name s)) as [->|D].
      * rewrite K1, Nat.eqb_refl. reflexivity.
      * destruct (dget csv n) as [i|] eqn:Q; [|reflexivity].
        destruct (Nat.eqb_spec i (length w + j)) as [->|]; [|reflexivity].
        destruct (G _ _ Q) as [C|(j2 & s2 & E2 & T1 & T2 & T3)]; [discriminate|].
        assert (j2 = j) by lia. subst j2. rewrite X in T1. injection T1 as ->. congruence.
    + intros (j' & s' & L & X' & N').
      assert (NE : forall k, dget csv k <> Some (length w + j)).
      { intros k Q. destruct (G _ _ Q) as [C|(j2 & s2 & E2 & T1 & T2 & T3)]; [discriminate|].
        assert (j2 = j) by lia. subst j2. rewrite X in T1. injection T1 as <-.
        apply (T3 j' s' L X'). congruence. }
      assert (EX : existsb (fun kv => Nat.eqb (snd kv) (length w + j)) csv = false).
      { destruct (existsb (fun kv => Nat.eqb (snd kv) (length w + j)) csv) eqn:Q; [|reflexivity].
        apply existsb_values in Q; [|exact NK]. destruct Q as [k Q]. exfalso. exact (NE k Q). }
      rewrite EX. cbn. split; [reflexivity|].
      assert (F : filter (fun nr : string * list string => match dget csv (fst nr) with Some j0 => Nat.eqb j0 (length w + j) | None => false end) rows = []).
      { clear - NE. induction rows as [|nr rows IH]; [reflexivity|]. cbn.
        destruct (dget csv (fst nr)) as [i|] eqn:Q; [|exact IH].
        destruct (Nat.eqb_spec i (length w + j)) as [->|]; [exfalso; exact (NE _ Q) | exact IH]. }
      rewrite F. cbn. rewrite app_nil_r. reflexivity.
Qed.

(** A sensor with an inconsistent header: everything opened so far stays open. *)
Lemma context_failing_header : forall before s after rows w e,
  Forall (fun s => is_ok (cs_header s) = true) before -> cs_header s = Err e ->
  exists w', csv_context false (before ++ s :: after) rows w = (w', Some e) /\
    length w' = length w + S (length before) /\
    forall i h, length w <= i -> nth_error w' i = Some h -> hd_open h = true.
Proof.
  intros before s after rows w e F E. unfold csv_context.
  assert (G : forall w csv, exists w', open_csv false (before ++ s :: after) w csv = (w', Err e) /\
     w' = w ++ map (fun s => mk_handle (cs_name s) true (header_rows false s)) before ++ [mk_handle (cs_name s) true []]).
  { clear w. induction F as [|b l Hb F IH]; intros w csv; cbn.
    - rewrite E. eexists. split; reflexivity.
    - destruct (cs_header b) as [r|x] eqn:B; [|discriminate].
      destruct (IH (w ++ [mk_handle (cs_name b) true r]) (dset csv (cs_name b) (length w))) as (w' & H1 & H2).
      exists w'. split; [exact H1|]. rewrite H2, <- app_assoc. cbn. reflexivity. }
  destruct (G w []) as (w' & H1 & H2). rewrite H1. exists w'. split; [reflexivity|]. split.
  - rewrite H2, !app_length, map_length. cbn. lia.
  - intros i h L X. rewrite H2, nth_error_app2 in X by exact L. apply nth_error_In in X.
    apply in_app_iff in X. destruct X as [X|[<-|[]]]; [|reflexivity].
    apply in_map_iff in X. destruct X as [b [<- _]]. reflexivity.
Qed.
