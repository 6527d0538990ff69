(** C73: the files of the output streams. *)
From Coq Require Import String Ascii List Bool Arith Lia.
From Verif Require Import Base Dict M_Path L_Path M_Files S_Files.
Import ListNotations.
Local Open Scope string_scope.
Local Open Scope list_scope.

Section Proofs.
Context {M T V : Type}.
Notation content := (@content M T V).
Notation fsys := (@fsys M T V).
Notation op := (@op M T V).

Lemma put_same (f : fsys) p n : put f p n p = Some n.
Proof. unfold put. destruct (folder_eqb_spec p p); congruence. Qed.
Lemma put_other (f : fsys) p q n : q <> p -> put f p n q = f q.
Proof. intros N. unfold put. destruct (folder_eqb_spec q p); congruence. Qed.

Lemma snoc_inj {A} (p q : list A) x y : p ++ [x] = q ++ [y] -> p = q /\ x = y.
Proof. apply app_inj_tail. Qed.
Lemma snoc_neq {A} (p : list A) x : p ++ [x] <> p.
Proof. intros E. apply (f_equal (@length A)) in E. rewrite app_length in E. cbn in E. lia. Qed.
Lemma nil_snoc {A} (p : list A) x : p ++ [x] <> [].
Proof. destruct p; discriminate. Qed.

Lemma exists_last_or {A} (p : list A) : p = [] \/ exists q x, p = q ++ [x].
Proof. destruct p as [|a l]; [left; reflexivity|right]. destruct (exists_last (l := a :: l)) as (q & x & E); [discriminate|]. exists q, x. exact E. Qed.

Lemma tree_parent (f : fsys) p x : tree f -> f (p ++ [x]) <> None -> f p = Some Dir.
Proof. intros [_ H]. apply H. Qed.

(** A new node in a folder. *)
Lemma tree_put_new (f : fsys) p x n : tree f -> f p = Some Dir -> f (p ++ [x]) <> Some Dir -> tree (put f (p ++ [x]) n).
Proof.
  intros [R H] D N. split.
  - rewrite put_other by (intros E; symmetry in E; apply (nil_snoc _ _ E)). exact R.
  - intros q y Q. destruct (folder_eqb_spec (q ++ [y]) (p ++ [x])) as [E|E].
    + apply snoc_inj in E as [-> ->]. rewrite put_other by (intros E; symmetry in E; apply (snoc_neq _ _ E)). exact D.
    + rewrite put_other in Q by exact E. specialize (H q y Q). rewrite put_other; [exact H|]. intros ->. apply N. exact H.
Qed.

Lemma mkdirs_spec (f : fsys) done rest f' e : tree f -> f done = Some Dir -> mkdirs f done rest = (f', e) ->
  tree f' /\ (forall p c, holds f' p c <-> holds f p c) /\ (forall p, f p = Some Dir -> f' p = Some Dir) /\ (e = None -> f' (done ++ rest) = Some Dir).
Proof.
  revert f done. induction rest as [|x rest IH]; intros f done Tr D E; cbn [mkdirs] in E.
  - injection E as <- <-. rewrite app_nil_r. repeat split; auto; apply Tr.
  - destruct (f (done ++ [x])) as [[|c]|] eqn:N.
    + specialize (IH f (done ++ [x]) Tr N E). rewrite <- app_assoc in IH. exact IH.
    + injection E as <- <-. repeat split; auto; try apply Tr. discriminate.
    + assert (Tr' : tree (put f (done ++ [x]) Dir)) by (apply tree_put_new; [exact Tr|exact D|rewrite N; discriminate]).
      destruct (IH _ (done ++ [x]) Tr' (put_same _ _ _) E) as (A & B & C & G). rewrite <- app_assoc in G. split; [exact A|]. split; [|split; [|exact G]].
      * intros p c. rewrite B. unfold holds. destruct (folder_eqb_spec p (done ++ [x])) as [->|Ne]; [rewrite put_same, N; split; discriminate|rewrite put_other by exact Ne; reflexivity].
      * intros p Dp. apply C. destruct (folder_eqb_spec p (done ++ [x])) as [->|Ne]; [congruence|]. rewrite put_other by exact Ne. exact Dp.
Qed.

Lemma ensure_spec (f : fsys) d f' e : tree f -> ensure f d = (f', e) ->
  tree f' /\ (forall p c, holds f' p c <-> holds f p c) /\ (e = None -> f' d <> None) /\ (forall p, f p <> None -> f' p <> None).
Proof.
  intros Tr E. unfold ensure, exists_ in E. destruct (f d) eqn:N.
  - injection E as <- <-. split; [exact Tr|]. split; [reflexivity|]. split; [intros _; rewrite N; discriminate|auto].
  - destruct (mkdirs_spec f [] d f' e Tr (proj1 Tr) E) as (A & B & C & G). split; [exact A|]. split; [exact B|]. split.
    + intros Z. specialize (G Z). cbn [app] in G. rewrite G. discriminate.
    + intros p Pn. destruct (f p) as [[|c]|] eqn:F; [rewrite (C p F); discriminate| |congruence]. rewrite (proj2 (B p c) F). discriminate.
Qed.

Lemma write_spec (f : fsys) p c f' e : tree f -> write f p c = (f', e) ->
  tree f' /\ (forall q d, q <> p -> (holds f' q d <-> holds f q d)) /\ (e = None -> holds f' p c) /\ (e <> None -> f' = f) /\ (forall q, f q <> None -> f' q <> None).
Proof.
  intros Tr E. unfold write in E.
  assert (K : forall r, (f, Some r) = (f', e) -> tree f' /\ (forall q d, q <> p -> (holds f' q d <-> holds f q d)) /\ (e = None -> holds f' p c) /\ (e <> None -> f' = f) /\ (forall q, f q <> None -> f' q <> None)).
  { intros r Z. injection Z as <- <-. split; [exact Tr|]. split; [reflexivity|]. split; [discriminate|]. split; [reflexivity|auto]. }
  destruct (exists_last_or p) as [-> |(q & x & ->)].
  - destruct (f []) as [[|?]|]; exact (K _ E).
  - assert (Pr : parent (q ++ [x]) = q) by (unfold parent; apply removelast_last). 
    destruct (f (q ++ [x])) as [[|c']|] eqn:N; [exact (K _ E)| |].
    all: destruct (q ++ [x]) as [|y l] eqn:Q; [exact (K _ E)|]; rewrite <- Q in *; rewrite Pr in E; destruct (f q) as [[|?]|] eqn:D; try exact (K _ E).
    all: injection E as <- <-; split; [apply tree_put_new; [exact Tr|exact D|rewrite N; discriminate]|split; [|split; [intros _; apply put_same|split; [congruence|]]]].
    all: try (intros r d Ne; unfold holds; rewrite put_other by exact Ne; reflexivity).
    all: intros r Rn; destruct (folder_eqb_spec r (q ++ [x])) as [->|Ne]; [rewrite put_same; discriminate|rewrite put_other by exact Ne; exact Rn].
Qed.

Lemma save_at_spec (f : fsys) dir name c f' e : tree f -> save_at f dir name c = (f', e) ->
  tree f' /\ (forall q d, q <> joinpath dir name -> (holds f' q d <-> holds f q d)) /\ (e = None -> holds f' (joinpath dir name) c) /\
  (e <> None -> forall d, holds f' (joinpath dir name) d <-> holds f (joinpath dir name) d) /\
  (e = None -> f' dir <> None) /\ (forall q, f q <> None -> f' q <> None).
Proof.
  intros Tr E. unfold save_at in E. destruct (ensure f dir) as [f1 [e1|]] eqn:En; destruct (ensure_spec f dir f1 _ Tr En) as (A & B & Dd & Pp).
  - injection E as <- <-. split; [exact A|]. split; [intros; apply B|]. split; [discriminate|]. split; [intros _ d; apply B|]. split; [discriminate|exact Pp].
  - destruct (write_spec f1 _ c f' e A E) as (A2 & B2 & C2 & D2 & P2). split; [exact A2|]. split; [intros q d N; rewrite (B2 q d N); apply B|]. split; [exact C2|].
    split; [intros N d; rewrite (D2 N); apply B|]. split; [intros _; apply P2, Dd; reflexivity|]. intros q Q. apply P2, Pp, Q.
Qed.

Lemma load_at_spec (f : fsys) dir name : tree f ->
  tree (fst (load_at f dir name)) /\ (forall p c, holds (fst (load_at f dir name)) p c <-> holds f p c) /\
  (forall c, snd (load_at f dir name) = inl c -> holds f (joinpath dir name) c) /\ (forall q, f q <> None -> fst (load_at f dir name) q <> None).
Proof.
  intros Tr. unfold load_at. destruct (ensure f dir) as [f1 [e1|]] eqn:En; destruct (ensure_spec f dir f1 _ Tr En) as (A & B & _ & Pp).
  - cbn [fst snd]. split; [exact A|]. split; [exact B|]. split; [discriminate|exact Pp].
  - destruct (f1 (joinpath dir name)) as [[|c]|] eqn:N; cbn [fst snd]; (split; [exact A|]); (split; [exact B|]); (split; [|exact Pp]); try discriminate.
    intros c' [= <-]. apply B. exact N.
Qed.

(** A file below an existing folder is found again. *)
Lemma load_at_found (f : fsys) dir name c : tree f -> holds f (joinpath dir name) c -> f dir <> None -> snd (load_at f dir name) = inl c.
Proof.
  intros Tr H D. unfold load_at, ensure, exists_. destruct (f dir) eqn:N; [|congruence]. rewrite H. reflexivity.
Qed.
End Proofs.

(** ** Extensions *)
Fixpoint last_char (s : string) : option ascii := match s with EmptyString => None | String c EmptyString => Some c | String _ r => last_char r end.
Lemma last_char_app a b : b <> ""%string -> last_char (a ++ b)%string = last_char b.
Proof.
  intros N. induction a as [|c a IH]; [reflexivity|]. cbn [append last_char]. rewrite IH. destruct a as [|c' a]; cbn [append]; [|reflexivity].
  destruct b; [congruence|reflexivity].
Qed.

Lemma append_assoc' a b c : ((a ++ b) ++ c = a ++ b ++ c)%string.
Proof. induction a as [|x a IH]; cbn [append]; [reflexivity|rewrite IH; reflexivity]. Qed.
Lemma append_nil' a : (a ++ "")%string = a.
Proof. induction a as [|x a IH]; cbn [append]; [reflexivity|rewrite IH; reflexivity]. Qed.

Lemma components_plain s acc : no_slash s -> components acc s = if (String.eqb (acc ++ s) "" || String.eqb (acc ++ s) ".")%bool then [] else [(acc ++ s)%string].
Proof.
  revert acc. induction s as [|c s IH]; intros acc N; cbn [components].
  - rewrite append_nil'. reflexivity.
  - destruct N as [N1 N2]. destruct (Ascii.eqb_spec c "/"%char) as [E|_]; [congruence|]. rewrite (IH _ N2), append_assoc'. reflexivity.
Qed.

(** An extension: a dot and at least one more character. *)
Definition extension (e : string) : Prop := no_slash e /\ exists a b r, e = String a (String b r).
Lemma extension_long x e : extension e -> String.eqb (x ++ e) "" = false /\ String.eqb (x ++ e) "." = false.
Proof.
  intros (_ & a & b & r & ->). split; apply String.eqb_neq; intros E.
  - destruct x; discriminate.
  - destruct x as [|c x]; cbn [append] in E; [discriminate|]. injection E as _ E. destruct x; discriminate.
Qed.

Lemma components_extension e s acc : extension e -> exists q x, components acc (s ++ e) = q ++ [(x ++ e)%string].
Proof.
  intros Ex. revert acc. induction s as [|c s IH]; intros acc.
  - exists [], acc. cbn [append app]. rewrite components_plain by apply Ex. destruct (extension_long acc e Ex) as [-> ->]. reflexivity.
  - cbn [append components]. destruct (Ascii.eqb c "/"%char); [|apply IH]. destruct (IH ""%string) as (q & x & ->). eexists (_ ++ q), x. rewrite app_assoc. reflexivity.
Qed.

Lemma joinpath_extension e dir s : extension e -> exists q x, joinpath dir (s ++ e) = q ++ [(x ++ e)%string].
Proof.
  intros Ex. destruct (components_extension e s "" Ex) as (q & x & E). unfold joinpath. destruct (s ++ e)%string as [|c r] eqn:Z.
  - destruct Ex as (_ & a & b & r & ->). destruct s; discriminate.
  - destruct (Ascii.eqb c "/"%char); rewrite E; [exists q, x; reflexivity|exists (dir ++ q), x; rewrite app_assoc; reflexivity].
Qed.

Definition ext (k : kind) : string :=
  match k with KMesh | KPickle => ".pickle" | KText => ".txt" | KYaml => ".yaml" | KState => ".ngs" | KCsv => ".csv" | KLog => ".log" end.
Lemma ext_extension k : extension (ext k).
Proof. destruct k; (split; [cbn; repeat split; discriminate|do 3 eexists; reflexivity]). Qed.

Lemma place_ext pl k name : exists q x, place pl k name = q ++ [(x ++ ext k)%string].
Proof. pose proof (ext_extension k) as X. destruct k; cbn [place ext] in *; apply joinpath_extension; exact X. Qed.

Lemma place_last pl k name pl' k' name' : place pl k name = place pl' k' name' -> ext k = ext k'.
Proof.
  intros E. destruct (place_ext pl k name) as (q & x & Q). destruct (place_ext pl' k' name') as (q' & x' & Q'). rewrite Q, Q' in E. apply app_inj_tail in E as [_ E].
  apply (f_equal last_char) in E. rewrite !last_char_app in E by (destruct k, k'; discriminate). destruct k, k'; try reflexivity; discriminate E.
Qed.

(** ** Streams do not share files *)
Theorem c73_apart : forall pl k name pl' k' name', place pl k name = place pl' k' name' -> k = k' \/ (k = KMesh /\ k' = KPickle) \/ (k = KPickle /\ k' = KMesh).
Proof. intros pl k name pl' k' name' E. pose proof (place_last _ _ _ _ _ _ E) as X. destruct k, k'; try discriminate X; auto. Qed.
Print Assumptions c73_apart.

(** ** One operation *)
(** The object an operation saves. *)
Definition object {M T V} (o : @op M T V) (k : kind) : option (@content M T V) :=
  match o, k with
  | SaveMesh m, KMesh => Some (CMesh m)
  | SavePickle _ t, KPickle | SaveSettings _ _ _ _ t _, KPickle => Some (CTree t)
  | SaveTxt _ s, KText | SaveSettings _ _ _ _ _ s, KText => Some (CText s)
  | SaveYaml _ _ t, KYaml | SaveSettings _ _ _ _ t _, KYaml => Some (CYaml t)
  | SaveState _ v, KState => Some (CState v)
  | WriteCsv _ rows, KCsv => Some (CRows rows)
  | _, _ => None
  end.

Section Steps.
Context {M T V : Type}.
Notation content := (@content M T V).
Notation fsys := (@fsys M T V).
Notation op := (@op M T V).

(** A save of one object of kind [k]. *)
Definition saves_one (pl : places) (k : kind) (name : option string) (c : content) (dir : folder) (f f' : fsys) (e : option file_exn) : Prop :=
  tree f' /\ (forall q d, q <> place pl k name -> (holds f' q d <-> holds f q d)) /\ (e = None -> holds f' (place pl k name) c) /\
  (e <> None -> forall d, holds f' (place pl k name) d <-> holds f (place pl k name) d) /\ (e = None -> f' dir <> None) /\ (forall q, f q <> None -> f' q <> None).

Lemma one_mesh pl m (f : fsys) f' e : tree f -> save_mesh pl m f = (f', e) -> saves_one pl KMesh None (CMesh m) (pl_root pl) f f' e.
Proof. exact (save_at_spec f _ _ _ f' e). Qed.
Lemma one_pickle pl n t (f : fsys) f' e : tree f -> save_to_pickle pl n t f = (f', e) -> saves_one pl KPickle n (CTree t) (pl_settings pl) f f' e.
Proof. exact (save_at_spec f _ _ _ f' e). Qed.
Lemma one_txt pl n t (f : fsys) f' e : tree f -> save_to_txt pl n t f = (f', e) -> saves_one pl KText n (CText t) (pl_settings pl) f f' e.
Proof. exact (save_at_spec f _ _ _ f' e). Qed.
Lemma one_state pl n t (f : fsys) f' e : tree f -> save_gridfunction pl n t f = (f', e) -> saves_one pl KState n (CState t) (pl_states pl) f f' e.
Proof. exact (save_at_spec f _ _ _ f' e). Qed.
Lemma one_csv pl n t (f : fsys) f' e : tree f -> write_csv pl n t f = (f', e) -> saves_one pl KCsv (Some n) (CRows t) (pl_sensors pl) f f' e.
Proof. exact (save_at_spec f _ _ _ f' e). Qed.
Lemma unchanged_one pl k name c dir (f : fsys) e : tree f -> e <> None -> saves_one pl k name c dir f f e.
Proof. intros Tr N. unfold saves_one. split; [exact Tr|]. split; [reflexivity|]. split; [congruence|]. split; [reflexivity|]. split; [congruence|auto]. Qed.
Lemma one_yaml pl n i t (f : fsys) f' e : tree f -> save_to_yaml pl n i t f = (f', e) -> saves_one pl KYaml n (CYaml t) (pl_settings pl) f f' e.
Proof.
  intros Tr. unfold save_to_yaml. destruct i; [exact (save_at_spec f _ _ _ f' e Tr)|]. intros E. injection E as <- <-. apply unchanged_one; [exact Tr|discriminate].
Qed.
Lemma one_log pl l (f : fsys) f' e : tree f -> write_log pl l f = (f', e) ->
  saves_one pl KLog None (CLog (match f (place pl KLog None) with Some (File (CLog old)) => old ++ l | _ => l end)) (pl_root pl) f f' e.
Proof.
  intros Tr E. unfold write_log in E. destruct (ensure f (pl_root pl)) as [f1 [e1|]] eqn:En; destruct (ensure_spec f _ f1 _ Tr En) as (A & B & Dd & Pp).
  - injection E as <- <-. split; [exact A|]. split; [intros; apply B|]. split; [discriminate|]. split; [intros _ d; apply B|]. split; [discriminate|exact Pp].
  - cbn zeta in E. change (joinpath (pl_root pl) (pl_log_name pl ++ ".log")%string) with (place pl KLog None) in E.
    destruct (write_spec f1 _ _ f' e A E) as (A2 & B2 & C2 & D2 & P2). split; [exact A2|]. split; [intros q d N; rewrite (B2 q d N); apply B|].
    split; [|split; [intros N d; rewrite (D2 N); apply B|split; [intros _; apply P2, Dd; reflexivity|intros q Q; apply P2, Pp, Q]]].
    intros Z. specialize (C2 Z). unfold holds in *. rewrite C2. f_equal. f_equal. f_equal.
    destruct (f (place pl KLog None)) as [[|c]|] eqn:F.
    + destruct (f1 (place pl KLog None)) as [[|c]|] eqn:F1; try reflexivity. assert (H : holds f (place pl KLog None) c) by (apply B; exact F1). unfold holds in H. congruence.
    + rewrite (proj2 (B _ c) F). reflexivity.
    + destruct (f1 (place pl KLog None)) as [[|c]|] eqn:F1; try reflexivity. assert (H : holds f (place pl KLog None) c) by (apply B; exact F1). unfold holds in H. congruence.
Qed.

(** What the configured folders are after an operation. *)
Definition after_op (pl : places) (o : op) : places := match o with Configure pl' => pl' | _ => pl end.

(** An operation keeps the shape of the file system, changes no file it does not ask for, and removes nothing. *)
Lemma step_frame pl (f : fsys) o pl' f' e : tree f -> file_step (pl, f) o = ((pl', f'), e) ->
  pl' = after_op pl o /\ tree f' /\ (forall p c, ~ may_write pl o p -> (holds f' p c <-> holds f p c)) /\ (forall q, f q <> None -> f' q <> None).
Proof.
  intros Tr E.
  assert (K : forall k name c dir r, asks o k name -> saves_one pl k name c dir f (fst r) (snd r) -> ((pl, fst r), snd r) = ((pl', f'), e) -> after_op pl o = pl ->
     pl' = after_op pl o /\ tree f' /\ (forall p d, ~ may_write pl o p -> (holds f' p d <-> holds f p d)) /\ (forall q, f q <> None -> f' q <> None)).
  { intros k name c dir r As S1 Eq Ao. injection Eq as <- <- <-. destruct S1 as (A & B & _ & _ & _ & P). rewrite Ao. split; [reflexivity|]. split; [exact A|]. split; [|exact P].
    intros p d N. apply B. intros ->. apply N. exists k, name. split; [exact As|reflexivity]. }
  assert (L : forall dir name, (let '(f1, x) := load_at f dir name in ((pl, f1), match x with inl _ => None | inr z => Some z end)) = ((pl', f'), e) -> after_op pl o = pl ->
     pl' = after_op pl o /\ tree f' /\ (forall p d, ~ may_write pl o p -> (holds f' p d <-> holds f p d)) /\ (forall q, f q <> None -> f' q <> None)).
  { intros dir name Eq Ao. destruct (load_at_spec f dir name Tr) as (A & B & _ & P). destruct (load_at f dir name) as [f1 x]. cbn [fst] in *. injection Eq as <- <- _. rewrite Ao. split; [reflexivity|]. split; [exact A|]. split; [intros; apply B|exact P]. }
  destruct o as [m|n t|n s|n i t|p x y i t s|n v|n rows|lines| |n|n|npl]; cbn [file_step] in E.
  - destruct (save_mesh pl m f) as [f1 e1] eqn:S1. apply (K KMesh None (CMesh m) (pl_root pl) (f1, e1)); [reflexivity|apply (one_mesh pl m); assumption|exact E|reflexivity].
  - destruct (save_to_pickle pl n t f) as [f1 e1] eqn:S1. apply (K KPickle n (CTree t) (pl_settings pl) (f1, e1)); [reflexivity|apply (one_pickle pl n t); assumption|exact E|reflexivity].
  - destruct (save_to_txt pl n s f) as [f1 e1] eqn:S1. apply (K KText n (CText s) (pl_settings pl) (f1, e1)); [reflexivity|apply (one_txt pl n s); assumption|exact E|reflexivity].
  - destruct (save_to_yaml pl n i t f) as [f1 e1] eqn:S1. apply (K KYaml n (CYaml t) (pl_settings pl) (f1, e1)); [reflexivity|apply (one_yaml pl n i t); assumption|exact E|reflexivity].
  - unfold save_settings in E.
    assert (S1 : exists f1 e1, (if p then save_to_pickle pl None t f else (f, None)) = (f1, e1) /\ tree f1 /\ (forall q d, ~ (p = true /\ q = place pl KPickle None) -> (holds f1 q d <-> holds f q d)) /\ (forall q, f q <> None -> f1 q <> None)).
    { destruct p; [destruct (save_to_pickle pl None t f) as [f1 e1] eqn:Z; destruct (one_pickle _ _ _ _ _ _ Tr Z) as (A & B & _ & _ & _ & P); exists f1, e1; split; [reflexivity|]; split; [exact A|]; split; [|exact P]; intros q d N; apply B; intros ->; apply N; auto|].
      exists f, None. split; [reflexivity|]. split; [exact Tr|]. split; [reflexivity|auto]. }
    destruct S1 as (f1 & e1 & Q1 & Tr1 & B1 & P1). rewrite Q1 in E.
    assert (S2 : exists f2 e2, andthen (f1, e1) (fun f => if x then save_to_txt pl None s f else (f, None)) = (f2, e2) /\ tree f2 /\ (forall q d, ~ (x = true /\ q = place pl KText None) -> (holds f2 q d <-> holds f1 q d)) /\ (forall q, f1 q <> None -> f2 q <> None)).
    { destruct e1 as [z|]; [exists f1, (Some z); split; [reflexivity|]; split; [exact Tr1|]; split; [reflexivity|auto]|]. cbn [andthen].
      destruct x; [destruct (save_to_txt pl None s f1) as [f2 e2] eqn:Z; destruct (one_txt _ _ _ _ _ _ Tr1 Z) as (A & B & _ & _ & _ & P); exists f2, e2; split; [reflexivity|]; split; [exact A|]; split; [|exact P]; intros q d N; apply B; intros ->; apply N; auto|].
      exists f1, None. split; [reflexivity|]. split; [exact Tr1|]. split; [reflexivity|auto]. }
    destruct S2 as (f2 & e2 & Q2 & Tr2 & B2 & P2). rewrite Q2 in E.
    assert (S3 : exists f3 e3, andthen (f2, e2) (fun f => if y then save_to_yaml pl None i t f else (f, None)) = (f3, e3) /\ tree f3 /\ (forall q d, ~ (y = true /\ q = place pl KYaml None) -> (holds f3 q d <-> holds f2 q d)) /\ (forall q, f2 q <> None -> f3 q <> None)).
    { destruct e2 as [z|]; [exists f2, (Some z); split; [reflexivity|]; split; [exact Tr2|]; split; [reflexivity|auto]|]. cbn [andthen].
      destruct y; [destruct (save_to_yaml pl None i t f2) as [f3 e3] eqn:Z; destruct (one_yaml _ _ _ _ _ _ _ Tr2 Z) as (A & B & _ & _ & _ & P); exists f3, e3; split; [reflexivity|]; split; [exact A|]; split; [|exact P]; intros q d N; apply B; intros ->; apply N; auto|].
      exists f2, None. split; [reflexivity|]. split; [exact Tr2|]. split; [reflexivity|auto]. }
    destruct S3 as (f3 & e3 & Q & Tr3 & B3 & P3). rewrite Q in E. injection E as <- <- <-. split; [reflexivity|]. split; [exact Tr3|]. split; [|auto].
    intros q d N. rewrite B3, B2, B1; [reflexivity| | |]; intros [-> ->]; apply N; [exists KPickle, None|exists KText, None|exists KYaml, None]; cbn [asks]; auto.
  - destruct (save_gridfunction pl n v f) as [f1 e1] eqn:S1. apply (K KState n (CState v) (pl_states pl) (f1, e1)); [reflexivity|apply (one_state pl n v); assumption|exact E|reflexivity].
  - destruct (write_csv pl n rows f) as [f1 e1] eqn:S1. apply (K KCsv (Some n) (CRows rows) (pl_sensors pl) (f1, e1)); [reflexivity|apply (one_csv pl n rows); assumption|exact E|reflexivity].
  - destruct (write_log pl lines f) as [f1 e1] eqn:S1. eapply (K KLog None _ (pl_root pl) (f1, e1)); [reflexivity|apply (one_log pl lines); assumption|exact E|reflexivity].
  - apply (L (pl_root pl) (pl_mesh_name pl ++ ".pickle")%string); [exact E|reflexivity].
  - apply (L (pl_settings pl) (filename (pl_settings_name pl) n ++ ".pickle")%string); [exact E|reflexivity].
  - apply (L (pl_states pl) (filename (pl_gfu_name pl) n ++ ".ngs")%string); [exact E|reflexivity].
  - injection E as <- <- <-. split; [reflexivity|]. split; [exact Tr|]. split; [reflexivity|auto].
Qed.
End Steps.

(** ** Theorems *)
(** A save that returns has stored its objects; whatever it does, files it is not asked to write keep their content, and nothing is removed. *)
Theorem c73_saved : forall {M T V} pl (f : @fsys M T V) o pl' f', tree f -> file_step (pl, f) o = ((pl', f'), None) ->
  forall k name c, asks o k name -> object o k = Some c -> holds f' (place pl k name) c.
Proof.
  intros M T V pl f o pl' f' Tr E k name c As Ob.
  assert (K : forall k' n c' dir r, asks o k name -> (k = k' -> name = n /\ c = c') -> k = k' -> saves_one pl k' n c' dir f (fst r) (snd r) -> ((pl, fst r), snd r) = ((pl', f'), None) -> holds f' (place pl k name) c).
  { intros k' n c' dir r _ Nm -> S1 Eq. destruct (Nm eq_refl) as [-> ->]. injection Eq as _ <- En. destruct S1 as (_ & _ & Hs & _). exact (Hs En). }
  destruct o as [m|n t|n s|n i t|p x y i t s|n v|n rows|lines| |n|n|npl]; destruct k; cbn [asks] in As; try contradiction; cbn [object] in Ob; try discriminate Ob; injection Ob as <-; cbn [file_step] in E.
  - destruct (save_mesh pl m f) as [f1 e1] eqn:S1. apply (K KMesh None (CMesh m) (pl_root pl) (f1, e1)); auto. apply (one_mesh pl m); assumption.
  - destruct (save_to_pickle pl n t f) as [f1 e1] eqn:S1. apply (K KPickle n (CTree t) (pl_settings pl) (f1, e1)); auto. apply (one_pickle pl n t); assumption.
  - destruct (save_to_txt pl n s f) as [f1 e1] eqn:S1. apply (K KText n (CText s) (pl_settings pl) (f1, e1)); auto. apply (one_txt pl n s); assumption.
  - destruct (save_to_yaml pl n i t f) as [f1 e1] eqn:S1. apply (K KYaml n (CYaml t) (pl_settings pl) (f1, e1)); auto. apply (one_yaml pl n i t); assumption.
  - destruct As as [-> ->]. unfold save_settings in E. destruct (save_to_pickle pl None t f) as [f1 [e1|]] eqn:S1; [cbn [andthen] in E; discriminate E|]. destruct (one_pickle _ _ _ _ _ _ Tr S1) as (Tr1 & _ & H1 & _). specialize (H1 eq_refl). cbn [andthen] in E.
    assert (S2 : exists f2, (if x then save_to_txt pl None s f1 else (f1, None)) = (f2, None) /\ tree f2 /\ holds f2 (place pl KPickle None) (CTree t)).
    { destruct x; [|exists f1; auto]. destruct (save_to_txt pl None s f1) as [f2 [e2|]] eqn:Z; [cbn [andthen] in E; discriminate E|]. exists f2. destruct (one_txt _ _ _ _ _ _ Tr1 Z) as (A & B & _). split; [reflexivity|]. split; [exact A|]. apply B; [|exact H1]. intros Q. apply place_last in Q. discriminate Q. }
    destruct S2 as (f2 & Q2 & Tr2 & H2). rewrite Q2 in E. cbn [andthen] in E. destruct y; [|injection E as _ <-; exact H2].
    destruct (save_to_yaml pl None i t f2) as [f3 e3] eqn:Z. injection E as _ <- ->. destruct (one_yaml _ _ _ _ _ _ _ Tr2 Z) as (_ & B & _). apply B; [|exact H2]. intros Q. apply place_last in Q. discriminate Q.
  - destruct As as [-> ->]. unfold save_settings in E.
    assert (S1 : exists f1, (if p then save_to_pickle pl None t f else (f, None)) = (f1, None) /\ tree f1).
    { destruct p; [|exists f; auto]. destruct (save_to_pickle pl None t f) as [f1 [e1|]] eqn:Z; [cbn [andthen] in E; discriminate E|]. exists f1. split; [reflexivity|]. apply (one_pickle _ _ _ _ _ _ Tr Z). }
    destruct S1 as (f1 & Q1 & Tr1). rewrite Q1 in E. cbn [andthen] in E. destruct (save_to_txt pl None s f1) as [f2 [e2|]] eqn:S2; [cbn [andthen] in E; discriminate E|]. destruct (one_txt _ _ _ _ _ _ Tr1 S2) as (Tr2 & _ & H2 & _). specialize (H2 eq_refl). cbn [andthen] in E.
    destruct y; [|injection E as _ <-; exact H2]. destruct (save_to_yaml pl None i t f2) as [f3 e3] eqn:Z. injection E as _ <- ->. destruct (one_yaml _ _ _ _ _ _ _ Tr2 Z) as (_ & B & _). apply B; [|exact H2]. intros Q. apply place_last in Q. discriminate Q.
  - destruct As as [-> ->]. unfold save_settings in E.
    assert (S1 : exists f1, (if p then save_to_pickle pl None t f else (f, None)) = (f1, None) /\ tree f1).
    { destruct p; [|exists f; auto]. destruct (save_to_pickle pl None t f) as [f1 [e1|]] eqn:Z; [cbn [andthen] in E; discriminate E|]. exists f1. split; [reflexivity|]. apply (one_pickle _ _ _ _ _ _ Tr Z). }
    destruct S1 as (f1 & Q1 & Tr1). rewrite Q1 in E. cbn [andthen] in E.
    assert (S2 : exists f2, (if x then save_to_txt pl None s f1 else (f1, None)) = (f2, None) /\ tree f2).
    { destruct x; [|exists f1; auto]. destruct (save_to_txt pl None s f1) as [f2 [e2|]] eqn:Z; [cbn [andthen] in E; discriminate E|]. exists f2. split; [reflexivity|]. apply (one_txt _ _ _ _ _ _ Tr1 Z). }
    destruct S2 as (f2 & Q2 & Tr2). rewrite Q2 in E. cbn [andthen] in E. destruct (save_to_yaml pl None i t f2) as [f3 e3] eqn:Z. injection E as _ <- ->. destruct (one_yaml _ _ _ _ _ _ _ Tr2 Z) as (_ & _ & H3 & _). apply H3. reflexivity.
  - destruct (save_gridfunction pl n v f) as [f1 e1] eqn:S1. apply (K KState n (CState v) (pl_states pl) (f1, e1)); auto. apply (one_state pl n v); assumption.
  - destruct (write_csv pl n rows f) as [f1 e1] eqn:S1. apply (K KCsv (Some n) (CRows rows) (pl_sensors pl) (f1, e1)); auto. apply (one_csv pl n rows); assumption.
Qed.
Print Assumptions c73_saved.

Theorem c73_frame : forall {M T V} pl (f : @fsys M T V) o pl' f' e, tree f -> file_step (pl, f) o = ((pl', f'), e) ->
  tree f' /\ (forall p c, ~ may_write pl o p -> (holds f' p c <-> holds f p c)) /\ (forall q, f q <> None -> f' q <> None).
Proof. intros M T V pl f o pl' f' e Tr E. apply (step_frame pl f o pl' f' e Tr E). Qed.
Print Assumptions c73_frame.

(** The log grows: earlier messages stay. *)
Theorem c73_log_appends : forall {M T V} pl (f : @fsys M T V) lines pl' f' old, tree f -> file_step (pl, f) (WriteLog lines) = ((pl', f'), None) ->
  holds f (place pl KLog None) (CLog old) -> holds f' (place pl KLog None) (CLog (old ++ lines)).
Proof.
  intros M T V pl f lines pl' f' old Tr E H. cbn [file_step] in E. destruct (write_log pl lines f) as [f1 e1] eqn:S1. injection E as _ <- ->.
  destruct (one_log pl lines f f1 None Tr S1) as (_ & _ & C & _). specialize (C eq_refl). rewrite H in C. exact C.
Qed.
Print Assumptions c73_log_appends.

(** Histories: a file keeps its content as long as nothing of its kind is saved to its place; meshes and pickled settings count as one kind. *)
Lemma run_keeps {M T V} : forall (ops : list (@op M T V)) pl0 k0 name0 pl f c,
  tree f -> holds f (place pl0 k0 name0) c ->
  untouched k0 (place pl0 k0 name0) (located pl ops) ->
  (k0 = KMesh -> untouched KPickle (place pl0 k0 name0) (located pl ops)) -> (k0 = KPickle -> untouched KMesh (place pl0 k0 name0) (located pl ops)) ->
  tree (snd (file_run ops (pl, f))) /\ holds (snd (file_run ops (pl, f))) (place pl0 k0 name0) c /\ forall q, f q <> None -> snd (file_run ops (pl, f)) q <> None.
Proof.
  intros ops pl0 k0 name0. set (p := place pl0 k0 name0). induction ops as [|o ops IH]; intros pl f c Tr H U UP UM; [cbn; auto|].
  change (file_run (o :: ops) (pl, f)) with (file_run ops (fst (file_step (pl, f) o))). destruct (file_step (pl, f) o) as [[pl1 f1] e] eqn:E. cbn [fst].
  destruct (step_frame pl f o pl1 f1 e Tr E) as (Pl & Tr1 & Fr & Ps).
  assert (H1 : holds f1 p c).
  { apply Fr; [|exact H]. intros (k & name & As & Q). destruct (c73_apart pl k name pl0 k0 name0 Q) as [-> |[[-> ->]|[-> ->]]].
    - apply (U pl o name); [left; reflexivity|exact As|exact Q].
    - apply (UM eq_refl pl o name); [left; reflexivity|exact As|exact Q].
    - apply (UP eq_refl pl o name); [left; reflexivity|exact As|exact Q]. }
  assert (Sub : forall k, untouched k p (located pl (o :: ops)) -> untouched k p (located pl1 ops)).
  { intros k Uk. subst pl1. intros a b n I. apply (Uk a b n). right. exact I. }
  destruct (IH pl1 f1 c Tr1 H1 (Sub _ U) (fun z => Sub _ (UP z)) (fun z => Sub _ (UM z))) as (A & B & C). split; [exact A|]. split; [exact B|]. intros q Q. apply C, Ps, Q.
Qed.

(** Loading returns what was saved, whatever happened in between. *)
Theorem c73_mesh_round_trip : forall {M T V} pl (f : @fsys M T V) m w ops, tree f -> file_step (pl, f) (SaveMesh m) = (w, None) ->
  untouched KMesh (place pl KMesh None) (located pl ops) -> untouched KPickle (place pl KMesh None) (located pl ops) ->
  snd (load_mesh pl (snd (file_run ops w))) = inl (CMesh m).
Proof.
  intros M T V pl f m [pl1 f1] ops Tr E U1 U2. cbn [file_step] in E. destruct (save_mesh pl m f) as [f2 e2] eqn:S1. injection E as <- <- ->.
  destruct (one_mesh pl m f f2 None Tr S1) as (Tr1 & _ & H & _ & D & _).
  destruct (run_keeps ops pl KMesh None pl f2 (CMesh m) Tr1 (H eq_refl) U1 (fun _ => U2) ltac:(discriminate)) as (A & B & C).
  apply load_at_found; [exact A|exact B|apply C, D; reflexivity].
Qed.
Print Assumptions c73_mesh_round_trip.

Theorem c73_settings_round_trip : forall {M T V} pl (f : @fsys M T V) name t w ops, tree f -> file_step (pl, f) (SavePickle name t) = (w, None) ->
  untouched KMesh (place pl KPickle name) (located pl ops) -> untouched KPickle (place pl KPickle name) (located pl ops) ->
  snd (load_from_pickle pl name (snd (file_run ops w))) = inl (CTree t).
Proof.
  intros M T V pl f name t [pl1 f1] ops Tr E U1 U2. cbn [file_step] in E. destruct (save_to_pickle pl name t f) as [f2 e2] eqn:S1. injection E as <- <- ->.
  destruct (one_pickle pl name t f f2 None Tr S1) as (Tr1 & _ & H & _ & D & _).
  destruct (run_keeps ops pl KPickle name pl f2 (CTree t) Tr1 (H eq_refl) U2 ltac:(discriminate) (fun _ => U1)) as (A & B & C).
  apply load_at_found; [exact A|exact B|apply C, D; reflexivity].
Qed.
Print Assumptions c73_settings_round_trip.

Theorem c73_state_round_trip : forall {M T V} pl (f : @fsys M T V) name v w ops, tree f -> file_step (pl, f) (SaveState name v) = (w, None) ->
  untouched KState (place pl KState name) (located pl ops) ->
  snd (load_gridfunction pl name (snd (file_run ops w))) = inl (CState v).
Proof.
  intros M T V pl f name v [pl1 f1] ops Tr E U1. cbn [file_step] in E. destruct (save_gridfunction pl name v f) as [f2 e2] eqn:S1. injection E as <- <- ->.
  destruct (one_state pl name v f f2 None Tr S1) as (Tr1 & _ & H & _ & D & _).
  destruct (run_keeps ops pl KState name pl f2 (CState v) Tr1 (H eq_refl) U1 ltac:(discriminate) ltac:(discriminate)) as (A & B & C).
  apply load_at_found; [exact A|exact B|apply C, D; reflexivity].
Qed.
Print Assumptions c73_state_round_trip.

(** ** Kinds of files *)
Definition sorted {M T V} (f : @fsys M T V) : Prop := forall p c, holds f p c -> exists q x, p = q ++ [(x ++ ext (kind_of c))%string].
Lemma one_sorted {M T V} pl k n (c : @content M T V) dir f f' e : saves_one pl k n c dir f f' e -> kind_of c = k -> sorted f -> sorted f'.
Proof.
  intros (_ & B & C & D & _) K S p d H. destruct (folder_eqb_spec p (place pl k n)) as [->|N].
  - destruct e as [z|]; [apply S, (D ltac:(discriminate)), H|]. specialize (C eq_refl). unfold holds in C, H. assert (d = c) as -> by congruence. rewrite K. apply place_ext.
  - apply S, (B p d N), H.
Qed.

Lemma step_sorted {M T V} pl (f : @fsys M T V) o : tree f -> sorted f -> sorted (snd (fst (file_step (pl, f) o))).
Proof.
  intros Tr S.
  assert (L : forall dir name, sorted (snd (fst (let '(f1, x) := load_at f dir name in ((pl, f1), match x with inl _ => None | inr z => Some z end))))).
  { intros dir name. destruct (load_at_spec f dir name Tr) as (_ & B & _). destruct (load_at f dir name) as [f1 x]. cbn [fst snd] in *. intros p c H. apply S, B, H. }
  destruct o as [m|n t|n s|n i t|p x y i t s|n v|n rows|lines| |n|n|npl]; cbn [file_step].
  - destruct (save_mesh pl m f) as [f1 e1] eqn:Z. exact (one_sorted _ _ _ _ _ _ _ _ (one_mesh _ _ _ _ _ Tr Z) eq_refl S).
  - destruct (save_to_pickle pl n t f) as [f1 e1] eqn:Z. exact (one_sorted _ _ _ _ _ _ _ _ (one_pickle _ _ _ _ _ _ Tr Z) eq_refl S).
  - destruct (save_to_txt pl n s f) as [f1 e1] eqn:Z. exact (one_sorted _ _ _ _ _ _ _ _ (one_txt _ _ _ _ _ _ Tr Z) eq_refl S).
  - destruct (save_to_yaml pl n i t f) as [f1 e1] eqn:Z. exact (one_sorted _ _ _ _ _ _ _ _ (one_yaml _ _ _ _ _ _ _ Tr Z) eq_refl S).
  - unfold save_settings.
    assert (S1 : exists f1 e1, (if p then save_to_pickle pl None t f else (f, None)) = (f1, e1) /\ tree f1 /\ sorted f1).
    { destruct p; [|exists f, None; auto]. destruct (save_to_pickle pl None t f) as [f1 e1] eqn:Z. pose proof (one_pickle _ _ _ _ _ _ Tr Z) as O. exists f1, e1. split; [reflexivity|]. split; [apply O|exact (one_sorted _ _ _ _ _ _ _ _ O eq_refl S)]. }
    destruct S1 as (f1 & e1 & -> & Tr1 & So1).
    assert (S2 : exists f2 e2, andthen (f1, e1) (fun f => if x then save_to_txt pl None s f else (f, None)) = (f2, e2) /\ tree f2 /\ sorted f2).
    { destruct e1 as [z|]; [exists f1, (Some z); auto|]. cbn [andthen]. destruct x; [|exists f1, None; auto]. destruct (save_to_txt pl None s f1) as [f2 e2] eqn:Z. pose proof (one_txt _ _ _ _ _ _ Tr1 Z) as O. exists f2, e2. split; [reflexivity|]. split; [apply O|exact (one_sorted _ _ _ _ _ _ _ _ O eq_refl So1)]. }
    destruct S2 as (f2 & e2 & -> & Tr2 & So2).
    destruct e2 as [z|]; [exact So2|]. cbn [andthen]. destruct y; [|exact So2]. destruct (save_to_yaml pl None i t f2) as [f3 e3] eqn:Z. exact (one_sorted _ _ _ _ _ _ _ _ (one_yaml _ _ _ _ _ _ _ Tr2 Z) eq_refl So2).
  - destruct (save_gridfunction pl n v f) as [f1 e1] eqn:Z. exact (one_sorted _ _ _ _ _ _ _ _ (one_state _ _ _ _ _ _ Tr Z) eq_refl S).
  - destruct (write_csv pl n rows f) as [f1 e1] eqn:Z. exact (one_sorted _ _ _ _ _ _ _ _ (one_csv _ _ _ _ _ _ Tr Z) eq_refl S).
  - destruct (write_log pl lines f) as [f1 e1] eqn:Z. exact (one_sorted _ _ _ _ _ _ _ _ (one_log _ _ _ _ _ Tr Z) eq_refl S).
  - apply L.
  - apply L.
  - apply L.
  - exact S.
Qed.

Lemma run_sorted {M T V} : forall (ops : list (@op M T V)) w, tree (snd w) -> sorted (snd w) -> tree (snd (file_run ops w)) /\ sorted (snd (file_run ops w)).
Proof.
  induction ops as [|o ops IH]; intros [pl f] Tr S; [auto|]. cbn [snd] in *. change (file_run (o :: ops) (pl, f)) with (file_run ops (fst (file_step (pl, f) o))).
  apply IH; [|apply step_sorted; assumption]. destruct (file_step (pl, f) o) as [[pl1 f1] e] eqn:E. apply (step_frame pl f o pl1 f1 e Tr E).
Qed.

(** Starting with folders only, loading returns objects of the kind asked for; a mesh file may hold settings and conversely. *)
Theorem c73_kinds : forall {M T V} (ops : list (@op M T V)) pl0 f0 pl name c, tree f0 -> (forall p d, ~ holds f0 p d) ->
  let f := snd (file_run ops (pl0, f0)) in
  (snd (load_mesh pl f) = inl c -> kind_of c = KMesh \/ kind_of c = KPickle) /\
  (snd (load_from_pickle pl name f) = inl c -> kind_of c = KMesh \/ kind_of c = KPickle) /\
  (snd (load_gridfunction pl name f) = inl c -> kind_of c = KState).
Proof.
  intros M T V ops pl0 f0 pl name c Tr Em f. destruct (run_sorted ops (pl0, f0) Tr (fun p d H => match Em p d H with end)) as [Trf S]. fold f in Trf, S.
  assert (K : forall k n, holds f (place pl k n) c -> ext k = ext (kind_of c)).
  { intros k n H. destruct (S _ _ H) as (q & x & Q). destruct (place_ext pl k n) as (q' & x' & Q'). rewrite Q in Q'. apply app_inj_tail in Q' as [_ Q'].
    apply (f_equal last_char) in Q'. rewrite !last_char_app in Q' by (destruct k, c; discriminate). destruct k, c; try reflexivity; discriminate Q'. }
  split; [|split]; intros L; apply load_at_spec in L; try exact Trf.
  - pose proof (K KMesh None L) as E. destruct c; try discriminate E; auto.
  - pose proof (K KPickle name L) as E. destruct c; try discriminate E; auto.
  - pose proof (K KState name L) as E. destruct c; try discriminate E; auto.
Qed.
Print Assumptions c73_kinds.

(** ** Names without folders *)
Lemma no_slash_app a b : no_slash a -> no_slash b -> no_slash (a ++ b).
Proof. induction a as [|c a IH]; cbn [append no_slash]; [auto|]. intros [N1 N2] B. auto. Qed.
Lemma joinpath_plain dir s k : no_slash s -> joinpath dir (s ++ ext k) = dir ++ [(s ++ ext k)%string].
Proof.
  intros N. assert (N' : no_slash (s ++ ext k)) by (apply no_slash_app; [exact N|apply ext_extension]).
  pose proof (components_plain (s ++ ext k) "" N') as C. destruct (extension_long s (ext k) (ext_extension k)) as [E1 E2]. cbn [append] in C. rewrite E1, E2 in C. cbn [orb] in C.
  unfold joinpath. destruct (s ++ ext k)%string as [|c r] eqn:Z; [discriminate E1|]. destruct N' as [Nc _]. destruct (Ascii.eqb_spec c "/"%char) as [Q|_]; [congruence|]. rewrite C. reflexivity.
Qed.
Lemma string_length_append a b : String.length (a ++ b) = (String.length a + String.length b)%nat.
Proof. induction a as [|x a IH]; cbn [append String.length]; [reflexivity|rewrite IH; reflexivity]. Qed.
Lemma append_cancel a b c : (a ++ c = b ++ c)%string -> a = b.
Proof.
  revert b. induction a as [|x a IH]; intros [|y b] E; cbn [append] in E; auto.
  - apply (f_equal String.length) in E. cbn [String.length] in E. rewrite string_length_append in E. lia.
  - apply (f_equal String.length) in E. cbn [String.length] in E. rewrite string_length_append in E. lia.
  - injection E as -> E. rewrite (IH b E). reflexivity.
Qed.

(** With the settings in a folder of their own, or under another name, the mesh is safe from them. *)
Theorem c73_no_clash : forall pl pl' name, no_slash (pl_mesh_name pl) -> no_slash (match name with Some n => n | None => pl_settings_name pl' end) ->
  (place pl KMesh None = place pl' KPickle name <-> pl_root pl = pl_settings pl' /\ pl_mesh_name pl = match name with Some n => n | None => pl_settings_name pl' end).
Proof.
  intros pl pl' name N1 N2. unfold place. rewrite (joinpath_plain _ _ KMesh N1), (joinpath_plain _ _ KPickle N2). split.
  - intros E. apply app_inj_tail in E as [-> E]. apply append_cancel in E. auto.
  - intros [-> ->]. reflexivity.
Qed.
Print Assumptions c73_no_clash.

(** Otherwise the later save replaces the earlier object, and loading the mesh returns settings. *)
Theorem c73_clash_refuted : forall {M T V} pl (f : @fsys M T V) m t w w', tree f -> no_slash (pl_mesh_name pl) ->
  pl_settings pl = pl_root pl -> pl_settings_name pl = pl_mesh_name pl ->
  file_step (pl, f) (SaveMesh m) = (w, None) -> file_step w (SavePickle None t) = (w', None) -> snd (load_mesh pl (snd w')) = inl (CTree t).
Proof.
  intros M T V pl f m t [pl1 f1] [pl2 f2] Tr N E1 E2 S1 S2. cbn [file_step] in S1. destruct (save_mesh pl m f) as [g1 e1] eqn:Z1. injection S1 as <- <- ->.
  cbn [file_step] in S2. destruct (save_to_pickle pl None t g1) as [g2 e2] eqn:Z2. injection S2 as <- <- ->.
  destruct (one_mesh pl m f g1 None Tr Z1) as (Tr1 & _). destruct (one_pickle pl None t g1 g2 None Tr1 Z2) as (Tr2 & _ & H & _ & D & _).
  specialize (H eq_refl). specialize (D eq_refl). unfold place in H. rewrite E1, E2 in *. apply load_at_found; assumption.
Qed.
Print Assumptions c73_clash_refuted.

(** ** Saving succeeds *)
Definition clear_way {M T V} (f : @fsys M T V) (dir : folder) : Prop := forall a b c, dir = a ++ b -> ~ holds f a c.

(** Making a folder changes nothing outside its way. *)
Lemma mkdirs_inside {M T V} (f : @fsys M T V) done rest f' e : mkdirs f done rest = (f', e) -> forall q, ~ (exists b, done ++ rest = q ++ b) -> f' q = f q.
Proof.
  revert f done. induction rest as [|x rest IH]; intros f done E q N; cbn [mkdirs] in E; [injection E as <- <-; reflexivity|].
  assert (As : done ++ x :: rest = (done ++ [x]) ++ rest) by (rewrite <- app_assoc; reflexivity). rewrite As in N.
  destruct (f (done ++ [x])) as [[|c]|] eqn:F.
  - apply (IH f (done ++ [x]) E q N).
  - injection E as <- <-. reflexivity.
  - rewrite (IH _ (done ++ [x]) E q N). apply put_other. intros ->. apply N. exists rest. reflexivity.
Qed.

Lemma mkdirs_total {M T V} (f : @fsys M T V) done rest : tree f -> f done = Some Dir -> clear_way f (done ++ rest) -> snd (mkdirs f done rest) = None.
Proof.
  revert f done. induction rest as [|x rest IH]; intros f done Tr D Cl; [reflexivity|]. cbn [mkdirs].
  assert (As : done ++ x :: rest = (done ++ [x]) ++ rest) by (rewrite <- app_assoc; reflexivity). rewrite As in Cl.
  destruct (f (done ++ [x])) as [[|c]|] eqn:N.
  - apply IH; assumption.
  - exfalso. exact (Cl (done ++ [x]) rest c eq_refl N).
  - apply IH; [apply tree_put_new; [exact Tr|exact D|rewrite N; discriminate]|apply put_same|]. intros a b c E H. destruct (folder_eqb_spec a (done ++ [x])) as [->|Ne].
    + unfold holds in H. rewrite put_same in H. discriminate.
    + unfold holds in H. rewrite put_other in H by exact Ne. exact (Cl a b c E H).
Qed.

Lemma save_at_total {M T V} (f : @fsys M T V) dir s k c : tree f -> clear_way f dir -> no_slash s -> f (dir ++ [(s ++ ext k)%string]) <> Some Dir ->
  snd (save_at f dir (s ++ ext k) c) = None.
Proof.
  intros Tr Cl N Fd. unfold save_at. destruct (ensure f dir) as [f1 e1] eqn:En.
  assert (D1 : e1 = None /\ tree f1 /\ f1 dir = Some Dir /\ f1 (dir ++ [(s ++ ext k)%string]) <> Some Dir).
  { unfold ensure, exists_ in En. destruct (f dir) as [[|d]|] eqn:F.
    - injection En as <- <-. auto.
    - exfalso. apply (Cl dir [] d); [rewrite app_nil_r; reflexivity|exact F].
    - pose proof (mkdirs_total f [] dir Tr (proj1 Tr) Cl) as Tot. rewrite En in Tot. cbn [snd] in Tot. subst e1.
      destruct (mkdirs_spec f [] dir f1 None Tr (proj1 Tr) En) as (A & _ & _ & G). specialize (G eq_refl). cbn [app] in G. split; [reflexivity|]. split; [exact A|]. split; [exact G|].
      intros B. pose proof (mkdirs_inside f [] dir f1 None En (dir ++ [(s ++ ext k)%string])) as I. cbn [app] in I. rewrite I in B; [exact (Fd B)|].
      intros (b & Q). apply (f_equal (@length string)) in Q. rewrite !app_length in Q. cbn in Q. lia. }
  destruct D1 as (-> & Tr1 & D & Nd). rewrite (joinpath_plain dir s k N). unfold write.
  assert (Pr : parent (dir ++ [(s ++ ext k)%string]) = dir) by (unfold parent; apply removelast_last). rewrite Pr, D.
  destruct (f1 (dir ++ [(s ++ ext k)%string])) as [[|d]|]; [congruence| |]; destruct (dir ++ [(s ++ ext k)%string]) eqn:Q; try reflexivity; exfalso; exact (nil_snoc _ _ Q).
Qed.

(** With plain names a save makes its folder and returns, unless a file lies in the way or the place is a folder. *)
Theorem c73_succeeds : forall {M T V} pl (f : @fsys M T V) m name t v, tree f ->
  (clear_way f (pl_root pl) -> no_slash (pl_mesh_name pl) -> f (place pl KMesh None) <> Some Dir -> snd (file_step (pl, f) (SaveMesh m)) = None) /\
  (clear_way f (pl_settings pl) -> no_slash (match name with Some n => n | None => pl_settings_name pl end) -> f (place pl KPickle name) <> Some Dir ->
    snd (file_step (pl, f) (SavePickle name t)) = None) /\
  (clear_way f (pl_states pl) -> no_slash (match name with Some n => n | None => pl_gfu_name pl end) -> f (place pl KState name) <> Some Dir ->
    snd (file_step (pl, f) (SaveState name v)) = None).
Proof.
  intros M T V pl f m name t v Tr. split; [|split]; intros Cl N Nd; cbn [file_step].
  - unfold place in Nd. rewrite (joinpath_plain _ _ KMesh N) in Nd. pose proof (save_at_total f _ _ KMesh (CMesh m) Tr Cl N Nd) as E. cbn [ext] in E. fold (save_mesh (T := T) (V := V) pl m f) in E.
    destruct (save_mesh pl m f). exact E.
  - unfold place in Nd. rewrite (joinpath_plain _ _ KPickle N) in Nd. pose proof (save_at_total f _ _ KPickle (CTree t) Tr Cl N Nd) as E. change (snd (save_to_pickle pl name t f) = None) in E.
    destruct (save_to_pickle pl name t f). exact E.
  - unfold place in Nd. rewrite (joinpath_plain _ _ KState N) in Nd. pose proof (save_at_total f _ _ KState (CState v) Tr Cl N Nd) as E. change (snd (save_gridfunction pl name v f) = None) in E.
    destruct (save_gridfunction pl name v f). exact E.
Qed.
Print Assumptions c73_succeeds.

(** Names that contain a folder: only the configured folder is made. *)
Theorem c73_subfolder_refuted : forall {M T V} (v : V), exists pl (f : @fsys M T V), tree f /\ clear_way f (pl_states pl) /\
  snd (file_step (pl, f) (SaveState (Some "run/state") v)) = Some OSFailure.
Proof.
  intros M T V v. set (pl := {| pl_root := []; pl_settings := ["cfg"]; pl_states := ["states"]; pl_sensors := ["sensors"]; pl_mesh_name := "mesh"; pl_settings_name := "settings"; pl_gfu_name := "gfu"; pl_log_name := "dream" |}).
  exists pl, (fun p => match p with [] => Some Dir | _ => None end). split; [|split].
  - split; [reflexivity|]. intros [|a p] x H; [reflexivity|]. exfalso. apply H. reflexivity.
  - intros [|a p] b c _ H; discriminate H.
  - reflexivity.
Qed.
Print Assumptions c73_subfolder_refuted.

(** Loading is not free of effects: a missing folder is made before the exception. *)
Theorem c73_loading_refuted : forall {M T V}, exists pl (f : @fsys M T V), tree f /\ snd (load_mesh pl f) = inr FileMissing /\
  f (pl_root pl) = None /\ fst (load_mesh pl f) (pl_root pl) = Some Dir.
Proof.
  intros M T V. exists {| pl_root := ["run"]; pl_settings := ["run"; "cfg"]; pl_states := ["run"; "states"]; pl_sensors := ["run"; "sensors"]; pl_mesh_name := "mesh"; pl_settings_name := "settings"; pl_gfu_name := "gfu"; pl_log_name := "dream" |},
    (fun p => match p with [] => Some Dir | _ => None end). split; [|repeat split; reflexivity].
  split; [reflexivity|]. intros [|a p] x H; [reflexivity|]. exfalso. apply H. reflexivity.
Qed.
Print Assumptions c73_loading_refuted.

(** A session: save everything, move the folders, save again, come back and load. *)
Definition session_empty : @fsys nat nat nat := fun p => match p with [] => Some Dir | _ => None end.
Definition session_a : places := {| pl_root := ["a"]; pl_settings := ["a"; "cfg"]; pl_states := ["a"; "states"]; pl_sensors := ["a"; "sensors"]; pl_mesh_name := "mesh"; pl_settings_name := "settings"; pl_gfu_name := "gfu"; pl_log_name := "dream" |}.
Definition session_b : places := {| pl_root := ["b"]; pl_settings := ["b"]; pl_states := ["a"; "states"]; pl_sensors := ["b"]; pl_mesh_name := "mesh"; pl_settings_name := "settings"; pl_gfu_name := "gfu"; pl_log_name := "dream" |}.
Definition session : list (@op nat nat nat) :=
  [SaveSettings true true true false 5 "text"; SaveState None 7; Configure session_b; SaveMesh 2; SavePickle (Some "mesh") 6; SaveState (Some "gfu_0.1") 8; WriteCsv "drag" ["t"]; LoadMesh].

Lemma session_untouched k : k = KMesh \/ k = KPickle -> untouched k (place session_a KMesh None) (located session_a session).
Proof.
  intros K q o n I A. assert (Z : place session_a KMesh None = ["a"; "mesh.pickle"]) by reflexivity. rewrite Z. clear Z.
  lazy beta iota delta [located In session] in I.
  destruct I as [I|[I|[I|[I|[I|[I|[I|[I|[]]]]]]]]]; apply pair_equal_spec in I; destruct I as [<- <-]; destruct K as [-> | ->]; cbn [asks] in A; try (destruct A; fail).
  - destruct A as [_ ->]. vm_compute. discriminate.
  - rewrite A. vm_compute. discriminate.
  - rewrite A. vm_compute. discriminate.
Qed.

Example c73_example : tree session_empty /\ exists w, file_step (session_a, session_empty) (SaveMesh 1) = (w, None) /\
  untouched KMesh (place session_a KMesh None) (located session_a session) /\ untouched KPickle (place session_a KMesh None) (located session_a session) /\
  snd (load_mesh session_a (snd (file_run session w))) = inl (CMesh 1) /\ snd (load_mesh session_b (snd (file_run session w))) = inl (CTree 6) /\
  snd (load_gridfunction session_b None (snd (file_run session w))) = inl (CState 7) /\
  snd (file_step w (SaveSettings true true true false 5 "text")) = Some NoYaml.
Proof.
  split.
  - split; [reflexivity|]. intros [|a p] x H; [reflexivity|]. exfalso. apply H. reflexivity.
  - exists (fst (file_step (session_a, session_empty) (SaveMesh 1))). split; [reflexivity|].
    split; [apply session_untouched; left; reflexivity|]. split; [apply session_untouched; right; reflexivity|].
    split; [vm_compute; reflexivity|]. split; [vm_compute; reflexivity|]. split; [vm_compute; reflexivity|]. vm_compute. reflexivity.
Qed.
