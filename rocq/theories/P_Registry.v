(** C24: keyword registries. *)
From Coq Require Import String Ascii List Bool Arith Lia.
From Verif Require Import Base Dict M_Registry S_Registry L_Registry M_Classes.
Import ListNotations.
Local Open Scope string_scope.
Local Open Scope list_scope.

(** * C24 *)

(** A keyword that refers to a class keeps referring to it, whatever is defined later. *)
Theorem c24_never_overwritten : forall ds later t keyword c,
  lookup (define_all [] ds) t keyword = Ok c -> lookup (define_all [] (ds ++ later)) t keyword = Ok c.
Proof. exact never_overwritten. Qed.
Print Assumptions c24_never_overwritten.

(** A keyword refers to a concrete class of that interface which asked for this word (up to case). *)
Theorem c24_only_what_was_asked : forall ds t keyword c, lookup (define_all [] ds) t keyword = Ok c ->
  exists d w, nth_error ds c = Some d /\ d_role d = Concrete /\ tree_of ds c t /\ word_of ds c w /\ same_word w keyword /\ has_upper keyword = false.
Proof. exact lookup_asked. Qed.
Print Assumptions c24_only_what_was_asked.

(** A class whose statement did not raise is found under its name and all its aliases, in lower case. *)
Theorem c24_all_words_registered : forall ds i inf d t w, cinfo (define_all [] ds) i = Some inf -> nth_error ds i = Some d ->
  d_role d = Concrete -> tree_of ds i t -> word_of ds i w ->
  exists k, same_word w k /\ has_upper k = false /\ lookup (define_all [] ds) t k = Ok i.
Proof.
  intros ds i inf d t w H E R T W. exists (lower w). split; [apply same_word_lower; symmetry; apply lower_idem|].
  split; [apply lower_no_upper|]. eapply existing_registered; eassumption.
Qed.
Print Assumptions c24_all_words_registered.

(** Two existing classes of one interface share no word, not even up to case. *)
Theorem c24_unambiguous : forall ds i j infi infj di dj t v w,
  cinfo (define_all [] ds) i = Some infi -> cinfo (define_all [] ds) j = Some infj ->
  nth_error ds i = Some di -> nth_error ds j = Some dj -> d_role di = Concrete -> d_role dj = Concrete ->
  tree_of ds i t -> tree_of ds j t -> word_of ds i v -> word_of ds j w -> same_word v w -> i = j.
Proof.
  intros ds i j infi infj di dj t v w Hi Hj Ei Ej Ri Rj Ti Tj Wi Wj S. apply same_word_lower in S.
  pose proof (existing_registered _ _ _ _ _ _ Hi Ei Ri Ti Wi) as A. pose proof (existing_registered _ _ _ _ _ _ Hj Ej Rj Tj Wj) as B.
  rewrite S in A. congruence.
Qed.
Print Assumptions c24_unambiguous.

Lemma no_two_NoDup : forall ns, ForallOrdPairs (fun a b => ~ same_word a b) ns <-> NoDup (map lower ns).
Proof.
  induction ns as [|n ns IH]; cbn; [split; constructor|]. split.
  - intros H. inversion H as [|? ? F P]; subst. constructor; [|apply IH; exact P]. intros I. apply in_map_iff in I.
    destruct I as (w & E & I). rewrite Forall_forall in F. apply (F w I). apply same_word_lower. auto.
  - intros H. apply NoDup_cons_iff in H. destruct H as [N ND]. constructor; [|apply IH; exact ND].
    apply Forall_forall. intros w I S. apply same_word_lower in S. apply N. rewrite S. apply in_map. exact I.
Qed.

(** A statement with name [n] and aliases [l] below an existing class of interface [t] raises exactly if one
    of its words is taken (up to case) or two of its words are the same; it raises ValueError. *)
Theorem c24_duplicates_raise : forall ds d b inf t n l, d_role d = Concrete -> d_base d = Some b ->
  cinfo (define_all [] ds) b = Some inf -> tree_of ds b t -> d_name d = Some n -> d_aliases d = Some l ->
  (snd (define (define_all [] ds) d) = None \/ snd (define (define_all [] ds) d) = Some ValueError) /\
  (snd (define (define_all [] ds) d) = None <->
    ForallOrdPairs (fun a b => ~ same_word a b) (n :: l) /\
    forall w k c, In w (n :: l) -> lookup (define_all [] ds) t k = Ok c -> ~ same_word w k).
Proof.
  intros ds d b inf t n l R Db H T Dn Da.
  assert (Tr : i_tree inf = Some t) by (eapply info_tree; [apply all_invariant | exact T | exact H]).
  rewrite (concrete_outcome ds d b inf R Db H t l Tr) by (unfold own_aliases; rewrite Da; reflexivity).
  assert (N : own_name d inf = n) by (unfold own_name; rewrite Dn; reflexivity). rewrite N.
  split; [apply register_error|]. rewrite register_ok, no_two_NoDup.
  split; intros [P Q]; (split; [exact P|]).
  - intros w k c I L S. apply same_word_lower in S. pose proof (lookup_asked _ _ _ _ L) as (d' & w' & _ & _ & _ & _ & S' & _).
    specialize (Q w I). unfold lookup in L. destruct (dget (leafs (define_all [] ds) t) k) eqn:G; [|discriminate].
    destruct (all_invariant ds) as (_ & _ & _ & I3). destruct (I3 _ _ _ G) as (_ & _ & _ & _ & _ & _ & _ & _ & _ & w0 & _ & ->).
    rewrite lower_idem in S. rewrite S in Q. congruence.
  - intros w I. destruct (dget (leafs (define_all [] ds) t) (lower w)) as [c|] eqn:G; [|reflexivity]. exfalso.
    apply (Q w (lower w) c I); [unfold lookup; rewrite G; reflexivity|]. apply same_word_lower. symmetry. apply lower_idem.
Qed.
Print Assumptions c24_duplicates_raise.

(** A concrete class cannot be refined without giving the subclass a name of its own: its base's name is
    asked for again. *)
Theorem c24_inherited_name_refuted : forall ds d db b inf, d_role d = Concrete -> d_base d = Some b ->
  nth_error ds b = Some db -> d_role db = Concrete -> cinfo (define_all [] ds) b = Some inf -> d_name d = None ->
  snd (define (define_all [] ds) d) = Some ValueError.
Proof.
  intros ds d db b inf R Db Eb Rb H Dn. destruct (all_invariant ds) as (_ & I1 & _).
  destruct (I1 _ _ H) as (d' & bb & E' & B & _ & Nm & Al & Tr & C). rewrite Eb in E'. injection E' as <-.
  destruct (C Rb) as (l & t & A & T & K). rewrite Rb in Al, Tr. rewrite T in Tr. rewrite A in Al.
  destruct (d_aliases d) as [l'|] eqn:Da.
  all: rewrite (concrete_outcome ds d b inf R Db H t _ Tr) by (unfold own_aliases; rewrite Da; (reflexivity || exact Al)).
  all: unfold own_name at 1; rewrite Dn; cbn [register]; rewrite Nm, lower_idem, K by (left; reflexivity); reflexivity.
Qed.
Print Assumptions c24_inherited_name_refuted.

(** The same with aliases that the subclass does not redefine. *)
Theorem c24_inherited_aliases_refuted : forall ds d db b inf n a, d_role d = Concrete -> d_base d = Some b ->
  nth_error ds b = Some db -> d_role db = Concrete -> cinfo (define_all [] ds) b = Some inf -> d_name d = Some n ->
  d_aliases d = None -> alias_of ds b a -> snd (define (define_all [] ds) d) = Some ValueError.
Proof.
  intros ds d db b inf n a R Db Eb Rb H Dn Da W. pose proof (all_invariant ds) as V. pose proof V as (_ & I1 & _).
  destruct (I1 _ _ H) as (d' & bb & E' & B & _ & Nm & Al & Tr & C). rewrite Eb in E'. injection E' as <-.
  destruct (C Rb) as (l & t & A & T & K). rewrite Rb in Al, Tr. rewrite T in Tr. rewrite A in Al.
  destruct (info_alias _ _ V _ _ W _ H) as (l' & El & I). assert (l' = l) by congruence. subst l'.
  rewrite (concrete_outcome ds d b inf R Db H t l Tr) by (unfold own_aliases; rewrite Da; exact Al).
  destruct (register_error (own_name d inf :: l) (leafs (define_all [] ds) t) (length ds)) as [Q|Q]; [|exact Q].
  apply register_ok in Q. destruct Q as [_ Q]. specialize (Q a (or_intror I)). rewrite K in Q by (right; exact I). discriminate.
Qed.
Print Assumptions c24_inherited_aliases_refuted.

(** Words are registered in lower case but looked up as they are: a keyword with an upper-case letter is
    never found, not even if the class is defined with exactly this name. *)
Theorem c24_case_refuted : forall ds t keyword, has_upper keyword = true -> lookup (define_all [] ds) t keyword = Err TypeError.
Proof.
  intros ds t k U. destruct (lookup (define_all [] ds) t k) as [c|e] eqn:L.
  - destruct (lookup_asked _ _ _ _ L) as (_ & _ & _ & _ & _ & _ & _ & X). congruence.
  - unfold lookup in L. destruct (dget _ k); congruence.
Qed.
Print Assumptions c24_case_refuted.

(** A statement that raises because of an alias leaves its name registered for a class that nobody can
    refer to. *)
Theorem c24_failed_statement_refuted : exists ds t keyword c, lookup (define_all [] ds) t keyword = Ok c /\ cinfo (define_all [] ds) c = None.
Proof.
  exists [mk_def None None None Interface; mk_def (Some 0) (Some "roe") None Concrete; mk_def (Some 0) (Some "new") (Some ["Roe"]) Concrete], 0, "new", 2.
  split; reflexivity.
Qed.
Print Assumptions c24_failed_statement_refuted.

(** All class statements of the repository succeed, and the keywords are those of [repo_registry]. *)
Fixpoint outcomes (s : state) (ds : list definition) : list (option exn) :=
  match ds with [] => [] | d :: r => snd (define s d) :: outcomes (fst (define s d)) r end.
Definition named_leafs (iface : string) : dict string :=
  match find (fun p => String.eqb (fst (fst p)) iface) (combine repo_statements (seq 0 (length repo_statements))) with
  | Some (_, t) => map (fun kc => (fst kc, fst (nth (snd kc) repo_statements ("", mk_def None None None Skip)))) (leafs (define_all [] (map snd repo_statements)) t)
  | None => []
  end.
Example c24_repo_succeeds : Forall (fun e => e = None) (outcomes [] (map snd repo_statements)).
Proof. vm_compute. repeat constructor. Qed.
Example c24_repo_keywords : Forall (fun it => named_leafs (fst it) = snd it) repo_registry.
Proof. repeat (constructor; [vm_compute; reflexivity|]). constructor. Qed.

Example c24_example :
  let ds := [mk_def None None None Interface; mk_def (Some 0) (Some "HLL") (Some ["hll2"]) Concrete; mk_def (Some 1) (Some "hllem") (Some []) Concrete] in
  lookup (define_all [] ds) 0 "hll" = Ok 1 /\ lookup (define_all [] ds) 0 "hllem" = Ok 2 /\
  snd (define (define_all [] ds) (mk_def (Some 0) (Some "Hllem") None Concrete)) = Some ValueError.
Proof. repeat split. Qed.
