(** Timer properties C01-C03. *)
From Coq Require Import QArith Qabs ZArith List Bool Lia Lqa.
From Verif Require Import Base S_Timer M_Timer L_Timer.
Import ListNotations.
Local Open Scope Q_scope.

(** * C01: iterating the timer visits every time point exactly once *)

Theorem c01_timer_visits_every_point_once : forall tm include_start stride N a b h,
  tm_interval tm = (a, b) -> tm_step tm = h ->
  0 < h -> (0 < stride)%Z -> (1 <= N)%nat ->
  b - a == inject_Z (Z.of_nat N) * (inject_Z stride * h) ->
  exists l, timer_start tm include_start stride = Ok l /\
    length l = (if include_start then S N else N) /\
    (forall i, (i < length l)%nat ->
       nth_is (map fst l) i
         (a + inject_Z (first_number include_start + Z.of_nat i) * (inject_Z stride * h))) /\
    increasing (map fst l) /\
    nth_is (map fst l) (length l - 1) b /\
    (include_start = true -> nth_is (map fst l) 0 a).
Proof. exact timer_points. Qed.
Print Assumptions c01_timer_visits_every_point_once.

Example c01_example :
  exists l, timer_start (set_step (mk_timer (1#10, 11#10) 1 0 0) (1#100)) false 5 = Ok l /\
    length l = 20%nat /\ nth_is (map fst l) 19 (11#10).
Proof.
  destruct (c01_timer_visits_every_point_once
    (set_step (mk_timer (1#10, 11#10) 1 0 0) (1#100)) false 5 20 (1#10) (11#10) (1#100))
    as [l [H1 [H2 [_ [_ [H3 _]]]]]]; try reflexivity; try lia.
  exists l. rewrite H2 in H3. repeat split; assumption.
Qed.

(** Without the divisibility assumption the last point is within half a
    (strided) step of the requested end. *)
Theorem c01_timer_last_point_close : forall tm include_start stride a b h l,
  tm_interval tm = (a, b) -> tm_step tm = h ->
  0 < h -> (0 < stride)%Z ->
  timer_start tm include_start stride = Ok l -> l <> [] ->
  exists t, nth_is (map fst l) (length l - 1) t /\
    Qabs (t - b) <= (1#2) * (inject_Z stride * h).
Proof. exact timer_last_close. Qed.
Print Assumptions c01_timer_last_point_close.

(** The end of the interval may be overshot: interval [0,1] with step 2/3. *)
Theorem c01_end_overshoot_refuted : exists tm l t,
  valid_interval (tm_interval tm) /\ 0 < tm_step tm /\
  timer_start tm false 1 = Ok l /\ nth_is (map fst l) (length l - 1) t /\
  snd (tm_interval tm) < t.
Proof.
  exists (set_step timer_default (2#3)).
  eexists; exists (4#3). repeat split; try (vm_compute; reflexivity); try (vm_compute; discriminate).
  eexists. split; vm_compute; reflexivity.
Qed.
Print Assumptions c01_end_overshoot_refuted.

(** * C02: yielded labels identify time points *)

Theorem c02_labels_are_the_times : forall tm include_start stride l a b,
  tm_interval tm = (a, b) ->
  0 < tm_step tm -> (0 < stride)%Z ->
  has_decimals 16 (tm_step tm) ->
  tm_digit tm = set_digit (tm_step tm) ->
  has_decimals (tm_digit tm) a ->
  timer_start tm include_start stride = Ok l ->
  (forall i t lab, nth_error l i = Some (t, lab) -> lab == t) /\ distinct (map snd l).
Proof. exact timer_labels. Qed.
Print Assumptions c02_labels_are_the_times.

(** The array of a timer and the loop over it list the labels of all these points: with such decimals, the times themselves. *)
Theorem c02_listed : forall tm include_start stride N a b h,
  tm_interval tm = (a, b) -> tm_step tm = h ->
  0 < h -> (0 < stride)%Z -> (1 <= N)%nat ->
  b - a == inject_Z (Z.of_nat N) * (inject_Z stride * h) ->
  has_decimals 16 h -> tm_digit tm = set_digit h -> has_decimals (tm_digit tm) a ->
  exists l, timer_to_array tm include_start stride = Ok l /\
    length l = (if include_start then S N else N) /\
    (forall i, (i < length l)%nat ->
       nth_is l i (a + inject_Z (first_number include_start + Z.of_nat i) * (inject_Z stride * h))) /\
    (include_start = false -> stride = 1%Z -> timer_call tm = Ok l).
Proof.
  intros tm include_start stride N a b h I S H P Q D T G A.
  destruct (c01_timer_visits_every_point_once tm include_start stride N a b h I S H P Q D) as (l & E & L & F & _).
  subst h. destruct (c02_labels_are_the_times tm include_start stride l a b I H P T G A E) as [Same _].
  exists (map snd l). unfold timer_call, timer_to_array. rewrite E. cbn [bind].
  split; [reflexivity|]. split; [rewrite map_length; exact L|]. split.
  - intros i Hi. rewrite map_length in Hi. destruct (F i Hi) as (x & Ex & Hx).
    rewrite nth_error_map in Ex. destruct (nth_error l i) as [[t lab]|] eqn:El; [|discriminate]. cbn in Ex. injection Ex as <-.
    exists lab. split; [rewrite nth_error_map, El; reflexivity|]. rewrite (Same i t lab El). exact Hx.
  - intros -> ->. rewrite E. reflexivity.
Qed.
Print Assumptions c02_listed.

(** The number of digits used is the least one that represents the step. *)
Theorem c02_digits_least : forall h,
  0 <= h -> has_decimals 16 h ->
  has_decimals (set_digit h) h /\ (forall d, has_decimals d h -> (set_digit h <= d)%nat).
Proof. exact set_digit_spec. Qed.
Print Assumptions c02_digits_least.

(** The digits belong to the current step after any history of assignments. *)
Theorem c02_digits_follow_step : forall ops tm,
  tm_digit tm = set_digit (tm_step tm) ->
  tm_digit (fold_left timer_exec ops tm) = set_digit (tm_step (fold_left timer_exec ops tm)).
Proof. exact timer_digit_history. Qed.
Print Assumptions c02_digits_follow_step.

(** Any label is within half a unit of its last digit of the time. *)
Theorem c02_label_error : forall x d,
  Qabs (py_round_digits x d - x) <= (1#2) / inject_Z (10 ^ Z.of_nat d).
Proof. exact py_round_digits_error. Qed.
Print Assumptions c02_label_error.

Example c02_example :
  let tm := set_step (mk_timer (1#4, 5#4) 1 0 0) (1#100) in
  tm_digit tm = 2%nat /\
  exists l, timer_start tm true 1 = Ok l /\ length l = 101%nat /\ distinct (map snd l).
Proof.
  cbv zeta. split; [vm_compute; reflexivity|].
  eexists; split; [reflexivity|]. split; [vm_compute; reflexivity|].
  eapply (c02_labels_are_the_times (set_step (mk_timer (1#4, 5#4) 1 0 0) (1#100)) true 1);
    try reflexivity.
  - exists 100000000000000%Z. reflexivity.
  - exists 25%Z. reflexivity.
Qed.

(** Interval [0.25, 1.25] with step 0.25: the loop runs over 0.5, 0.75, 1, 1.25. *)
Example c02_listed_example : exists l,
  timer_call (set_step (mk_timer (1#4, 5#4) 1 0 0) (1#4)) = Ok l /\ length l = 4%nat /\ nth_is l 0 (1#2) /\ nth_is l 3 (5#4).
Proof.
  destruct (c02_listed (set_step (mk_timer (1#4, 5#4) 1 0 0) (1#4)) false 1 4 (1#4) (5#4) (1#4)) as (l & _ & L & F & C);
    try reflexivity; try lia.
  - exists 2500000000000000%Z. reflexivity.
  - exists 25%Z. reflexivity.
  - exists l. split; [exact (C eq_refl eq_refl)|]. split; [exact L|]. cbn beta iota in L.
    split; [destruct (F 0%nat) as (x & Ex & Hx)|destruct (F 3%nat) as (x & Ex & Hx)]; try (rewrite L; lia);
      (exists x; split; [exact Ex|]; rewrite Hx; reflexivity).
Qed.

(** The full claim is false: with a start of more digits than the step, two
    different time points get the same label (1.5 and 2.5 are both "2"). *)
Theorem c02_labels_collide_refuted : exists ops l i j ti tj li lj,
  let tm := fold_left timer_exec ops timer_default in
  timer_start tm false 1 = Ok l /\
  nth_error l i = Some (ti, li) /\ nth_error l j = Some (tj, lj) /\
  ~ ti == tj /\ li == lj.
Proof.
  exists [AssignInterval [1#2; 9#2]; AssignStep 1].
  eexists; exists 0%nat, 1%nat.
  do 4 eexists. cbv zeta.
  repeat split; try (vm_compute; reflexivity).
  vm_compute. discriminate.
Qed.
Print Assumptions c02_labels_collide_refuted.

(** * C03: the interval is valid after any history of assignments *)

Theorem c03_interval_always_valid : forall ops tm,
  valid_interval (tm_interval tm) ->
  valid_interval (tm_interval (fold_left timer_exec ops tm)) /\
  expected_interval (tm_interval tm) ops (tm_interval (fold_left timer_exec ops tm)).
Proof. exact timer_interval_history. Qed.
Print Assumptions c03_interval_always_valid.

Theorem c03_rejected_exactly_when_unacceptable : forall tm v,
  (acceptable v <-> snd (set_interval tm v) = None) /\
  (~ acceptable v -> set_interval tm v = (tm, Some ValueError)).
Proof. exact set_interval_raises. Qed.
Print Assumptions c03_rejected_exactly_when_unacceptable.

Example c03_example :
  valid_interval (tm_interval timer_default) /\
  tm_interval (fold_left timer_exec
    [AssignInterval [2; 1]; AssignInterval [1; 3]; AssignStep (1#2); AssignInterval [-(1); 4]; AssignInterval [5]]
    timer_default) = (1, 3).
Proof. split; [split; vm_compute; [discriminate | reflexivity] | vm_compute; reflexivity]. Qed.
