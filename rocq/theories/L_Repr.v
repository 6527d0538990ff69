(** A concrete number format (reduced fraction in unary), showing that the
    hypothesis [number_format] of the file theorems can be met. *)
From Coq Require Import QArith Qreduction ZArith String Ascii List Lia.
From Verif Require Import S_IO L_Store.
Local Open Scope string_scope.

Fixpoint ones (n : nat) : string := match n with O => "" | S k => String "1" (ones k) end.
Definition unary (q : Q) : string :=
  let r := Qred q in
  (if (Qnum r <? 0)%Z then "-" else "") ++ ones (Z.to_nat (Z.abs (Qnum r))) ++ "/" ++ ones (Pos.to_nat (Qden r)).

Lemma ones_inj : forall n m, ones n = ones m -> n = m.
Proof. induction n as [|n IH]; intros [|m] H; cbn in H; try discriminate; [reflexivity|]. injection H as H. f_equal. apply IH. exact H. Qed.

Lemma free_ones : forall c n, c <> "1"%char -> free_of c (ones n).
Proof. induction n as [|n IH]; intros H; cbn; [exact I|]. split; [congruence | apply IH; exact H]. Qed.

Lemma free_app : forall c a b, free_of c a -> free_of c b -> free_of c (a ++ b).
Proof. induction a as [|x a IH]; intros b H G; cbn in *; [exact G|]. split; [apply H | apply IH; [apply H | exact G]]. Qed.

Lemma unary_format : number_format unary.
Proof.
  split; [|split].
  - intros a b E. unfold unary. rewrite (Qred_complete _ _ E). reflexivity.
  - intros a b E. unfold unary in E. rewrite <- !append_assoc in E.
    set (ra := Qred a) in *. set (rb := Qred b) in *.
    change "/" with (String "/" "") in E. rewrite !append_assoc in E. cbn [append] in E.
    rewrite <- !append_assoc in E.
    apply (split_first "/"%char) in E.
    + destruct E as [E1 E2]. apply ones_inj, Pos2Nat.inj in E2.
      assert (E3 : Qnum ra = Qnum rb).
      { destruct (Z.ltb_spec (Qnum ra) 0), (Z.ltb_spec (Qnum rb) 0); cbn in E1.
        - injection E1 as E1. apply ones_inj in E1. lia.
        - destruct (Z.to_nat (Z.abs (Qnum rb))); cbn in E1; discriminate.
        - destruct (Z.to_nat (Z.abs (Qnum ra))); cbn in E1; discriminate.
        - apply ones_inj in E1. lia. }
      rewrite <- (Qred_correct a), <- (Qred_correct b). fold ra rb. destruct ra, rb. cbn in *. subst. reflexivity.
    + apply free_app; [destruct (Qnum ra <? 0)%Z; cbn; repeat split; discriminate | apply free_ones; discriminate].
    + apply free_app; [destruct (Qnum rb <? 0)%Z; cbn; repeat split; discriminate | apply free_ones; discriminate].
  - intros a. unfold unary. apply free_app; [destruct (Qnum (Qred a) <? 0)%Z; cbn; repeat split; discriminate|].
    apply free_app; [apply free_ones; discriminate|]. apply (free_app _ "/"); [cbn; repeat split; discriminate | apply free_ones; discriminate].
Qed.
