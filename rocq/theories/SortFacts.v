(** Sorting as modelled in EntryModel: permutation, and independence of the order given. *)
From Coq Require Import Permutation Sorting.Sorted.
From Verif Require Import BaseFacts Utf8Model DnModel EntryModel.

Lemma bytes_leb_refl a : bytes_leb a a = true.
Proof. induction a as [|x a IH]; cbn; [reflexivity|]. now rewrite Z.ltb_irrefl. Qed.
Lemma bytes_leb_total a b : bytes_leb a b = true \/ bytes_leb b a = true.
Proof.
  revert b. induction a as [|x a IH]; intros [|y b]; cbn; auto.
  destruct (Z.ltb_spec (b2z x) (b2z y)); auto. destruct (Z.ltb_spec (b2z y) (b2z x)); auto.
Qed.
Lemma bytes_leb_antisym a b : bytes_leb a b = true -> bytes_leb b a = true -> a = b.
Proof.
  revert b. induction a as [|x a IH]; intros [|y b]; cbn; try congruence.
  destruct (Z.ltb_spec (b2z x) (b2z y)), (Z.ltb_spec (b2z y) (b2z x)); try congruence; try lia.
  intros A B. f_equal; [apply b2z_inj; lia|auto].
Qed.
Lemma bytes_leb_trans a b c : bytes_leb a b = true -> bytes_leb b c = true -> bytes_leb a c = true.
Proof.
  revert b c. induction a as [|x a IH]; intros [|y b] [|z c]; cbn; try congruence.
  destruct (Z.ltb_spec (b2z x) (b2z y)), (Z.ltb_spec (b2z y) (b2z x)), (Z.ltb_spec (b2z y) (b2z z)),
    (Z.ltb_spec (b2z z) (b2z y)), (Z.ltb_spec (b2z x) (b2z z)), (Z.ltb_spec (b2z z) (b2z x)); try congruence; try lia; eauto.
Qed.

Section Sort.
  Context {A : Type} (leb : A -> A -> bool).
  Lemma insert_perm x l : Permutation (x :: l) (insert_by leb x l).
  Proof.
    induction l as [|y l IH]; cbn; [reflexivity|]. destruct (leb x y); [reflexivity|].
    rewrite perm_swap. now constructor.
  Qed.
  Lemma sort_perm l : Permutation l (sort_by leb l).
  Proof. induction l as [|x l IH]; cbn; [constructor|]. rewrite <- insert_perm. now constructor. Qed.

  Hypothesis total : forall x y, leb x y = true \/ leb y x = true.
  Hypothesis trans : forall x y z, leb x y = true -> leb y z = true -> leb x z = true.
  Let le x y := leb x y = true.
  Lemma insert_sorted x l : StronglySorted le l -> StronglySorted le (insert_by leb x l).
  Proof.
    induction l as [|y l IH]; intros S; cbn; [repeat constructor|]. inversion S as [|? ? S' F]; subst.
    destruct (leb x y) eqn:E.
    - constructor; [exact S|]. constructor; [exact E|]. apply (Forall_impl _ (fun z => trans x y z E) F).
    - constructor; [auto|]. apply Forall_forall. intros z I.
      apply (Permutation_in _ (Permutation_sym (insert_perm x l))) in I as [<-|I].
      + destruct (total x y); [congruence|assumption].
      + rewrite Forall_forall in F. auto.
  Qed.
  Lemma sort_sorted l : StronglySorted le (sort_by leb l).
  Proof. induction l as [|x l IH]; cbn; [constructor|]. now apply insert_sorted. Qed.

  Lemma sorted_unique l m : (forall x y, In x l -> In y l -> le x y -> le y x -> x = y) ->
    StronglySorted le l -> StronglySorted le m -> Permutation l m -> l = m.
  Proof.
    revert m. induction l as [|x l IH]; intros m anti S T P.
    - apply Permutation_nil in P. now subst.
    - destruct m as [|y m]; [symmetry in P; apply Permutation_nil in P; discriminate|].
      inversion S as [|? ? S' F]; inversion T as [|? ? T' G]; subst. rewrite Forall_forall in F, G.
      assert (x = y) as ->.
      { assert (Iy : In y (x :: l)) by (apply (Permutation_in _ (Permutation_sym P)); now left).
        assert (Ix : In x (y :: m)) by (apply (Permutation_in _ P); now left).
        destruct Iy as [->|Iy]; [reflexivity|]. destruct Ix as [->|Ix]; [reflexivity|].
        apply anti; [now left|now right|auto|auto]. }
      f_equal. apply Permutation_cons_inv in P. apply IH; auto. intros a b I J. apply anti; now right.
  Qed.
  Lemma sort_unique l m : (forall x y, In x l -> In y l -> le x y -> le y x -> x = y) ->
    Permutation l m -> sort_by leb l = sort_by leb m.
  Proof.
    intros anti P. apply sorted_unique; try apply sort_sorted.
    - intros x y I J. apply anti; eapply Permutation_in; try apply Permutation_sym, sort_perm; eassumption.
    - rewrite <- (sort_perm l), <- (sort_perm m). exact P.
  Qed.
End Sort.
