(** Proofs_Env.v -- an environment that meets env_ok: insertion sort and ASCII lower case.
    It shows that the contract assumed of the Go library can be met. *)
From Coq Require Import ZArith NArith List String Ascii Bool Permutation Lia.
From Verif Require Import Base Model_Names Model_Table Model_Sort Spec Spec_Sort.
From Verif Require Import Proofs_Lib.
Import ListNotations.
Local Open Scope list_scope.

Fixpoint insert (less : list value -> list value -> option bool) (x : list value) (l : list (list value)) : option (list (list value)) :=
  match l with
  | [] => Some [x]
  | y :: r => match less y x with
              | Some true => match insert less x r with Some r' => Some (y :: r') | None => None end
              | Some false => Some (x :: y :: r)
              | None => None end
  end.
Fixpoint isort less (l : list (list value)) : option (list (list value)) :=
  match l with
  | [] => Some []
  | x :: r => match isort less r with Some r' => insert less x r' | None => None end
  end.

Definition lower_ascii (c : ascii) : ascii :=
  if byte_in 65 90 c then ascii_of_N (N_of_ascii c + 32) else c.
Fixpoint lower (s : string) : string :=
  match s with EmptyString => EmptyString | String c r => String (lower_ascii c) (lower r) end.
Definition env0 : env := mkEnv lower isort.

Lemma insert_perm less x l : forall l', insert less x l = Some l' -> Permutation l' (x :: l).
Proof.
  induction l as [|y r IH]; simpl; intros l' H.
  - injection H as <-. reflexivity.
  - destruct (less y x) as [[|]|]; try discriminate.
    + destruct (insert less x r) as [r'|]; [|discriminate]. injection H as <-. rewrite (IH r' eq_refl). apply perm_swap.
    + injection H as <-. reflexivity.
Qed.
Lemma isort_perm less l : forall l', isort less l = Some l' -> Permutation l' l.
Proof.
  induction l as [|x r IH]; simpl; intros l' H.
  - injection H as <-. reflexivity.
  - destruct (isort less r) as [r'|]; [|discriminate]. apply insert_perm in H. rewrite H. constructor. auto.
Qed.
Lemma insert_total less x l : (forall y, In y l -> less y x <> None) -> exists l', insert less x l = Some l'.
Proof.
  induction l as [|y r IH]; simpl; intros H; eauto.
  destruct (less y x) as [[|]|] eqn:L; eauto; [|exfalso; eapply H; eauto].
  destruct IH as [l' ->]; eauto.
Qed.
Lemma isort_total less l : (forall x y, In x l -> In y l -> less x y <> None) -> exists l', isort less l = Some l'.
Proof.
  induction l as [|x r IH]; simpl; intros H; eauto.
  destruct IH as [r' E]. { intros; apply H; auto. } rewrite E. apply insert_total.
  intros y I. apply H; auto. right. eapply Permutation_in; [eapply isort_perm; eauto|auto].
Qed.
Lemma isort_panic less l : 2 <= List.length l -> (forall x y, In x l -> In y l -> less x y = None) -> isort less l = None.
Proof.
  induction l as [|x r IH]; simpl; [lia|]. intros L H. destruct r as [|y [|z r]]; simpl in L; [lia| |].
  - simpl. rewrite H; auto; simpl; auto.
  - rewrite IH; auto; simpl; try lia.
Qed.

Lemma sorted_cons less x l : sorted_by less l -> (forall y, In y l -> less y x = Some false) -> sorted_by less (x :: l).
Proof.
  intros S H i j a b IJ A B. destruct j as [|j]; [lia|]. simpl in B. destruct i as [|i]; simpl in A.
  - injection A as <-. apply H. eapply nth_error_In; eauto.
  - eapply (S i j); eauto. lia.
Qed.
Lemma sorted_tail less x l : sorted_by less (x :: l) -> sorted_by less l /\ forall y, In y l -> less y x = Some false.
Proof.
  intros S. split.
  - intros i j a b IJ A B. apply (S (Datatypes.S i) (Datatypes.S j)); auto. lia.
  - intros y I. apply In_nth_error in I as [j J]. apply (S 0 (Datatypes.S j)); auto. lia.
Qed.

Lemma less_ok_sub less l l' : less_ok less l -> (forall x, In x l' -> In x l) -> less_ok less l'.
Proof. intros [A B C D] S. constructor; eauto. Qed.

Lemma insert_sorted less x l l' : less_ok less (x :: l) -> sorted_by less l -> insert less x l = Some l' -> sorted_by less l'.
Proof.
  revert l'. induction l as [|y r IH]; simpl; intros l' LO S H.
  - injection H as <-. apply sorted_cons; auto. intros y [].
  - destruct (sorted_tail _ _ _ S) as [SR SY].
    assert (LOxr : less_ok less (x :: r)) by (eapply less_ok_sub; eauto; simpl; tauto).
    destruct (less y x) as [[|]|] eqn:L; try discriminate.
    + destruct (insert less x r) as [r'|] eqn:I; [|discriminate]. injection H as <-.
      apply sorted_cons; [eauto|]. intros z Z. pose proof (Permutation_in _ (insert_perm _ _ _ _ I) Z) as Z'.
      destruct Z' as [<-|Z']; [|auto].
      destruct (lo_total _ _ LO x y) as [[|] B]; simpl; auto.
      pose proof (lo_trans _ _ LO x y x) as T. pose proof (lo_irrefl _ _ LO x) as IR. simpl in *. rewrite T in IR; auto. discriminate IR; auto.
    + injection H as <-. apply sorted_cons; auto. intros z [<-|Z]; auto.
      apply (lo_incomp _ _ LO z y x); simpl; auto.
Qed.

Lemma env0_ok : env_ok env0.
Proof.
  constructor; simpl.
  - intros; eapply isort_perm; eauto.
  - intros; eapply isort_total; eauto.
  - intros; eapply isort_panic; eauto.
  - intros less l. induction l as [|x r IH]; simpl; intros l' LO H.
    + injection H as <-. intros i j a b _ A. destruct i; discriminate.
    + destruct (isort less r) as [r'|] eqn:I; [|discriminate]. pose proof (isort_perm _ _ _ I) as P.
      eapply insert_sorted; [| |exact H].
      * eapply less_ok_sub; [exact LO|]. intros z [<-|Z]; [now left|right]. eapply Permutation_in; eauto.
      * apply IH; auto. eapply less_ok_sub; [exact LO|]. intros z Z. now right.
Qed.
