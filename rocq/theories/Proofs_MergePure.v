(** Proofs_MergePure.v -- merging adjacent rows of a sorted list: the survivors are the
    folds of the groups of equal rows. *)
From Coq Require Import ZArith List Bool Lia Permutation.
From Verif Require Import Base Model_Table Model_Sort Model_Merge Spec Spec_Sort Spec_Merge Proofs_Lib.
Import ListNotations.
Local Open Scope list_scope.

Section Groups.
  Context {A : Type} (eqb : A -> A -> bool) (f : A -> A -> A) (ok : A -> Prop) (lt eq : A -> A -> Prop).
  Hypothesis eqb_spec : forall x y, ok x -> ok y -> eqb x y = true <-> eq x y.
  Hypothesis eq_refl' : forall x, eq x x.
  Hypothesis eq_sym' : forall x y, eq x y -> eq y x.
  Hypothesis eq_trans' : forall x y z, eq x y -> eq y z -> eq x z.
  Hypothesis lt_tri : forall x y, ok x -> ok y -> ~ lt y x -> eq x y \/ lt x y.
  Hypothesis lt_le : forall x y z, ok x -> ok y -> ok z -> lt x y -> ~ lt z y -> lt x z.
  Hypothesis f_ok : forall x y, ok x -> ok y -> eq x y -> ok (f x y).
  Hypothesis f_eq : forall x y, ok x -> ok y -> eq x y -> eq (f x y) y.

  Fixpoint surv (cur : A) (rest : list A) : list A :=
    match rest with
    | [] => [cur]
    | r :: rest' => if eqb cur r then surv (f cur r) rest' else cur :: surv r rest'
    end.

  Definition foldb (b : list A) : option A := match b with [] => None | x :: r => Some (fold_left f r x) end.

  Definition group (b : list A) : Prop := b <> [] /\ forall x y, In x b -> In y b -> eq x y.

  Lemma surv_groups rest : forall blk cur, group blk -> foldb blk = Some cur -> Forall ok blk -> ok cur ->
    (forall x, In x blk -> eq x cur) -> Forall ok rest ->
    ForallOrdPairs (fun x y => ~ lt y x) (blk ++ rest) ->
    exists blocks, map Some (surv cur rest) = map foldb blocks /\ List.concat blocks = blk ++ rest /\ Forall group blocks
      /\ Forall2 (fun b s => forall x, In x b -> eq x s) blocks (surv cur rest)
      /\ Forall ok (surv cur rest)
      /\ ForallOrdPairs (fun b b' => forall x y, In x b -> In y b' -> lt x y) blocks.
  Proof.
    induction rest as [|r rest IH]; intros blk cur G FB OB OC EC OR SO.
    - exists [blk]. simpl. rewrite FB.
      split; [reflexivity|]. split; [reflexivity|]. split; [constructor; auto|]. split; [constructor; auto|].
      split; [constructor; auto|]. repeat constructor.
    - simpl. inversion OR as [|? ? Or OR']. subst. destruct (eqb cur r) eqn:Q.
      + apply eqb_spec in Q; auto.
        destruct (IH (blk ++ [r]) (f cur r)) as (bs & B1 & B2 & B3 & B4 & B5 & B6); auto.
        * split; [destruct blk; discriminate|]. destruct G as [G1 G2]. intros x y X Y.
          assert (AL : forall z, In z (blk ++ [r]) -> eq z cur).
          { intros z Z0. apply in_app_or in Z0 as [Z0|[<-|[]]]; auto. }
          apply eq_trans' with cur; auto.
        * destruct blk as [|b blk]; [discriminate|]. simpl in *. injection FB as <-. now rewrite fold_left_app.
        * apply Forall_app. split; auto.
        * intros x X. apply in_app_or in X as [X|[<-|[]]].
          -- apply eq_trans' with cur; auto. apply eq_trans' with r; auto.
          -- apply eq_sym'. auto.
        * now rewrite <- app_assoc.
        * exists bs. rewrite <- app_assoc in B2. auto 10.
      + assert (NQ : ~ eq cur r). { intros X. apply eqb_spec in X; auto. congruence. }
        assert (SR : ForallOrdPairs (fun x y => ~ lt y x) (r :: rest)).
        { clear -SO. induction blk; auto. inversion SO; auto. }
        destruct (IH [r] r) as (bs & B1 & B2 & B3 & B4 & B5 & B6); auto.
        * split; [discriminate|]. intros x y [<-|[]] [<-|[]]. auto.
        * intros x [<-|[]]. auto.
        * exists (blk :: bs). simpl. rewrite FB, B1, B2. simpl.
          split; [reflexivity|]. split; [reflexivity|]. split; [constructor; auto|]. split; [constructor; auto|]. split; [constructor; auto|].
          constructor; auto.
          rewrite Forall_forall. intros b IB x y X Y.
          assert (IY : In y (r :: rest)). { change (r :: rest) with ([r] ++ rest). rewrite <- B2. apply in_concat. eauto. }
          assert (OX : ok x) by (rewrite Forall_forall in OB; auto).
          assert (XR : lt x r).
          { assert (NL : ~ lt r x).
            { clear -SO X. induction blk as [|z blk IHb]; [destruct X|]. inversion SO as [|? ? F S']. subst.
              destruct X as [<-|X]; auto. rewrite Forall_forall in F. apply F. apply in_or_app. right. now left. }
            destruct (lt_tri x r) as [T|T]; auto. exfalso. apply NQ. apply eq_trans' with x; auto. }
          destruct IY as [<-|IY]; auto. rewrite Forall_forall in OR'. apply lt_le with r; auto.
          inversion SR as [|? ? F _]. subst. rewrite Forall_forall in F. auto.
  Qed.
End Groups.

(** ---------- cells ---------- *)
Definition data_b (v : value) : bool := nonzero v && negb (is_nan_b v).

(** What rows r1 and r1+1 hold after the switch of merge.go:259-424. *)
Definition pickR (a b : value) : value :=
  if data_b a then a else if data_b b then b else if is_nan_b a then b else if is_nan_b b then a else b.
Definition pickL (a b : value) : value :=
  if data_b a then a else if data_b b then b else if is_nan_b a then b else a.

Lemma is_nan_b_spec v : is_nan_b v = true <-> is_nan v.
Proof.
  unfold is_nan. destruct v as [| | | |f|f| | | |]; simpl; try destruct f; split; try discriminate; auto; intros [H|H]; congruence.
Qed.

Lemma pick_fold l : forall a, let r := fold_left pickR l a in
  In r (a :: l)
  /\ ((exists x, In x (a :: l) /\ data_b x = true) ->
        exists l1 l2, a :: l = l1 ++ r :: l2 /\ data_b r = true /\ Forall (fun y => data_b y = false) l1)
  /\ (is_nan_b r = true -> Forall (fun x => is_nan_b x = true) (a :: l)).
Proof.
  induction l as [|b l IH]; intros a; cbv zeta.
  - simpl. split; [now left|]. split.
    + intros (x & [<-|[]] & G). exists [], []. auto.
    + auto.
  - cbn [fold_left]. specialize (IH (pickR a b)). cbv zeta in IH. destruct IH as (I1 & I2 & I3).
    assert (PI : pickR a b = a \/ pickR a b = b).
    { unfold pickR. destruct (data_b a), (data_b b), (is_nan_b a), (is_nan_b b); auto. }
    split; [|split].
    + destruct I1 as [I1|I1]; [|simpl; auto]. rewrite <- I1. destruct PI as [-> | ->]; simpl; auto.
    + intros (x & X & G). destruct (data_b a) eqn:GA.
      * assert (PA : pickR a b = a) by (unfold pickR; now rewrite GA). rewrite PA in *.
        destruct I2 as (l1 & l2 & E1 & E2 & E3). { exists a. split; simpl; auto. }
        destruct l1 as [|y l1].
        -- simpl in E1. injection E1 as E1 E4. exists [], (b :: l). simpl. rewrite <- E1. auto.
        -- simpl in E1. injection E1 as <- _. inversion E3. congruence.
      * destruct (data_b b) eqn:GB.
        -- assert (PB : pickR a b = b) by (unfold pickR; now rewrite GA, GB). rewrite PB in *.
           destruct I2 as (l1 & l2 & E1 & E2 & E3). { exists b. split; simpl; auto. }
           destruct l1 as [|y l1].
           ++ simpl in E1. injection E1 as E1 E4. exists [a], l. simpl. rewrite <- E1. auto.
           ++ simpl in E1. injection E1 as <- _. inversion E3. congruence.
        -- assert (GP : data_b (pickR a b) = false) by (destruct PI as [-> | ->]; auto).
           destruct I2 as (l1 & l2 & E1 & E2 & E3).
           { exists x. split; auto. destruct X as [<-|[<-|X]]; [congruence|congruence|now right]. }
           destruct l1 as [|y l1].
           ++ simpl in E1. injection E1 as E1 E4. rewrite <- E1 in E2. congruence.
           ++ simpl in E1. injection E1 as <- E1. inversion E3. subst. exists (a :: b :: l1), l2. simpl.
              split; [f_equal; f_equal; exact E1|]. split; [exact E2|]. repeat (constructor; auto).
    + intros N. specialize (I3 N). inversion I3 as [|? ? P F]. subst.
      assert (is_nan_b a = true /\ is_nan_b b = true).
      { unfold pickR in P. destruct (data_b a) eqn:GA.
        - unfold data_b in GA. rewrite P in GA. rewrite andb_false_r in GA. discriminate.
        - destruct (data_b b) eqn:GB.
          + unfold data_b in GB. rewrite P in GB. rewrite andb_false_r in GB. discriminate.
          + destruct (is_nan_b a) eqn:NA; [auto|]. destruct (is_nan_b b) eqn:NB; congruence. }
      repeat constructor; tauto.
Qed.
