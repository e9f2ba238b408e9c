(** Proofs_MergeSpec.v -- the computed rows are the merge of the two tables. *)
From Coq Require Import ZArith NArith List String Ascii Bool SpecFloat Permutation Lia.
From Verif Require Import Base Model_Names Model_Table Model_Sort Model_Copy Model_Merge Spec Spec_Sort Spec_Copy Spec_Merge.
From Verif Require Import Proofs_Lib Proofs_Table Proofs_Cells Proofs_Struct Proofs_Api Proofs_Pres Samples Proofs_Zero Proofs_Api2.
From Verif Require Import Proofs_Copy Props_Copy Proofs_Order Proofs_Sort Proofs_Search Proofs_Keys Props_Sort.
From Verif Require Import Proofs_MergePure Proofs_MergeRun Proofs_MergeFill Proofs_MergeLoop Proofs_MergeDelete Proofs_Merge.
Import ListNotations.
Local Open Scope string_scope.
Local Open Scope list_scope.

(** ---------- lists ---------- *)
Lemma FOP_nth {A} (P : A -> A -> Prop) l : ForallOrdPairs P l -> forall i j x y, i < j -> nth_error l i = Some x -> nth_error l j = Some y -> P x y.
Proof.
  induction 1 as [|a l F H IH]; intros i j x y L X Y; [destruct i; discriminate|].
  destruct j as [|j]; [lia|]. destruct i as [|i]; simpl in *.
  - injection X as <-. rewrite Forall_forall in F. apply F. eapply nth_error_In; eauto.
  - apply (IH i j); auto. lia.
Qed.
Lemma FOP_perm {A} (P : A -> A -> Prop) l l' : (forall x y, P x y -> P y x) -> Permutation l l' -> ForallOrdPairs P l -> ForallOrdPairs P l'.
Proof.
  intros S H. induction H as [|x l l' H IH|x y l|l1 l2 l3 H1 IH1 H2 IH2]; intros F; auto.
  - inversion F as [|? ? F1 F2]. subst. constructor; auto. rewrite Forall_forall in *. intros z I. apply F1. eapply Permutation_in; [apply Permutation_sym|]; eauto.
  - inversion F as [|? ? F1 F2]. subst. inversion F2 as [|? ? F3 F4]. subst. inversion F1. subst. constructor; [|constructor]; auto.
Qed.
Lemma FOP_impl {A} (P Q : A -> A -> Prop) l : (forall x y, In x l -> In y l -> P x y -> Q x y) -> ForallOrdPairs P l -> ForallOrdPairs Q l.
Proof.
  intros H F. induction F as [|a l F1 F2 IH]; constructor.
  - rewrite Forall_forall in *. intros y I. apply H; simpl; auto.
  - apply IH. intros x y X Y. apply H; simpl; auto.
Qed.

Lemma zipw_nth {A B C} (f : A -> B -> C) l1 : forall l2 i, nth_error (zipw f l1 l2) i =
  match nth_error l1 i, nth_error l2 i with Some a, Some b => Some (f a b) | _, _ => None end.
Proof.
  induction l1 as [|a l1 IH]; intros [|b l2] [|i]; simpl; auto.
  - destruct (nth_error l1 i); auto.
Qed.
Lemma firstn_zipw {A B C} (f : A -> B -> C) n : forall l1 l2, firstn n (zipw f l1 l2) = zipw f (firstn n l1) (firstn n l2).
Proof. induction n as [|n IH]; intros [|a l1] [|b l2]; simpl; auto.
  f_equal. apply IH.
Qed.

Lemma nonzero_spec v : nonzero v = true <-> ~ is_zero v.
Proof.
  destruct v as [|b|s|k z|f|f|o|o|d|x]; simpl; try (split; [intros _ []|reflexivity]).
  - destruct b; split; congruence.
  - rewrite negb_true_iff, String.eqb_neq. reflexivity.
  - rewrite negb_true_iff, Z.eqb_neq. reflexivity.
  - destruct f; split; intros; try discriminate; try tauto.
  - destruct f; split; intros; try discriminate; try tauto.
Qed.
Lemma data_spec v : data_b v = true <-> is_data v.
Proof. unfold data_b, is_data. rewrite andb_true_iff, nonzero_spec, negb_true_iff, <- is_nan_b_spec. destruct (is_nan_b v); split; intros [H1 H2]; split; auto; congruence. Qed.
Lemma data_false v : data_b v = false <-> is_zero v \/ is_nan v.
Proof.
  unfold data_b. rewrite andb_false_iff, negb_false_iff, is_nan_b_spec. pose proof (nonzero_spec v) as H.
  destruct (nonzero v) eqn:Q; split; intros [X|X]; auto; try discriminate.
  - exfalso. now apply (proj1 H).
  - left. destruct v as [|b|s|k z|f|f|o|o|d|x]; simpl in *; try discriminate; auto.
    + now apply negb_false_iff, String.eqb_eq in Q.
    + now apply negb_false_iff, Z.eqb_eq in Q.
    + destruct f; auto; discriminate.
    + destruct f; auto; discriminate.
Qed.

Lemma dfl_not_data ct : In ct mergeable_types -> data_b (dfl ct) = false.
Proof. intros H. unfold mergeable_types in H. simpl in H. repeat (destruct H as [<-|H]; [reflexivity|]). destruct H. Qed.
Lemma dfl_zero ct : In ct mergeable_types -> is_zero (dfl ct) -> ct <> "float32" /\ ct <> "float64".
Proof. intros H Z. split; intros ->; exact Z. Qed.

Lemma pick_eq a b : val_eq a b -> val_eq (pickR a b) b.
Proof. intros H. unfold pickR. destruct (data_b a), (data_b b), (is_nan_b a), (is_nan_b b); auto using val_eq_refl. Qed.
Lemma pick_nan a b : ~ is_nan a -> ~ is_nan b -> ~ is_nan (pickR a b).
Proof. intros. unfold pickR. destruct (data_b a), (data_b b), (is_nan_b a), (is_nan_b b); auto. Qed.

Lemma fold_cells r : forall p0 i a, nth_error (fst p0) i = Some a ->
  forall l, map (fun p => nth_error (fst p) i) r = map Some l -> nth_error (fst (fold_left joinR r p0)) i = Some (fold_left pickR l a).
Proof.
  induction r as [|p r IH]; intros p0 i a H [|b l] ML; try discriminate; auto.
  injection ML as H2 ML. cbn [fold_left]. apply IH; auto. cbn [joinR fst]. now rewrite zipw_nth, H, H2.
Qed.

(** ---------- same keys ---------- *)
Definition holds (K : list skey) (t : table) (i : Z) (vs : list value) : Prop := Forall2 (fun k v => GetVal t (k_col k) i = Ok v) K vs.

Lemma same_key_teq K t i u r us vs : holds K t i us -> holds K u r vs -> same_key K t i u r <-> teq us vs.
Proof.
  intros H. revert vs. induction H as [|k v K us G H IH]; intros vs H'; inversion H' as [|? w ? vs' G' H'']; subst; unfold same_key.
  - split; constructor.
  - specialize (IH _ H''). unfold same_key in IH. split.
    + intros F. inversion F as [|? ? (x & y & X & Y & XY) F']. subst. constructor; [congruence|]. now apply IH.
    + intros T. inversion T. subst. constructor; eauto. now apply IH.
Qed.

Section Result.
  Context (E : env) (K : list skey) (t1 t2 : table) (N TS more : list string).
  Hypothesis MB : mergeable K t1 t2.
  Hypothesis LY : layout K t1 t2 N TS more.

  Let key (p : list value * Z) : list value := firstn (List.length K) (fst p).
  Let ok (p : list value * Z) : Prop := Forall2 cell_ok TS (fst p) /\ Forall (fun v => ~ is_nan v) (key p).
  Let lt (p q : list value * Z) : Prop := tlt E K (key p) (key q).
  Let eq (p q : list value * Z) : Prop := teq (key p) (key q).

  Lemma ts_first i k : nth_error K i = Some k -> nth_error N i = Some (k_col k) /\ nth_error TS i = Some (k_type k) /\ In (k_type k) sortable_types.
  Proof.
    intros H. assert (HN : nth_error N i = Some (k_col k)).
    { rewrite (ly_keys _ _ _ _ _ _ LY), nth_error_app1 by (rewrite map_length; eapply nth_error_some_lt; eauto). rewrite nth_error_map, H. reflexivity. }
    pose proof (ly_typed _ _ _ _ _ _ LY) as F. unfold typed_lists in F. rewrite Forall_forall in F.
    destruct (F k (nth_error_In _ _ H)) as (j & J1 & J2 & J3).
    assert (j = i). { apply (proj1 (NoDup_nth_error _) (ly_nodup _ _ _ _ _ _ LY)); [eapply nth_error_some_lt; eauto|congruence]. }
    subst j. auto.
  Qed.

  Lemma ok_tok p : ok p -> tok K (key p).
  Proof.
    intros [F NN]. apply tok_intro; auto. apply Forall2_nth_iff.
    - unfold key. rewrite firstn_length. apply Forall2_len in F. pose proof (ly_len _ _ _ _ _ _ LY). pose proof (ly_keys _ _ _ _ _ _ LY) as X.
      apply (f_equal (@List.length _)) in X. rewrite app_length, map_length in X. lia.
    - intros i k v H1 H2. destruct (ts_first i k H1) as (_ & HT & S). split; auto. unfold key in H2. rewrite nth_error_firstn in H2.
      destruct (Nat.ltb i (List.length K)); [|discriminate]. eapply Forall2_nth_both; eauto.
  Qed.

  Lemma h_eqb x y : ok x -> ok y -> keq E K x y = true <-> eq x y.
  Proof. intros X Y. unfold keq. apply keyeqb_spec; now apply ok_tok. Qed.
  Lemma h_tri x y : ok x -> ok y -> ~ lt y x -> eq x y \/ lt x y.
  Proof. intros X Y NL. pose proof (tlt_tri E K (key x) (key y) (ok_tok _ X) (ok_tok _ Y)). unfold lt, eq in *. tauto. Qed.
  Lemma h_le x y z : ok x -> ok y -> ok z -> lt x y -> ~ lt z y -> lt x z.
  Proof.
    intros X Y Z0 L NL. destruct (h_tri y z Y Z0 NL) as [H|H]; unfold lt, eq in *.
    - apply (tlt_eq_r E K (key x) (key y) (key z)); auto using ok_tok.
    - apply (tlt_trans E K (key x) (key y) (key z)); auto using ok_tok.
  Qed.
  Lemma h_feq x y : ok x -> ok y -> eq x y -> eq (joinR x y) y.
  Proof.
    intros X Y H. unfold eq, key in *. cbn [joinR fst]. rewrite firstn_zipw. revert H.
    generalize (firstn (List.length K) (fst x)), (firstn (List.length K) (fst y)). intros l l' H.
    induction H; constructor; auto. now apply pick_eq.
  Qed.
  Lemma h_fok x y : ok x -> ok y -> eq x y -> ok (joinR x y).
  Proof.
    intros [X1 X2] [Y1 Y2] _. split.
    - cbn [joinR fst]. revert X1 Y1. generalize (fst x), (fst y). clear. intros l l' H. revert l'.
      induction H as [|ct v ts l Cv H IH]; intros l' H'; inversion H'; subst; simpl; constructor; auto. now apply cell_pick.
    - unfold key in *. cbn [joinR fst]. rewrite firstn_zipw. revert X2 Y2.
      generalize (firstn (List.length K) (fst x)), (firstn (List.length K) (fst y)). clear. intros l l' H. revert l'.
      induction H; intros l' H'; inversion H'; subst; simpl; constructor; auto. now apply pick_nan.
  Qed.

  (** the spread rows *)
  Lemma in_src p : In p (src t1 t2 N TS) -> exists f z i r, (f = t1 /\ z = 1%Z \/ f = t2 /\ z = 2%Z) /\ nth_error (rows f) i = Some r /\ p = (over f N r (map dfl TS), z).
  Proof.
    unfold src, spread. intros I. apply in_app_or in I as [I|I]; apply in_map_iff in I as (r & <- & I); apply In_nth_error in I as (i & I);
      [exists t1, 1%Z, i, r|exists t2, 2%Z, i, r]; auto.
  Qed.
  Lemma src_in f z i r : (f = t1 /\ z = 1%Z \/ f = t2 /\ z = 2%Z) -> nth_error (rows f) i = Some r -> In (over f N r (map dfl TS), z) (src t1 t2 N TS).
  Proof.
    unfold src, spread. intros [[-> ->]|[-> ->]] H; apply in_or_app; [left|right];
      [apply (in_map (fun r => (over t1 N r (map dfl TS), 1%Z)))|apply (in_map (fun r => (over t2 N r (map dfl TS), 2%Z)))]; eapply nth_error_In; eauto.
  Qed.

  Section Source.
    Context (f : table).
    Hypothesis WF : wf_table f.
    Hypothesis WI : within f N TS.
    Hypothesis KT : Forall (fun k => ColType f (k_col k) = Ok (k_type k) /\ In (k_type k) sortable_types) K.
    Hypothesis NN : forall k i v, In k K -> GetVal f (k_col k) i = Ok v -> ~ is_nan v.

    Lemma src_ok r z : In r (rows f) -> ok (over f N r (map dfl TS), z).
    Proof.
      intros I. split; cbn [fst].
      - rewrite <- overk_full by auto. apply overk_cells; auto.
        + apply (ly_nodup _ _ _ _ _ _ LY).
        + pose proof (wf_cells _ WF) as F. rewrite Forall_forall in F. auto.
        + apply (ly_len _ _ _ _ _ _ LY).
        + pose proof (ly_types _ _ _ _ _ _ LY) as F. clear -F. induction F; constructor; auto. now apply dfl_cell_ok.
      - unfold key. cbn [fst]. eapply over_nan; eauto; [apply (ly_len _ _ _ _ _ _ LY)|apply (ly_keys _ _ _ _ _ _ LY)].
    Qed.

    (** the cell of a column that f has, and of one that it has not *)
    Lemma src_cell i r c cn ct : nth_error (rows f) i = Some r -> nth_error N c = Some cn -> nth_error TS c = Some ct ->
      (forall v, nth_error (over f N r (map dfl TS)) c = Some v ->
        GetVal f cn (Z.of_nat i) = Ok v \/ (v = dfl ct /\ forall w j, GetVal f cn j <> Ok w))
      /\ (forall w, GetVal f cn (Z.of_nat i) = Ok w -> nth_error (over f N r (map dfl TS)) c = Some w).
    Proof.
      intros HR HN HT. pose proof (wf_cells _ WF) as F. rewrite Forall_forall in F. specialize (F r (nth_error_In _ _ HR)).
      assert (LL : List.length N = List.length (map dfl TS)) by (rewrite map_length; apply (ly_len _ _ _ _ _ _ LY)).
      destruct (in_dec string_dec cn (cnames f)) as [I|I].
      - destruct (over_key f N TS r (map dfl TS) c cn WF LL HN WI I F) as (j & J1 & J2). rewrite J2.
        assert (G : forall v, GetVal f cn (Z.of_nat i) = Ok v <-> nth_error r j = Some v).
        { intros v. rewrite (GetVal_cell f _ _ _ WF). rewrite Nat2Z.id. split.
          - intros (j' & r' & _ & C1 & C2 & C3). assert (j' = j). { apply (proj1 (NoDup_nth_error _) (wf_nodup _ WF)); [eapply nth_error_some_lt; eauto|congruence]. }
            subst j'. congruence.
          - intros H. exists j, r. split; [lia|]. auto. }
        split; [intros v H; left|intros w H]; now apply G.
      - split.
        + intros v H. right. split.
          * unfold over in H. rewrite nth_error_map, nth_error_combine, HN, nth_error_map, HT in H. cbn in H.
            destruct (mget (cmap f) cn) as [j|] eqn:M; [|congruence]. apply (wf_map _ WF) in M. apply nth_error_In in M. contradiction.
          * intros w j. rewrite (GetVal_no_col f cn j WF I). discriminate.
        + intros w G. rewrite (GetVal_no_col f cn _ WF I) in G. discriminate.
    Qed.

    Lemma src_holds i r z : nth_error (rows f) i = Some r -> holds K f (Z.of_nat i) (key (over f N r (map dfl TS), z)).
    Proof.
      intros HR. apply Forall2_nth_iff.
      - pose proof (ok_tok _ (src_ok r z (nth_error_In _ _ HR))) as T. apply (Forall2_len _ _ _ T).
      - intros c k v H1 H2. destruct (ts_first c k H1) as (HN & HT & _). unfold key in H2. cbn [fst] in H2. rewrite nth_error_firstn in H2.
        destruct (Nat.ltb c (List.length K)); [|discriminate].
        destruct (proj1 (src_cell i r c _ _ HR HN HT) v H2) as [G|[_ G]]; auto. exfalso.
        rewrite Forall_forall in KT. destruct (KT k (nth_error_In _ _ H1)) as [C _]. apply (wf_ColType_iff f WF) in C as (j & J & _).
        pose proof (wf_cells _ WF) as F. rewrite Forall_forall in F. specialize (F r (nth_error_In _ _ HR)). apply Forall2_len in F. pose proof (wf_types_len _ WF).
        destruct (nth_error r j) as [w|] eqn:W; [|apply nth_error_None in W; apply nth_error_some_lt in J; lia].
        apply (G w (Z.of_nat i)). apply (GetVal_cell f _ _ _ WF). exists j, r. rewrite Nat2Z.id. split; [lia|]. auto.
    Qed.
  End Source.

  Lemma src_all_ok p : In p (src t1 t2 N TS) -> ok p.
  Proof.
    intros I. destruct (in_src p I) as (f & z & i & r & [[-> ->]|[-> ->]] & H & ->); destruct MB; destruct LY; apply src_ok; auto; eapply nth_error_In; eauto.
  Qed.

  Context (cur : list value * Z) (rest : list (list value * Z)).
  Hypothesis PL : Permutation (cur :: rest) (src t1 t2 N TS).
  Hypothesis OR : ordered E K (cur :: rest).
  Let L := cur :: rest.
  Let S := surv (keq E K) joinR cur rest.

  Lemma L_ok p : In p L -> ok p.
  Proof. intros I. apply src_all_ok. eapply Permutation_in; eauto. Qed.

  Lemma key_len p : ok p -> List.length K = List.length (key p).
  Proof. intros O. apply (Forall2_len _ _ _ (ok_tok _ O)). Qed.

  Lemma L_sorted : ForallOrdPairs (fun x y => ~ lt y x) L.
  Proof.
    eapply FOP_impl; [|exact OR]. cbn beta. intros x y X Y H Hlt. apply H. apply tlt_snoc.
    - exact (key_len y (L_ok _ Y)).
    - transitivity (List.length K); [symmetry; exact (key_len y (L_ok _ Y))|exact (key_len x (L_ok _ X))].
    - left. exact Hlt.
  Qed.
  Lemma L_marks : ForallOrdPairs (fun x y => eq x y -> (snd x <= snd y)%Z) L.
  Proof.
    eapply FOP_impl; [|exact OR]. cbn beta. intros x y X Y H Heq. destruct (Z_le_gt_dec (snd x) (snd y)) as [|G]; auto.
    exfalso. apply H. apply tlt_snoc.
    - exact (key_len y (L_ok _ Y)).
    - transitivity (List.length K); [symmetry; exact (key_len y (L_ok _ Y))|exact (key_len x (L_ok _ X))].
    - right. split; [apply teq_sym; exact Heq|]. unfold klt. cbn. split; auto. lia.
  Qed.

  Lemma lt_not_eq x y : ok x -> ok y -> lt x y -> ~ eq x y /\ ~ eq y x.
  Proof.
    intros X Y H. pose proof (tlt_tri E K (key x) (key y) (ok_tok _ X) (ok_tok _ Y)) as T. unfold lt, eq in *.
    split; [tauto|]. intros Q. apply teq_sym in Q. tauto.
  Qed.

  Lemma the_blocks : exists blocks, map Some S = map (foldb joinR) blocks /\ List.concat blocks = L /\ Forall (group eq) blocks
      /\ Forall2 (fun b s => forall x, In x b -> eq x s) blocks S /\ Forall ok S
      /\ ForallOrdPairs (fun b b' => forall x y, In x b -> In y b' -> lt x y) blocks.
  Proof.
    destruct (surv_groups (keq E K) joinR ok lt eq h_eqb (fun x => teq_refl _) (fun x y => teq_sym _ _) (fun x y z => teq_trans _ _ _)
                h_tri h_le h_fok h_feq rest [cur] cur) as (bs & B).
    - split; [discriminate|]. intros x y [<-|[]] [<-|[]]. apply teq_refl.
    - reflexivity.
    - constructor; [apply L_ok; now left|constructor].
    - apply L_ok. now left.
    - intros x [<-|[]]. apply teq_refl.
    - apply Forall_forall. intros x I. apply L_ok. now right.
    - exact L_sorted.
    - exists bs. exact B.
  Qed.

  (** a survivor and its block *)
  Record block_of (b : list (list value * Z)) (s : list value * Z) : Prop := {
    bo_ok : ok s;
    bo_in : forall x, In x b -> In x L /\ eq x s;
    bo_all : forall x, In x L -> eq x s -> In x b;
    bo_marks : forall i j x y, i <= j -> nth_error b i = Some x -> nth_error b j = Some y -> (snd x <= snd y)%Z;
    bo_fold : exists x0 r, b = x0 :: r /\ s = fold_left joinR r x0 }.

  Lemma concat_split {A} (bs : list (list A)) i b : nth_error bs i = Some b -> exists pre post, List.concat bs = pre ++ b ++ post.
  Proof.
    revert i. induction bs as [|x bs IH]; intros [|i] H; try discriminate.
    - injection H as <-. exists [], (List.concat bs). reflexivity.
    - destruct (IH i H) as (pre & post & Q). exists (x ++ pre), post. simpl. rewrite Q, <- app_assoc. reflexivity.
  Qed.
  Lemma FOP_mid {A} (P : A -> A -> Prop) pre b post : ForallOrdPairs P (pre ++ b ++ post) -> ForallOrdPairs P b.
  Proof.
    intros F. assert (X : ForallOrdPairs P (b ++ post)) by (induction pre; auto; inversion F; auto). clear F.
    induction b as [|a b IH]; constructor; inversion X as [|? ? F1 F2]; subst; auto. apply Forall_app in F1. tauto.
  Qed.

  Lemma survivors : (forall s, In s S -> exists b, block_of b s)
    /\ (forall x, In x L -> exists s, In s S /\ eq x s)
    /\ ForallOrdPairs (fun s s' => ~ eq s s') S.
  Proof.
    destruct the_blocks as (bs & B1 & B2 & B3 & B4 & B5 & B6).
    assert (BO : forall i b s, nth_error bs i = Some b -> nth_error S i = Some s -> block_of b s).
    { intros i b s Hb Hs. assert (EB : forall x, In x b -> eq x s) by exact (Forall2_nth_both _ _ _ _ _ _ B4 Hb Hs).
      assert (OS : ok s) by (rewrite Forall_forall in B5; apply B5; eapply nth_error_In; eauto).
      assert (NE : exists x0 r, b = x0 :: r).
      { rewrite Forall_forall in B3. destruct (B3 b (nth_error_In _ _ Hb)) as [X _]. destruct b as [|x0 r]; [congruence|eauto]. }
      assert (IL : forall x, In x b -> In x L).
      { intros x I. rewrite <- B2. apply in_concat. exists b. split; auto. eapply nth_error_In; eauto. }
      constructor; auto.
      - intros x I Q. rewrite <- B2 in I. apply in_concat in I as (b' & Ib & Ix). apply In_nth_error in Ib as (j & Hj).
        assert (IxL : In x L). { rewrite <- B2. apply in_concat. exists b'. split; auto. eapply nth_error_In; eauto. }
        destruct NE as (x0 & r & ->). assert (I0 : In x0 (x0 :: r)) by now left.
        assert (Q0 : eq x x0) by (apply (teq_trans _ (key s)); [exact Q|apply teq_sym, (EB x0 I0)]).
        destruct (lt_eq_lt_dec i j) as [[Lij|<-]|Lij].
        + exfalso. pose proof (FOP_nth _ _ B6 _ _ _ _ Lij Hb Hj x0 x I0 Ix) as LT. apply (lt_not_eq x0 x) in LT; [tauto| |]; apply L_ok; auto.
        + assert (b' = x0 :: r) by congruence. now subst b'.
        + exfalso. pose proof (FOP_nth _ _ B6 _ _ _ _ Lij Hj Hb x x0 Ix I0) as LT. apply (lt_not_eq x x0) in LT; [tauto| |]; apply L_ok; auto.
      - intros i' j' x y Lij X Y. destruct (le_lt_eq_dec _ _ Lij) as [Lt|<-]; [|assert (x = y) by congruence; subst; lia].
        destruct (concat_split _ _ _ Hb) as (pre & post & Q). pose proof L_marks as M. rewrite <- B2, Q in M. apply FOP_mid in M.
        apply (FOP_nth _ _ M i' j' x y Lt X Y). apply (teq_trans _ (key s)); [apply EB|apply teq_sym, EB]; eapply nth_error_In; eauto.
      - destruct NE as (x0 & r & ->). exists x0, r. split; auto.
        assert (Q : nth_error (map Some S) i = nth_error (map (foldb joinR) bs) i) by now rewrite B1.
        rewrite !nth_error_map, Hs, Hb in Q. cbn in Q. congruence. }
    assert (LE : List.length bs = List.length S) by (apply (Forall2_len _ _ _ B4)).
    split; [|split].
    - intros s I. apply In_nth_error in I as (i & Hi). destruct (nth_error bs i) as [b|] eqn:Hb.
      + exists b. eapply BO; eauto.
      + apply nth_error_None in Hb. apply nth_error_some_lt in Hi. lia.
    - intros x I. rewrite <- B2 in I. apply in_concat in I as (b & Ib & Ix). apply In_nth_error in Ib as (i & Hi).
      destruct (nth_error S i) as [s|] eqn:Hs.
      + exists s. split; [eapply nth_error_In; eauto|]. apply (bo_in _ _ (BO i b s Hi Hs)). auto.
      + apply nth_error_None in Hs. apply nth_error_some_lt in Hi. lia.
    - apply sorted_pairs. intros i j s s' Lij Hs Hs'. 
      destruct (nth_error bs i) as [b|] eqn:Hb; [|apply nth_error_None in Hb; apply nth_error_some_lt in Hs; lia].
      destruct (nth_error bs j) as [b'|] eqn:Hb'; [|apply nth_error_None in Hb'; apply nth_error_some_lt in Hs'; lia].
      pose proof (BO _ _ _ Hb Hs) as C1. pose proof (BO _ _ _ Hb' Hs') as C2.
      destruct (bo_fold _ _ C1) as (x & r & Ex & _). destruct (bo_fold _ _ C2) as (y & r' & Ey & _).
      assert (Ix : In x b) by (rewrite Ex; now left). assert (Iy : In y b') by (rewrite Ey; now left).
      pose proof (FOP_nth _ _ B6 _ _ _ _ Lij Hb Hb' x y Ix Iy) as LT. intros Q.
      destruct (bo_in _ _ C1 x Ix) as [X1 X2]. destruct (bo_in _ _ C2 y Iy) as [Y1 Y2].
      destruct (lt_not_eq x y (L_ok _ X1) (L_ok _ Y1) LT) as [NQ _]. apply NQ. apply (teq_trans _ (key s)); [exact X2|].
      apply (teq_trans _ (key s')); [exact Q|]. now apply teq_sym.
  Qed.

  (** the sources of a marked row *)
  Definition marked (f : table) (z : Z) : Prop := f = t1 /\ z = 1%Z \/ f = t2 /\ z = 2%Z.
  Lemma marked_src f z : marked f z -> wf_table f /\ within f N TS
    /\ Forall (fun k => ColType f (k_col k) = Ok (k_type k) /\ In (k_type k) sortable_types) K
    /\ (forall k i v, In k K -> GetVal f (k_col k) i = Ok v -> ~ is_nan v).
  Proof. destruct MB, LY. intros [[-> _]|[-> _]]; auto. Qed.
  Lemma marked_inj f f' z : marked f z -> marked f' z -> f = f'.
  Proof. intros [[-> ->]|[-> ->]] [[-> Q]|[-> Q]]; auto; discriminate. Qed.

  Section Table.
    Context (t' : table) (rs' : list (list value)).
    Hypothesis T : tb t' N TS K rs'.
    Hypothesis PR : Permutation rs' (map fst S).
    Hypothesis SO : no_nan_keys t' -> sorted_table E t'.

    Lemma row_survivor r row : nth_error rs' r = Some row -> exists s b, In s S /\ fst s = row /\ block_of b s.
    Proof.
      intros H. apply nth_error_In, (Permutation_in _ PR) in H. apply in_map_iff in H as (s & Q & I).
      destruct (proj1 survivors s I) as (b & B). eauto.
    Qed.
    Lemma survivor_row s : In s S -> exists r, nth_error rs' r = Some (fst s).
    Proof. intros I. apply (in_map fst), (Permutation_in _ (Permutation_sym PR)) in I. now apply In_nth_error in I. Qed.

    Lemma t'_cell r row cn v : nth_error rs' r = Some row ->
      GetVal t' cn (Z.of_nat r) = Ok v <-> exists c, nth_error N c = Some cn /\ nth_error row c = Some v.
    Proof.
      intros H. rewrite (GetVal_cell t' _ _ _ (tb_wf _ _ _ _ _ T)), Nat2Z.id, (tb_cn _ _ _ _ _ T), (tb_rs _ _ _ _ _ T). split.
      - intros (c & row' & _ & H1 & H2 & H3). exists c. split; auto. congruence.
      - intros (c & H1 & H2). exists c, row. split; [lia|]. auto.
    Qed.
    Lemma t'_holds r s : nth_error rs' r = Some (fst s) -> ok s -> holds K t' (Z.of_nat r) (key s).
    Proof.
      intros H O. apply Forall2_nth_iff; [now apply key_len|]. intros i k v H1 H2. apply (t'_cell r (fst s)); auto. exists i.
      split; [apply (ts_first i k H1)|]. unfold key in H2. rewrite nth_error_firstn in H2. now destruct (Nat.ltb i (List.length K)).
    Qed.
    Lemma t'_row r : (0 <= r < RowCount t')%Z -> exists n row, r = Z.of_nat n /\ nth_error rs' n = Some row.
    Proof.
      unfold RowCount. rewrite (tb_rs _ _ _ _ _ T). intros H. exists (Z.to_nat r).
      destruct (nth_error rs' (Z.to_nat r)) as [row|] eqn:Q; [|apply nth_error_None in Q; lia]. exists row. split; [lia|auto].
    Qed.
    Lemma t'_range n row : nth_error rs' n = Some row -> (0 <= Z.of_nat n < RowCount t')%Z.
    Proof. intros H. unfold RowCount. rewrite (tb_rs _ _ _ _ _ T). apply nth_error_some_lt in H. lia. Qed.

    Section Row.
      Context (r : nat) (s : list value * Z) (b : list (list value * Z)).
      Hypothesis HR : nth_error rs' r = Some (fst s).
      Hypothesis B : block_of b s.

      Lemma src_same f z i row : marked f z -> nth_error (rows f) i = Some row ->
        same_key K f (Z.of_nat i) t' (Z.of_nat r) <-> In (over f N row (map dfl TS), z) b.
      Proof.
        intros M H. destruct (marked_src f z M) as (WF & WI & KT & NN).
        rewrite (same_key_teq K f _ t' _ _ _ (src_holds f WF WI KT NN i row z H) (t'_holds r s HR (bo_ok _ _ B))). split.
        - intros Q. apply (bo_all _ _ B); auto. apply (Permutation_in _ (Permutation_sym PL)). eapply src_in; eauto.
        - intros I. apply (bo_in _ _ B _ I).
      Qed.

      Context (c : nat) (cn ct : string).
      Hypothesis HN : nth_error N c = Some cn.
      Hypothesis HT : nth_error TS c = Some ct.

      Lemma off_in f z w : marked f z -> offers K f t' (Z.of_nat r) cn w ->
        exists x, In x b /\ snd x = z /\ nth_error (fst x) c = Some w.
      Proof.
        intros M (i & Hi & SK & G). unfold RowCount in Hi. destruct (nth_error (rows f) (Z.to_nat i)) as [row|] eqn:H; [|apply nth_error_None in H; lia].
        rewrite <- (Z2Nat.id i) in SK, G by lia. apply (src_same f z _ row M H) in SK. eexists. split; [exact SK|]. split; auto.
        destruct (marked_src f z M) as (WF & WI & KT & NN). cbn [fst]. now apply (src_cell f WF WI (Z.to_nat i) row c cn ct H HN HT).
      Qed.
      Lemma in_off x w : In x b -> nth_error (fst x) c = Some w ->
        exists f, marked f (snd x) /\ (offers K f t' (Z.of_nat r) cn w \/ (w = dfl ct /\ forall v j, GetVal f cn j <> Ok v)).
      Proof.
        intros I H. destruct (bo_in _ _ B x I) as [IL _]. destruct (in_src x (Permutation_in _ PL IL)) as (f & z & i & row & M & Hi & ->).
        cbn [fst snd] in *. exists f. split; [exact M|]. destruct (marked_src f z M) as (WF & WI & KT & NN).
        destruct (proj1 (src_cell f WF WI i row c cn ct Hi HN HT) w H) as [G|G]; auto. left. exists (Z.of_nat i). split.
        - unfold RowCount. apply nth_error_some_lt in Hi. lia.
        - split; auto. now apply (src_same f z i row M Hi).
      Qed.

      Lemma ct_in : In ct mergeable_types.
      Proof. pose proof (ly_types _ _ _ _ _ _ LY) as F. rewrite Forall_forall in F. apply F. eapply nth_error_In; eauto. Qed.

      (** the values of the block in the column and the one that is kept *)
      Lemma kept_value : exists vs v, nth_error (fst s) c = Some v
        /\ (forall i x, nth_error b i = Some x -> exists w, nth_error vs i = Some w /\ nth_error (fst x) c = Some w)
        /\ List.length vs = List.length b /\ In v vs
        /\ ((exists x, In x vs /\ data_b x = true) -> exists l1 l2, vs = l1 ++ v :: l2 /\ data_b v = true /\ Forall (fun y => data_b y = false) l1)
        /\ (is_nan_b v = true -> Forall (fun x => is_nan_b x = true) vs).
      Proof.
        destruct (bo_fold _ _ B) as (x0 & l & Eb & Es).
        assert (CV : forall x, In x b -> exists w, nth_error (fst x) c = Some w).
        { intros x I. destruct (bo_in _ _ B x I) as [IL _]. destruct (L_ok x IL) as [F _]. destruct (Forall2_nth _ _ _ _ _ F HT) as (w & W & _). eauto. }
        assert (VS : exists l', map (fun p => nth_error (fst p) c) l = map Some l').
        { assert (CL : forall x, In x l -> exists w, nth_error (fst x) c = Some w) by (intros x I; apply CV; rewrite Eb; now right).
          clear -CL. induction l as [|x l IH]; [exists []; reflexivity|]. destruct (CL x) as (w & W); [now left|].
          destruct IH as (l' & H); [intros; apply CL; now right|]. exists (w :: l'). simpl. now rewrite W, H. }
        destruct VS as (l' & VL). destruct (CV x0) as (a & HA); [rewrite Eb; now left|].
        exists (a :: l'), (fold_left pickR l' a).
        destruct (pick_fold l' a) as (P1 & P2 & P3). split; [rewrite Es; now apply fold_cells|].
        assert (ML : map (fun p => nth_error (fst p) c) b = map Some (a :: l')) by (rewrite Eb; simpl; now rewrite HA, VL).
        split; [|split; [|split; [exact P1|split; [exact P2|exact P3]]]].
        - intros i x H. apply (f_equal (fun l => nth_error l i)) in ML. rewrite !nth_error_map, H in ML.
          destruct (nth_error (a :: l') i) as [w|]; cbn in ML; [|discriminate]. exists w. split; auto. congruence.
        - apply (f_equal (@List.length _)) in ML. now rewrite !map_length in ML.
      Qed.

      Lemma vs_block (vs : list value) i w : (forall i x, nth_error b i = Some x -> exists w, nth_error vs i = Some w /\ nth_error (fst x) c = Some w) ->
        List.length vs = List.length b -> nth_error vs i = Some w -> exists x, nth_error b i = Some x /\ nth_error (fst x) c = Some w.
      Proof.
        intros V Hl H. destruct (nth_error b i) as [x|] eqn:Q.
        - exists x. split; auto. destruct (V i x Q) as (w' & W1 & W2). congruence.
        - apply nth_error_None in Q. apply nth_error_some_lt in H. lia.
      Qed.

      Lemma cell_data f z v w : marked f z -> nth_error (fst s) c = Some v -> offers K f t' (Z.of_nat r) cn w -> is_data w ->
        (forall x, In x b -> (snd x < z)%Z -> forall u, nth_error (fst x) c = Some u -> data_b u = false) ->
        offers K f t' (Z.of_nat r) cn v /\ is_data v.
      Proof.
        intros M HV OF DW LOW. destruct kept_value as (vs & v' & V1 & V2 & V3 & V4 & V5 & _). assert (v' = v) by congruence. subst v'.
        destruct (off_in f z w M OF) as (x & Ix & Zx & Wx). apply In_nth_error in Ix as (j & Hj). destruct (V2 j x Hj) as (w' & Wj & W').
        assert (w' = w) by congruence. subst w'. apply data_spec in DW.
        destruct V5 as (l1 & l2 & Q & DV & F1). { exists w. split; auto. eapply nth_error_In; eauto. }
        assert (Hv : nth_error vs (List.length l1) = Some v) by (rewrite Q, nth_error_app2, Nat.sub_diag by lia; reflexivity).
        destruct (vs_block vs _ _ V2 V3 Hv) as (y & Hy & Wy).
        assert (LJ : List.length l1 <= j).
        { destruct (le_lt_dec (List.length l1) j); auto. exfalso. rewrite Q, nth_error_app1 in Wj by auto. rewrite Forall_forall in F1.
          rewrite (F1 w) in DW; [discriminate|]. eapply nth_error_In; eauto. }
        pose proof (bo_marks _ _ B _ _ _ _ LJ Hy Hj) as MK. rewrite Zx in MK.
        assert (Iy : In y b) by (eapply nth_error_In; eauto).
        assert (Zy : snd y = z).
        { destruct (Z.eq_dec (snd y) z); auto. exfalso. rewrite (LOW y Iy ltac:(lia) v Wy) in DV. discriminate. }
        split; [|now apply data_spec]. destruct (in_off y v Iy Wy) as (f' & M' & [O|[X _]]).
        - rewrite Zy in M'. now rewrite (marked_inj _ _ _ M M').
        - exfalso. rewrite X, (dfl_not_data ct ct_in) in DV. discriminate.
      Qed.

      Lemma marked_val f z : marked f z -> z = 1%Z \/ z = 2%Z. Proof. intros [[_ ->]|[_ ->]]; auto. Qed.

      Lemma no_data f z : marked f z -> (forall x, offers K f t' (Z.of_nat r) cn x -> ~ is_data x) ->
        forall x, In x b -> snd x = z -> forall u, nth_error (fst x) c = Some u -> data_b u = false.
      Proof.
        intros M H x Ix Zx u Hu. destruct (in_off x u Ix Hu) as (f' & M' & [O|[ -> _]]); [|apply dfl_not_data, ct_in].
        rewrite Zx in M'. rewrite <- (marked_inj _ _ _ M M') in O. specialize (H u O). destruct (data_b u) eqn:D; auto. apply data_spec in D. contradiction.
      Qed.
    End Row.

    Lemma types_at c cn : nth_error N c = Some cn -> exists ct, nth_error TS c = Some ct.
    Proof.
      intros H. destruct (nth_error TS c) as [ct|] eqn:Q; eauto. apply nth_error_None in Q. apply nth_error_some_lt in H.
      pose proof (ly_len _ _ _ _ _ _ LY). lia.
    Qed.

    Lemma t'_get r cn v : GetVal t' cn r = Ok v -> exists n s b c ct, r = Z.of_nat n /\ nth_error rs' n = Some (fst s) /\ block_of b s
      /\ nth_error N c = Some cn /\ nth_error TS c = Some ct /\ nth_error (fst s) c = Some v.
    Proof.
      intros G. pose proof G as G0. apply (GetVal_cell t' _ _ _ (tb_wf _ _ _ _ _ T)) in G0 as (c0 & row & Hr & _ & Hrow & _).
      rewrite (tb_rs _ _ _ _ _ T) in Hrow. destruct (row_survivor _ _ Hrow) as (s & b & _ & <- & B).
      assert (RZ : r = Z.of_nat (Z.to_nat r)) by lia. rewrite RZ in G. apply (t'_cell _ _ _ _ Hrow) in G as (c & C1 & C2).
      destruct (types_at c cn C1) as (ct & C3). exists (Z.to_nat r), s, b, c, ct. auto 10.
    Qed.

    Lemma mk1 : marked t1 1. Proof. now left. Qed.
    Lemma mk2 : marked t2 2. Proof. now right. Qed.

    Lemma block_marks b s x : block_of b s -> In x b -> snd x = 1%Z \/ snd x = 2%Z.
    Proof. intros B I. destruct (bo_in _ _ B x I) as [IL _]. destruct (in_src x (Permutation_in _ PL IL)) as (f & z & i & row & M & _ & ->). apply (marked_val _ _ M). Qed.

    Lemma keys_no_nan : no_nan_keys t'.
    Proof.
      intros k r v Ik G. rewrite (tb_ks _ _ _ _ _ T) in Ik. destruct (t'_get r _ v G) as (n & s & b & c & ct & _ & _ & B & C1 & _ & C3).
      apply In_nth_error in Ik as (i & Hi). destruct (ts_first i k Hi) as (HN & _).
      assert (c = i). { apply (proj1 (NoDup_nth_error _) (ly_nodup _ _ _ _ _ _ LY)); [eapply nth_error_some_lt; eauto|congruence]. }
      subst c. destruct (bo_ok _ _ B) as [_ NN]. rewrite Forall_forall in NN. apply NN. apply (nth_error_In _ i). unfold key. rewrite nth_error_firstn.
      destruct (Nat.ltb_spec i (List.length K)) as [|X]; auto. apply nth_error_some_lt in Hi. lia.
    Qed.

    Lemma is_merged : merged E K t1 t2 t'.
    Proof.
      pose proof T as [W NI NM SH PA CN CT KS RS]. constructor; auto.
      - rewrite CN, (ly_keys _ _ _ _ _ _ LY), firstn_app, map_length, Nat.sub_diag, firstn_O, app_nil_r. rewrite <- (map_length k_col K). apply firstn_all.
      - intros cn ct. rewrite (wf_ColType_iff t' W), CN, CT. apply (ly_cols _ _ _ _ _ _ LY).
      - apply SO, keys_no_nan.
      - intros r r' Hr Hr' SK. destruct (t'_row r Hr) as (n & row & -> & Hn). destruct (t'_row r' Hr') as (n' & row' & -> & Hn').
        destruct (row_survivor _ _ Hn) as (s & b & Is & <- & B). destruct (row_survivor _ _ Hn') as (s' & b' & Is' & <- & B').
        apply (same_key_teq K t' _ t' _ _ _ (t'_holds n s Hn (bo_ok _ _ B)) (t'_holds n' s' Hn' (bo_ok _ _ B'))) in SK.
        assert (FP : ForallOrdPairs (fun x y => ~ teq (firstn (List.length K) x) (firstn (List.length K) y)) rs').
        { eapply FOP_perm; [|apply Permutation_sym; exact PR|].
          - intros x y H Q. apply H. now apply teq_sym.
          - destruct survivors as (_ & _ & F). clear -F. induction F as [|x l F1 F2 IH]; simpl; constructor; auto. rewrite Forall_map. exact F1. }
        destruct (lt_eq_lt_dec n n') as [[Lt| -> ]|Lt]; auto; exfalso.
        + apply (FOP_nth _ _ FP n n' _ _ Lt Hn Hn'). exact SK.
        + apply (FOP_nth _ _ FP n' n _ _ Lt Hn' Hn). apply teq_sym. exact SK.
      - intros i Hi. unfold RowCount in Hi. destruct (nth_error (rows t1) (Z.to_nat i)) as [row|] eqn:H; [|apply nth_error_None in H; lia].
        assert (I : In (over t1 N row (map dfl TS), 1%Z) L) by (apply (Permutation_in _ (Permutation_sym PL)); eapply src_in; eauto; now left).
        destruct (proj1 (proj2 survivors) _ I) as (s & Is & Q). destruct (survivor_row s Is) as (r & Hr). destruct (proj1 survivors s Is) as (b & B).
        exists (Z.of_nat r). split; [eapply t'_range; eauto|]. rewrite <- (Z2Nat.id i) by lia. apply (src_same r s b Hr B t1 1 _ row mk1 H).
        now apply (bo_all _ _ B).
      - intros i Hi. unfold RowCount in Hi. destruct (nth_error (rows t2) (Z.to_nat i)) as [row|] eqn:H; [|apply nth_error_None in H; lia].
        assert (I : In (over t2 N row (map dfl TS), 2%Z) L) by (apply (Permutation_in _ (Permutation_sym PL)); eapply src_in; eauto; now right).
        destruct (proj1 (proj2 survivors) _ I) as (s & Is & Q). destruct (survivor_row s Is) as (r & Hr). destruct (proj1 survivors s Is) as (b & B).
        exists (Z.of_nat r). split; [eapply t'_range; eauto|]. rewrite <- (Z2Nat.id i) by lia. apply (src_same r s b Hr B t2 2 _ row mk2 H).
        now apply (bo_all _ _ B).
      - intros r Hr. destruct (t'_row r Hr) as (n & row & -> & Hn). destruct (row_survivor _ _ Hn) as (s & b & Is & <- & B).
        destruct (bo_fold _ _ B) as (x & l & Eb & _). assert (Ix : In x b) by (rewrite Eb; now left).
        destruct (bo_in _ _ B x Ix) as [IL _]. destruct (in_src x (Permutation_in _ PL IL)) as (f & z & i & row & M & Hi & ->).
        pose proof (proj2 (src_same n s b Hn B f z i row M Hi) Ix) as SK.
        assert (Ri : (0 <= Z.of_nat i < RowCount f)%Z) by (unfold RowCount; apply nth_error_some_lt in Hi; lia).
        destruct M as [[-> ->]|[-> ->]]; [left|right]; eauto.
      - intros r cn v w G OF DW. destruct (t'_get r cn v G) as (n & s & b & c & ct & -> & Hn & B & HN & HT & HV).
        apply (cell_data n s b Hn B c cn ct HN HT t1 1 v w mk1 HV OF DW).
        intros x Ix Lx. destruct (block_marks b s x B Ix); lia.
      - intros r cn v w G OF DW ND. destruct (t'_get r cn v G) as (n & s & b & c & ct & -> & Hn & B & HN & HT & HV).
        apply (cell_data n s b Hn B c cn ct HN HT t2 2 v w mk2 HV OF DW).
        intros x Ix Lx u Hu. apply (no_data n s b Hn B c cn ct HN HT t1 1 mk1 ND x Ix); auto. destruct (block_marks b s x B Ix); lia.
      - intros r cn v G ND. destruct (t'_get r cn v G) as (n & s & b & c & ct & -> & Hn & B & HN & HT & HV).
        destruct (kept_value s b B c ct HT) as (vs & v' & V1 & V2 & V3 & V4 & _ & V6). assert (v' = v) by congruence. subst v'.
        apply In_nth_error in V4 as (j & Hj). destruct (vs_block s b c vs j v V2 V3 Hj) as (x & Hx & Wx).
        assert (Ix : In x b) by (eapply nth_error_In; eauto).
        assert (DV : data_b v = false).
        { destruct (block_marks b s x B Ix) as [Z1|Z2].
          - apply (no_data n s b Hn B c cn ct HN HT t1 1 mk1 (fun y O => ND y (or_introl O)) x Ix Z1 v Wx).
          - apply (no_data n s b Hn B c cn ct HN HT t2 2 mk2 (fun y O => ND y (or_intror O)) x Ix Z2 v Wx). }
        destruct (is_nan_b v) eqn:QN.
        + right. split; [now apply is_nan_b_spec|]. specialize (V6 eq_refl). rewrite Forall_forall in V6.
          intros y O. apply is_nan_b_spec. apply V6.
          assert (OI : exists x', In x' b /\ nth_error (fst x') c = Some y).
          { destruct O as [O|O]; [destruct (off_in n s b Hn B c cn ct HN HT t1 1 y mk1 O) as (x' & ? & _ & ?)|destruct (off_in n s b Hn B c cn ct HN HT t2 2 y mk2 O) as (x' & ? & _ & ?)]; eauto. }
          destruct OI as (x' & Ix' & Wx'). apply In_nth_error in Ix' as (j' & Hj'). destruct (V2 j' x' Hj') as (w' & W1 & W2).
          apply (nth_error_In _ j'). congruence.
        + left. apply data_false in DV. destruct DV as [ZV|NV]; [|apply is_nan_b_spec in NV; congruence]. split; auto.
          destruct (in_off n s b Hn B c cn ct HN HT x v Ix Wx) as (f & M & [O|[QD NG]]).
          * destruct M as [[-> _]|[-> _]]; auto.
          * right. right. assert (CTE : ColType t' cn = Ok ct) by (apply (wf_ColType_iff t' W); exists c; now rewrite CN, CT).
            destruct (dfl_zero ct (ct_in c ct HT)) as [F1 F2]; [now rewrite <- QD|]. rewrite CTE. split; congruence.
    Qed.
  End Table.

  (** ---------- is there a row to merge? ---------- *)
  Lemma alive_surv : (forall row, In row (wlist E K cur rest) -> alive row = true) -> S = L.
  Proof.
    unfold S, L. clear. revert cur. induction rest as [|r rest' IH]; intros cur H; cbn [surv wlist] in *; auto.
    destruct (keq E K cur r).
    - specialize (H _ (or_introl eq_refl)). rewrite alive_drow in H. discriminate.
    - f_equal. apply IH. intros row I. apply H. now right.
  Qed.
  Lemma distinct_alive : ForallOrdPairs (fun x y => ~ eq x y) L -> forall row, In row (wlist E K cur rest) -> alive row = true.
  Proof.
    intros F. assert (O : Forall ok L) by (apply Forall_forall; exact L_ok). unfold L in *. clear PL OR S L.
    revert cur F O. induction rest as [|r rest' IH]; intros cur F O row I; cbn [wlist] in I.
    - destruct I as [<-|[]]. apply alive_wrow.
    - inversion F as [|? ? F1 F2]. subst. inversion O as [|? ? O1 O2]. subst. inversion F1 as [|? ? F3 _]. subst. inversion O2 as [|? ? O3 _]. subst.
      destruct (keq E K cur r) eqn:Q; [exfalso; apply F3; now apply h_eqb|]. destruct I as [<-|I]; [apply alive_wrow|]. apply (IH r); auto.
  Qed.

  Lemma src_nth f z i row : marked f z -> nth_error (rows f) i = Some row ->
    nth_error (src t1 t2 N TS) (if (z =? 1)%Z then i else List.length (rows t1) + i) = Some (over f N row (map dfl TS), z).
  Proof.
    unfold src, spread. intros [[-> ->]|[-> ->]] H; cbn [Z.eqb Pos.eqb].
    - rewrite nth_error_app1 by (rewrite map_length; eapply nth_error_some_lt; eauto). rewrite nth_error_map, H. reflexivity.
    - rewrite nth_error_app2 by (rewrite map_length; lia). rewrite map_length.
      replace (List.length (rows t1) + i - List.length (rows t1)) with i by lia. rewrite nth_error_map, H. reflexivity.
  Qed.

  Lemma nth_src n x : nth_error (src t1 t2 N TS) n = Some x -> exists f z i row, marked f z /\ nth_error (rows f) i = Some row
    /\ x = (over f N row (map dfl TS), z) /\ n = if (z =? 1)%Z then i else List.length (rows t1) + i.
  Proof.
    unfold src, spread. intros H. destruct (le_lt_dec (List.length (rows t1)) n) as [Ln|Ln].
    - rewrite nth_error_app2 in H by (now rewrite map_length). rewrite map_length, nth_error_map in H.
      destruct (nth_error (rows t2) (n - List.length (rows t1))) as [row|] eqn:Q; [|discriminate]. cbn in H. injection H as <-.
      exists t2, 2%Z, (n - List.length (rows t1)), row. split; [now right|]. split; auto. split; auto. cbn. lia.
    - rewrite nth_error_app1 in H by (now rewrite map_length). rewrite nth_error_map in H.
      destruct (nth_error (rows t1) n) as [row|] eqn:Q; [|discriminate]. cbn in H. injection H as <-.
      exists t1, 1%Z, n, row. split; [now left|]. auto.
  Qed.

  Lemma src_pair f z i row f' z' i' row' : marked f z -> marked f' z' -> nth_error (rows f) i = Some row -> nth_error (rows f') i' = Some row' ->
    same_key K f (Z.of_nat i) f' (Z.of_nat i') <-> eq (over f N row (map dfl TS), z) (over f' N row' (map dfl TS), z').
  Proof.
    intros M M' H H'. destruct (marked_src f z M) as (WF & WI & KT & NN). destruct (marked_src f' z' M') as (WF' & WI' & KT' & NN').
    apply same_key_teq; eapply src_holds; eauto.
  Qed.

  Lemma row_of f i : (0 <= i < RowCount f)%Z -> exists n row, i = Z.of_nat n /\ nth_error (rows f) n = Some row.
  Proof.
    unfold RowCount. intros H. exists (Z.to_nat i). destruct (nth_error (rows f) (Z.to_nat i)) as [row|] eqn:Q; [|apply nth_error_None in Q; lia].
    exists row. split; [lia|auto].
  Qed.

  Lemma distinct_src : ForallOrdPairs (fun x y => ~ eq x y) L <-> ~ shared_key K t1 t2.
  Proof.
    assert (SY : forall x y : list value * Z, ~ eq x y -> ~ eq y x) by (intros x y H Q; apply H; now apply teq_sym).
    assert (EQ : ForallOrdPairs (fun x y => ~ eq x y) L <-> ForallOrdPairs (fun x y => ~ eq x y) (src t1 t2 N TS)).
    { split; intros F; (eapply FOP_perm; [exact SY| |exact F]); auto. now apply Permutation_sym. }
    rewrite EQ. split.
    - intros F [(i & j & Hi & Hj & SK)|[(i & j & Hi & Hj & SK)|(i & j & Hi & Hj & SK)]].
      + destruct (row_of t1 i Hi) as (n & row & -> & Hn). destruct (row_of t2 j Hj) as (n' & row' & -> & Hn').
        apply (src_pair t1 1 n row t2 2 n' row' mk1 mk2 Hn Hn') in SK. revert SK.
        apply (FOP_nth _ _ F n (List.length (rows t1) + n')); [apply nth_error_some_lt in Hn; lia| |].
        * exact (src_nth t1 1 n row mk1 Hn).
        * exact (src_nth t2 2 n' row' mk2 Hn').
      + destruct (row_of t1 i ltac:(lia)) as (n & row & -> & Hn). destruct (row_of t1 j ltac:(lia)) as (n' & row' & -> & Hn').
        apply (src_pair t1 1 n row t1 1 n' row' mk1 mk1 Hn Hn') in SK. revert SK. apply (FOP_nth _ _ F n n'); [lia| |].
        * exact (src_nth t1 1 n row mk1 Hn).
        * exact (src_nth t1 1 n' row' mk1 Hn').
      + destruct (row_of t2 i ltac:(lia)) as (n & row & -> & Hn). destruct (row_of t2 j ltac:(lia)) as (n' & row' & -> & Hn').
        apply (src_pair t2 2 n row t2 2 n' row' mk2 mk2 Hn Hn') in SK. revert SK.
        apply (FOP_nth _ _ F (List.length (rows t1) + n) (List.length (rows t1) + n')); [lia| |].
        * exact (src_nth t2 2 n row mk2 Hn).
        * exact (src_nth t2 2 n' row' mk2 Hn').
    - intros NS. apply sorted_pairs. intros n n' x y Lt Hx Hy Q. apply NS.
      destruct (nth_src n x Hx) as (f & z & i & row & M & Hi & -> & ->). destruct (nth_src n' y Hy) as (f' & z' & i' & row' & M' & Hi' & -> & ->).
      apply (src_pair f z i row f' z' i' row' M M' Hi Hi') in Q.
      assert (R1 : (0 <= Z.of_nat i < RowCount f)%Z) by (unfold RowCount; apply nth_error_some_lt in Hi; lia).
      assert (R2 : (0 <= Z.of_nat i' < RowCount f')%Z) by (unfold RowCount; apply nth_error_some_lt in Hi'; lia).
      destruct M as [[-> ->]|[-> ->]]; destruct M' as [[-> ->]|[-> ->]]; cbn [Z.eqb Pos.eqb] in Lt.
      + right. left. exists (Z.of_nat i), (Z.of_nat i'). split; [lia|]. split; [lia|auto].
      + left. exists (Z.of_nat i), (Z.of_nat i'). auto.
      + exfalso. apply nth_error_some_lt in Hi'. lia.
      + right. right. exists (Z.of_nat i), (Z.of_nat i'). split; [lia|]. split; [lia|auto].
  Qed.

  Lemma dead_or_alive : (exists row, In row (wlist E K cur rest) /\ alive row = false) \/ (forall row, In row (wlist E K cur rest) -> alive row = true).
  Proof.
    induction (wlist E K cur rest) as [|x l IH]; [right; intros ? []|]. destruct (alive x) eqn:Q.
    - destruct IH as [(row & I & A)|H]; [left; exists row; split; auto; now right|]. right. intros row [<-|I]; auto.
    - left. exists x. split; auto. now left.
  Qed.

End Result.

Lemma merge_body_spec E t1 t2 K : env_ok E -> mergeable K t1 t2 -> skeys t1 = K ->
  (shared_key K t1 t2 -> exists t', runs (merge_body E t1 t2) NewNilTable t' tt /\ merged E K t1 t2 t')
  /\ (~ shared_key K t1 t2 -> fails (merge_body E t1 t2) NewNilTable).
Proof.
  intros EO MB SK. destruct (body_rows E t1 t2 K EO MB SK) as (N & TS & more & cur & rest & LY & PL & OR & R1 & R2). split.
  - intros H. destruct (dead_or_alive E K cur rest) as [D|A].
    + destruct (R1 D) as (t' & rs' & RN & T & PR & SO). exists t'. split; auto.
      eapply is_merged; eauto.
    + exfalso. revert H. apply (distinct_src E K t1 t2 N TS more MB LY cur rest PL).
      rewrite <- (alive_surv E K cur rest A). eapply survivors; eauto.
  - intros H. apply R2. eapply distinct_alive; eauto. eapply distinct_src; eauto.
Qed.
