(** Proofs_Lib.v -- list, map and indexing lemmas. *)
From Coq Require Import ZArith NArith List String Ascii Bool Lia Permutation.
From Coq Require Import ZifyBool ZifyNat ZifyN.
From Verif Require Import Base Model_Names Model_Table.
Import ListNotations.
Local Open Scope string_scope.
Local Open Scope list_scope.

(** ---------- upd ---------- *)
Lemma upd_length {A} (l : list A) i x : List.length (upd l i x) = List.length l.
Proof. revert i; induction l as [|y l IH]; intros [|i]; simpl; auto. Qed.

Lemma nth_error_upd_eq {A} (l : list A) i x : i < List.length l -> nth_error (upd l i x) i = Some x.
Proof. revert i; induction l as [|y l IH]; intros [|i] H; simpl in *; try lia; auto. apply IH; lia. Qed.

Lemma nth_error_upd_ne {A} (l : list A) i j x : i <> j -> nth_error (upd l i x) j = nth_error l j.
Proof. revert i j; induction l as [|y l IH]; intros [|i] [|j] H; simpl in *; try congruence; auto. Qed.

Lemma nth_error_upd {A} (l : list A) i j x :
  nth_error (upd l i x) j = if Nat.eqb i j then (if Nat.ltb i (List.length l) then Some x else None) else nth_error l j.
Proof.
  destruct (Nat.eqb_spec i j) as [->|H].
  - destruct (Nat.ltb_spec j (List.length l)) as [H|H].
    + apply nth_error_upd_eq; lia.
    + apply nth_error_None. rewrite upd_length; lia.
  - apply nth_error_upd_ne; auto.
Qed.

Lemma upd_out {A} (l : list A) i x : List.length l <= i -> upd l i x = l.
Proof. revert i; induction l as [|y l IH]; intros [|i] H; simpl in *; try lia; auto. f_equal; apply IH; lia. Qed.

Lemma upd_same {A} (l : list A) i x : nth_error l i = Some x -> upd l i x = l.
Proof. revert i; induction l as [|y l IH]; intros [|i] H; simpl in *; try congruence. f_equal; auto. Qed.

Lemma upd_upd {A} (l : list A) i x y : upd (upd l i x) i y = upd l i y.
Proof. revert i; induction l as [|z l IH]; intros [|i]; simpl; auto. f_equal; auto. Qed.

Lemma upd_comm {A} (l : list A) i j x y : i <> j -> upd (upd l i x) j y = upd (upd l j y) i x.
Proof. revert i j; induction l as [|z l IH]; intros [|i] [|j] H; simpl; auto; try congruence. f_equal; auto. Qed.

Lemma map_upd {A B} (f : A -> B) l i x : map f (upd l i x) = upd (map f l) i (f x).
Proof. revert i; induction l as [|z l IH]; intros [|i]; simpl; auto. f_equal; auto. Qed.

Lemma upd_app_l {A} (l1 l2 : list A) i x : i < List.length l1 -> upd (l1 ++ l2) i x = upd l1 i x ++ l2.
Proof. revert i; induction l1 as [|z l IH]; intros [|i] H; simpl in *; try lia; auto. f_equal; apply IH; lia. Qed.

Lemma upd_app_r {A} (l1 l2 : list A) i x : List.length l1 <= i -> upd (l1 ++ l2) i x = l1 ++ upd l2 (i - List.length l1) x.
Proof.
  revert i; induction l1 as [|z l IH]; intros i H; simpl in *.
  - now rewrite Nat.sub_0_r.
  - destruct i; [lia|]. simpl. f_equal. apply IH; lia.
Qed.

Lemma upd_app_mid {A} (l1 l2 : list A) y x : upd (l1 ++ y :: l2) (List.length l1) x = l1 ++ x :: l2.
Proof. rewrite upd_app_r by lia. now rewrite Nat.sub_diag. Qed.

Lemma Forall_upd {A} (P : A -> Prop) l i x : Forall P l -> P x -> Forall P (upd l i x).
Proof. intros H Hx; revert i; induction H; intros [|i]; simpl; auto. Qed.

Lemma Forall2_upd {A B} (P : A -> B -> Prop) la lb i b a :
  Forall2 P la lb -> nth_error la i = Some a -> P a b -> Forall2 P la (upd lb i b).
Proof.
  intros H; revert i; induction H; intros [|i] Ha Hb; simpl in *; try congruence; auto.
  constructor; auto. now inversion Ha; subst.
Qed.

Lemma Forall2_len {A B} (P : A -> B -> Prop) la lb : Forall2 P la lb -> List.length la = List.length lb.
Proof. induction 1; simpl; auto. Qed.

Lemma Forall2_nth {A B} (P : A -> B -> Prop) la lb i a :
  Forall2 P la lb -> nth_error la i = Some a -> exists b, nth_error lb i = Some b /\ P a b.
Proof.
  intros H; revert i; induction H as [|x y la lb Hxy H IH]; intros [|i] Ha; simpl in *; try congruence.
  - inversion Ha; subst; eauto.
  - eauto.
Qed.

Lemma Forall2_nth_r {A B} (P : A -> B -> Prop) la lb i b :
  Forall2 P la lb -> nth_error lb i = Some b -> exists a, nth_error la i = Some a /\ P a b.
Proof.
  intros H; revert i; induction H as [|x y la lb Hxy H IH]; intros [|i] Ha; simpl in *; try congruence.
  - inversion Ha; subst; eauto.
  - eauto.
Qed.

Lemma Forall2_nth_iff {A B} (P : A -> B -> Prop) la lb :
  List.length la = List.length lb ->
  (forall i a b, nth_error la i = Some a -> nth_error lb i = Some b -> P a b) ->
  Forall2 P la lb.
Proof.
  revert lb; induction la as [|a la IH]; intros [|b lb] Hl H; simpl in *; try congruence; constructor.
  - apply (H 0); auto.
  - apply IH; [lia|]. intros i; apply (H (S i)).
Qed.

Lemma Forall_nth_error {A} (P : A -> Prop) l i x : Forall P l -> nth_error l i = Some x -> P x.
Proof. intros H Hi. rewrite Forall_forall in H. apply H. eapply nth_error_In; eauto. Qed.

Lemma nth_error_ext {A} (l1 l2 : list A) : (forall i, nth_error l1 i = nth_error l2 i) -> l1 = l2.
Proof.
  revert l2; induction l1 as [|x l1 IH]; intros [|y l2] H; auto.
  - specialize (H 0); discriminate.
  - specialize (H 0); discriminate.
  - f_equal. + specialize (H 0); simpl in H; congruence. + apply IH. intros i. apply (H (S i)).
Qed.

Lemma nth_error_lt {A} (l : list A) i : i < List.length l -> exists x, nth_error l i = Some x.
Proof. intros H. destruct (nth_error l i) eqn:E; eauto. apply nth_error_None in E; lia. Qed.

Lemma nth_error_some_lt {A} (l : list A) i x : nth_error l i = Some x -> i < List.length l.
Proof. intros H. apply nth_error_Some. congruence. Qed.

Lemma nth_error_firstn {A} (l : list A) n i : nth_error (firstn n l) i = if Nat.ltb i n then nth_error l i else None.
Proof.
  revert n i; induction l as [|x l IH]; intros [|n] [|i]; simpl; auto.
  - destruct (Nat.ltb _ _); auto.
  - rewrite IH. reflexivity.
Qed.

Lemma nth_error_skipn {A} (l : list A) n i : nth_error (skipn n l) i = nth_error l (n + i).
Proof.
  revert n; induction l as [|x l IH]; intros [|n]; simpl; auto.
  destruct i; auto.
Qed.

(** ---------- remove_at ---------- *)
Lemma remove_at_nil {A} i : remove_at i (@nil A) = [].
Proof. unfold remove_at. destruct i; reflexivity. Qed.
Lemma remove_at_0 {A} (x : A) l : remove_at 0 (x :: l) = l.
Proof. reflexivity. Qed.
Lemma remove_at_S {A} i (x : A) l : remove_at (S i) (x :: l) = x :: remove_at i l.
Proof. reflexivity. Qed.

Lemma nth_error_remove_at {A} (l : list A) i j :
  nth_error (remove_at i l) j = if Nat.ltb j i then nth_error l j else nth_error l (S j).
Proof.
  revert i j; induction l as [|x l IH]; intros i j.
  - rewrite remove_at_nil. destruct (Nat.ltb j i), j; reflexivity.
  - destruct i as [|i]; [reflexivity|].
    rewrite remove_at_S. destruct j as [|j]; [reflexivity|].
    simpl. rewrite IH. reflexivity.
Qed.

Lemma remove_at_length {A} (l : list A) i : i < List.length l -> List.length (remove_at i l) = List.length l - 1.
Proof. intros H. unfold remove_at. rewrite app_length, firstn_length, skipn_length. lia. Qed.

Lemma remove_at_length_eq {A B} (l : list A) (m : list B) i :
  List.length l = List.length m -> List.length (remove_at i l) = List.length (remove_at i m).
Proof. intros H. unfold remove_at. rewrite !app_length, !firstn_length, !skipn_length. lia. Qed.

Lemma In_remove_at {A} (l : list A) i x : In x (remove_at i l) -> In x l.
Proof.
  revert i; induction l as [|y l IH]; intros i H.
  - rewrite remove_at_nil in H; auto.
  - destruct i; [right; auto|]. rewrite remove_at_S in H. destruct H; [left|right]; eauto.
Qed.

Lemma Forall_remove_at {A} (P : A -> Prop) l i : Forall P l -> Forall P (remove_at i l).
Proof. rewrite !Forall_forall; intros H x Hx. apply H; eapply In_remove_at; eauto. Qed.

Lemma NoDup_remove_at {A} (l : list A) i : NoDup l -> NoDup (remove_at i l).
Proof.
  intros H; revert i; induction H as [|y l Hy H IH]; intros i.
  - rewrite remove_at_nil; constructor.
  - destruct i; [exact H|]. rewrite remove_at_S. constructor; auto.
    intros Hin; apply Hy; eapply In_remove_at; eauto.
Qed.

Lemma Forall2_remove_at {A B} (P : A -> B -> Prop) la lb i :
  Forall2 P la lb -> Forall2 P (remove_at i la) (remove_at i lb).
Proof.
  intros H; revert i; induction H; intros i.
  - rewrite !remove_at_nil; constructor.
  - destruct i; [exact H0|]. rewrite !remove_at_S. constructor; auto.
Qed.

(** ---------- NoDup and nth_error ---------- *)
Lemma NoDup_nth {A} (l : list A) i j x :
  NoDup l -> nth_error l i = Some x -> nth_error l j = Some x -> i = j.
Proof.
  intros H Hi Hj. rewrite NoDup_nth_error in H. apply H.
  - eapply nth_error_some_lt; eauto.
  - congruence.
Qed.

(** ---------- smap ---------- *)
Lemma mget_mdel_eq m k : mget (mdel m k) k = None.
Proof.
  induction m as [|[k' v] m IH]; simpl; auto.
  destruct (String.eqb_spec k k'); auto. simpl. destruct (String.eqb_spec k k'); congruence.
Qed.
Lemma mget_mdel_ne m k k' : k' <> k -> mget (mdel m k) k' = mget m k'.
Proof.
  intros H. induction m as [|[k2 v] m IH]; simpl; auto.
  destruct (String.eqb_spec k k2); subst.
  - destruct (String.eqb_spec k' k2); congruence.
  - simpl. destruct (String.eqb_spec k' k2); auto.
Qed.
Lemma mget_mdel m k k' : mget (mdel m k) k' = if String.eqb k' k then None else mget m k'.
Proof. destruct (String.eqb_spec k' k); subst; [apply mget_mdel_eq|apply mget_mdel_ne; auto]. Qed.
Lemma mget_mset m k v k' : mget (mset m k v) k' = if String.eqb k' k then Some v else mget m k'.
Proof.
  unfold mset; simpl. destruct (String.eqb_spec k' k); auto. apply mget_mdel_ne; auto.
Qed.

(** index of the last occurrence, as set by the renumbering loops *)
Lemma mget_renumber ns : forall i m n, NoDup ns ->
  mget (renumber ns i m) n =
  match find (fun p => String.eqb n (fst p)) (combine ns (seq i (List.length ns))) with
  | Some p => Some (snd p) | None => mget m n end.
Proof.
  induction ns as [|x ns IH]; intros i m n H; simpl; auto.
  inversion H as [|? ? Hx Hn]; subst.
  rewrite IH by auto. rewrite mget_mset.
  destruct (String.eqb_spec n x) as [->|Hne]; simpl; auto.
  destruct (find _ _) as [[a b]|] eqn:E; auto.
  apply find_some in E. destruct E as [E1 E2]. simpl in E2. apply String.eqb_eq in E2; subst.
  apply in_combine_l in E1. contradiction.
Qed.

Lemma mget_renumber_spec ns m : NoDup ns ->
  (forall n, ~ In n ns -> mget m n = None) ->
  forall n i, mget (renumber ns 0 m) n = Some i <-> nth_error ns i = Some n.
Proof.
  intros Hnd Hm.
  assert (G : forall ns k m, NoDup ns -> (forall n, ~ In n ns -> mget m n = None) ->
      forall n i, mget (renumber ns k m) n = Some i <-> (k <= i /\ nth_error ns (i - k) = Some n)).
  { clear. induction ns as [|x ns IH]; intros k m Hnd Hm n i; simpl.
    - rewrite Hm by auto. split; [discriminate|]. intros [_ H]. destruct (i - k); discriminate.
    - inversion Hnd as [|? ? Hx Hn]; subst.
      destruct (in_dec string_dec n ns) as [Hin|Hin].
      + assert (Hne : n <> x) by congruence.
        assert (EQ : forall k m1 m2, mget m1 n = mget m2 n -> mget (renumber ns k m1) n = mget (renumber ns k m2) n).
        { clear. induction ns as [|y ns IH]; intros k m1 m2 H; simpl; auto. apply IH. rewrite !mget_mset.
          destruct (String.eqb n y); auto. }
        assert (DEL: forall l m n', ~ In n' l -> mget (fold_left mdel l m) n' = mget m n').
        { clear. induction l as [|y l IH]; intros m n' H; simpl; auto. rewrite IH by (simpl in H; auto).
          apply mget_mdel_ne. simpl in H; intuition. }
        set (m' := [] : smap).
        assert (R : mget (renumber ns (S k) (mset m x k)) n = mget (renumber ns (S k) m') n).
        { clear -Hin. revert Hin. generalize (mset m x k) as m1. unfold m'. generalize ([] : smap) as m2. generalize (S k) as j.
          induction ns as [|y ns IH]; intros j m2 m1 H; [destruct H|].
          simpl. destruct (in_dec string_dec n ns) as [Hi|Hi]; [apply IH; auto|].
          destruct H as [->|H]; [|contradiction].
          assert (K : forall ns j m, ~ In n ns -> mget (renumber ns j m) n = mget m n).
          { clear. induction ns as [|y ns IH]; intros j m H; simpl; auto.
            rewrite IH by (simpl in H; intuition). rewrite mget_mset.
            destruct (String.eqb_spec n y); subst; auto. exfalso; apply H; left; auto. }
          rewrite !K by auto. rewrite !mget_mset. now rewrite String.eqb_refl. }
        rewrite R. rewrite (IH (S k) m' Hn (fun _ _ => eq_refl)).
        split; intros [H1 H2].
        * split; [lia|]. replace (i - k) with (S (i - S k)) by lia. simpl. auto.
        * destruct (i - k) as [|d] eqn:E; simpl in H2.
          -- inversion H2; congruence.
          -- split; [lia|]. replace (i - S k) with d by lia. auto.
      + assert (K : forall ns j m, ~ In n ns -> mget (renumber ns j m) n = mget m n).
        { clear. induction ns as [|y ns IH]; intros j m H; simpl; auto.
          rewrite IH by (simpl in H; intuition). rewrite mget_mset.
          destruct (String.eqb_spec n y); subst; auto. exfalso; apply H; left; auto. }
        rewrite K by auto. rewrite mget_mset.
        destruct (String.eqb_spec n x) as [->|Hne].
        * split.
          -- intros [= ->]. rewrite Nat.sub_diag. split; auto.
          -- intros [H1 H2]. destruct (i - k) as [|d] eqn:E; simpl in H2.
             ++ f_equal; lia.
             ++ exfalso; apply Hin. eapply nth_error_In; eauto.
        * rewrite Hm by (simpl; intuition). split; [discriminate|].
          intros [H1 H2]. destruct (i - k) as [|d] eqn:E; simpl in H2.
          -- inversion H2; congruence.
          -- exfalso; apply Hin. eapply nth_error_In; eauto. }
  intros n i. rewrite (G ns 0 m Hnd Hm). rewrite Nat.sub_0_r. intuition lia.
Qed.

(** ---------- zidx, znth, zseq ---------- *)
Lemma zidx_some i n k : zidx i n = Some k <-> (0 <= i < Z.of_nat n)%Z /\ k = Z.to_nat i.
Proof.
  unfold zidx. destruct ((0 <=? i) && (i <? Z.of_nat n))%Z eqn:E; split.
  - intros [= <-]. lia.
  - intros [_ ->]; auto.
  - discriminate.
  - intros [H _]. lia.
Qed.
Lemma zidx_none i n : zidx i n = None <-> ~ (0 <= i < Z.of_nat n)%Z.
Proof. unfold zidx. destruct ((0 <=? i) && (i <? Z.of_nat n))%Z eqn:E; split; try congruence; lia. Qed.
Lemma zidx_of_nat i n : i < n -> zidx (Z.of_nat i) n = Some i.
Proof. intros H. apply zidx_some. split; [lia|]. now rewrite Nat2Z.id. Qed.

Lemma znth_of_nat {A} (l : list A) i : znth l (Z.of_nat i) = nth_error l i.
Proof.
  unfold znth. destruct (zidx (Z.of_nat i) (List.length l)) eqn:E.
  - apply zidx_some in E. destruct E as [_ ->]. now rewrite Nat2Z.id.
  - apply zidx_none in E. symmetry. apply nth_error_None. lia.
Qed.
Lemma znth_some {A} (l : list A) i x : znth l i = Some x <-> (0 <= i)%Z /\ nth_error l (Z.to_nat i) = Some x.
Proof.
  unfold znth. destruct (zidx i (List.length l)) eqn:E.
  - apply zidx_some in E. destruct E as [H ->]. intuition lia.
  - apply zidx_none in E. split; [discriminate|]. intros [H1 H2]. apply nth_error_some_lt in H2. lia.
Qed.
Lemma znth_none {A} (l : list A) i : znth l i = None <-> ~ (0 <= i < Z.of_nat (List.length l))%Z.
Proof.
  destruct (znth l i) eqn:E.
  - apply znth_some in E. destruct E as [H1 H2]. apply nth_error_some_lt in H2. split; [discriminate|lia].
  - split; auto. intros _ H. unfold znth in E.
    destruct (zidx i (List.length l)) eqn:E2; [|apply zidx_none in E2; lia].
    apply zidx_some in E2. apply nth_error_None in E. lia.
Qed.

Lemma zseq_S n : zseq (S n) = zseq n ++ [Z.of_nat n].
Proof. unfold zseq. rewrite seq_S, map_app. reflexivity. Qed.
Lemma zseq_length n : List.length (zseq n) = n.
Proof. unfold zseq. now rewrite map_length, seq_length. Qed.
Lemma nth_error_zseq n i : nth_error (zseq n) i = if Nat.ltb i n then Some (Z.of_nat i) else None.
Proof.
  unfold zseq. rewrite nth_error_map. destruct (Nat.ltb_spec i n).
  - rewrite (nth_error_nth' _ 0) by (rewrite seq_length; lia). rewrite seq_nth by lia. reflexivity.
  - replace (nth_error (seq 0 n) i) with (@None nat); auto. symmetry. apply nth_error_None. rewrite seq_length; lia.
Qed.
Lemma In_zseq n z : In z (zseq n) <-> (0 <= z < Z.of_nat n)%Z.
Proof.
  unfold zseq. rewrite in_map_iff. split.
  - intros [x [<- H]]. apply in_seq in H. lia.
  - intros H. exists (Z.to_nat z). split; [lia|]. apply in_seq. lia.
Qed.

(** ---------- mfor ---------- *)
Lemma mfor_app {A} (l1 l2 : list A) body s :
  mfor (l1 ++ l2) body s = bind (mfor l1 body) (fun _ => mfor l2 body) s.
Proof.
  revert s; induction l1 as [|x l1 IH]; intros s; simpl; unfold bind, ret; auto.
  destruct (body x s) as [s' [[]| |]]; auto. rewrite IH. reflexivity.
Qed.

Lemma st_eta s : mkS (s_tab s) (s_base s) (s_news s) = s.
Proof. destruct s; reflexivity. Qed.
Lemma table_eta t : mkT (tname t) (cnames t) (ctypes t) (cmap t) (rows t) (skeys t) (struct_shape t) (is_nil t) (parent t) = t.
Proof. destruct t; reflexivity. Qed.

Lemma Forall2_impl {A B} (P Q : A -> B -> Prop) la lb :
  (forall a b, P a b -> Q a b) -> Forall2 P la lb -> Forall2 Q la lb.
Proof. intros H; induction 1; constructor; auto. Qed.
Global Arguments mset : simpl never.
Global Arguments remove_at : simpl never.
Global Arguments mget : simpl never.

(** ---------- monad steps ---------- *)
Lemma bind_check {B} b (f : unit -> M B) s : bind (check b) f s = if b then f tt s else (s, Err).
Proof. destruct b; reflexivity. Qed.
Lemma bind_get {B} (f : table -> M B) s : bind get f s = f (s_tab s) s.
Proof. reflexivity. Qed.
Lemma bind_reads {A B} (g : table -> res A) (f : A -> M B) s :
  bind (reads g) f s = match g (s_tab s) with Ok a => f a s | Err => (s, Err) | Panic => (s, Panic) end.
Proof. unfold bind, reads. destruct (g (s_tab s)); reflexivity. Qed.
Lemma bind_lift {A B} (g : res A) (f : A -> M B) s :
  bind (lift g) f s = match g with Ok a => f a s | Err => (s, Err) | Panic => (s, Panic) end.
Proof. unfold bind, lift. destruct g; reflexivity. Qed.
Lemma bind_modify {B} g (f : unit -> M B) s : bind (modify g) f s = f tt (on_tab g s).
Proof. reflexivity. Qed.
Lemma bind_ret {A B} (a : A) (f : A -> M B) s : bind (ret a) f s = f a s.
Proof. reflexivity. Qed.
Lemma bind_assoc {A B C} (m : M A) (f : A -> M B) (g : B -> M C) s :
  bind (bind m f) g s = bind m (fun a => bind (f a) g) s.
Proof. unfold bind. destruct (m s) as [s' [a| |]]; auto. Qed.
Lemma bind_eq_ok {A B} (m : M A) (f : A -> M B) s s' a : m s = (s', Ok a) -> bind m f s = f a s'.
Proof. unfold bind. intros ->. auto. Qed.
Lemma bind_eq_err {A B} (m : M A) (f : A -> M B) s s' : m s = (s', Err) -> bind m f s = (s', Err).
Proof. unfold bind. intros ->. auto. Qed.
Lemma bind_eq_panic {A B} (m : M A) (f : A -> M B) s s' : m s = (s', Panic) -> bind m f s = (s', Panic).
Proof. unfold bind. intros ->. auto. Qed.

Ltac mstep := repeat first
  [ rewrite bind_check | rewrite bind_get | rewrite bind_reads | rewrite bind_lift
  | rewrite bind_modify | rewrite bind_ret | rewrite bind_assoc ]; cbv beta.
