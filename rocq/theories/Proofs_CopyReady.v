(** Proofs_CopyReady.v -- deep copies compose, and what YAML keeps of a table it keeps of its
    copies (C67). *)
From Coq Require Import ZArith NArith List String Ascii Bool SpecFloat Lia Relations.
From Verif Require Import Base Model_Names Model_Table Model_Sort Model_Heap Model_TableSet Model_Lex Model_Float Model_Time
  Model_Parser Model_Print Model_Json Model_Yaml Spec Spec_Sort Spec_Heap Spec_Walk Spec_TableSet Spec_Text Spec_Json Spec_Yaml.
From Verif Require Import Proofs_Lib Proofs_Table Proofs_Cells Proofs_Heap Proofs_TableSet Proofs_Nesting Props_Json Props_Yaml.
Import ListNotations.
Local Open Scope string_scope.
Local Open Scope list_scope.

Lemma in_nests h (p q : ptr) : In q (nested_in (rows (tab h p))) -> nests h p q.
Proof.
  intros I. destruct (Nat.lt_ge_cases p (List.length h)) as [L|L]; [now apply tab_nests|]. unfold tab in I. rewrite nth_overflow in I by exact L. contradiction.
Qed.
Lemma nests_in h (p q : ptr) : nests h p q -> In q (nested_in (rows (tab h p))).
Proof. intros (t & E & I). unfold tab. now rewrite (nth_error_nth h p _ E). Qed.
Lemma copy_nested h h' p p' q' : deep_copy h h' p p' -> nests h' p' q' -> is_nil (tab h' q') = false ->
  exists q, nests h p q /\ is_nil (tab h q) = false /\ deep_copy h h' q q'.
Proof.
  intros D N NN. inversion D as [x x' _ _ _ _ _ _ RS X X']; subst. apply nests_in, In_nested_in in N as (kr & row' & kc & A & B).
  destruct (Forall2_nth_r _ _ _ _ _ RS A) as (row & A' & FR). destruct (Forall2_nth_r _ _ _ _ _ FR B) as (v & B' & SC).
  inversion SC as [v0 NT E1 E2|q z Nq Nz E1 E2|q z Nq Rq E1 E2]; subst.
  - destruct v as [| | | | | |[l|]|o| |]; try discriminate E2. now elim (NT o).
  - congruence.
  - exists q. split; [|auto]. apply in_nests, In_nested_in. exists kr, row, kc. auto.
Qed.
Lemma copy_reached h h' p p' q' : wf_heap h' -> is_nil (tab h p) = false -> deep_copy h h' p p' -> clos_refl_trans _ (nests h') p' q' -> is_nil (tab h' q') = false ->
  exists q, clos_refl_trans _ (nests h) p q /\ is_nil (tab h q) = false /\ deep_copy h h' q q'.
Proof.
  intros W NP D C NN. apply clos_rt_rtn1 in C. induction C as [|y z N _ IH]; [exists p; split; [apply rt_refl|auto]|].
  destruct (is_nil (tab h' y)) eqn:Ny; [elim (nil_nests_none h' y z W Ny N)|]. destruct (IH eq_refl) as (q & C & _ & Dq).
  destruct (copy_nested h h' q y z Dq N NN) as (r & Nr & Nn & Dr). exists r. split; [|auto]. eapply rt_trans; [exact C|now apply rt_step].
Qed.
Lemma copy_depth h h' : forall k p p', deep_copy h h' p p' -> depth_at_most k h p -> depth_at_most k h' p'.
Proof.
  induction k as [|k IH]; intros p p' D X; [exact X|]. cbn [depth_at_most] in *. intros q' N NN. destruct (copy_nested h h' p p' q' D N NN) as (q & Nq & Nn & Dq).
  apply (IH q q' Dq). now apply X.
Qed.
Lemma copy_value text h h' R v w : same_cell h h' R v w -> yaml_value_ok text v -> yaml_value_ok text w.
Proof. intros [u _|q q' _ _|q q' _ _] X; [|exact I|exact I]. destruct u as [| | | | | |[l|]|o| |]; exact X. Qed.
Lemma copy_rows {A B} (P : A -> Prop) (R : A -> B -> Prop) (Q : B -> Prop) l l' : (forall a b, R a b -> P a -> Q b) -> Forall2 R l l' -> Forall P l -> Forall Q l'.
Proof. intros X. induction 1 as [|a b l l' AB _ IH]; intros F; inversion F; subst; constructor; eauto. Qed.
Lemma copy_ready text k h h' p p' : wf_heap h' -> p' < List.length h' -> deep_copy h h' p p' -> yaml_ready text k h p -> yaml_ready text k h' p'.
Proof.
  intros W L D (_ & N & T & DP). split; [exact L|]. split; [inversion D; auto|]. split; [|eapply copy_depth; eauto].
  intros q' C NN. destruct (copy_reached h h' p p' q' W N D C NN) as (q & Cq & Nq & Dq). destruct (T q Cq Nq) as (T1 & T2 & T3).
  inversion Dq as [x x' _ NM CN CT _ _ RS X X']; subst. rewrite NM, CN. split; [exact T1|]. split; [exact T2|].
  eapply copy_rows; [|exact RS|exact T3]. intros row row' FR. apply (copy_rows _ _ _ _ _ (copy_value text h h' _) FR).
Qed.

Lemma Forall2_comp {A B C} (P : A -> B -> Prop) (Q : B -> C -> Prop) (R : A -> C -> Prop) la lb lc :
  (forall a b c, In a la -> P a b -> Q b c -> R a c) -> Forall2 P la lb -> Forall2 Q lb lc -> Forall2 R la lc.
Proof.
  intros X F. revert lc X. induction F as [|a b la lb AB _ IH]; intros lc X G; inversion G; subst; constructor; [eapply X; eauto; now left|].
  apply IH; [|assumption]. intros; eapply X; eauto. now right.
Qed.
Lemma copy_json_value ip h h' R ct v w : json_value_ok ip ct v -> same_cell h h' R v w -> json_value_ok ip ct w.
Proof. intros X SC. revert X. destruct SC as [u _|q q' _ _|q q' _ _]; intros X; [|exact I|exact I]. destruct u as [| | | | | |[l|]|o| |]; exact X. Qed.
Lemma copy_json_ready ip h h' (p p' : ptr) : wf_heap h' -> p' < List.length h' -> is_tree h' p' -> deep_copy h h' p p' -> json_ready ip h p -> json_ready ip h' p'.
Proof.
  intros W L TR D (_ & N & _ & T & k & K & DP). split; [exact L|]. split; [inversion D; auto|]. split; [exact TR|]. split; [|exists k; split; [exact K|eapply copy_depth; eauto]].
  intros q' C NN. destruct (copy_reached h h' p p' q' W N D C NN) as (q & Cq & Nq & Dq). destruct (T q Cq Nq) as (T1 & T2 & T3).
  inversion Dq as [x x' _ NM CN CT _ _ RS X X']; subst. rewrite NM, CN, CT. split; [exact T1|]. split; [exact T2|].
  eapply copy_rows; [|exact RS|exact T3]. intros row row' FR J. eapply Forall2_comp; [|exact J|exact FR]. intros ct v w _ JV SC. eapply copy_json_value; eauto.
Qed.

(** A copy of a copy is a copy. *)
Lemma copy_trans h h' h'' : forall k p p' p'', depth_at_most k h p -> deep_copy h h' p p' -> deep_copy h' h'' p' p'' -> deep_copy h h'' p p''.
Proof.
  induction k as [|k IH]; intros p p' p'' DP D D'; [contradiction|]. cbn [depth_at_most] in DP.
  inversion D as [x x' _ NM CN CT SH _ RS X X']; subst. inversion D' as [y y' N2 NM2 CN2 CT2 SH2 SK2 RS2 Y Y']; subst.
  constructor; try congruence. eapply Forall2_comp; [|exact RS|exact RS2]. intros row row' row'' IR FR FR'. cbn beta in FR, FR'.
  eapply Forall2_comp; [|exact FR|exact FR']. intros v w u IV SC SC'.
  destruct SC as [v NT|q q' Nq Nq'|q q' Nq Rq].
  - inversion SC' as [v0 NT' E1 E2|q z Nq Nz E1 E2|q z Nq Rq E1 E2]; subst.
    + replace (read_back (read_back v)) with (read_back v) by (destruct v as [| | | | | |[l|]|o| |]; reflexivity). now constructor.
    + destruct v as [| | | | | |[l|]|o| |]; try discriminate E1. now elim (NT o).
    + destruct v as [| | | | | |[l|]|o| |]; try discriminate E1. now elim (NT o).
  - inversion SC' as [v0 NT' E1 E2|z z' Nz Nz' E1 E2|z z' Nz Rz E1 E2]; subst; [now elim (NT' (Some q'))|now constructor|congruence].
  - assert (Nq' : is_nil (tab h' q') = false) by (inversion Rq; auto).
    inversion SC' as [v0 NT' E1 E2|z z' Nz Nz' E1 E2|z z' Nz Rz E1 E2]; subst; [now elim (NT' (Some q'))|congruence|].
    apply same_nested; [exact Nq|]. apply (IH q q' z'); auto. apply DP; [|exact Nq]. apply in_nests. apply In_nth_error in IR as [kr IR]. apply In_nth_error in IV as [kc IV].
    apply In_nested_in. exists kr, row, kc. auto.
Qed.
Lemma set_copy_trans text k h h' h'' s s' s'' : Forall (fun o => exists p, o = Some p /\ yaml_ready text k h p) (ts_tables s) -> set_copy h h' s s' -> set_copy h' h'' s' s'' -> set_copy h h'' s s''.
Proof.
  intros RD [N F] [N' F']. split; [congruence|]. rewrite Forall_forall in RD. eapply Forall2_comp; [|exact F|exact F'].
  intros o o' o'' I (p & p' & -> & -> & D) (q & p'' & [= <-] & -> & D'). destruct (RD _ I) as (x & [= <-] & _ & _ & _ & DP). exists p, p''. split; [reflexivity|]. split; [reflexivity|]. eapply copy_trans; eauto.
Qed.
Lemma copy_names h h' s s' : set_copy h h' s s' -> Forall (fun o => exists p, o = Some p /\ is_nil (tab h p) = false) (ts_tables s) -> set_names h' s' = set_names h s.
Proof.
  intros [_ F] NN. unfold set_names. induction F as [|o o' l l' (p & p' & -> & -> & D) _ IH]; [reflexivity|]. inversion NN; subst. cbn [map]. f_equal; [|auto]. inversion D; subst. assumption.
Qed.
