(** Props_Nest.v -- C53: Nest stores with every row the text of the rows that have its keys. *)
From Coq Require Import ZArith NArith List String Ascii Bool SpecFloat Permutation Lia.
From Verif Require Import Base Model_Names Model_Table Model_Sort Model_Copy Model_Heap Model_Lex Model_Print Model_Parser Model_Json Model_Query Model_Nest.
From Verif Require Import Spec Spec_Sort Spec_Copy Spec_Heap Spec_Text Spec_Nest.
From Verif Require Import Proofs_Lib Proofs_Table Proofs_Pres Proofs_Keys Proofs_Env Samples Proofs_Frame Proofs_Nest Props_Sort.
Import ListNotations.
Local Open Scope string_scope.
Local Open Scope list_scope.

(** C53.  If every row of the table has a row with the same keys in the other table, Nest succeeds:
    both tables are sorted by the keys, the table has the new column, and the string in each of
    its rows reads back as the table of exactly the rows with the same keys. *)
Theorem C53_Nest : forall E ip h p q t u cn, env_ok E -> wf_heap h -> p <> q ->
  nth_error h p = Some t -> nth_error h q = Some u -> nest_ok t u cn ->
  (forall i, (0 <= i < RowCount t)%Z -> has_partner (skeys t) t i u) ->
  exists h' t' u', Nest E ip (Some p) (Some q) cn h = (h', Ok tt)
    /\ nth_error h' p = Some t' /\ nth_error h' q = Some u'
    /\ nested_upto E t u cn t' u' (RowCount t)
    /\ (forall z, z < List.length h -> z <> p -> z <> q -> nth_error h' z = nth_error h z).
Proof.
  intros E ip h p q t u cn EO W PQ HP HQ OK ALL.
  pose proof (wh_tables _ W) as F. rewrite Forall_forall in F.
  destruct (Nest_run E ip h p q t u cn EO PQ HP HQ (F _ (nth_error_In _ _ HP)) (F _ (nth_error_In _ _ HQ)) OK)
    as (h' & t' & u' & n & r & R & A & B & _ & FR & NU & [(-> & -> & _)|(_ & _ & _ & i & I & N)]).
  - exists h', t', u'. auto.
  - exfalso. apply N. now apply ALL.
Qed.

(** If some row has none, Nest fails, and it leaves a table that is sorted and has the new
    column: filled down to the first row without a partner, empty from there on. *)
Theorem C53_no_partner : forall E ip h p q t u cn i, env_ok E -> wf_heap h -> p <> q ->
  nth_error h p = Some t -> nth_error h q = Some u -> nest_ok t u cn ->
  (0 <= i < RowCount t)%Z -> ~ has_partner (skeys t) t i u ->
  exists h' t' u' n, Nest E ip (Some p) (Some q) cn h = (h', Err)
    /\ nth_error h' p = Some t' /\ nth_error h' q = Some u'
    /\ (0 <= n < RowCount t)%Z /\ ~ has_partner (skeys t) t' n u'
    /\ nested_upto E t u cn t' u' n
    /\ (forall z, z < List.length h -> z <> p -> z <> q -> nth_error h' z = nth_error h z).
Proof.
  intros E ip h p q t u cn i EO W PQ HP HQ OK I N.
  pose proof (wh_tables _ W) as F. rewrite Forall_forall in F.
  destruct (Nest_run E ip h p q t u cn EO PQ HP HQ (F _ (nth_error_In _ _ HP)) (F _ (nth_error_In _ _ HQ)) OK)
    as (h' & t' & u' & n & r & R & A & B & _ & FR & NU & [(_ & _ & ALL)|(-> & RG & NP & _)]).
  - exfalso. apply N. now apply ALL.
  - exists h', t', u', n. repeat (split; [assumption|]). assumption.
Qed.

Lemma upd_same {A} (h : list A) p x : nth_error h p = Some x -> upd h p x = h.
Proof.
  intros N. apply nth_error_ext. intros i. destruct (Nat.eq_dec i p) as [->|NE].
  - rewrite nth_error_upd_eq; [congruence|now apply nth_error_some_lt in N].
  - apply nth_upd_other. congruence.
Qed.

(** Without sort keys on the table nothing happens but an error, whatever keys the other table has. *)
Theorem C53_no_keys : forall E ip h p q t u cn, nth_error h p = Some t -> nth_error h q = Some u -> skeys t = [] ->
  Nest E ip (Some p) (Some q) cn h = (h, Err).
Proof.
  intros E ip h p q t u cn HP HQ K. unfold Nest. unfold hbind at 1. unfold asks at 1. rewrite (tab_nth _ _ _ HP). unfold SortKeyCount. rewrite K.
  unfold hbind at 1. cbn [List.length Z.of_nat Z.eqb]. rewrite (tab_nth _ _ _ HP). unfold on_heap. rewrite HQ.
  unfold SetSortKeysFromTable, SortKeyCount. rewrite K. cbn [List.length Z.of_nat Z.eqb negb].
  unfold bind, check, fail. cbn [s_tab s_news new_nils map]. now rewrite (upd_same _ _ _ HQ), app_nil_r.
Qed.

(** If a key column is missing in the other table, or cannot be a key there, there is an error and
    no cell of any table changes. *)
Theorem C53_missing_key : forall E ip h p q t u cn k, wf_heap h -> p <> q -> nth_error h p = Some t -> nth_error h q = Some u ->
  In k (skeys t) -> (~ exists ct, ColType u (k_col k) = Ok ct /\ In ct sortable_types) ->
  exists h' u', Nest E ip (Some p) (Some q) cn h = (h', Err) /\ nth_error h' q = Some u' /\ same_but_keys u u'
    /\ forall z, z < List.length h -> z <> q -> nth_error h' z = nth_error h z.
Proof.
  intros E ip h p q t u cn k W PQ HP HQ I N. pose proof (wh_tables _ W) as F. rewrite Forall_forall in F.
  destruct (C39_rejected u (List.length h) t (F _ (nth_error_In _ _ HQ))) as [_ R]. destruct (R (ex_intro _ k (conj I N))) as (u' & RU & S).
  destruct (on_heap_run q _ _ _ _ _ HQ RU) as (l & OH). exists (upd h q u' ++ l), u'. split.
  - unfold Nest. unfold hbind at 1. unfold asks at 1. rewrite (tab_nth _ _ _ HP). unfold hbind at 1.
    destruct (SortKeyCount t =? 0)%Z; [now rewrite (tab_nth _ _ _ HP), OH|]. unfold hbind at 1. now rewrite (tab_nth _ _ _ HP), OH.
  - split; [eapply nth_put; exact HQ|]. split; [exact S|]. intros z Z NE. now apply nth_put_ne.
Qed.

(** A nil table is an error. *)
Theorem C53_nil : forall E ip h o cn, Nest E ip None o cn h = (h, Err) /\ Nest E ip o None cn h = (h, Err).
Proof. intros. split; [|destruct o]; reflexivity. Qed.

(** ---------- a concrete case ---------- *)
Definition people_build : M unit :=
  SetName "People" ;;; AppendCol "name" "string" ;;; AppendCol "age" "int" ;;; AppendRows 2 ;;;
  SetVal "name" 0 (VString "bob") ;;; SetVal "age" 0 (VInt KInt 31) ;;;
  SetVal "name" 1 (VString "ann") ;;; SetVal "age" 1 (VInt KInt 52) ;;;
  SetSortKeys ["name"].
Definition pets_build : M unit :=
  SetName "Pets" ;;; AppendCol "pet" "string" ;;; AppendCol "name" "string" ;;; AppendRows 3 ;;;
  SetVal "pet" 0 (VString "cat") ;;; SetVal "name" 0 (VString "bob") ;;;
  SetVal "pet" 1 (VString "dog") ;;; SetVal "name" 1 (VString "ann") ;;;
  SetVal "pet" 2 (VString "eel") ;;; SetVal "name" 2 (VString "bob").
Definition people : table := Eval vm_compute in fst (run people_build 0 NewNilTable).
Definition pets : table := Eval vm_compute in fst (run pets_build 0 NewNilTable).
Lemma people_ok : run people_build 0 NewNilTable = (people, Ok tt).
Proof. vm_compute. reflexivity. Qed.
Lemma pets_ok : run pets_build 0 NewNilTable = (pets, Ok tt).
Proof. vm_compute. reflexivity. Qed.
Lemma wf_people : wf_table people.
Proof.
  change people with (fst (people, @Ok unit tt)). rewrite <- people_ok. apply run_pres; [|apply wf_NewNilTable|constructor].
  unfold people_build. pr; try (apply pres_SetVal; try reflexivity; exact I); auto using pres_SetSortKeys.
Qed.
Lemma wf_pets : wf_table pets.
Proof.
  change pets with (fst (pets, @Ok unit tt)). rewrite <- pets_ok. apply run_pres; [|apply wf_NewNilTable|constructor].
  unfold pets_build. pr; try (apply pres_SetVal; try reflexivity; exact I).
Qed.

Lemma wf_both : wf_heap [people; pets].
Proof.
  constructor.
  - exact (Forall_cons _ wf_people (Forall_cons _ wf_pets (Forall_nil _))).
  - intros p t q N I. exfalso. destruct p as [|[|p]]; [injection N as <-; exact I|injection N as <-; exact I|destruct p; discriminate].
  - intros p t q N I. exfalso. destruct p as [|[|p]]; [injection N as <-; discriminate|injection N as <-; discriminate|destruct p; discriminate].
Qed.
Lemma people_pets : nest_ok people pets "pets".
Proof.
  constructor.
  - discriminate.
  - repeat constructor. intros [].
  - repeat constructor. exists 0. repeat split; simpl; auto 20.
  - repeat constructor. exists 1. split; reflexivity.
  - apply (no_nan_ints people wf_people). repeat constructor. exists 0. repeat split; discriminate.
  - apply (no_nan_ints (with_skeys (skeys people) pets) (wf_with_skeys _ _ wf_pets)). repeat constructor. exists 1. repeat split; discriminate.
  - split; [apply IsValidColName_spec; reflexivity|repeat constructor].
  - intros [I|[I|[]]]; discriminate.
  - repeat constructor; intros I; cbn in I; intuition discriminate.
  - repeat constructor.
Qed.
Definition ip_none (z : Z) : bool := false.
Example C53_nonvacuous : wf_heap [people; pets] /\ nest_ok people pets "pets"
  /\ (forall i, (0 <= i < RowCount people)%Z -> has_partner (skeys people) people i pets)
  /\ map rows (fst (Nest env0 ip_none (Some 0) (Some 1) "pets" [people; pets])) =
     [ [[VString "ann"; VInt KInt 52; VString ("[pets]" ++ newline ++ "pet name" ++ newline ++ "string string" ++ newline ++ """dog"" ""ann""" ++ newline)%string];
        [VString "bob"; VInt KInt 31; VString ("[pets]" ++ newline ++ "pet name" ++ newline ++ "string string" ++ newline
                                         ++ """cat"" ""bob""" ++ newline ++ """eel"" ""bob""" ++ newline)%string]];
       [[VString "dog"; VString "ann"]; [VString "cat"; VString "bob"]; [VString "eel"; VString "bob"]];
       [[VString "dog"; VString "ann"]];
       [[VString "cat"; VString "bob"]; [VString "eel"; VString "bob"]] ].
Proof.
  split; [apply wf_both|]. split; [apply people_pets|]. split; [|vm_compute; reflexivity].
  intros i I. assert (i = 0 \/ i = 1)%Z as [-> | ->] by (cbn in I; lia); [exists 0%Z|exists 1%Z]; (split; [cbn; lia|]); repeat constructor; [exists (VString "bob"), (VString "bob")|exists (VString "ann"), (VString "ann")];
    (split; [reflexivity|]; split; [reflexivity|now left]).
Qed.

(** The comment in the code, "Use whichever table has sort keys for the shared keys", is not what
    happens: with keys on the other table only, Nest fails. *)
Definition keyless : table := with_skeys [] people.
Definition keyed : table := with_skeys (skeys people) pets.
Theorem C53_whichever_refuted : exists t u cn, wf_heap [t; u] /\ skeys t = [] /\ nest_ok (with_skeys (skeys u) t) u cn
  /\ (forall i, (0 <= i < RowCount t)%Z -> has_partner (skeys u) t i u)
  /\ snd (Nest env0 ip_none (Some 0) (Some 1) cn [t; u]) = Err.
Proof.
  exists keyless, keyed, "pets". split; [|split; [reflexivity|split; [|split; [|vm_compute; reflexivity]]]].
  - constructor.
    + exact (Forall_cons _ (wf_with_skeys _ _ wf_people) (Forall_cons _ (wf_with_skeys _ _ wf_pets) (Forall_nil _))).
    + intros p t q N I. exfalso. destruct p as [|[|p]]; [injection N as <-; exact I|injection N as <-; exact I|destruct p; discriminate].
    + intros p t q N I. exfalso. destruct p as [|[|p]]; [injection N as <-; discriminate|injection N as <-; discriminate|destruct p; discriminate].
  - destruct people_pets. constructor; assumption.
  - exact (proj1 (proj2 (proj2 C53_nonvacuous))).
Qed.

(** The comment "slicing matching rows (if any)" is not what happens either: a row without match is
    an error, and the table has already been given the column and its first texts. *)
Definition lonely : table := with_rows [[VString "cat"; VString "ann"]] pets.
Theorem C53_if_any_refuted : exists t u cn, wf_heap [t; u] /\ nest_ok t u cn
  /\ snd (Nest env0 ip_none (Some 0) (Some 1) cn [t; u]) = Err
  /\ map cnames (fst (Nest env0 ip_none (Some 0) (Some 1) cn [t; u])) = [cnames t ++ [cn]; cnames u; cnames u]
  /\ map (fun r => nth_error r 2) (rows (tab (fst (Nest env0 ip_none (Some 0) (Some 1) cn [t; u])) 0)) =
     [Some (VString ("[pets]" ++ newline ++ "pet name" ++ newline ++ "string string" ++ newline ++ """cat"" ""ann""" ++ newline)%string); Some (VString "")].
Proof.
  assert (WL : wf_table lonely).
  { destruct wf_pets as [A B C D F G H]. constructor; try assumption.
    - left. destruct A as [A|A]; [exact A|destruct A as [A _]; discriminate A].
    - constructor; [|constructor]. constructor; [|constructor; [|constructor]]; split; reflexivity. }
  exists people, lonely, "pets". split; [|split; [|split; [vm_compute; reflexivity|split; vm_compute; reflexivity]]].
  - constructor.
    + exact (Forall_cons _ wf_people (Forall_cons _ WL (Forall_nil _))).
    + intros p t q N I. exfalso. destruct p as [|[|p]]; [injection N as <-; exact I|injection N as <-; exact I|destruct p; discriminate].
    + intros p t q N I. exfalso. destruct p as [|[|p]]; [injection N as <-; discriminate|injection N as <-; discriminate|destruct p; discriminate].
  - destruct people_pets. constructor; try assumption.
    + apply (no_nan_ints (with_skeys (skeys people) lonely) (wf_with_skeys _ _ WL)). repeat constructor. exists 1. repeat split; discriminate.
    + repeat constructor.
Qed.

(** Axioms used by any theorem of this file. *)
Definition all_Props_Nest :=
  (@C53_Nest,
   @C53_no_partner,
   @C53_no_keys,
   @C53_missing_key,
   @C53_nil,
   @C53_whichever_refuted,
   @C53_if_any_refuted).
Print Assumptions all_Props_Nest.
