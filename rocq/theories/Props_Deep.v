(** Props_Deep.v -- all that CopyDeep does (C35). *)
From Coq Require Import ZArith NArith List String Ascii Bool Relations Sorted Lia.
From Verif Require Import Base Model_Names Model_Table Model_Sort Model_Copy Model_Merge Model_Ops Model_Heap Spec Spec_Heap Spec_Walk Spec_Deep.
From Verif Require Import Proofs_Lib Proofs_Env Proofs_Heap Proofs_Walk Proofs_Nesting Proofs_Deep Props_Heap Props_Walk.
Import ListNotations.
Local Open Scope string_scope.
Local Open Scope list_scope.

Lemma good_flat h q : wf_heap h -> q < List.length h -> good h q <-> is_nil (tab h q) = true \/ flat_nesting h q.
Proof. intros W L. unfold good. now rewrite IsValidTableNesting_iff. Qed.

Lemma top_careful h p : wf_heap h -> p < List.length h -> forall q, In q (nested_in (rows (tab h p))) -> careful 2 p h q.
Proof.
  intros W LP q I G. pose proof (nested_lt h p q W I) as LQ. pose proof (good_copyable h q W LQ G) as C. split; [|exact C].
  intros R. apply (copyable_acyclic h 2 q C). apply clos_rt_t with p; [exact R|]. apply t_step. now apply tab_nests.
Qed.

Lemma NoDup_sorted (l : list nat) : StronglySorted lt l -> NoDup l.
Proof. induction 1 as [|x l S IH F]; constructor; [|exact IH]. intros I. pose proof (proj1 (Forall_forall _ _) F x I). lia. Qed.

(** C35: when every nested table is a NilTable or nests only tables without nested tables,
    CopyDeep succeeds.  It changes no table but the receiver, and the receiver only by putting
    new tables in the place of its nested tables.  The receiver still holds the same at every
    depth, its nesting is now a tree, and every table in it, at any depth, is new: it shares no
    table with what was nested before.  The table that is returned is the table of the last cell
    of the tour of the receiver, not the receiver's copy. *)
Theorem C35_what_CopyDeep_does : forall h (p : ptr) fuel, wf_heap h -> p < List.length h -> 3 <= fuel ->
  (forall q, nests h p q -> is_nil (tab h q) = true \/ flat_nesting h q) ->
  exists h' evs, CopyDeep fuel p h = (h', Ok (last_cell_table evs p)) /\ wf_heap h' /\
    (forall q, q < List.length h -> q <> p -> nth_error h' q = nth_error h q) /\
    (exists rs, tab h' p = with_rows rs (tab h p)) /\ same_sight h p h' p /\
    visits h' p evs /\ NoDup (tables_of evs) /\ (forall q, clos_trans _ (nests h') p q -> List.length h <= q).
Proof.
  intros h p fuel W LP LF H. destruct fuel as [|f]; [lia|].
  destruct (walk_deep 2 f h p [] p (P_all 2) ltac:(lia) W LP ltac:(constructor) (top_careful h p W LP)) as [(_ & h' & sf' & x' & E & O & _ & RS & SS & evs & l & V & TB & [SL FL] & X)|((q & Q & NG) & _)].
  - exists h', evs. pose proof O as (W' & LL & A). split. { unfold CopyDeep. change (Walk (S f) true (fun _ => wret tt) (fun _ _ => wret tt) copydeep_visit p) with (walkD (S f) p). rewrite E. cbn [w_heap w_x]. now rewrite X. }
    split; [exact W'|]. split; [exact A|]. split; [exact RS|]. split; [exact SS|]. split; [exact V|].
    assert (ND : NoDup (tables_of evs)). { rewrite TB. constructor; [|now apply NoDup_sorted]. intros I. pose proof (proj1 (Forall_forall _ _) FL p I) as B. cbn beta in B. lia. }
    split; [exact ND|]. intros q T. assert (R : clos_refl_trans _ (nests h') p q) by (clear - T; induction T; [now apply rt_step|eapply rt_trans; eauto]).
    apply (visits_tables h' p evs q W' V) in R. rewrite TB in R. destruct R as [<-|I].
    + exfalso. apply (visits_acyclic h' p evs W' V). exists p. split; [apply rt_refl|exact T].
    + pose proof (proj1 (Forall_forall _ _) FL q I) as B. cbn beta in B. lia.
  - exfalso. apply NG. apply good_flat; [exact W|eapply nested_lt; eassumption|]. apply H. now apply tab_nests.
Qed.

(** Otherwise it returns an error (the nested tables met before that are replaced already). *)
Theorem C35_when_CopyDeep_fails : forall h (p : ptr) fuel, wf_heap h -> p < List.length h -> 3 <= fuel ->
  (exists q, nests h p q /\ is_nil (tab h q) = false /\ ~ flat_nesting h q) -> snd (CopyDeep fuel p h) = Err.
Proof.
  intros h p fuel W LP LF (q & N & NN & NF). destruct fuel as [|f]; [lia|]. destruct (nests_tab _ _ _ N) as [_ I]. pose proof (nested_lt h p q W I) as LQ.
  destruct (walk_deep 2 f h p [] p (P_all 2) ltac:(lia) W LP ltac:(constructor) (top_careful h p W LP)) as [(G & _)|(_ & s & E)].
  - exfalso. specialize (G q I). apply good_flat in G; auto. destruct G; [congruence|contradiction].
  - unfold CopyDeep. change (Walk (S f) true (fun _ => wret tt) (fun _ _ => wret tt) copydeep_visit p) with (walkD (S f) p). rewrite E. now destruct s.
Qed.

(** The tables that were nested before keep everything they held, at every depth. *)
Theorem C35_old_tables_keep_their_contents : forall h (p : ptr) fuel h' r (q : ptr), wf_heap h -> p < List.length h -> 3 <= fuel ->
  (forall q, nests h p q -> is_nil (tab h q) = true \/ flat_nesting h q) -> CopyDeep fuel p h = (h', Ok r) ->
  nests h p q -> same_sight h q h' q.
Proof.
  intros h p fuel h' r q W LP LF H E N. destruct (C35_what_CopyDeep_does h p fuel W LP LF H) as (h2 & evs & E2 & W2 & A & _). rewrite E in E2. injection E2 as <- ->.
  destruct (nests_tab _ _ _ N) as [_ I]. pose proof (nested_lt h p q W I) as LQ.
  intros lv. apply sight_frame; auto.
  assert (NR : ~ clos_refl_trans _ (nests h) q p). { apply (top_careful h p W LP q I). apply good_flat; auto. }
  apply (only_agree p); auto. split; [exact W2|]. split; [|exact A]. destruct (CopyDeep_wf fuel p h W LP) as [_ L]. now rewrite E in L.
Qed.

(** Both theorems speak of something: the nesting of [deep_heap] (A nests B, B nests C) ... *)
Example C35_deep_nonvacuous : wf_heap deep_heap /\ 0 < List.length deep_heap /\
  (forall q, nests deep_heap 0 q -> is_nil (tab deep_heap q) = true \/ flat_nesting deep_heap q) /\ nests deep_heap 0 1 /\ nests deep_heap 1 2.
Proof.
  pose proof (reachable_wf env0 deep_heap env0_ok deep_reachable) as W. split; [exact W|]. split; [vm_compute; lia|]. split; [|split; (apply tab_nests; [vm_compute; lia|vm_compute; now left])].
  intros q N. destruct (nests_tab _ _ _ N) as [_ I]. assert (E : nested_in (rows (tab deep_heap 0)) = [1]) by reflexivity. rewrite E in I. destruct I as [<-|[]]. right.
  split; [repeat constructor; cbn; intuition discriminate|]. intros r R. assert (E2 : nested_in (rows (tab deep_heap 1)) = [2]) by reflexivity. rewrite E2 in R. destruct R as [<-|[]]. reflexivity.
Qed.
(** ... and one level more. *)
Definition deeper_history : list hop := deep_history ++
  [ HNewTable "Root"; HTab (Some 5) (OAppendCol "kid" "*Table"); HTab (Some 5) OAppendRow; HTab (Some 5) (OSet "*Table" "kid" 0 (VTable (Some 0))) ].
Definition deeper_heap : heap := Eval vm_compute in match play env0 deeper_history [] with Some h => h | None => [] end.
Lemma deeper_reachable : reachable env0 deeper_heap.
Proof. eapply play_reachable; [apply reach_empty|]. instantiate (1 := deeper_history). vm_compute. reflexivity. Qed.
Theorem C35_deeper_trees_refuted : exists h (p : ptr), reachable env0 h /\ tree h p /\ forall fuel, 3 <= fuel -> snd (CopyDeep fuel p h) = Err.
Proof.
  exists deeper_heap, 5. pose proof (reachable_wf env0 deeper_heap env0_ok deeper_reachable) as W. split; [apply deeper_reachable|]. split.
  - destruct (record deeper_heap 5) as [s o] eqn:E. assert (OK : o = Ok tt) by (change o with (snd (s, o)); rewrite <- E; vm_compute; reflexivity). subst o.
    exists (rev (w_x s)). split; [apply record_visits; [exact W|vm_compute; lia|exact E]|].
    assert (ES : w_x s = w_x (fst (record deeper_heap 5))) by now rewrite E. rewrite ES. vm_compute. repeat constructor; cbn; intuition discriminate.
  - intros fuel LF. apply C35_when_CopyDeep_fails; [exact W|vm_compute; lia|exact LF|]. exists 0. split; [apply tab_nests; [vm_compute; lia|vm_compute; now left]|]. split; [reflexivity|].
    intros [_ F]. specialize (F 1). assert (X : nested_in (rows (tab deeper_heap 1)) = [2]) by reflexivity. rewrite X in F. discriminate F. vm_compute. now left.
Qed.

(** Axioms used by any theorem of this file. *)
Definition all_Props_Deep :=
  (@C35_what_CopyDeep_does,
   @C35_when_CopyDeep_fails,
   @C35_old_tables_keep_their_contents,
   @C35_deeper_trees_refuted).
Print Assumptions all_Props_Deep.
