(** Props_Walk.v -- walking nested tables, circular nesting, CopyDeep: C33, C34, C35. *)
From Coq Require Import ZArith NArith List String Ascii Bool SpecFloat Permutation Relations Lia.
From Verif Require Import Base Model_Names Model_Table Model_Sort Model_Copy Model_Merge Model_Ops Model_Heap.
From Verif Require Import Spec Spec_Sort Spec_Heap Spec_Walk.
From Verif Require Import Proofs_Lib Proofs_Table Proofs_Cells Proofs_Api Proofs_Pres Proofs_Env Proofs_Heap Proofs_Walk Proofs_Nesting.
From Verif Require Import Samples Props_Heap.
Import ListNotations.
Local Open Scope string_scope.
Local Open Scope list_scope.

(** ---------- C34 ---------- *)

(** A walk with visitors that keep to their own state calls them exactly on the events of
    the tour, in the order of the tour, stopping at the first error, which it returns; the
    tables are not changed. *)
Theorem C34_walk_follows_the_tour : forall X (vT : visitor X ptr) (vR : visitor X (ptr * Z)) (vC : visitor X cell_info) h p evs fuel x,
  wf_heap h -> visits h p evs -> NoDup (tables_of evs) -> walk_fuel h <= fuel ->
  let o := Walk fuel true (pure_step vT) (fun p r => pure_step vR (p, r)) (pure_step vC) p (mkW h [] x) in
  w_heap (fst o) = h /\ (w_x (fst o), snd o) = feed vT vR vC evs x.
Proof.
  intros X vT vR vC h p evs fuel x WH V N L.
  destruct (Walk_feed h WH vT vR vC (pure_step vT) (fun p r => pure_step vR (p, r)) (pure_step vC)
    (pure_step_eq vT h) (fun p r => pure_step_eq vR h (p, r)) (pure_step_eq vC h) fuel p evs x V) as (sf & E); auto.
  - apply nn_NoDup. rewrite (visits_head _ _ _ V) in N. simpl in N. now inversion N.
  - rewrite E. simpl. split; auto. now destruct (feed vT vR vC evs x).
Qed.

(** There is a tour exactly when no cycle can be reached, and only one. *)
Theorem C34_tour_exists_iff_no_cycle : forall h p, wf_heap h -> p < List.length h ->
  ((exists evs, visits h p evs) <-> ~ circular h p)
  /\ (forall e1 e2, visits h p e1 -> visits h p e2 -> e1 = e2).
Proof.
  intros h p WH L. split; [split|].
  - intros [evs V]. eapply visits_acyclic; eauto.
  - now apply acyclic_visits.
  - apply visits_det.
Qed.

(** The tour of a tree has every reachable table, every row and every cell exactly once. *)
Theorem C34_every_table_row_and_cell_exactly_once : forall h p evs, wf_heap h -> visits h p evs -> NoDup (tables_of evs) ->
  NoDup evs
  /\ (forall q, In (ETable q) evs <-> clos_refl_trans _ (nests h) p q)
  /\ (forall q r, In (ERow q r) evs <-> clos_refl_trans _ (nests h) p q /\ (0 <= r < RowCount (tab h q))%Z)
  /\ (forall q n ct c r, In (ECell q n ct c r) evs <-> clos_refl_trans _ (nests h) p q /\ (0 <= r < RowCount (tab h q))%Z
        /\ col_at (tab h q) c n /\ nth_error (ctypes (tab h q)) (Z.to_nat c) = Some ct).
Proof.
  intros h p evs WH V N. destruct (visits_once h) as (O & _). destruct (O _ _ V N) as (ND & OW).
  destruct (visits_sound h) as (S & _). destruct (S _ _ V) as (F & _). rewrite Forall_forall in F.
  assert (T : forall q, In (ETable q) evs <-> In q (tables_of evs)).
  { intros q. unfold tables_of. rewrite in_flat_map. split.
    - intros I. exists (ETable q). split; simpl; auto.
    - intros ([z| |] & I & J); simpl in J; try contradiction. destruct J as [->|[]]. exact I. }
  split; auto. split; [|split].
  - intros q. rewrite T. now apply visits_tables.
  - intros q r. rewrite <- (visits_tables h p evs q WH V). split.
    + intros I. split; [apply (OW _ I)|apply (F _ I)].
    + intros [I R]. pose proof (visits_lt h p evs q V I) as L. destruct (nth_error_lt h q L) as [t Hq]. rewrite (tab_nth _ _ _ Hq) in R.
      unfold RowCount in R. destruct (nth_error_lt (rows t) (Z.to_nat r)) as [row Hr]; [lia|].
      destruct (visits_complete h p evs V q t I Hq _ _ Hr) as (K & _). now rewrite Z2Nat.id in K by lia.
  - intros q n ct c r. rewrite <- (visits_tables h p evs q WH V). split.
    + intros I. split; [apply (OW _ I)|apply (F _ I)].
    + intros (I & R & [C0 C] & CT). pose proof (visits_lt h p evs q V I) as L. destruct (nth_error_lt h q L) as [t Hq]. rewrite (tab_nth _ _ _ Hq) in *.
      assert (W : wf_table t) by apply (Forall_nth_error _ _ _ _ (wh_tables _ WH) Hq).
      unfold RowCount in R. destruct (nth_error_lt (rows t) (Z.to_nat r)) as [row Hr]; [lia|].
      destruct (Forall2_nth _ _ _ _ _ (Forall_nth_error _ _ _ _ (wf_cells _ W) Hr) CT) as (v & Hv & _).
      destruct (visits_complete h p evs V q t I Hq _ _ Hr) as (_ & K). destruct (K _ _ _ _ C CT Hv) as (K1 & _).
      now rewrite !Z2Nat.id in K1 by lia.
Qed.

(** Stopping at the first error, in terms of single calls: when the events fed to the
    visitors do not all succeed, there is a first one that fails; its result and state are
    the result and state of the whole, and no later event is fed. *)
Theorem C34_stops_at_the_first_error : forall X (vT : visitor X ptr) (vR : visitor X (ptr * Z)) (vC : visitor X cell_info) evs x x' o,
  feed vT vR vC evs x = (x', o) -> o <> Ok tt ->
  exists before e after x1, evs = before ++ e :: after /\ feed vT vR vC before x = (x1, Ok tt) /\ feed vT vR vC [e] x1 = (x', o).
Proof.
  intros X vT vR vC. induction evs as [|e evs IH]; intros x x' o F NO; [simpl in F; injection F as _ <-; contradiction|].
  assert (ST : exists x1 r, feed vT vR vC [e] x = (x1, r)
    /\ (forall l, feed vT vR vC (e :: l) x = match r with Ok _ => feed vT vR vC l x1 | Err => (x1, Err) | Panic => (x1, Panic) end)).
  { destruct e as [p|p i|p n ct c i]; simpl.
    - destruct (vT p x) as [x1 [[]| |]]; eauto.
    - destruct (vR (p, i) x) as [x1 [[]| |]]; eauto.
    - destruct (vC (mkCI p n ct c i) x) as [x1 [[]| |]]; eauto. }
  destruct ST as (x1 & r & E1 & EL). rewrite EL in F. destruct r as [[]| |].
  - destruct (IH x1 x' o F NO) as (b & e' & a & x2 & -> & FB & FE).
    exists (e :: b), e', a, x2. split; auto. split; auto. rewrite EL. exact FB.
  - injection F as <- <-. exists [], e, evs, x. auto.
  - injection F as <- <-. exists [], e, evs, x. auto.
Qed.

(** A walk told not to enter nested tables visits the cells of its table only. *)
Theorem C34_walk_without_nested_tables : forall X (vT : visitor X ptr) (vR : visitor X (ptr * Z)) (vC : visitor X cell_info) h p t fuel x,
  wf_heap h -> nth_error h p = Some t -> 1 <= fuel ->
  let o := Walk fuel false (pure_step vT) (fun p r => pure_step vR (p, r)) (pure_step vC) p (mkW h [] x) in
  w_heap (fst o) = h /\ (w_x (fst o), snd o) = feed vT vR vC (own_tour p t) x.
Proof.
  intros X vT vR vC h p t fuel x WH Hp L o. unfold o. rewrite (Walk_own h vT vR vC fuel p t x WH Hp L). cbn [fst snd w_heap w_x].
  split; auto. symmetry. apply surjective_pairing.
Qed.

(** On every nesting, also a circular one, a walk whose visitors do not panic ends without
    exhausting the stack, and a walk that ends without error has followed a tour that
    enters no table with columns or rows twice. *)
Theorem C34_walk_terminates : forall X (vT : visitor X ptr) (vR : visitor X (ptr * Z)) (vC : visitor X cell_info) h p fuel x,
  wf_heap h -> p < List.length h -> walk_fuel h <= fuel ->
  (forall a x, snd (vT a x) <> Panic) -> (forall a x, snd (vR a x) <> Panic) -> (forall a x, snd (vC a x) <> Panic) ->
  let o := Walk fuel true (pure_step vT) (fun p r => pure_step vR (p, r)) (pure_step vC) p (mkW h [] x) in
  snd o <> Panic /\ w_heap (fst o) = h
  /\ (snd o = Ok tt -> exists evs, visits h p evs /\ feed vT vR vC evs x = (w_x (fst o), Ok tt)
        /\ NoDup (filter (fun q => negb (is_nil (tab h q))) (tables_of (tl evs)))).
Proof.
  intros X vT vR vC h p fuel x WH L LF A B C o.
  destruct (Walk_terminates h WH vT vR vC (pure_step vT) (fun p r => pure_step vR (p, r)) (pure_step vC)
    (pure_step_eq vT h) (fun p r => pure_step_eq vR h (p, r)) (pure_step_eq vC h) fuel p x A B C L LF) as [N H].
  split; auto. split; auto. intros EO. unfold o in *. destruct (Walk fuel true _ _ _ p (mkW h [] x)) as [s r] eqn:E. simpl in *. subst r.
  destruct (Walk_Ok_tour h WH vT vR vC _ _ _ (pure_step_eq vT h) (fun p r => pure_step_eq vR h (p, r)) (pure_step_eq vC h) _ _ _ _ L E)
    as (evs & V & F & ND). exists evs. auto.
Qed.

(** A circular nesting makes a walk fail (or a visitor fails before that). *)
Corollary C34_walk_of_a_cycle_fails : forall X (vT : visitor X ptr) (vR : visitor X (ptr * Z)) (vC : visitor X cell_info) h p fuel x,
  wf_heap h -> p < List.length h -> walk_fuel h <= fuel -> circular h p ->
  (forall a x, snd (vT a x) <> Panic) -> (forall a x, snd (vR a x) <> Panic) -> (forall a x, snd (vC a x) <> Panic) ->
  snd (Walk fuel true (pure_step vT) (fun p r => pure_step vR (p, r)) (pure_step vC) p (mkW h [] x)) = Err.
Proof.
  intros X vT vR vC h p fuel x WH L LF CI A B C.
  destruct (C34_walk_terminates X vT vR vC h p fuel x WH L LF A B C) as (N & _ & O).
  match goal with |- ?r = _ => destruct r as [[]| |] eqn:ER end; auto; [|contradiction].
  destruct (O eq_refl) as (evs & V & _). exfalso. eapply visits_acyclic; eauto.
Qed.

(** Walking a set of tables: the tours of its tables one after the other (a table that is
    in the set and also nested in it is visited in both places). *)
Theorem C34_walk_of_a_table_set : forall X (vT : visitor X ptr) (vR : visitor X (ptr * Z)) (vC : visitor X cell_info) h fuel,
  wf_heap h -> walk_fuel h <= fuel -> forall ps (tours : list (list event)) sf x,
  Forall2 (fun p evs => visits h p evs /\ NoDup (tables_of evs)) ps tours ->
  let o := walk_tables fuel true (pure_step vT) (fun p r => pure_step vR (p, r)) (pure_step vC) (map Some ps) (mkW h sf x) in
  w_heap (fst o) = h /\ (w_x (fst o), snd o) = feed vT vR vC (List.concat tours) x.
Proof.
  intros X vT vR vC h fuel WH L. induction ps as [|p ps IH]; intros tours sf x F; cbv zeta; inversion F; subst; [simpl; auto|].
  destruct H1 as [V N]. cbn [walk_tables map List.concat]. unfold wbind. cbn [w_heap w_x].
  destruct (C34_walk_follows_the_tour X vT vR vC h p y fuel x WH V N L) as [A B].
  destruct (Walk fuel true (pure_step vT) (fun p r => pure_step vR (p, r)) (pure_step vC) p (mkW h [] x)) as [s o] eqn:E.
  cbn [fst snd] in *. rewrite feed_app. rewrite <- B. destruct o as [u| |]; cbn [fst snd]; auto.
  destruct s as [hs sfs xs]. cbn [w_heap w_x] in *. subst hs. apply IH. auto.
Qed.
(** A nil table in the set is an error. *)
Theorem C34_walk_of_a_nil_table : forall X sT sR sC fuel ts (s : wst X),
  walk_tables fuel true sT sR sC (None :: ts) s = (s, Err).
Proof. reflexivity. Qed.

(** A nest of depth two: "A" nests "B", which nests "C". *)
Definition deep_history : list hop :=
  [ HNewTable "A"; HTab (Some 0) (OAppendCol "id" "int"); HTab (Some 0) (OAppendCol "kid" "*Table");
    HNewTable "B"; HTab (Some 1) (OAppendCol "kid" "*Table");
    HNewTable "C"; HTab (Some 2) (OAppendCol "s" "string"); HTab (Some 2) OAppendRow;
    HTab (Some 2) (OSet "string" "s" 0 (VString "leaf"));
    HTab (Some 1) OAppendRow; HTab (Some 1) (OSet "*Table" "kid" 0 (VTable (Some 2)));
    HTab (Some 0) OAppendRow; HTab (Some 0) (OSet "*Table" "kid" 0 (VTable (Some 1))) ].
Definition deep_heap : heap := Eval vm_compute in match play env0 deep_history [] with Some h => h | None => [] end.
Lemma deep_reachable : reachable env0 deep_heap.
Proof. eapply play_reachable; [apply reach_empty|]. instantiate (1 := deep_history). vm_compute. reflexivity. Qed.
Definition deep_tour : list event := Eval vm_compute in rev (w_x (fst (record deep_heap 0))).
Lemma deep_visits : visits deep_heap 0 deep_tour.
Proof.
  change deep_tour with (rev (w_x (fst (record deep_heap 0)))).
  destruct (record deep_heap 0) as [s o] eqn:E. assert (o = Ok tt) by (change o with (snd (s, o)); rewrite <- E; reflexivity). subst.
  simpl fst. apply record_visits; auto.
  - apply (reachable_wf env0); [apply env0_ok|apply deep_reachable].
  - vm_compute. repeat constructor.
Qed.
Example C34_nonvacuous : wf_heap deep_heap /\ visits deep_heap 0 deep_tour /\ NoDup (tables_of deep_tour)
  /\ deep_tour = [ETable 0; ERow 0 0; ECell 0 "id" "int" 0 0; ECell 0 "kid" "*Table" 1 0;
                  ETable 1; ERow 1 0; ECell 1 "kid" "*Table" 0 0; ETable 2; ERow 2 0; ECell 2 "s" "string" 0 0].
Proof.
  split; [apply (reachable_wf env0); [apply env0_ok|apply deep_reachable]|].
  split; [apply deep_visits|]. split; [|reflexivity].
  replace (tables_of deep_tour) with [0; 1; 2] by reflexivity. repeat constructor; simpl; intuition discriminate.
Qed.

(** ---------- C33 ---------- *)

(** IsValidTableNesting accepts exactly the tables whose nested tables are different from
    each other and from the table, and nest no tables themselves. *)
Theorem C33_accepts_exactly_flat_nestings : forall h (p : ptr), wf_heap h -> p < List.length h ->
  (IsValidTableNesting h p = Ok tt <-> flat_nesting h p)
  /\ (HasCircularReference h p = Ok false <-> flat_nesting h p).
Proof.
  intros h p WH L. pose proof (IsValidTableNesting_iff h p WH L) as I. split; auto. rewrite <- I. unfold HasCircularReference.
  destruct (IsValidTableNesting h p) as [[]| |]; split; congruence.
Qed.

(** It always ends: with true, or with an error; HasCircularReference with true or false. *)
Theorem C33_always_terminates : forall h (p : ptr), wf_heap h -> p < List.length h ->
  (IsValidTableNesting h p = Ok tt \/ IsValidTableNesting h p = Err)
  /\ (HasCircularReference h p = Ok false \/ HasCircularReference h p = Ok true).
Proof.
  intros h p WH L. pose proof (IsValidTableNesting_no_panic h p WH L) as N. unfold HasCircularReference.
  destruct (IsValidTableNesting h p) as [[]| |]; [auto|auto|contradiction].
Qed.

(** A flat nesting is a tree. *)
Theorem C33_accepted_is_a_tree : forall h (p : ptr), wf_heap h -> p < List.length h ->
  IsValidTableNesting h p = Ok tt -> tree h p /\ ~ circular h p.
Proof.
  intros h p WH L I. apply IsValidTableNesting_iff in I; auto. destruct (flat_tour h p WH L I) as (evs & V & T & _).
  split; [|eapply visits_acyclic; eauto]. exists (ETable p :: evs). split; auto. simpl. rewrite T. apply I.
Qed.

(** Every nesting that comes back to a table, and every nesting in which a table occurs
    twice, is rejected. *)
Theorem C33_circular_nesting_is_rejected : forall h (p : ptr), wf_heap h -> p < List.length h ->
  circular h p \/ ~ tree h p -> IsValidTableNesting h p = Err /\ HasCircularReference h p = Ok true.
Proof.
  intros h p WH L C. destruct (C33_always_terminates h p WH L) as [[E|E] _].
  - destruct (C33_accepted_is_a_tree h p WH L E) as [T NC]. tauto.
  - split; auto. unfold HasCircularReference. now rewrite E.
Qed.

(** Not every tree is accepted: nested tables that nest tables are rejected. *)
Theorem C33_accepts_every_tree_refuted : ~ (forall h (p : ptr), wf_heap h -> p < List.length h -> tree h p -> IsValidTableNesting h p = Ok tt).
Proof.
  intros H. assert (E : IsValidTableNesting deep_heap 0 = Err) by (vm_compute; reflexivity).
  rewrite H in E; try discriminate.
  - apply (reachable_wf env0); [apply env0_ok|apply deep_reachable].
  - vm_compute. repeat constructor.
  - exists deep_tour. split; [apply deep_visits|apply C34_nonvacuous].
Qed.

(** A table nested in itself, made by the API. *)
Definition cyclic_history : list hop :=
  [ HNewTable "A"; HTab (Some 0) (OAppendCol "kid" "*Table"); HTab (Some 0) OAppendRow;
    HTab (Some 0) (OSet "*Table" "kid" 0 (VTable (Some 0))) ].
Definition cyclic_heap : heap := Eval vm_compute in match play env0 cyclic_history [] with Some h => h | None => [] end.
Lemma cyclic_reachable : reachable env0 cyclic_heap.
Proof. eapply play_reachable; [apply reach_empty|]. instantiate (1 := cyclic_history). vm_compute. reflexivity. Qed.
Example C33_nonvacuous : 
  (wf_heap cyclic_heap /\ circular cyclic_heap 0)
  /\ (wf_heap history_heap /\ flat_nesting history_heap 0 /\ nested_in (rows (tab history_heap 0)) <> []).
Proof.
  split; split.
  - apply (reachable_wf env0); [apply env0_ok|apply cyclic_reachable].
  - exists 0. split; [apply rt_refl|]. apply t_step. eexists. split; [reflexivity|]. vm_compute. auto.
  - apply (reachable_wf env0); [apply env0_ok|apply history_reachable].
  - split; [|vm_compute; discriminate]. apply IsValidTableNesting_iff.
    + apply (reachable_wf env0); [apply env0_ok|apply history_reachable].
    + vm_compute. repeat constructor.
    + vm_compute. reflexivity.
Qed.

(** ---------- C35 ---------- *)

(** What CopyDeep should do: return a new table, and leave the tables that exist as they
    are. *)
Definition copies (f : ptr -> heap -> heap * res ptr) (p : ptr) (h : heap) : Prop :=
  forall h' q, f p h = (h', Ok q) -> List.length h <= q /\ firstn (List.length h) h' = h.

(** On the heap of [history_heap] (a flat nesting) CopyDeep returns the receiver itself and
    replaces its nested tables by copies. *)
Theorem C35_receiver_unchanged_refuted :
  exists h p h', reachable env0 h /\ tree h p /\ CopyDeep (walk_fuel h + 100) p h = (h', Ok p)
    /\ nested_in (rows (tab h p)) = [1; 2] /\ nested_in (rows (tab h' p)) = [11; 12].
Proof.
  exists history_heap, 0, (fst (CopyDeep (walk_fuel history_heap + 100) 0 history_heap)).
  split; [apply history_reachable|]. split; [|vm_compute; auto].
  apply C33_accepted_is_a_tree; [apply (reachable_wf env0); [apply env0_ok|apply history_reachable]|vm_compute; repeat constructor|vm_compute; reflexivity].
Qed.

(** On a nesting of depth two it returns a copy of the leaf instead of the root: another
    name, other columns. *)
Theorem C35_result_is_equal_refuted :
  exists h p h' q, reachable env0 h /\ tree h p /\ CopyDeep (walk_fuel h + 100) p h = (h', Ok q)
    /\ (tname (tab h p), cnames (tab h p)) = ("A", ["id"; "kid"]) /\ (tname (tab h' q), cnames (tab h' q)) = ("C", ["s"]).
Proof.
  exists deep_heap, 0, (fst (CopyDeep (walk_fuel deep_heap + 100) 0 deep_heap)), 7.
  split; [apply deep_reachable|]. split; [exists deep_tour; split; [apply deep_visits|apply C34_nonvacuous]|vm_compute; auto].
Qed.

Corollary C35_copies_refuted : ~ (forall h p fuel, wf_heap h -> tree h p -> walk_fuel h <= fuel -> copies (CopyDeep fuel) p h).
Proof.
  intros H. destruct C35_receiver_unchanged_refuted as (h & p & h' & R & T & E & _).
  pose proof (reachable_wf env0 h env0_ok R) as WH.
  destruct (H h p (walk_fuel h + 100) WH T ltac:(lia) h' p E) as [L _].
  destruct T as (evs & V & _). inversion V; subst. apply (nth_error_some_lt) in H0. lia.
Qed.

(** Without nested-table columns CopyDeep changes nothing, and returns the receiver itself:
    the result is equal to the receiver, but nothing is copied. *)
Theorem C35_no_nested_tables : forall h (p : ptr) fuel, wf_heap h -> p < List.length h -> 1 <= fuel ->
  ~ In "*Table" (ctypes (tab h p)) -> CopyDeep fuel p h = (h, Ok p).
Proof.
  intros h p fuel WH L LF NT. destruct fuel as [|fuel]; [lia|]. destruct (tab_wf h p WH) as [WT _].
  assert (ID : forall A (l : list A) (body : A -> W ptr unit) s, (forall a, In a l -> body a s = (s, Ok tt)) -> wfor l body s = (s, Ok tt)).
  { intros A. induction l as [|a l IH]; intros body s H; [reflexivity|]. rewrite wfor_cons. unfold wbind. rewrite H by (simpl; auto).
    apply IH. intros; apply H; simpl; auto. }
  assert (E : Walk (S fuel) true (fun _ => wret tt) (fun _ _ => wret tt) copydeep_visit p (mkW h [] p) = (mkW h [] p, Ok tt)).
  { cbn [Walk]. unfold wbind at 1. cbn [wret]. rewrite wbind_wtab. apply ID. intros r Ir. cbn [w_heap] in Ir.
    unfold wbind at 1. cbn [wret]. rewrite wbind_wtab. apply ID. intros c Ic. cbn [w_heap] in Ic. apply In_zseq in Ic.
    rewrite wbind_wtab. cbn [w_heap]. rewrite wbind_wlift.
    destruct (nth_error_lt (cnames (tab h p)) (Z.to_nat c)) as [n Hn]; [lia|].
    destruct (nth_error_lt (ctypes (tab h p)) (Z.to_nat c)) as [ct Hc]; [rewrite (wf_types_len _ WT); lia|].
    assert (GI : GetCellInfoByColIndex p (tab h p) c r = Ok (mkCI p n ct c r)).
    { unfold GetCellInfoByColIndex. rewrite <- (Z2Nat.id c) by lia. rewrite znth_of_nat, Hc. unfold ColName, ColCount.
      destruct ((Z.of_nat (Z.to_nat c) <? 0) || (Z.of_nat (Z.to_nat c) >? Z.of_nat (List.length (cnames (tab h p))) - 1))%Z eqn:B; [lia|].
      rewrite znth_of_nat, Hn. reflexivity. }
    rewrite GI. assert (NE : (ct =? "*Table") = false).
    { apply String.eqb_neq. intros ->. apply NT. eapply nth_error_In; eauto. }
    unfold copydeep_visit. cbn [ci_type ci_tab]. rewrite NE. reflexivity. }
  unfold CopyDeep. now rewrite E.
Qed.

Example C35_nonvacuous : exists h p, reachable env0 h /\ p < List.length h /\ ~ In "*Table" (ctypes (tab h p)) /\ RowCount (tab h p) = 2%Z.
Proof.
  exists history_heap, 1. split; [apply history_reachable|]. split; [vm_compute; repeat constructor|].
  split; [|reflexivity]. replace (ctypes (tab history_heap 1)) with ["int"; "string"] by reflexivity. simpl. intuition discriminate.
Qed.

(** Axioms used by any theorem of this file. *)
Definition all_Props_Walk :=
  (@C34_walk_follows_the_tour,
   @C34_tour_exists_iff_no_cycle,
   @C34_every_table_row_and_cell_exactly_once,
   @C34_stops_at_the_first_error,
   @C34_walk_without_nested_tables,
   @C34_walk_terminates,
   @C34_walk_of_a_table_set,
   @C34_walk_of_a_nil_table,
   @C33_accepts_exactly_flat_nestings,
   @C33_always_terminates,
   @C33_accepted_is_a_tree,
   @C33_circular_nesting_is_rejected,
   @C33_accepts_every_tree_refuted,
   @C35_receiver_unchanged_refuted,
   @C35_result_is_equal_refuted,
   @C35_no_nested_tables).
Print Assumptions all_Props_Walk.
