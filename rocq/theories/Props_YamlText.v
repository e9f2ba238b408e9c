(** Props_YamlText.v -- the YAML text of a set that was read is the text it was read from (C67). *)
From Coq Require Import ZArith NArith List String Ascii Bool SpecFloat Lia Relations.
From Verif Require Import Base Model_Names Model_Table Model_Sort Model_Ops Model_Heap Model_TableSet Model_Lex Model_Float Model_Time
  Model_Parser Model_Print Model_Json Model_Yaml Spec Spec_Sort Spec_Heap Spec_Walk Spec_TableSet Spec_Text Spec_Json Spec_Yaml Spec_Foreign.
From Verif Require Import Proofs_Lib Proofs_Table Proofs_Cells Proofs_Heap Proofs_TableSet Proofs_Nesting Proofs_JsonWrite Proofs_YamlWrite Proofs_YamlRead
  Proofs_Foreign Proofs_CopyReady Proofs_YamlGo Proofs_Env Samples Props_Heap Props_Yaml Props_Forest.
Import ListNotations.
Local Open Scope string_scope.
Local Open Scope list_scope.

(** In the table and the tables nested in it, no slice is nil and no nested table is a nil table: each has been given a name. *)
Definition filled (h : heap) (p : ptr) : Prop :=
  forall q, clos_refl_trans _ (nests h) p q ->
    Forall (Forall (fun v => v <> VBytes None /\ forall r, v = VTable (Some r) -> is_nil (tab h r) = false)) (rows (tab h q)).

Lemma same_images {A B C} (R : A -> B -> Prop) (f : A -> res C) (g : B -> res C) l l' d d' :
  (forall a b c c', In a l -> R a b -> f a = Ok c -> g b = Ok c' -> c = c') ->
  Forall2 R l l' -> rmap f l = Ok d -> rmap g l' = Ok d' -> d = d'.
Proof.
  intros X F E E'. apply rmap_inv in E, E'. revert l' d' X F E'. induction E as [|a c l d AC _ IH]; intros l' d' X F E'; inversion F as [|? b ? l2 AB F']; subst; inversion E' as [|? c' ? d2 BC E2]; subst; [reflexivity|].
  f_equal; [eapply X; eauto; now left|]. eapply IH; eauto. intros; eapply X; eauto. now right.
Qed.
Lemma map_same h h' : wf_heap h -> wf_heap h' -> forall f f' p p' m m', deep_copy h h' p p' -> filled h p -> getTableAsMap f h p = Ok m -> getTableAsMap f' h' p' = Ok m' -> m = m'.
Proof.
  intros W W'. induction f as [|f IH]; intros f' p p' m m' D FI E E'; [discriminate E|]. destruct f' as [|f']; [discriminate E'|].
  rewrite map_eq in E by exact W. rewrite map_eq in E' by exact W'.
  destruct (rmap _ (rows (tab h p))) as [d| |] eqn:ED; cbn [rbind] in E; try discriminate E. destruct (rmap _ (rows (tab h' p'))) as [d'| |] eqn:ED'; cbn [rbind] in E'; try discriminate E'.
  inversion D as [x x' _ NM CN CT SH _ RS X X']; subst.
  assert (d = d') as <-.
  { pose proof (FI p (rt_refl _ _ p)) as FP. rewrite Forall_forall in FP. eapply same_images; [|exact RS|exact ED|exact ED']. intros row row' c c' IR FR C C'. cbn beta in C, C'. specialize (FP row IR). rewrite Forall_forall in FP.
    destruct (rmap _ row) as [cs| |] eqn:EC; cbn [rbind] in C; try discriminate C. destruct (rmap _ row') as [cs'| |] eqn:EC'; cbn [rbind] in C'; try discriminate C'.
    assert (cs = cs') as <-; [|congruence]. eapply same_images; [|exact FR|exact EC|exact EC']. intros v w a a' IV SC A A'. destruct (FP v IV) as [NB NT].
    destruct SC as [v PL|q q' Nq Nq'|q q' Nq Rq].
    - replace (read_back v) with v in A' by (destruct v as [| | | | | |[l|]|o| |]; try reflexivity; congruence). destruct v as [| | | | | |o|o| |]; cbn [cell_map] in A, A'; try congruence.
    - rewrite (NT q eq_refl) in Nq. discriminate Nq.
    - cbn [cell_map] in A, A'. destruct (getTableAsMap f h q) as [n| |] eqn:G; cbn [rbind] in A; try discriminate A. destruct (getTableAsMap f' h' q') as [n'| |] eqn:G'; cbn [rbind] in A'; try discriminate A'.
      assert (n = n') as <-; [|congruence]. eapply (IH f' q q'); eauto. intros r C1. apply FI. eapply rt_trans; [apply rt_step|exact C1].
      apply in_nests. apply In_nth_error in IR as [kr IR]. apply In_nth_error in IV as [kc IV]. apply In_nested_in. exists kr, row, kc. auto. }
  injection E as <-. injection E' as <-. unfold table_map. now rewrite NM, CN, CT, SH.
Qed.

(** Such a set is written as YAML and read in any program state: what is read is converted to the
    same map, so the library writes the same text. *)
Theorem C67_YAML_same_yaml : forall E Y text limit h s k y h2 h3 s' fuel, yaml_ok Y text limit -> env_ok E -> reachable E h -> text (ts_name s) -> NoDup (set_names h s) ->
  Forall (fun o => exists p, o = Some p /\ yaml_ready text k h p /\ filled h p) (ts_tables s) -> 3 * k + 4 <= limit -> wf_heap h2 ->
  GetTableSetAsYAML Y (S (List.length h)) h s = Ok y -> NewTableSetFromYAML Y y h2 = (h3, Ok s') -> S (List.length h3) <= fuel ->
  GetTableSetAsMap fuel h3 s' = GetTableSetAsMap (S (List.length h)) h s /\ GetTableSetAsYAML Y fuel h3 s' = Ok y.
Proof.
  intros E Y text limit h s k y h2 h3 s' fuel YO EO R TN ND RF LIM W2 YX N FU. pose proof (reachable_wf E h EO R) as W.
  assert (RD : Forall (fun o => exists p, o = Some p /\ yaml_ready text k h p) (ts_tables s)) by (eapply Forall_impl; [|exact RF]; intros o (p & -> & A & _); eauto).
  destruct (yaml_set_trip Y text limit h s k YO W TN ND RD LIM) as (y' & X' & RT). rewrite (X' _ (le_n _)) in YX. injection YX as ->.
  destruct (RT h2 W2) as (h4 & s4 & N4 & [NM SC] & W3 & _). rewrite N in N4. injection N4 as <- <-.
  pose proof (written_go Y text limit h s k y YO W TN RD LIM (X' _ (le_n _))) as GY.
  destruct (C67_YAML_written_again (fun _ => false) Y y h2 h3 s' W2 GY N) as [_ (m' & M')]. specialize (M' fuel FU).
  destruct (map_built h s W) as (m & M).
  { eapply Forall_impl; [|exact RD]. intros o (p & -> & L & _ & _ & D). exists p. split; [reflexivity|]. split; [exact L|]. now apply (depth_not_circular h k). }
  specialize (M _ (le_n _)).
  assert (EM : m' = m).
  { rewrite set_map in M, M'. rewrite NM in M'. match type of M with rbind ?r _ = _ => destruct r as [ts| |] eqn:A end; cbn [rbind] in M; try discriminate M. match type of M' with rbind ?r _ = _ => destruct r as [ts'| |] eqn:B end; cbn [rbind] in M'; try discriminate M'.
    assert (ts = ts') as <-; [|congruence]. rewrite Forall_forall in RF. eapply same_images; [|exact SC|exact A|exact B]. intros o o' c c' I (p & p' & -> & -> & D) C C'. cbn beta iota in C, C'.
    destruct (getTableAsMap (S (List.length h)) h p) as [n| |] eqn:G; cbn [rbind] in C; try discriminate C. destruct (getTableAsMap fuel h3 p') as [n'| |] eqn:G'; cbn [rbind] in C'; try discriminate C'.
    destruct (RF _ I) as (q & [= <-] & _ & FI). rewrite (map_same h h3 W W3 _ _ _ _ _ _ D FI G G') in C. congruence. }
  rewrite M', M, EM. split; [reflexivity|]. specialize (X' _ (le_n _)). unfold GetTableSetAsYAML in *. rewrite M in X'. rewrite M', EM. exact X'.
Qed.

(** A table with a slice and a named table nested in it *)
Definition fill_history : list hop :=
  [ HNewTable "A"; HNewTable "B"; HTab (Some 0) (OAppendCol "y" "[]byte"); HTab (Some 0) (OAppendCol "t" "*Table"); HTab (Some 0) OAppendRow;
    HTab (Some 0) (OSetStructShape true); HTab (Some 1) (OAppendCol "b" "bool"); HTab (Some 1) (OAppendRows 2); HTab (Some 0) (OSet "*Table" "t" 0 (VTable (Some 1))) ].
Definition fill_heap : heap := Eval vm_compute in match play env0 fill_history [] with Some h => h | None => [] end.
Lemma fill_reachable : reachable env0 fill_heap.
Proof. apply (play_reachable env0 fill_history [] _ (reach_empty env0)). vm_compute. reflexivity. Qed.
Lemma fill_nests (q r : ptr) : nests fill_heap q r -> q = 0 /\ r = 1.
Proof.
  intros (t & N & I). destruct q as [|[|q]].
  - split; [reflexivity|]. injection N as <-. cbn in I. destruct I as [<-|[]]. reflexivity.
  - injection N as <-. cbn in I. contradiction.
  - exfalso. do 3 (destruct q as [|q]; [try discriminate N; injection N as <-; cbn in I; contradiction|]). discriminate N || (destruct q; discriminate N).
Qed.
Example C67_nonvacuous_yaml_text : reachable env0 fill_heap /\ yaml_ready any_text 2 fill_heap 0 /\ filled fill_heap 0 /\ nests fill_heap 0 1
  /\ exists y h3 s', GetTableSetAsYAML yaml0 (S (List.length fill_heap)) fill_heap (mkTS "set" "" [Some 0]) = Ok y /\ NewTableSetFromYAML yaml0 y fill_heap = (h3, Ok s')
     /\ ts_tables s' <> [Some 0] /\ GetTableSetAsYAML yaml0 (S (List.length h3)) h3 s' = Ok y.
Proof.
  assert (CL : forall q : ptr, clos_refl_trans _ (nests fill_heap) 0 q -> q = 0 \/ q = 1).
  { intros q C. apply clos_rt_rtn1 in C. destruct C as [|y z N C]; [now left|]. right. now apply (fill_nests y z). }
  split; [exact fill_reachable|]. split; [|split; [|split]].
  - split; [cbn; lia|]. split; [reflexivity|]. split.
    + intros q C NN. split; [exact I|]. split; [apply Forall_forall; intros; exact I|]. destruct (CL q C) as [->| ->]; repeat first [apply Forall_cons|apply Forall_nil]; exact I.
    + intros q N NN. apply fill_nests in N as [_ ->]. intros r N' _. apply fill_nests in N' as [N' _]. discriminate N'.
  - intros q C. destruct (CL q C) as [->| ->]; repeat first [apply Forall_cons|apply Forall_nil]; (split; [discriminate|]; intros r Q; try discriminate Q; injection Q as <-; reflexivity).
  - exists (tab fill_heap 0). split; [reflexivity|]. cbn. auto.
  - do 3 eexists. split; [vm_compute; reflexivity|]. split; [vm_compute; reflexivity|]. split; [discriminate|]. vm_compute. reflexivity.
Qed.

(** Axioms used by any theorem of this file. *)
Definition all_Props_YamlText := (@C67_YAML_same_yaml).
Print Assumptions all_Props_YamlText.
