(** Proofs_YamlGo.v -- what comes back from a document that was written holds Go values (C67). *)
From Coq Require Import ZArith NArith List String Ascii Bool SpecFloat Lia Relations.
From Verif Require Import Base Model_Names Model_Table Model_Sort Model_Heap Model_TableSet Model_Lex Model_Float Model_Time
  Model_Parser Model_Print Model_Json Model_Yaml Spec Spec_Sort Spec_Heap Spec_Walk Spec_TableSet Spec_Text Spec_Json Spec_Foreign Spec_Yaml.
From Verif Require Import Proofs_Lib Proofs_Table Proofs_Cells Proofs_Heap Proofs_TableSet Proofs_Nesting Proofs_Float Proofs_JsonWrite Proofs_YamlWrite Proofs_YamlRead Props_Yaml.
Import ListNotations.
Local Open Scope string_scope.
Local Open Scope list_scope.

Inductive go_any : any -> Prop :=
| go_val v : go_value v = true -> go_any (AVal v)
| go_list l : Forall go_any l -> go_any (AList l)
| go_map m : Forall (fun x => go_any (snd x)) m -> go_any (AMap m).

Lemma scalar_go v y : scalar_back v y -> go_value v = true -> go_doc y.
Proof.
  intros [b|s|k z L|k z L|f z S|f z S|f S|f g S F P|f F|o|t] G; try exact I.
  - cbn [go_doc]. cbn [go_value] in G. unfold in_range in *. apply andb_true_iff in G. rewrite !Z.leb_le in G. apply andb_true_iff. rewrite !Z.leb_le. destruct k; cbn in *; lia.
  - exact G.
  - exact (ParseFloat_valid F64 _ g (or_intror eq_refl) P).
  - destruct f; try (now elim F); reflexivity.
  - cbn [go_doc]. induction (match o with Some l => l | None => [] end) as [|c l IH]; cbn [map fold_right go_doc]; auto.
  - exact G.
Qed.
Lemma back_go : forall a y, comes_back a y -> go_any a -> go_doc y.
Proof.
  fix IH 1. intros [v|l|m] y C G.
  - inversion C; subst. inversion G; subst. eapply scalar_go; eauto.
  - inversion C as [|? l' F|]; subst. inversion G as [|? K|]; subst. cbn [go_doc]. clear C G. revert l' F K.
    induction l as [|x l IHl]; intros l' F K; inversion F as [|? y ? l2 XY F']; subst; cbn [fold_right]; [exact I|]. inversion K; subst. split; [apply (IH x y XY); assumption|]. apply IHl; assumption.
  - inversion C as [| |? m' F]; subst. inversion G as [| |? K]; subst. cbn [go_doc]. clear C G. revert m' F K.
    induction m as [|[k x] m IHm]; intros m' F K; inversion F as [|? [k' y] ? m2 [_ XY] F']; subst; cbn [fold_right]; [exact I|]. inversion K; subst. cbn [snd] in *. split; [apply (IH x y XY); assumption|]. apply IHm; assumption.
Qed.

Lemma map_go h : wf_heap h -> forall fuel p m, getTableAsMap fuel h p = Ok m -> go_any (AMap m).
Proof.
  intros WH. induction fuel as [|fuel IH]; intros p m H; [discriminate H|]. rewrite map_eq in H by exact WH.
  destruct (rmap _ _) as [data| |] eqn:E; try discriminate H. cbn [rbind] in H.
  assert (m = table_map (tab h p) data) as -> by congruence. clear H. apply rmap_inv in E.
  assert (D : Forall go_any data).
  { destruct (tab_wf h p WH) as [W _]. pose proof (wf_cells _ W) as CW. clear - E IH CW. induction E as [|row a rs data R E IHE]; constructor; inversion CW as [|? ? CR CW']; subst; [|auto].
    destruct (rmap _ row) as [cells| |] eqn:RC; try discriminate R. cbn [rbind] in R. injection R as <-. constructor. apply rmap_inv in RC. clear - RC IH CR.
    revert CR. generalize (ctypes (tab h p)). induction RC as [|v a vs cells R RC IHR]; intros cts CR; constructor; inversion CR as [|ct ? cts' ? [_ GV] CR']; subst; [|eauto].
    destruct v as [| b|str|k z|f|f|o|[q|]|tm|g]; cbn [cell_map] in R; try (injection R as <-; now constructor); try discriminate R.
    destruct (getTableAsMap fuel h q) as [m| |] eqn:GM; try discriminate R. cbn [rbind] in R. injection R as <-. eauto. }
  unfold table_map. constructor. repeat (apply Forall_app; split).
  - repeat constructor; cbn [snd]. exact D.
  - destruct (struct_shape (tab h p)); repeat constructor.
  - constructor; [|constructor]. cbn [snd]. constructor. apply Forall_map, Forall_forall. intros c _. repeat constructor.
Qed.

(** The text of a set that YAML keeps is read as a document of Go values. *)
Lemma written_go Y text limit h s k x : yaml_ok Y text limit -> wf_heap h -> text (ts_name s) ->
  Forall (fun o => exists p, o = Some p /\ yaml_ready text k h p) (ts_tables s) -> 3 * k + 4 <= limit ->
  GetTableSetAsYAML Y (S (List.length h)) h s = Ok x -> forall m', unmarshal Y x = Ok m' -> go_doc (YMap m').
Proof.
  intros YO WH TN RD LIM GX m' UM.
  destruct (map_built h s WH) as (m & M).
  { eapply Forall_impl; [|exact RD]. intros o (p & -> & L & _ & _ & D). exists p. split; [reflexivity|]. split; [exact L|]. now apply (depth_not_circular h k). }
  pose proof (M _ (le_n _)) as MF. unfold GetTableSetAsYAML in GX. rewrite MF in GX. rewrite set_map in MF. revert MF GX. generalize (S (List.length h)). intros F MF GX.
  destruct (rmap _ _) as [ts| |] eqn:RM; try discriminate MF. cbn [rbind] in MF. injection MF as EM. apply rmap_inv in RM.
  destruct YO as [PR YE YB].
  assert (TD : Forall (fun a => in_domain text (3 * k + 2) a /\ go_any a) ts).
  { clear - RM RD WH PR. induction RM as [|o a os ts R _ IH]; constructor; inversion RD as [|? ? (p & -> & L & N & YT & D) RD']; subst; [|auto].
    destruct (getTableAsMap F h p) as [m| |] eqn:G; cbn [rbind] in R; try discriminate R. injection R as <-. split; [|eapply map_go; eauto].
    apply (written_domain text h PR WH F k p m); auto. }
  assert (DOM : in_domain text limit (AMap m)).
  { apply (domain_le text (S (S (3 * k + 2)))); [lia|]. rewrite <- EM. apply domain_AMap. constructor; [|constructor; [|constructor]]; cbn [fst snd].
    - split; [apply PR; unfold printable; repeat constructor; cbn; lia|]. apply (domain_le text 0); [lia|exact TN].
    - split; [apply PR; unfold printable; repeat constructor; cbn; lia|]. apply domain_AList. eapply Forall_impl; [|exact TD]. intros a [A _]. exact A. }
  destruct (YB m DOM) as (x' & m2 & MX & _ & UX & CB). rewrite MX in GX. injection GX as ->. rewrite UM in UX. injection UX as <-.
  apply (back_go _ _ CB). rewrite <- EM. constructor. constructor; [now constructor|]. constructor; [|constructor]. cbn [snd]. constructor. eapply Forall_impl; [|exact TD]. intros a [_ A]. exact A.
Qed.
