(** Props_Forest.v -- what is read from JSON or YAML is a forest: it can be written again, and its
    JSON text is the text of what was written (C67). *)
From Coq Require Import ZArith NArith List String Ascii Bool SpecFloat Lia Relations.
From Verif Require Import Base Model_Names Model_Table Model_Sort Model_Ops Model_Heap Model_TableSet Model_Lex Model_Float Model_Time
  Model_Parser Model_Print Model_Json Model_Yaml Spec Spec_Sort Spec_Heap Spec_Walk Spec_TableSet Spec_Text Spec_Json Spec_Yaml Spec_Foreign.
From Verif Require Import Proofs_Lib Proofs_Table Proofs_Cells Proofs_Heap Proofs_Frame Proofs_TableSet Proofs_Nesting Proofs_JsonTree Proofs_Foreign
  Proofs_Forest Proofs_SameTree Proofs_CopyReady Proofs_YamlGo Proofs_JsonText Samples Proofs_Env Props_Heap Props_Json Props_Yaml.
Import ListNotations.
Local Open Scope string_scope.
Local Open Scope list_scope.

(** ---------- every table is nested once ---------- *)

(** No table made after the first [n] is nested in two places of such tables. *)
Definition nested_once (n : nat) (h : heap) : Prop :=
  forall a b r c r' c' q, n <= a -> n <= b -> at_cell (tab h a) c r = Some (VTable (Some q)) -> at_cell (tab h b) c' r' = Some (VTable (Some q)) ->
    a = b /\ c = c' /\ r = r'.
Definition set_of_trees (h : heap) (s : tset) : Prop := Forall (fun o => exists p, o = Some p /\ is_tree h p /\ ~ circular h p) (ts_tables s).

Lemma at_spot t r c q : at_cell t c r = Some (VTable (Some q)) -> spot t r c q.
Proof. unfold at_cell. destruct (nth_error (rows t) r) as [row|] eqn:R; [|discriminate]. intros C. exists row. auto. Qed.
Lemma once_nested n h : once n h -> nested_once n h.
Proof. intros O a b r c r' c' q A B X Y. destruct (O q a r c b r' c' A B (at_spot _ _ _ _ X) (at_spot _ _ _ _ Y)) as (E1 & E2 & E3). auto. Qed.
Lemma upward_flat n h p : wf_heap h -> upward n h -> n <= p -> ~ circular h p.
Proof.
  intros W U P (q & PQ & QQ).
  assert (S : forall a b, n <= a -> nests h a b -> a < b).
  { intros a b A (t & E & I). exact (proj1 (ptrs_gt_nested a t) (U a t A E) b I). }
  assert (Q : n <= q).
  { clear QQ. apply clos_rt_rtn1 in PQ. induction PQ as [|x y X _ IH]; [exact P|]. specialize (S x y IH X). unfold ptr in *. lia. }
  assert (T : forall a b, clos_trans _ (nests h) a b -> n <= a -> a < b).
  { intros a b X. induction X as [a b X|a b c _ IH1 _ IH2]; intros A; [now apply S|]. specialize (IH1 A). assert (n <= b) by (unfold ptr in *; lia). specialize (IH2 H). unfold ptr in *. lia. }
  specialize (T q q QQ Q). unfold ptr in *. lia.
Qed.
Lemma forest h0 h s : grown h0 h -> once (List.length h0) h -> new_set_in h0 h s -> nested_once (List.length h0) h /\ set_of_trees h s.
Proof.
  intros G O [K F]. split; [now apply once_nested|]. eapply Forall_impl; [|exact F]. intros o (p & -> & L). exists p. split; [reflexivity|]. split; [eapply grown_tree; eauto|].
  eapply upward_flat; [exact (gr_wf _ _ G)|exact (gr_up _ _ G)|exact L].
Qed.

(** Whatever the document says, the tables read from it are nested in one place each at most, no
    table contains itself, and each table of the set is a tree. *)
Theorem C67_JSON : forall wild x h h' s, wf_heap h -> NewTableSetFromJSON wild x h = (h', Ok s) ->
  nested_once (List.length h) h' /\ set_of_trees h' s.
Proof.
  intros wild x h h' s W E. pose proof (json_once _ _ _ _ _ W E) as O. destruct (json_set_new wild x h W) as [G N]. rewrite E in G, N. cbn [fst snd] in *. apply forest; auto.
Qed.
Theorem C67_YAML : forall Y (x : text_t Y) h h' s, wf_heap h -> (forall m, unmarshal Y x = Ok m -> go_doc (YMap m)) -> NewTableSetFromYAML Y x h = (h', Ok s) ->
  nested_once (List.length h) h' /\ set_of_trees h' s.
Proof.
  intros Y x h h' s W GY E. pose proof (yaml_once _ _ _ _ _ W GY E) as O. destruct (yaml_set_new Y x h W GY) as [G N]. rewrite E in G, N. cbn [fst snd] in *. apply forest; auto.
Qed.

(** ---------- what was read can be written ---------- *)

Lemma written_again ip h0 h s : grown h0 h -> once (List.length h0) h -> new_set_in h0 h s ->
  (exists x, GetTableSetAsJSON ip h s = Ok x) /\ exists m, forall fuel, S (List.length h) <= fuel -> GetTableSetAsMap fuel h s = Ok m.
Proof.
  intros G O N. destruct (forest _ _ _ G O N) as [_ F]. destruct N as [[_ K] _]. pose proof (gr_wf _ _ G) as W.
  assert (B : forall o, In o (ts_tables s) -> exists p : ptr, o = Some p /\ p < List.length h).
  { intros o I. unfold set_of_trees in F. rewrite Forall_forall in F, K. destruct (F o I) as (p & -> & _). exists p. split; [reflexivity|]. apply ref_in_lt. now apply K. }
  split.
  - apply (set_written h ip s W B). eapply Forall_impl; [|exact F]. intros o (p & -> & T & _). eauto.
  - apply map_built; [exact W|]. apply Forall_forall. intros o I. destruct (B o I) as (p & -> & L). exists p. split; [reflexivity|]. split; [exact L|].
    unfold set_of_trees in F. rewrite Forall_forall in F. destruct (F _ I) as (p' & [= <-] & _ & C). exact C.
Qed.
(** A set that was read can be written as JSON, and as a map (which YAML writes): neither an error
    nor a panic nor a recursion without end. *)
Theorem C67_JSON_written_again : forall ip wild x h h' s, wf_heap h -> NewTableSetFromJSON wild x h = (h', Ok s) ->
  (exists y, GetTableSetAsJSON ip h' s = Ok y) /\ exists m, forall fuel, S (List.length h') <= fuel -> GetTableSetAsMap fuel h' s = Ok m.
Proof.
  intros ip wild x h h' s W E. pose proof (json_once _ _ _ _ _ W E) as O. destruct (json_set_new wild x h W) as [G N]. rewrite E in G, N. cbn [fst snd] in *. eapply written_again; eauto.
Qed.
Theorem C67_YAML_written_again : forall ip Y (x : text_t Y) h h' s, wf_heap h -> (forall m, unmarshal Y x = Ok m -> go_doc (YMap m)) -> NewTableSetFromYAML Y x h = (h', Ok s) ->
  (exists y, GetTableSetAsJSON ip h' s = Ok y) /\ exists m, forall fuel, S (List.length h') <= fuel -> GetTableSetAsMap fuel h' s = Ok m.
Proof.
  intros ip Y x h h' s W GY E. pose proof (yaml_once _ _ _ _ _ W GY E) as O. destruct (yaml_set_new Y x h W GY) as [G N]. rewrite E in G, N. cbn [fst snd] in *. eapply written_again; eauto.
Qed.

(** ---------- the same text ---------- *)

Lemma json_set ip h s : GetTableSetAsJSON ip h s = let! ts := rmap (getTableAsJSON_private ip h) (ts_tables s) in
  Ok ("{" ++ in_quotes "tableSetName" ++ ":" ++ Quote ip (ts_name s) ++ "," ++ in_quotes "tables" ++ ":[" ++ String.concat "," ts ++ "]}")%string.
Proof. unfold GetTableSetAsJSON. now rewrite set_each. Qed.
Lemma copies_same ip h h' s s' x y : wf_heap h -> wf_heap h' -> set_copy h h' s s' -> Forall (fun o => exists p, o = Some p /\ is_nil (tab h p) = false) (ts_tables s) ->
  GetTableSetAsJSON ip h s = Ok x -> GetTableSetAsJSON ip h' s' = Ok y -> x = y.
Proof.
  intros W W' [NM C] NN. rewrite !json_set, NM. intros X Y.
  assert (K : forall l l', rmap (getTableAsJSON_private ip h) (ts_tables s) = Ok l -> rmap (getTableAsJSON_private ip h') (ts_tables s') = Ok l' -> l = l').
  { clear X Y NM. revert NN. induction C as [|o o' ts ts' (p & p' & -> & -> & D) _ IH]; intros NN l l' X Y; cbn [rmap] in X, Y; [congruence|]. inversion NN as [|? ? (q & Q & N) NN']; subst. injection Q as <-.
    destruct (getTableAsJSON_private ip h (Some p)) as [a| |] eqn:A; cbn [rbind] in X; try discriminate X. destruct (getTableAsJSON_private ip h' (Some p')) as [b| |] eqn:B; cbn [rbind] in Y; try discriminate Y.
    destruct (rmap (getTableAsJSON_private ip h) ts) as [r| |]; cbn [rbind] in X; try discriminate X. destruct (rmap (getTableAsJSON_private ip h') ts') as [r'| |]; cbn [rbind] in Y; try discriminate Y.
    rewrite (private_same ip h h' W W' p p' a b N D A B) in X. rewrite (IH NN' r r' eq_refl eq_refl) in X. congruence. }
  destruct (rmap (getTableAsJSON_private ip h) _) as [l| |]; cbn [rbind] in X; try discriminate X. destruct (rmap (getTableAsJSON_private ip h') _) as [l'| |]; cbn [rbind] in Y; try discriminate Y.
  rewrite (K l l' eq_refl eq_refl) in X. congruence.
Qed.

(** The same for the functions that return one table. *)
Theorem C67_JSON_table : forall ip wild x n h h' o, wf_heap h -> NewTableFromJSON wild x h = (h', Ok o) \/ NewTableFromJSONByTableName wild x n h = (h', Ok o) ->
  exists p y, o = Some p /\ is_tree h' p /\ ~ circular h' p /\ GetTableAsJSON ip h' o = Ok y.
Proof.
  intros ip wild x n h h' o W D.
  assert (K : exists s, NewTableSetFromJSON wild x h = (h', Ok s) /\ In o (ts_tables s)).
  { destruct D as [D|D].
    - unfold NewTableFromJSON in D. destruct (x =? ""); [discriminate D|]. unfold hbind in D. destruct (NewTableSetFromJSON wild x h) as [h1 [s| |]]; try discriminate D.
      exists s. destruct (negb (TableCount s =? 1)%Z); [discriminate D|]. unfold hlift, GetTableByTableIndex in D. destruct (_ || _)%bool in D; [discriminate D|].
      destruct (znth (ts_tables s) 0) as [o'|] eqn:Z; [|discriminate D]. inversion D; subst. split; [reflexivity|]. apply znth_some in Z. exact (nth_error_In _ _ (proj2 Z)).
    - unfold NewTableFromJSONByTableName, hbind in D. destruct (NewTableSetFromJSON wild x h) as [h1 [s| |]]; try discriminate D. exists s.
      unfold GetTable in D. destruct (find_table h1 n (ts_tables s)) as [o'|] eqn:FT; [|discriminate D]. inversion D; subst. split; [reflexivity|].
      clear -FT. revert FT. induction (ts_tables s) as [|a l IH]; [discriminate|]. simpl. destruct (String.eqb_spec (ref_name h' a) n); [intros [= ->]; auto|]. intros H. right. auto. }
  destruct K as (s & E & I). pose proof (json_once _ _ _ _ _ W E) as O. destruct (json_set_new wild x h W) as [G N]. rewrite E in G, N. cbn [fst snd] in G, N. specialize (N s eq_refl).
  destruct (forest _ _ _ G O N) as [_ F]. unfold set_of_trees in F. rewrite Forall_forall in F. destruct (F o I) as (p & -> & T & C).
  destruct N as [[_ K] _]. rewrite Forall_forall in K. pose proof (proj1 (ref_in_lt _ _) (K _ I)) as L.
  destruct (written_iff h' (gr_wf _ _ G) ip p L) as [_ [_ X]]. destruct (X T) as (t & X').
  exists p. eexists. split; [reflexivity|]. split; [exact T|]. split; [exact C|]. unfold GetTableAsJSON, AppendTable. cbn [find_table NewTableSet ts_tables ts_name ts_file app].
  rewrite json_set. cbn [ts_tables rmap]. rewrite X'. cbn [rbind]. reflexivity.
Qed.

(** A set that JSON keeps (see C29) is written, read and written again: the two texts are the
    same, byte for byte, nested tables included. *)
Theorem C67_JSON_same_text : forall E ip wild h s x h2 h3 s', env_ok E -> reachable E h -> json_text ip (ts_name s) -> NoDup (set_names h s) ->
  Forall (fun o => exists p, o = Some p /\ json_ready ip h p) (ts_tables s) -> wf_heap h2 ->
  GetTableSetAsJSON ip h s = Ok x -> NewTableSetFromJSON wild x h2 = (h3, Ok s') -> GetTableSetAsJSON ip h3 s' = Ok x.
Proof.
  intros E ip wild h s x h2 h3 s' EO R JN ND RD W2 X N. pose proof (reachable_wf E h EO R) as W.
  destruct (C29_round_trip E ip wild h s EO R JN ND RD) as (x' & X' & RT). rewrite X in X'. injection X' as <-.
  destruct (RT h2 W2) as (h4 & s4 & N4 & SC & W3 & _). rewrite N in N4. injection N4 as <- <-.
  destruct (C67_JSON_written_again ip wild x h2 h3 s' W2 N) as [(y & Y) _]. rewrite Y. f_equal. symmetry.
  eapply copies_same; [exact W|exact W3|exact SC| |exact X|exact Y]. eapply Forall_impl; [|exact RD]. intros o (p & -> & _ & NN & _). eauto.
Qed.

(** The same of a set that goes through YAML: the JSON text of the set that is read is the JSON
    text of the set that was written. *)
Theorem C67_YAML_same_text : forall E ip Y text limit h s k x y h2 h3 s', yaml_ok Y text limit -> env_ok E -> reachable E h -> text (ts_name s) -> NoDup (set_names h s) ->
  Forall (fun o => exists p, o = Some p /\ yaml_ready text k h p) (ts_tables s) -> 3 * k + 4 <= limit -> wf_heap h2 ->
  GetTableSetAsJSON ip h s = Ok x -> GetTableSetAsYAML Y (S (List.length h)) h s = Ok y -> NewTableSetFromYAML Y y h2 = (h3, Ok s') -> GetTableSetAsJSON ip h3 s' = Ok x.
Proof.
  intros E ip Y text limit h s k x y h2 h3 s' YO EO R TN ND RD LIM W2 X YX N. pose proof (reachable_wf E h EO R) as W.
  pose proof (written_go Y text limit h s k y YO W TN RD LIM YX) as GY.
  destruct (C30_round_trip Y text limit E h s k YO EO R TN ND RD LIM) as (y' & X' & RT). rewrite (X' _ (le_n _)) in YX. injection YX as ->.
  destruct (RT h2 W2) as (h4 & s4 & N4 & SC & W3 & _). rewrite N in N4. injection N4 as <- <-.
  destruct (C67_YAML_written_again ip Y y h2 h3 s' W2 GY N) as [(z & Z) _]. rewrite Z. f_equal. symmetry.
  eapply copies_same; [exact W|exact W3|exact SC| |exact X|exact Z]. eapply Forall_impl; [|exact RD]. intros o (p & -> & _ & NN & _). eauto.
Qed.

(** ---------- any number of trips ---------- *)

(** Written as JSON and read again [n] times; an error or a panic ends it. *)
Fixpoint json_trips (ip : Z -> bool) (wild : ikind -> spec_float -> Z) (n : nat) (h : heap) (s : tset) : heap * res tset :=
  match n with
  | 0 => (h, Ok s)
  | S n' => match GetTableSetAsJSON ip h s with
            | Ok x => match NewTableSetFromJSON wild x h with
                      | (h', Ok s') => json_trips ip wild n' h' s'
                      | (h', Err) => (h', Err)
                      | (h', Panic) => (h', Panic)
                      end
            | Err => (h, Err)
            | Panic => (h, Panic)
            end
  end.
(** However often a set that JSON keeps is written and read, nested tables included: no trip fails,
    the last set has the tables of the first, its text is that of the first, and the tables
    that were there before are as they were. *)
Theorem C67_JSON_any_number : forall E ip wild h s n, env_ok E -> reachable E h -> json_text ip (ts_name s) -> NoDup (set_names h s) ->
  Forall (fun o => exists p, o = Some p /\ json_ready ip h p) (ts_tables s) ->
  exists x h' s', GetTableSetAsJSON ip h s = Ok x
    /\ json_trips ip wild (S n) h s = (h', Ok s') /\ set_copy h h' s s' /\ GetTableSetAsJSON ip h' s' = Ok x
    /\ forall a, a < List.length h -> nth_error h' a = nth_error h a.
Proof.
  intros E ip wild h s n EO R JN ND RD. pose proof (reachable_wf E h EO R) as W.
  destruct (C29_round_trip E ip wild h s EO R JN ND RD) as (x & X & RT).
  assert (K : forall n h2 s2, wf_heap h2 -> List.length h <= List.length h2 -> (forall a, a < List.length h -> nth_error h2 a = nth_error h a) -> GetTableSetAsJSON ip h2 s2 = Ok x ->
    exists h' s', json_trips ip wild (S n) h2 s2 = (h', Ok s') /\ set_copy h h' s s' /\ GetTableSetAsJSON ip h' s' = Ok x /\ forall a, a < List.length h -> nth_error h' a = nth_error h a).
  { clear n. induction n as [|n IH]; intros h2 s2 W2 L2 O2 X2; destruct (RT h2 W2) as (h3 & s3 & N3 & SC & W3 & _ & O3);
      pose proof (C67_JSON_same_text E ip wild h s x h2 h3 s3 EO R JN ND RD W2 X N3) as X3;
      assert (O : forall a, a < List.length h -> nth_error h3 a = nth_error h a) by (intros a A; rewrite O3 by lia; now apply O2).
    - exists h3, s3. cbn [json_trips]. rewrite X2, N3. auto.
    - destruct (json_set_new wild x h2 W2) as [G _]. rewrite N3 in G. cbn [fst] in G. pose proof (gr_len _ _ G) as L3.
      destruct (IH h3 s3 W3 ltac:(lia) O X3) as (h' & s' & T & Q). exists h', s'. split; [|exact Q].
      remember (S n) as k. cbn [json_trips]. rewrite X2, N3. exact T. }
  destruct (K n h s W (le_n _) (fun _ _ => eq_refl) X) as (h' & s' & T & SC & X' & O). exists x, h', s'. auto 10.
Qed.

(** Written as YAML and read again [n] times *)
Fixpoint yaml_trips (Y : yaml) (n : nat) (h : heap) (s : tset) : heap * res tset :=
  match n with
  | 0 => (h, Ok s)
  | S n' => match GetTableSetAsYAML Y (S (List.length h)) h s with
            | Ok x => match NewTableSetFromYAML Y x h with
                      | (h', Ok s') => yaml_trips Y n' h' s'
                      | (h', Err) => (h', Err)
                      | (h', Panic) => (h', Panic)
                      end
            | Err => (h, Err)
            | Panic => (h, Panic)
            end
  end.
Lemma yaml_trips_copy Y text limit k : yaml_ok Y text limit -> 3 * k + 4 <= limit -> forall n h s, wf_heap h -> text (ts_name s) -> NoDup (set_names h s) ->
  Forall (fun o => exists p, o = Some p /\ yaml_ready text k h p) (ts_tables s) ->
  exists h' s', yaml_trips Y (S n) h s = (h', Ok s') /\ set_copy h h' s s' /\ forall a, a < List.length h -> nth_error h' a = nth_error h a.
Proof.
  intros YO LIM. induction n as [|n IH]; intros h s W TN ND RD; destruct (yaml_set_trip Y text limit h s k YO W TN ND RD LIM) as (x & X & RT);
    destruct (RT h W) as (h3 & s3 & N3 & SC & W3 & B3 & O3); specialize (X _ (le_n _)).
  - exists h3, s3. cbn [yaml_trips]. rewrite X, N3. auto.
  - assert (NN : Forall (fun o => exists p, o = Some p /\ is_nil (tab h p) = false) (ts_tables s)) by (eapply Forall_impl; [|exact RD]; intros o (p & -> & _ & N & _); eauto).
    destruct (IH h3 s3 W3) as (h' & s' & T & SC' & O').
    + destruct SC as [-> _]. exact TN.
    + rewrite (copy_names _ _ _ _ SC NN). exact ND.
    + destruct SC as [_ F]. clear - F RD B3 W3. revert RD B3. induction F as [|o o' l l' (p & p' & -> & -> & D) _ IH]; intros RD B3; [constructor|]. inversion RD as [|? ? (q & Q & R) RD']; inversion B3 as [|? ? (q' & Q' & L) B3']; subst. injection Q as <-. injection Q' as <-. constructor; [|auto].
      exists p'. split; [reflexivity|]. eapply copy_ready; eauto. apply L.
    + exists h', s'. split; [|split; [eapply set_copy_trans; eauto|]].
      * remember (S n) as m. cbn [yaml_trips]. rewrite X, N3. exact T.
      * intros a A. rewrite O'; [now apply O3|]. destruct (Nat.lt_ge_cases a (List.length h3)) as [Q|Q]; [exact Q|]. apply nth_error_None in Q. rewrite (O3 a A) in Q. apply nth_error_None in Q. unfold ptr in *. lia.
Qed.
(** The same of YAML, by any library that keeps its contract: the last set has the tables of the
    first, nested tables included, and the tables that were there before are as they were. *)
Theorem C67_YAML_any_number : forall E Y text limit h s k n, yaml_ok Y text limit -> env_ok E -> reachable E h -> text (ts_name s) -> NoDup (set_names h s) ->
  Forall (fun o => exists p, o = Some p /\ yaml_ready text k h p) (ts_tables s) -> 3 * k + 4 <= limit ->
  exists h' s', yaml_trips Y (S n) h s = (h', Ok s') /\ set_copy h h' s s' /\ forall a, a < List.length h -> nth_error h' a = nth_error h a.
Proof. intros E Y text limit h s k n YO EO R TN ND RD LIM. eapply yaml_trips_copy; eauto. exact (reachable_wf E h EO R). Qed.
Example C67_nonvacuous_YAML_trips : forall n, exists h' s', yaml_trips yaml0 (S n) yaml_heap (mkTS "set" "" [Some 0; Some 1]) = (h', Ok s')
  /\ set_copy yaml_heap h' (mkTS "set" "" [Some 0; Some 1]) s'.
Proof.
  intros n. destruct C30_nonvacuous as (R & Y & F & N & _).
  destruct (C67_YAML_any_number env0 yaml0 any_text 10 yaml_heap (mkTS "set" "" [Some 0; Some 1]) 2 n Y env0_ok R) as (h' & s' & T & C & _); [exact I|rewrite N|exact F|lia|exists h', s'; auto].
  repeat constructor; cbn; intuition discriminate.
Qed.

(** Trips through JSON and YAML, in any order *)
Inductive notation := AsJSON | AsYAML.
Definition one_trip (Y : yaml) (ip : Z -> bool) (wild : ikind -> spec_float -> Z) (f : notation) (h : heap) (s : tset) : heap * res tset :=
  match f with
  | AsJSON => match GetTableSetAsJSON ip h s with Ok x => NewTableSetFromJSON wild x h | Err => (h, Err) | Panic => (h, Panic) end
  | AsYAML => match GetTableSetAsYAML Y (S (List.length h)) h s with Ok x => NewTableSetFromYAML Y x h | Err => (h, Err) | Panic => (h, Panic) end
  end.
Fixpoint mixed_trips (Y : yaml) (ip : Z -> bool) (wild : ikind -> spec_float -> Z) (l : list notation) (h : heap) (s : tset) : heap * res tset :=
  match l with
  | [] => (h, Ok s)
  | f :: l => match one_trip Y ip wild f h s with (h', Ok s') => mixed_trips Y ip wild l h' s' | r => r end
  end.
Definition both_ready (text : string -> Prop) (ip : Z -> bool) (k : nat) (h : heap) (s : tset) : Prop :=
  json_text ip (ts_name s) /\ text (ts_name s) /\ NoDup (set_names h s) /\
  Forall (fun o => exists p, o = Some p /\ json_ready ip h p /\ yaml_ready text k h p) (ts_tables s).
Lemma both_split text ip k h s : both_ready text ip k h s ->
  Forall (fun o => exists p, o = Some p /\ json_ready ip h p) (ts_tables s) /\ Forall (fun o => exists p, o = Some p /\ yaml_ready text k h p) (ts_tables s)
  /\ Forall (fun o => exists p, o = Some p /\ is_nil (tab h p) = false) (ts_tables s).
Proof. intros (_ & _ & _ & F). split; [|split]; (eapply Forall_impl; [|exact F]; intros o (p & -> & J & Y); exists p; split; [reflexivity|auto]). apply J. Qed.
Lemma trip_ready Y text limit ip wild k f h s : yaml_ok Y text limit -> 3 * k + 4 <= limit -> wf_heap h -> both_ready text ip k h s ->
  exists h' s', one_trip Y ip wild f h s = (h', Ok s') /\ set_copy h h' s s' /\ wf_heap h' /\ List.length h <= List.length h'
    /\ (forall a, a < List.length h -> nth_error h' a = nth_error h a) /\ both_ready text ip k h' s'.
Proof.
  intros YO LIM W B. pose proof (both_split _ _ _ _ _ B) as (RJ & RY & NN). destruct B as (JN & TN & ND & RD).
  assert (T : exists h' s', one_trip Y ip wild f h s = (h', Ok s') /\ set_copy h h' s s' /\ grown h h' /\ new_set_in h h' s'
      /\ Forall (fun o => exists p, o = Some p /\ is_tree h' p) (ts_tables s')).
  { destruct f; cbn [one_trip].
    - destruct (set_written h ip s W) as [[x X] _].
      + intros o I. rewrite Forall_forall in RJ. destruct (RJ o I) as (p & -> & L & _). eauto.
      + eapply Forall_impl; [|exact RJ]. intros o (p & -> & _ & _ & T & _). eauto.
      + destruct (set_read ip wild h s x W JN ND RJ X h W) as (h3 & s' & N & SC & _). exists h3, s'. rewrite X. split; [exact N|]. split; [exact SC|].
        pose proof (json_trees _ _ _ _ _ W N) as TR. destruct (json_set_new wild x h W) as [G K]. rewrite N in G, K. cbn [fst snd] in G, K. auto.
    - destruct (yaml_set_trip Y text limit h s k YO W TN ND RY LIM) as (x & X & RT). specialize (X _ (le_n _)). destruct (RT h W) as (h3 & s' & N & SC & _). exists h3, s'. rewrite X. split; [exact N|]. split; [exact SC|].
      pose proof (written_go Y text limit h s k x YO W TN RY LIM X) as GY. pose proof (yaml_trees _ _ _ _ _ W GY N) as TR. destruct (yaml_set_new Y x h W GY) as [G K]. rewrite N in G, K. cbn [fst snd] in G, K. auto. }
  destruct T as (h' & s' & E & SC & G & [[_ K] _] & TR). pose proof (gr_wf _ _ G) as W'. exists h', s'. split; [exact E|]. split; [exact SC|]. split; [exact W'|]. split; [exact (gr_len _ _ G)|]. split; [exact (gr_old _ _ G)|].
  split; [destruct SC as [-> _]; exact JN|]. split; [destruct SC as [-> _]; exact TN|]. split; [rewrite (copy_names _ _ _ _ SC NN); exact ND|].
  destruct SC as [_ F]. clear - F RD K TR W'. revert RD K TR. induction F as [|o o' l l' (p & p' & -> & -> & D) _ IH]; intros RD K TR; [constructor|].
  inversion RD as [|? ? (q & Q & RJ & RY) RD']; inversion K as [|? ? L K']; inversion TR as [|? ? (q' & Q' & T) TR']; subst. injection Q as <-. injection Q' as <-. constructor; [|auto].
  apply ref_in_lt in L. exists p'. split; [reflexivity|]. split; [eapply copy_json_ready; eauto|eapply copy_ready; eauto].
Qed.
(** A set that both JSON and YAML keep goes through any sequence of them, nested tables
    included: no trip fails, the last set has the tables of the first, its JSON text is that of
    the first, and the tables that were there before are as they were. *)
Theorem C67_mixed_trips : forall E Y text limit ip wild h s k f l, yaml_ok Y text limit -> 3 * k + 4 <= limit -> env_ok E -> reachable E h -> both_ready text ip k h s ->
  exists x h' s', GetTableSetAsJSON ip h s = Ok x
    /\ mixed_trips Y ip wild (f :: l) h s = (h', Ok s') /\ set_copy h h' s s' /\ GetTableSetAsJSON ip h' s' = Ok x
    /\ forall a, a < List.length h -> nth_error h' a = nth_error h a.
Proof.
  intros E Y text limit ip wild h s k f l YO LIM EO R B. pose proof (reachable_wf E h EO R) as W.
  assert (WR : forall g z, wf_heap g -> both_ready text ip k g z -> exists x, GetTableSetAsJSON ip g z = Ok x).
  { intros g z Wg Bg. apply both_split in Bg as (RJ & _). apply (set_written g ip z Wg).
    - intros o I. rewrite Forall_forall in RJ. destruct (RJ o I) as (p & -> & L & _). eauto.
    - eapply Forall_impl; [|exact RJ]. intros o (p & -> & _ & _ & T & _). eauto. }
  assert (K : forall l f h s, wf_heap h -> both_ready text ip k h s -> exists h' s', mixed_trips Y ip wild (f :: l) h s = (h', Ok s') /\ set_copy h h' s s' /\ wf_heap h' /\ both_ready text ip k h' s'
      /\ List.length h <= List.length h' /\ forall a, a < List.length h -> nth_error h' a = nth_error h a).
  { clear l f h s R B W. induction l as [|f' l IH]; intros f h s W B; destruct (trip_ready Y text limit ip wild k f h s YO LIM W B) as (h1 & s1 & T & SC & W1 & L1 & O1 & B1).
    - exists h1, s1. cbn [mixed_trips]. rewrite T. auto 10.
    - destruct (IH f' h1 s1 W1 B1) as (h' & s' & T' & SC' & W' & B' & L' & O'). exists h', s'. split.
      + remember (f' :: l) as m. cbn [mixed_trips]. rewrite T. exact T'.
      + split; [eapply set_copy_trans; eauto; apply both_split in B as (_ & RY & _); exact RY|]. split; [exact W'|]. split; [exact B'|]. split; [lia|]. intros a A. rewrite O' by lia. now apply O1. }
  destruct (K l f h s W B) as (h' & s' & T & SC & W' & B' & _ & O). destruct (WR h s W B) as (x & X). destruct (WR h' s' W' B') as (y & Z). exists x, h', s'.
  split; [exact X|]. split; [exact T|]. split; [exact SC|]. split; [|exact O]. rewrite Z. f_equal. symmetry. eapply copies_same; [exact W|exact W'|exact SC| |exact X|exact Z]. apply both_split in B as (_ & _ & NN). exact NN.
Qed.

(** A table with tables in two of its cells, and one of these in turn with a table: read, written,
    and the same text. *)
Definition leaf_json (n : string) : string := "{""tableName"":""" ++ n ++ """,""metadata"":[{""i"":""int""}],""data"":[[{""i"":7}]]}".
Definition tree_json : string := "{""tableSetName"":""s"",""tables"":[{""tableName"":""t"",""metadata"":[{""a"":""*Table""},{""b"":""*Table""}],""data"":[[{""a"":{""tableName"":""u"",""metadata"":[{""c"":""*Table""}],""data"":[[{""c"":"
  ++ leaf_json "v" ++ "}]]}},{""b"":" ++ leaf_json "w" ++ "}]]}]}".
Example C67_nonvacuous : exists h s, NewTableSetFromJSON (fun _ _ => 0%Z) tree_json [] = (h, Ok s)
  /\ GetTableSetAsJSON (fun _ => false) h s = Ok tree_json
  /\ exists p a b c, ts_tables s = [Some p] /\ nested_in (rows (tab h p)) = [a; b] /\ nested_in (rows (tab h a)) = [c] /\ tname (tab h c) = "v".
Proof. do 2 eexists. split; [vm_compute; reflexivity|]. split; [vm_compute; reflexivity|]. do 4 eexists. do 3 (split; [vm_compute; reflexivity|]). vm_compute. reflexivity. Qed.

(** The two tables of C29_nonvacuous, the second nested in the first, meet the conditions. *)
Example C67_nonvacuous_trips : forall n, exists x h' s', json_trips no_ip (fun _ _ => 0%Z) (S n) json_heap (mkTS "set" "" [Some 0; Some 1]) = (h', Ok s')
  /\ GetTableSetAsJSON no_ip json_heap (mkTS "set" "" [Some 0; Some 1]) = Ok x /\ GetTableSetAsJSON no_ip h' s' = Ok x.
Proof.
  intros n. destruct C29_nonvacuous as (R & F & N & _).
  destruct (C67_JSON_any_number env0 no_ip (fun _ _ => 0%Z) json_heap (mkTS "set" "" [Some 0; Some 1]) n env0_ok R) as (x & h' & s' & X & T & _ & X' & _); [|rewrite N|exact F|exists x, h', s'; auto].
  - cbn [ts_name]. apply ascii_text. reflexivity.
  - repeat constructor; cbn; intuition discriminate.
Qed.

(** Two tables that both keep, the second nested in the first *)
Definition mix_history : list hop :=
  [ HNewTable "A"; HNewTable "B"; HTab (Some 0) (OAppendCol "s" "string"); HTab (Some 0) (OAppendCol "t" "*Table"); HTab (Some 0) (OAppendRows 2);
    HTab (Some 0) (OSet "string" "s" 0 (VString "x")); HTab (Some 1) (OAppendCol "b" "bool"); HTab (Some 1) OAppendRow; HTab (Some 0) (OSet "*Table" "t" 1 (VTable (Some 1))) ].
Definition mix_heap : heap := Eval vm_compute in match play env0 mix_history [] with Some h => h | None => [] end.
Lemma mix_reachable : reachable env0 mix_heap.
Proof. apply (play_reachable env0 mix_history [] _ (reach_empty env0)). vm_compute. reflexivity. Qed.
Lemma mix_nests (q r : ptr) : nests mix_heap q r -> q = 0 /\ (r = 1 \/ is_nil (tab mix_heap r) = true).
Proof.
  intros (t & N & I). destruct q as [|[|q]].
  - split; [reflexivity|]. injection N as <-. cbn in I. destruct I as [<-|[<-|[]]]; [right; reflexivity|now left].
  - injection N as <-. cbn in I. contradiction.
  - exfalso. do 3 (destruct q as [|q]; [try discriminate N; injection N as <-; cbn in I; contradiction|]). discriminate N || (destruct q; discriminate N).
Qed.
Lemma mix_ready : json_ready no_ip mix_heap 0 /\ yaml_ready any_text 2 mix_heap 0.
Proof.
  assert (CL : forall q : ptr, clos_refl_trans _ (nests mix_heap) 0 q -> q = 0 \/ q = 1 \/ is_nil (tab mix_heap q) = true).
  { intros q C. apply clos_rt_rtn1 in C. destruct C as [|y z N C]; [now left|]. right. now apply (mix_nests y z). }
  assert (D2 : depth_at_most 2 mix_heap 0). { intros q N NN. destruct (mix_nests 0 q N) as [_ [->|X]]; [|congruence]. intros r N' _. apply mix_nests in N' as [N' _]. discriminate N'. }
  split; (split; [cbn; lia|]; split; [reflexivity|]).
  - split; [|split; [|exists 2; split; [lia|exact D2]]].
    + exists [0; 1]. split; [|repeat constructor; cbn; intuition discriminate]. apply (an_unfolding mix_heap 0 [[1]]). cbn. constructor; [|constructor]. apply (an_unfolding mix_heap 1 []). cbn. constructor.
    + intros q C NN. destruct (CL q C) as [->|[->|X]]; [| |congruence]; (split; [apply ascii_text; reflexivity|]; split; [repeat (constructor; [apply ascii_text; reflexivity|]); constructor|]; cbn; repeat constructor; cbn; apply ascii_text; reflexivity).
  - split; [|exact D2]. intros q C NN. split; [exact I|]. split; [apply Forall_forall; intros; exact I|]. destruct (CL q C) as [->|[->|X]]; [| |congruence]; repeat first [apply Forall_cons|apply Forall_nil]; exact I.
Qed.
Example C67_nonvacuous_mixed : reachable env0 mix_heap /\ both_ready any_text no_ip 2 mix_heap (mkTS "set" "" [Some 0]) /\ yaml_ok yaml0 any_text 10 /\ nests mix_heap 0 1 /\ is_nil (tab mix_heap 1) = false.
Proof.
  split; [exact mix_reachable|]. split; [|split; [apply yaml0_ok|split; [|reflexivity]]].
  - split; [apply ascii_text; reflexivity|]. split; [exact I|]. split; [repeat constructor; cbn; intuition|]. constructor; [|constructor]. exists 0. split; [reflexivity|exact mix_ready].
  - exists (tab mix_heap 0). split; [reflexivity|]. cbn. auto.
Qed.

(** Axioms used by any theorem of this file. *)
Definition all_Props_Forest :=
  (@C67_JSON,
   @C67_YAML,
   @C67_JSON_written_again,
   @C67_YAML_written_again,
   @C67_JSON_table,
   @C67_JSON_same_text,
   @C67_YAML_same_text,
   @C67_JSON_any_number,
   @C67_YAML_any_number,
   @C67_mixed_trips).
Print Assumptions all_Props_Forest.
