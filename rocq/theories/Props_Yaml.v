(** Props_Yaml.v -- C30: table sets as nested maps and YAML documents. *)
From Coq Require Import ZArith NArith List String Ascii Bool SpecFloat Lia Relations.
From Verif Require Import Base Model_Names Model_Table Model_Sort Model_Ops Model_Heap Model_TableSet Model_Lex Model_Float Model_Time
  Model_Parser Model_Print Model_Json Model_Yaml Spec Spec_Sort Spec_Heap Spec_Walk Spec_Equals Spec_TableSet Spec_Text Spec_Json Spec_Yaml
  Proofs_Lib Proofs_Table Proofs_Cells Proofs_Struct Proofs_Api
  Proofs_Pres Proofs_Api2 Proofs_Copy Proofs_Env Proofs_Heap Proofs_Walk Proofs_Equals Proofs_TableSet Proofs_Lex Proofs_Float Proofs_JsonWrite Proofs_JsonRead Proofs_YamlWrite Proofs_YamlRead
  Props_Heap Props_Equals Props_Json.
Import ListNotations.
Local Open Scope string_scope.
Local Open Scope list_scope.

(** ---------- what is written ---------- *)

Lemma set_each {B} (f : ref -> res B) s :
  rmap (fun i => let! o := GetTableByTableIndex s i in f o) (zseq (List.length (ts_tables s))) = rmap f (ts_tables s).
Proof.
  apply rmap_zseq. intros i o N. unfold GetTableByTableIndex, TableCount. rewrite znth_of_nat, N. pose proof (nth_error_some_lt _ _ _ N) as LI.
  replace ((Z.of_nat i <? 0)%Z || (Z.of_nat i >? Z.of_nat (List.length (ts_tables s)) - 1)%Z) with false; [reflexivity|].
  symmetry. apply orb_false_iff. split; [apply Z.ltb_ge; lia|]. rewrite Z.gtb_ltb. apply Z.ltb_ge. lia.
Qed.
Lemma set_map fuel h s : GetTableSetAsMap fuel h s =
  let! ts := rmap (fun o => match o with None => Err | Some p => let! m := getTableAsMap fuel h p in Ok (AMap m) end) (ts_tables s) in
  Ok [("tableSetName", AVal (VString (ts_name s))); ("tables", AList ts)].
Proof. unfold GetTableSetAsMap. now rewrite set_each. Qed.

Lemma map_built h s : wf_heap h ->
  Forall (fun o => exists p : ptr, o = Some p /\ p < List.length h /\ ~ circular h p) (ts_tables s) ->
  exists m, forall fuel, S (List.length h) <= fuel -> GetTableSetAsMap fuel h s = Ok m.
Proof.
  intros WH F.
  assert (exists ts, forall fuel, S (List.length h) <= fuel -> rmap (fun o => match o with None => Err | Some p => let! m := getTableAsMap fuel h p in Ok (AMap m) end) (ts_tables s) = Ok ts) as (ts & X).
  { induction F as [|o l (p & -> & L & NC) F (ts & IH)]; [exists []; reflexivity|]. destruct (proj1 (map_iff h p WH) NC) as (m & M).
    exists (AMap m :: ts). intros fuel LF. cbn [rmap]. rewrite (M fuel LF). cbn [rbind]. rewrite (IH fuel LF). reflexivity. }
  eexists. intros fuel LF. rewrite set_map, (X fuel LF). reflexivity.
Qed.

(** The map of a table set whose tables are not circular is built, and the recursion is no
    deeper than the number of tables. *)
Theorem C30_map_built : forall E h s, env_ok E -> reachable E h ->
  Forall (fun o => exists p : ptr, o = Some p /\ p < List.length h /\ ~ circular h p) (ts_tables s) ->
  exists m, forall fuel, S (List.length h) <= fuel -> GetTableSetAsMap fuel h s = Ok m.
Proof.
  intros E h s EO R F. apply map_built; [exact (reachable_wf E h EO R)|exact F].
Qed.

(** A set with a circular table is no error, as it is for JSON: the recursion never ends, and a
    Go program runs out of stack. *)
Theorem C30_circular_refuted : forall E h s p, env_ok E -> reachable E h ->
  Forall (fun o => exists p : ptr, o = Some p /\ p < List.length h) (ts_tables s) -> In (Some p) (ts_tables s) -> circular h p ->
  forall Y fuel, GetTableSetAsMap fuel h s = Panic /\ GetTableSetAsYAML Y fuel h s = Panic.
Proof.
  intros E h s p EO R F I C Y fuel. pose proof (reachable_wf E h EO R) as WH.
  assert (X : GetTableSetAsMap fuel h s = Panic); [|split; [exact X|unfold GetTableSetAsYAML; now rewrite X]].
  rewrite set_map.
  assert (X : rmap (fun o => match o with None => Err | Some p => let! m := getTableAsMap fuel h p in Ok (AMap m) end) (ts_tables s) = Panic); [|now rewrite X].
  induction F as [|o l (q & -> & L) F IH]; [contradiction|]. cbn [rmap]. destruct I as [I|I].
  - injection I as ->. now rewrite (proj2 (map_iff h p WH) C fuel).
  - destruct (map_total h WH fuel q) as [(m & ->)|[-> _]]; [|reflexivity]. cbn [rbind]. now rewrite (IH I).
Qed.

(** ---------- round trip ---------- *)

Lemma nil_nests_none h (p q : ptr) : wf_heap h -> is_nil (tab h p) = true -> ~ nests h p q.
Proof.
  intros WH N X. apply nests_inv in X as (r & I & _). destruct (tab_wf h p WH) as [W _].
  destruct (wf_name _ W) as [[C _]|(_ & _ & _ & Z)]; [congruence|]. rewrite Z in I. contradiction.
Qed.
Lemma depth_chain h : wf_heap h -> forall k p, depth_at_most k h p -> ~ chain h (S k) p.
Proof.
  intros WH. induction k as [|k IH]; intros p D C; [contradiction|]. destruct C as (q & N & C). destruct (is_nil (tab h q)) eqn:NQ.
  - destruct C as (q' & N' & _). now apply (nil_nests_none h q q' WH NQ).
  - exact (IH q (D q N NQ) C).
Qed.
Lemma depth_not_circular h k p : wf_heap h -> depth_at_most k h p -> ~ circular h p.
Proof. intros WH D C. apply (depth_chain h WH k p D). now apply circular_chain. Qed.

Section Read.
Variables (src : heap) (text : string -> Prop) (k : nat).
Hypothesis WS : wf_heap src.
Lemma read_ytables : forall ps ms, Forall2 (table_yaml k src) ps ms -> Forall (fun p => p < List.length src /\ is_nil (tab src p) = false /\ yaml_table text src p) ps ->
  forall lo pre pre' n f h, lo <= List.length h -> Forall2 (copied src k lo h) pre pre' -> NoDup (map (fun p => tname (tab src p)) (pre ++ ps)) -> wf_heap h ->
  exists h' qs, tables_from_yaml (map YMap ms) (mkTS n f (map Some pre')) h = (h', Ok (mkTS n f (map Some (pre' ++ qs))))
    /\ wf_heap h' /\ List.length h <= List.length h' /\ (forall a, a < List.length h -> nth_error h' a = nth_error h a)
    /\ Forall2 (copied src k lo h') (pre ++ ps) (pre' ++ qs).
Proof.
  induction 1 as [|p m ps ms TJ F IH]; intros C lo pre pre' n f h LO CP ND WH.
  - exists h, []. rewrite !app_nil_r in *. repeat split; auto; apply WH.
  - inversion C as [|? ? (L & NN & JT) C']; subst.
    destruct (read_ytable src text WS k (S (ydepth (YMap m))) (ydepth (YMap m)) (Nat.lt_succ_diag_r _) p m h TJ (le_n _) L (fun _ => JT) WH) as (h1 & E1 & WH1 & L1 & O1 & C1).
    rewrite NN in C1.
    assert (CP1 : Forall2 (copied src k lo h1) pre pre').
    { eapply Forall2_impl; [|exact CP]. intros a b. apply copied_mono; [lia|]. apply agree_same; [lia|exact O1]. }
    assert (C1' : copied src k lo h1 p (List.length h)) by (eapply copied_mono; [|apply agree_refl|exact C1]; lia).
    destruct (IH C' lo (pre ++ [p]) (pre' ++ [List.length h]) n f h1 ltac:(lia)) as (h2 & qs & E2 & WH2 & L2 & O2 & C2).
    + apply Forall2_app; [exact CP1|repeat constructor; exact C1'].
    + now rewrite <- app_assoc.
    + exact WH1.
    + exists h2, (List.length h :: qs). rewrite <- !app_assoc in C2. cbn [app] in C2.
      split; [|split; [exact WH2|split; [lia|split; [intros a Ha; rewrite O2 by lia; now apply O1|exact C2]]]].
      cbn [map tables_from_yaml]. unfold hbind at 1. rewrite E1. unfold hbind at 1.
      assert (NAME : forall a b, copied src k lo h1 a b -> tname (tab h1 b) = tname (tab src a)).
      { intros a b X. destruct k; [contradiction|]. cbn [copied] in X. apply X. }
      assert (FT : find_table h1 (tname (tab h1 (List.length h))) (map Some pre') = None).
      { rewrite (NAME _ _ C1'). rewrite map_app in ND. cbn [map] in ND. apply NoDup_remove_2 in ND.
        assert (N1 : ~ In (tname (tab src p)) (map (fun a => tname (tab src a)) pre)) by (intros I; apply ND, in_app_iff; now left).
        clear - CP1 N1 NAME. induction CP1 as [|a b pre pre' X _ IH]; [reflexivity|]. cbn [map find_table ref_name] in *.
        destruct (String.eqb_spec (tname (tab h1 b)) (tname (tab src p))) as [Q|Q]; [exfalso; apply N1; left; rewrite <- Q; symmetry; now apply NAME|].
        apply IH. intros I. apply N1. now right. }
      unfold AppendTable. cbn [ref_name ts_tables ts_name ts_file]. rewrite FT. cbn [rbind].
      rewrite map_app, <- app_assoc in E2. cbn [map app] in E2. exact E2.
Qed.
End Read.

Lemma yaml_set_trip Y text limit h s k : yaml_ok Y text limit -> wf_heap h -> text (ts_name s) -> NoDup (set_names h s) ->
  Forall (fun o => exists p, o = Some p /\ yaml_ready text k h p) (ts_tables s) -> 3 * k + 4 <= limit ->
  exists x, (forall fuel, S (List.length h) <= fuel -> GetTableSetAsYAML Y fuel h s = Ok x)
    /\ forall h2, wf_heap h2 -> exists h3 s', NewTableSetFromYAML Y x h2 = (h3, Ok s')
         /\ set_copy h h3 s s' /\ wf_heap h3
         /\ Forall (fun o => exists p : ptr, o = Some p /\ List.length h2 <= p < List.length h3) (ts_tables s')
         /\ (forall a, a < List.length h2 -> nth_error h3 a = nth_error h2 a).
Proof.
  intros YO WH TN ND RD LIM.
  destruct (map_built h s WH) as (m & M).
  { eapply Forall_impl; [|exact RD]. intros o (p & -> & L & _ & _ & D). exists p. split; [reflexivity|]. split; [exact L|]. now apply (depth_not_circular h k). }
  set (F := S (List.length h)). pose proof (M F (le_n _)) as MF. rewrite set_map in MF. destruct (rmap _ _) as [ts| |] eqn:RM; try discriminate. cbn [rbind] in MF. injection MF as EM.
  assert (exists ps, ts_tables s = map Some ps /\ Forall (yaml_ready text k h) ps) as (ps & TS & RP).
  { clear - RD. induction RD as [|o l (p & -> & R) _ (ps & -> & F)]; [exists []; split; [reflexivity|constructor]|]. exists (p :: ps). split; [reflexivity|now constructor]. }
  assert (exists ms, ts = map AMap ms /\ Forall2 (fun p m => getTableAsMap F h p = Ok m) ps ms) as (ms & -> & FM).
  { rewrite TS in RM. clear - RM. revert ts RM. induction ps as [|p ps IH]; intros ts RM; cbn [map rmap] in RM; [injection RM as <-; exists []; split; [reflexivity|constructor]|].
    destruct (getTableAsMap F h p) as [m| |] eqn:G; try discriminate. cbn [rbind] in RM. destruct (rmap _ _) as [ts'| |]; try discriminate. cbn [rbind] in RM. injection RM as <-.
    destruct (IH ts' eq_refl) as (ms & -> & FM). exists (m :: ms). split; [reflexivity|now constructor]. }
  destruct YO as [PR YE YB].
  assert (DOM : in_domain text limit (AMap m)).
  { apply (domain_le text (S (S (3 * k + 2)))); [lia|]. rewrite <- EM. apply domain_AMap. constructor; [|constructor; [|constructor]]; cbn [fst snd].
    - split; [apply PR; unfold printable; repeat constructor; cbn; lia|]. apply (domain_le text 0); [lia|exact TN].
    - split; [apply PR; unfold printable; repeat constructor; cbn; lia|]. apply domain_AList. apply Forall_map.
      clear - FM RP PR WH. induction FM as [|p m ps ms G FM IH]; constructor; inversion RP as [|? ? (L & N & YT & D) RP']; subst; auto.
      apply (written_domain text h PR WH F k p m); auto. }
  destruct (YB m DOM) as (x & m' & MX & NX & UX & CB). exists x. split; [intros fuel LF; unfold GetTableSetAsYAML; now rewrite (M fuel LF), MX|].
  intros h2 WH2. rewrite <- EM in CB. apply map_back in CB as (m2 & Q & FB). injection Q as <-.
  inversion FB as [|? [k1 y1] ? r1 [K1 V1] FB1]; subst. inversion FB1 as [|? [k2 y2] ? r2 [K2 V2] FB2]; subst. inversion FB2; subst. cbn [fst snd] in *. subst k1 k2.
  apply string_back in V1. apply list_back in V2 as (ys & -> & FY). subst y1.
  assert (exists ms', ys = map YMap ms' /\ Forall2 (table_yaml F h) ps ms') as (ms' & -> & FT).
  { clear - FM FY WH. revert ys FY. induction FM as [|p m ps ms G FM IH]; intros ys FY; cbn [map] in FY; inversion FY as [|? y ? ys' C FY']; subst; [exists []; split; [reflexivity|constructor]|].
    destruct (IH _ FY') as (ms' & -> & FT). pose proof C as C0. apply map_back in C as (m' & -> & _). exists (m' :: ms'). split; [reflexivity|]. constructor; [|exact FT].
    exact (written_back h WH F p m m' G C0). }
  destruct (read_ytables h text F WH ps ms' FT) with (lo := List.length h2) (pre := @nil ptr) (pre' := @nil ptr) (n := ts_name s) (f := "") (h := h2) as (h3 & qs & E3 & WH3 & L3 & O3 & C3).
  - eapply Forall_impl; [|exact RP]. intros p (R1 & R2 & R3 & R4). auto.
  - reflexivity.
  - constructor.
  - cbn [app]. unfold set_names in ND. rewrite TS, map_map in ND. exact ND.
  - exact WH2.
  - cbn [app] in *. exists h3, (mkTS (ts_name s) "" (map Some qs)). split; [|split; [split; [reflexivity|]|split; [exact WH3|split; [|exact O3]]]].
    + unfold NewTableSetFromYAML. rewrite NX. unfold hbind at 1, hlift at 1. rewrite UX. cbn [yget]. change ("tableSetName" =? "tableSetName")%string with true.
      change ("tableSetName" =? "tables")%string with false. change ("tables" =? "tables")%string with true. cbn match. exact E3.
    + cbn [ts_tables]. rewrite TS. clear - C3. induction C3 as [|p q ps qs C _ IH]; constructor; auto. exists p, q. split; [reflexivity|]. split; [reflexivity|]. eapply copied_deep; eauto.
    + cbn [ts_tables]. unfold F in C3. clear - C3. revert C3. generalize (S (List.length h)). intros d C3. induction C3 as [|p q ps qs C _ IH]; constructor; auto. exists q. split; [reflexivity|].
      destruct d; [contradiction|]. cbn [copied] in C. apply C.
Qed.

(** A table set whose tables can be written, and have different names, is written by any library
    that keeps the contract; and reading the text, in any program state, gives a set with the
    same name that holds deep copies of the tables in order: same names, columns, cells and
    shapes, nested tables included.  The copies are new tables, no other table changes. *)
Theorem C30_round_trip : forall Y text limit E h s k, yaml_ok Y text limit -> env_ok E -> reachable E h -> text (ts_name s) -> NoDup (set_names h s) ->
  Forall (fun o => exists p, o = Some p /\ yaml_ready text k h p) (ts_tables s) -> 3 * k + 4 <= limit ->
  exists x, (forall fuel, S (List.length h) <= fuel -> GetTableSetAsYAML Y fuel h s = Ok x)
    /\ forall h2, wf_heap h2 -> exists h3 s', NewTableSetFromYAML Y x h2 = (h3, Ok s')
         /\ set_copy h h3 s s' /\ wf_heap h3
         /\ Forall (fun o => exists p : ptr, o = Some p /\ List.length h2 <= p < List.length h3) (ts_tables s')
         /\ (forall a, a < List.length h2 -> nth_error h3 a = nth_error h2 a).
Proof. intros Y text limit E h s k YO EO R. exact (yaml_set_trip Y text limit h s k YO (reachable_wf E h EO R)). Qed.

(** In the same program, the tables of the set that is read equal those of the set that was
    written, as far as they nest no tables and hold no NaN. *)
Theorem C30_read_is_equal : forall Y text limit E h s k x h' s' fuel, yaml_ok Y text limit -> env_ok E -> reachable E h -> text (ts_name s) -> NoDup (set_names h s) ->
  Forall (fun o => exists p, o = Some p /\ yaml_ready text k h p) (ts_tables s) -> 3 * k + 4 <= limit ->
  GetTableSetAsYAML Y (S (List.length h)) h s = Ok x -> NewTableSetFromYAML Y x h = (h', Ok s') ->
  forall i p p', nth_error (ts_tables s) i = Some (Some p) -> nth_error (ts_tables s') i = Some (Some p') -> no_nested (tab h p) -> no_nan (tab h p) ->
  Equals (S fuel) h' (Some p) (Some p') = Ok tt /\ Equals (S fuel) h' (Some p') (Some p) = Ok tt.
Proof.
  intros Y text limit E h s k x h' s' fuel YO EO R TN ND RD LIM X N i p p' Ni Ni' NE NA. pose proof (reachable_wf E h EO R) as WH.
  destruct (C30_round_trip Y text limit E h s k YO EO R TN ND RD LIM) as (x' & X' & RT). rewrite (X' _ (le_n _)) in X. injection X as <-.
  destruct (RT h WH) as (h3 & s3 & N3 & [_ SC] & WH3 & LP & OLD). rewrite N in N3. injection N3 as <- <-.
  pose proof (Forall_nth_error _ _ _ _ RD Ni) as (p1 & Q1 & LH & NN & _). injection Q1 as <-.
  pose proof (Forall_nth_error _ _ _ _ LP Ni') as (p2 & Q2 & LP2). injection Q2 as <-.
  destruct (Forall2_nth_r _ _ _ _ _ SC Ni') as (o & No & p3 & p4 & E3 & E4 & DC). assert (p3 = p /\ p4 = p') as [-> ->] by (unfold ref, ptr in *; split; congruence).
  assert (TP : tab h' p = tab h p). { unfold tab. specialize (OLD p LH). destruct (nth_error h p) eqn:Q; [|apply nth_error_None in Q; unfold ptr in *; lia].
    now rewrite (nth_error_nth _ _ _ Q), (nth_error_nth _ _ _ OLD). }
  destruct (deep_copy_same h h' p p' WH WH3 NN NE NA DC) as [ST NE'].
  assert (LP' : p < List.length h') by (unfold ptr in *; lia).
  destruct (C15_Equals_exactly_the_same_tables fuel h' p p' WH3 LP' (proj2 LP2)) as [Q _]; [now rewrite TP|exact NE'|].
  destruct (C15_Equals_exactly_the_same_tables fuel h' p' p WH3 (proj2 LP2) LP') as [Q2 _]; [exact NE'|now rewrite TP|].
  rewrite TP in *. split; [apply Q|apply Q2; apply same_table_sym]; exact ST.
Qed.

(** ---------- a library that keeps the contract ---------- *)

Definition short_of (f : spec_float) : option Z :=
  match f with
  | S754_zero _ => Some 0%Z
  | S754_finite neg m e => let '(n, d) := ratio m e in let x := if neg then (- n)%Z else n in
      if ((x / d * d =? x) && (Z.abs (x / d) <? 1000000))%Z then Some (x / d)%Z else None
  | _ => None
  end.
Lemma short_of_ok f : match short_of f with Some z => short_integer f z | None => forall z, ~ short_integer f z end.
Proof.
  destruct f as [neg|neg| |neg m e]; cbn [short_of]; try (intros z [_ []]); [split; [lia|reflexivity]|].
  unfold short_integer. rewrite ratio_eq. pose proof (e_down_pos e) as D. set (n := (Zpos m * e_up e)%Z). set (d := e_down e) in *.
  set (x := (if neg then - n else n)%Z). destruct (Z.eqb_spec (x / d * d) x) as [Q|Q]; cbn [andb]; [|].
  - destruct (Z.ltb_spec (Z.abs (x / d)) 1000000) as [L|L]; [auto|]. intros z [L' Q']. assert (z = x / d)%Z by nia. subst z. lia.
  - intros z [L' Q']. apply Q. rewrite <- Q'. now rewrite Z.div_mul by lia.
Qed.
Definition scalar0 (v : value) : option ydoc :=
  match v with
  | VBool b => Some (YBool b)
  | VString s => Some (YStr s)
  | VInt _ z => Some (if (z <? 2 ^ 63)%Z then YInt z else YUint z)
  | VFloat64 f => Some (match short_of f with Some z => YInt z | None => YFloat f end)
  | VFloat32 f => match short_of f with
                  | Some z => Some (YInt z)
                  | None => match f with
                            | S754_nan | S754_infinity _ => Some (YFloat f)
                            | _ => match ParseFloat F64 (format_short F32 f) with Some g => Some (YFloat g) | None => None end
                            end
                  end
  | VBytes o => Some (YList (map (fun c => YInt (code c)) (match o with Some l => l | None => [] end)))
  | VTime t => Some (YTime t)
  | _ => None
  end.
Fixpoint all_some {A} (l : list (option A)) : option (list A) :=
  match l with
  | [] => Some []
  | Some a :: r => match all_some r with Some l => Some (a :: l) | None => None end
  | None :: _ => None
  end.
Fixpoint back0 (a : any) : option ydoc :=
  match a with
  | AVal v => scalar0 v
  | AList l => match all_some (map back0 l) with Some l => Some (YList l) | None => None end
  | AMap m => match all_some (map (fun x => match back0 (snd x) with Some y => Some (fst x, y) | None => None end) m) with Some m => Some (YMap m) | None => None end
  end.
(** Here a text is the document itself. *)
Definition yaml0 : yaml := mkYaml (option (list (string * ydoc))) None (fun x => match x with None => true | _ => false end)
  (fun m => match back0 (AMap m) with Some (YMap m) => Ok (Some m) | _ => Err end)
  (fun x => match x with Some m => Ok m | None => Err end).
Definition any_text : string -> Prop := fun _ => True.

Lemma scalar0_ok n v : in_domain any_text n (AVal v) -> exists y, scalar0 v = Some y /\ scalar_back v y.
Proof.
  intros D. destruct v as [| b|str|k z|f|f|o|o|tm|g]; try (destruct n; contradiction); cbn [scalar0]; try (eexists; split; [reflexivity|constructor]).
  - destruct (Z.ltb_spec z (2 ^ 63)); eexists; (split; [reflexivity|now constructor]).
  - assert (D' : finite f -> (exists z, short_integer f z) \/ exists g, ParseFloat F64 (format_short F32 f) = Some g) by (destruct n; exact D).
    pose proof (short_of_ok f) as S. destruct (short_of f) as [z|] eqn:Q; [eexists; split; [reflexivity|now constructor]|].
    destruct f as [neg|neg| |neg m e]; try discriminate.
    + eexists; split; [reflexivity|]. apply back_special32. auto.
    + eexists; split; [reflexivity|]. apply back_special32. auto.
    + destruct (D' I) as [(z & Z)|(g & G)]; [now apply S in Z|]. rewrite G. eexists; split; [reflexivity|]. now apply back_float32.
  - pose proof (short_of_ok f) as S. destruct (short_of f) as [z|]; eexists; (split; [reflexivity|]); [now apply back_short64|now apply back_float64].
Qed.
Lemma back0_ok : forall n a, in_domain any_text n a -> exists y, back0 a = Some y /\ comes_back a y.
Proof.
  induction n as [|n IH]; intros a D; (destruct a as [v|l|m]; [destruct (scalar0_ok _ _ D) as (y & A & B); exists y; split; [exact A|now constructor]| |]); try contradiction.
  - apply domain_AList in D. cbn [back0]. assert (exists l', all_some (map back0 l) = Some l' /\ Forall2 comes_back l l') as (l' & -> & F).
    { induction D as [|a l D _ (l' & A & F)]; [exists []; split; [reflexivity|constructor]|]. destruct (IH a D) as (y & B & C). exists (y :: l'). cbn [map all_some]. rewrite B, A. split; [reflexivity|now constructor]. }
    exists (YList l'). split; [reflexivity|now constructor].
  - apply domain_AMap in D. cbn [back0].
    assert (exists m', all_some (map (fun x => match back0 (snd x) with Some y => Some (fst x, y) | None => None end) m) = Some m'
       /\ Forall2 (fun a b => fst a = fst b /\ comes_back (snd a) (snd b)) m m') as (m' & -> & F).
    { induction D as [|a l [_ D] _ (l' & A & F)]; [exists []; split; [reflexivity|constructor]|]. destruct (IH (snd a) D) as (y & B & C). exists ((fst a, y) :: l'). cbn [map all_some]. rewrite B, A. split; [reflexivity|now constructor]. }
    exists (YMap m'). split; [reflexivity|now constructor].
Qed.
Lemma yaml0_ok limit : yaml_ok yaml0 any_text limit.
Proof.
  constructor; [intros; exact I|reflexivity|]. intros m D. destruct (back0_ok limit (AMap m) D) as (y & B & C). apply map_back in C as C'. destruct C' as (m' & -> & _).
  exists (Some m'), m'. cbn [marshal unmarshal is_no_text yaml0]. rewrite B. auto.
Qed.

(** ---------- examples ---------- *)

Definition yaml_history : list hop :=
  [ HNewTable "A"; HNewTable "B"; HNewTable "C"; HNewTable "D"; HNewTable "F";
    HTab (Some 0) (OAppendCol "s" "string"); HTab (Some 0) (OAppendCol "n" "uint64"); HTab (Some 0) (OAppendCol "t" "*Table");
    HTab (Some 0) (OAppendRows 3); HTab (Some 0) (OSetStructShape true);
    HTab (Some 0) (OSet "string" "s" 0 (VString "say ""x""")); HTab (Some 0) (OSet "uint64" "n" 1 (VInt KUint64 18446744073709551615));
    HTab (Some 1) (OAppendCol "u" "time.Time"); HTab (Some 1) (OAppendCol "bs" "[]byte"); HTab (Some 1) (OAppendCol "r" "rune"); HTab (Some 1) (OAppendCol "f" "float64");
    HTab (Some 1) (OAppendCol "g" "float32"); HTab (Some 1) (OAppendCol "k" "float32");
    HTab (Some 1) OAppendRow; HTab (Some 1) (OSet "rune" "r" 0 (VInt KInt32 233));
    HTab (Some 1) (OSet "float64" "f" 0 (VFloat64 (S754_finite false 6755399441055744 (-52))));
    HTab (Some 1) (OSet "float32" "g" 0 (VFloat32 (S754_finite true 8388608 (-24))));
    HTab (Some 1) (OSet "float32" "k" 0 (VFloat32 (S754_finite false 12582912 (-22))));
    HTab (Some 0) (OSet "*Table" "t" 1 (VTable (Some 1))); HTab (Some 0) (OSet "*Table" "t" 2 (VTable (Some 1)));
    HTab (Some 2) (OAppendCol "f" "float64"); HTab (Some 2) OAppendRow;
    HTab (Some 3) (OAppendCol "f" "float32"); HTab (Some 3) OAppendRow; HTab (Some 3) (OSet "float32" "f" 0 (VFloat32 (S754_zero true)));
    HTab (Some 4) (OAppendCol "t" "*Table"); HTab (Some 4) OAppendRow; HTab (Some 4) (OSet "*Table" "t" 0 (VTable (Some 4))) ].
Definition yaml_heap : heap := Eval vm_compute in
  match play env0 yaml_history [] with Some h => h | None => [] end.
Lemma yaml_heap_reachable : reachable env0 yaml_heap.
Proof. apply (play_reachable env0 yaml_history [] _ (reach_empty env0)). vm_compute. reflexivity. Qed.

Lemma yaml_heap_nests (q r : ptr) : nests yaml_heap q r -> q = 0 \/ q = 1 \/ is_nil (tab yaml_heap q) = true ->
  r = 1 \/ is_nil (tab yaml_heap r) = true.
Proof.
  intros N [->|[->|Q]].
  - destruct N as (t & N & I). injection N as <-. cbn in I. destruct I as [<-|[<-|[<-|[]]]]; auto.
  - destruct N as (t & N & I). injection N as <-. cbn in I. contradiction.
  - exfalso. revert N. apply nil_nests_none; [|exact Q]. exact (reachable_wf env0 yaml_heap env0_ok yaml_heap_reachable).
Qed.
Lemma not_short f : short_of f = None -> forall z, ~ short_integer f z.
Proof. intros E. pose proof (short_of_ok f) as S. now rewrite E in S. Qed.
Lemma yaml_heap_ready : yaml_ready any_text 2 yaml_heap 0 /\ yaml_ready any_text 2 yaml_heap 1.
Proof.
  assert (CL : forall p q : ptr, (p = 0 \/ p = 1 \/ is_nil (tab yaml_heap p) = true) -> clos_refl_trans _ (nests yaml_heap) p q -> q = 0 \/ q = 1 \/ is_nil (tab yaml_heap q) = true).
  { intros p q S C. apply clos_rt_rtn1 in C. induction C as [|y z N C IH]; [exact S|]. right. now apply (yaml_heap_nests y z). }
  assert (JQ : forall q : ptr, (q = 0 \/ q = 1 \/ is_nil (tab yaml_heap q) = true) -> is_nil (tab yaml_heap q) = false ->
    any_text (tname (tab yaml_heap q)) /\ Forall any_text (cnames (tab yaml_heap q)) /\ Forall (Forall (yaml_value_ok any_text)) (rows (tab yaml_heap q))).
  { intros q Q NN. split; [exact I|]. split; [apply Forall_forall; intros; exact I|]. destruct Q as [->|[->|X]]; [| |congruence].
    - repeat first [apply Forall_cons|apply Forall_nil]; exact I.
    - repeat first [apply Forall_cons|apply Forall_nil]; cbn [yaml_value_ok]; try exact I.
      + repeat split; vm_compute; congruence.
      + apply not_short. vm_compute. reflexivity.
      + split; [discriminate|]. intros _ _. eexists. split; vm_compute; reflexivity.
      + split; [discriminate|]. intros _ S. exfalso. apply (S 3%Z). vm_compute. split; reflexivity. }
  assert (D1 : depth_at_most 1 yaml_heap 1). { intros q N NN. destruct N as (t & N & I). injection N as <-. cbn in I. contradiction. }
  split; (split; [cbn; lia|]; split; [reflexivity|]; split).
  - intros q C NN. apply JQ; [|exact NN]. apply (CL 0); auto.
  - intros q N NN. destruct (yaml_heap_nests 0 q N) as [->|X]; auto; congruence.
  - intros q C NN. apply JQ; [|exact NN]. apply (CL 1); auto.
  - exact (depth_le yaml_heap 1 2 1 ltac:(lia) D1).
Qed.

(** A set of two tables, one of them in struct shape and nesting the other one twice, meets the
    hypotheses of the round trip; one table is circular. *)
Example C30_nonvacuous :
  reachable env0 yaml_heap /\ yaml_ok yaml0 any_text 10
  /\ Forall (fun o => exists p, o = Some p /\ yaml_ready any_text 2 yaml_heap p) (ts_tables (mkTS "set" "" [Some 0; Some 1]))
  /\ set_names yaml_heap (mkTS "set" "" [Some 0; Some 1]) = ["A"; "B"]
  /\ struct_shape (tab yaml_heap 0) = true /\ RowCount (tab yaml_heap 0) = 3%Z /\ nests yaml_heap 0 1 /\ is_nil (tab yaml_heap 1) = false
  /\ no_nested (tab yaml_heap 1) /\ no_nan (tab yaml_heap 1) /\ circular yaml_heap 4
  /\ exists x, GetTableSetAsYAML yaml0 10 yaml_heap (mkTS "set" "" [Some 0; Some 1]) = Ok x /\ is_no_text yaml0 x = false.
Proof.
  split; [apply yaml_heap_reachable|]. split; [apply yaml0_ok|]. split. { destruct yaml_heap_ready. repeat constructor; eauto. }
  do 3 (split; [reflexivity|]). split; [exists (tab yaml_heap 0); split; [reflexivity|cbn; auto]|]. split; [reflexivity|]. split; [reflexivity|].
  split; [|split; [|eexists; split; vm_compute; reflexivity]].
  - intros c r v G. rewrite get_at in G by (apply tab_wf, (reachable_wf env0 yaml_heap env0_ok yaml_heap_reachable)).
    destruct (_ && _)%bool; [|discriminate]. unfold at_cell in G. destruct (nth_error (rows (tab yaml_heap 1)) (Z.to_nat r)) as [row|] eqn:RO; [|discriminate].
    destruct (nth_error row (Z.to_nat c)) as [w|] eqn:V; [|discriminate]. injection G as ->. apply nth_error_In in RO. apply nth_error_In in V.
    cbn [tab yaml_heap nth rows In] in RO. destruct RO as [<-|[]]. cbn [In] in V. intuition (subst; discriminate).
  - exists 4. assert (N : nests yaml_heap 4 4) by (exists (tab yaml_heap 4); split; [reflexivity|cbn; auto]). split; [apply rt_refl|now apply t_step].
Qed.

(** ---------- tables that do not come back ---------- *)

(** What a library that keeps the contract makes of the set of one flat table *)
Lemma flat_written Y text limit p m : yaml_ok Y text limit -> GetTableSetAsMap 10 yaml_heap (one p) = Ok m -> in_domain text limit (AMap m) -> 
  exists x m', GetTableSetAsYAML Y 10 yaml_heap (one p) = Ok x /\ comes_back (AMap m) (YMap m')
    /\ NewTableSetFromYAML Y x = match yget m' "tableSetName" with
         | Some (YStr n) => match yget m' "tables" with Some (YList l) => tables_from_yaml l (NewTableSet n) | _ => hlift Panic end
         | _ => hlift Err end.
Proof.
  intros [_ _ YB] M D. destruct (YB m D) as (x & m' & MX & NX & UX & CB). exists x, m'. split; [unfold GetTableSetAsYAML; now rewrite M, MX|]. split; [exact CB|].
  unfold NewTableSetFromYAML. rewrite NX, UX. reflexivity.
Qed.
Ltac cell_domain PR := repeat match goal with
  | |- in_domain _ _ (AMap _) => apply domain_AMap
  | |- in_domain _ _ (AList _) => apply domain_AList
  | |- in_domain _ _ (AVal _) => apply (domain_le _ 0); [lia|]; cbn [in_domain]
  | |- Forall _ (_ :: _) => apply Forall_cons
  | |- Forall _ [] => apply Forall_nil
  | |- _ /\ _ => split
  | |- _ => progress cbn [fst snd]
  end; try (apply PR; unfold printable; repeat constructor; cbn; lia).
Ltac cell_back CB := repeat match goal with
  | H : comes_back (AMap _) _ |- _ => apply map_back in H as (? & ? & H)
  | H : comes_back (AList _) _ |- _ => apply list_back in H as (? & ? & H)
  | H : comes_back (AVal (VString _)) _ |- _ => apply string_back in H
  | H : comes_back (AVal _) _ |- _ => inversion H; subst; clear H
  | H : scalar_back _ _ |- _ => inversion H; subst; clear H
  | H : YMap _ = YMap _ |- _ => injection H as H
  | H : Forall2 _ (_ :: _) _ |- _ => inversion H; subst; clear H
  | H : Forall2 _ [] _ |- _ => inversion H; subst; clear H
  | H : fst _ = fst _ /\ _ |- _ => destruct H
  | H : _ = fst ?b |- _ => destruct b; cbn [fst snd] in *; subst
  | H : _ = YStr _ |- _ => subst
  end.

(** "Every table set comes back equal" is false.  A float64 cell that is an integer, such as the
    zero of a new row, is written like an int, and an int is an error in a float64 column: the
    set is written, and cannot be read. *)
Theorem C30_float64_integer_refuted : forall Y text limit, yaml_ok Y text limit -> 7 <= limit ->
  GetT "float64" (tab yaml_heap 2) "f" 0 = Ok (VFloat64 (S754_zero false))
  /\ exists x, GetTableSetAsYAML Y 10 yaml_heap (one 2) = Ok x /\ snd (NewTableSetFromYAML Y x []) = Err.
Proof.
  intros Y text limit YO L. split; [vm_compute; reflexivity|]. pose proof (yaml_printable _ _ _ YO) as PR.
  edestruct (flat_written Y text limit 2) as (x & m' & W & CB & N); [exact YO|vm_compute; reflexivity| |].
  - apply (domain_le text 7); [exact L|]. cell_domain PR. exact I.
  - exists x. split; [exact W|]. rewrite N. clear N W. cell_back CB.
    + match goal with H : short_integer _ _ |- _ => destruct H as [_ ->] end. vm_compute. reflexivity.
    + match goal with H : forall z, ~ short_integer _ z |- _ => elim (H 0%Z) end. split; [lia|reflexivity].
Qed.

(** A negative zero in a float32 column comes back without its sign. *)
Theorem C30_negative_zero_refuted : forall Y text limit, yaml_ok Y text limit -> 7 <= limit ->
  GetT "float32" (tab yaml_heap 3) "f" 0 = Ok (VFloat32 (S754_zero true))
  /\ exists x h2, GetTableSetAsYAML Y 10 yaml_heap (one 3) = Ok x /\ NewTableSetFromYAML Y x [] = (h2, Ok (one 0))
     /\ GetT "float32" (tab h2 0) "f" 0 = Ok (VFloat32 (S754_zero false)).
Proof.
  intros Y text limit YO L. split; [vm_compute; reflexivity|]. pose proof (yaml_printable _ _ _ YO) as PR.
  edestruct (flat_written Y text limit 3) as (x & m' & W & CB & N); [exact YO|vm_compute; reflexivity| |].
  - apply (domain_le text 7); [exact L|]. cell_domain PR. intros _. left. exists 0%Z. split; [lia|reflexivity].
  - exists x. eexists. split; [exact W|]. rewrite N. clear N W. cell_back CB.
    + match goal with H : short_integer _ _ |- _ => destruct H as [_ ->] end. split; [vm_compute; reflexivity|]. vm_compute. reflexivity.
    + exfalso. match goal with H : forall z, ~ short_integer _ z |- _ => elim (H 0%Z) end. split; [lia|reflexivity].
    + exfalso. match goal with H : ~ finite _ |- _ => apply H end. exact I.
Qed.

(** A document without tables makes the reader panic: the test whether there are any comes after
    the type assertion that needs them. *)
Theorem C30_no_tables_panic_refuted : forall Y text limit, yaml_ok Y text limit -> 1 <= limit ->
  exists x, marshal Y [("tableSetName", AVal (VString "set"))] = Ok x /\ forall h, NewTableSetFromYAML Y x h = (h, Panic).
Proof.
  intros Y text limit YO L. pose proof (yaml_printable _ _ _ YO) as PR.
  destruct (yaml_back _ _ _ YO [("tableSetName", AVal (VString "set"))]) as (x & m' & MX & NX & UX & CB).
  - apply (domain_le text 1); [exact L|]. cell_domain PR.
  - exists x. split; [exact MX|]. intros h. unfold NewTableSetFromYAML. rewrite NX, UX. cell_back CB. reflexivity.
Qed.

(** Axioms used by any theorem of this file. *)
Definition all_Props_Yaml :=
  (@C30_map_built,
   @C30_circular_refuted,
   @C30_round_trip,
   @C30_read_is_equal,
   @C30_float64_integer_refuted,
   @C30_negative_zero_refuted,
   @C30_no_tables_panic_refuted).
Print Assumptions all_Props_Yaml.
