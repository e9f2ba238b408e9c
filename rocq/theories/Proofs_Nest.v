(** Proofs_Nest.v -- Nest, row by row. *)
From Coq Require Import ZArith NArith List String Ascii Bool SpecFloat Permutation Lia.
From Verif Require Import Base Model_Names Model_Table Model_Sort Model_Copy Model_Heap Model_Lex Model_Print Model_Parser Model_Json Model_Query Model_Nest.
From Verif Require Import Spec Spec_Sort Spec_Copy Spec_Heap Spec_Text Spec_Nest.
From Verif Require Import Proofs_Lib Proofs_Table Proofs_Cells Proofs_Struct Proofs_Api Proofs_Api2 Proofs_Sort Proofs_Search Proofs_Keys Proofs_Heap Proofs_Frame Proofs_Copy.
From Verif Require Import Props_Cells Props_Struct Props_Sort Props_Copy Props_Text.
Import ListNotations.
Local Open Scope string_scope.
Local Open Scope list_scope.

Lemma tab_nth h p t : nth_error h p = Some t -> tab h p = t.
Proof. intros H. exact (nth_error_nth _ _ _ H). Qed.

Lemma on_heap_run {A} p (m : M A) h t t' r : nth_error h p = Some t -> run m (List.length h) t = (t', r) ->
  exists l, on_heap p m h = (upd h p t' ++ l, r).
Proof.
  intros N R. unfold on_heap. rewrite N. unfold run in R. destruct (m _) as [s x]. injection R as <- <-. eauto.
Qed.
Lemma nth_put {A} (h l : list A) p x y : nth_error h p = Some y -> nth_error (upd h p x ++ l) p = Some x.
Proof. intros N. rewrite nth_error_app1 by (rewrite upd_length; now apply nth_error_some_lt in N). apply nth_error_upd_eq. now apply nth_error_some_lt in N. Qed.
Lemma nth_put_ne {A} (h l : list A) p q x : q <> p -> q < List.length h -> nth_error (upd h p x ++ l) q = nth_error h q.
Proof. intros N L. rewrite nth_error_app1 by now rewrite upd_length. apply nth_upd_other. congruence. Qed.
Lemma length_put {A} (h l : list A) p x : List.length h <= List.length (upd h p x ++ l).
Proof. rewrite app_length, upd_length. lia. Qed.

Lemma key_columns_eq t : key_columns t = Ok (map k_col (skeys t)).
Proof.
  unfold key_columns. rewrite GetSortKeysAsTable_eq. cbn [rbind]. rewrite keytab_length. apply mapM_nth; [now rewrite zseq_length, map_length|].
  intros i z c Hz Hc. rewrite nth_error_zseq in Hz. destruct (Nat.ltb_spec i (List.length (skeys t))) as [H|H]; [|discriminate].
  injection Hz as <-. rewrite nth_error_map in Hc. destruct (nth_error (skeys t) i) as [k|] eqn:K; [|discriminate]. injection Hc as <-.
  erewrite GetT_direct with (i := 1) (ct := "string"); try reflexivity.
  2:{ rewrite keytab_rows, K. reflexivity. } 2:{ reflexivity. }
  reflexivity.
Qed.

(** ---------- reading key cells ---------- *)

Definition same_keys_cells (ks : list skey) (t t' : table) : Prop := forall k r, In k ks -> GetVal t' (k_col k) r = GetVal t (k_col k) r.

Lemma keys_lt_cong E t t' ks i j : same_keys_cells ks t t' -> keys_lt E t' ks i j <-> keys_lt E t ks i j.
Proof.
  intros S. induction ks as [|k ks IH]; [reflexivity|]. cbn [keys_lt].
  assert (S' : same_keys_cells ks t t') by (intros k' r I; apply S; now right). specialize (IH S').
  split; intros (v & w & A & B & C); exists v, w; rewrite !(S k) in * by (now left); repeat (split; [assumption|]); rewrite IH in *; exact C.
Qed.

Lemma partner_cong ks t t' i u j : same_keys_cells ks t t' -> partner ks t' i u j <-> partner ks t i u j.
Proof.
  intros S. unfold partner. rewrite !Forall_forall. split; intros H k I; destruct (H k I) as (v & w & A & B & C); exists v, w; rewrite (S k) in * by exact I; auto.
Qed.

Lemma perm_row t t' r : wf_table t -> wf_table t' -> same_header t t' -> Permutation (rows t') (rows t) -> (0 <= r < RowCount t')%Z ->
  exists r', (0 <= r' < RowCount t)%Z /\ forall cn, GetVal t' cn r = GetVal t cn r'.
Proof.
  intros W W' S P R. unfold RowCount in *. destruct (nth_error_lt (rows t') (Z.to_nat r)) as [x X]; [lia|].
  destruct (perm_at _ _ _ _ P X) as [j J]. pose proof (nth_error_some_lt _ _ _ J) as L.
  exists (Z.of_nat j). split; [lia|]. intros cn.
  destruct (in_dec string_dec cn (cnames t)) as [I|N].
  - apply col_at_In in I as [c C]. rewrite (GetVal_col_at t c) by assumption. rewrite (GetVal_col_at t' c) by (auto; now apply (same_header_col_at t t' c cn S)).
    pose proof (col_at_range _ _ _ C) as CR. rewrite <- (Z2Nat.id c), <- (Z2Nat.id r) by lia. rewrite !get_at_nat by assumption. unfold at_cell. now rewrite X, J.
  - rewrite !GetVal_no_col; auto. now rewrite (sh_cols _ _ S).
Qed.

(** The key of a row as a list of values *)
Lemma key_values ks t i : wf_table t -> (0 <= i < RowCount t)%Z ->
  Forall (fun k => exists c, nth_error (cnames t) c = Some (k_col k) /\ nth_error (ctypes t) c = Some (k_type k)) ks ->
  exists vs, mapM (fun c => GetVal t c i) (map k_col ks) = Ok vs /\ Forall2 (fun k v => GetVal t (k_col k) i = Ok v /\ cell_ok (k_type k) v) ks vs.
Proof.
  intros W R. induction ks as [|k ks IH]; intros F; [exists []; split; [reflexivity|constructor]|].
  inversion F as [|? ? (c & C & T) F']; subst. destruct (IH F') as (vs & M & F2).
  assert (G : exists v, GetVal t (k_col k) i = Ok v /\ cell_ok (k_type k) v).
  { rewrite (GetVal_col_at t (Z.of_nat c)) by (auto; now apply col_at_nat). rewrite <- (Z2Nat.id i) by lia. rewrite get_at_nat by assumption. unfold at_cell.
    unfold RowCount in R. destruct (nth_error_lt (rows t) (Z.to_nat i)) as [row X]; [lia|]. rewrite X.
    pose proof (wf_cells _ W) as WC. rewrite Forall_forall in WC. specialize (WC row (nth_error_In _ _ X)).
    destruct (Forall2_nth _ _ _ _ _ WC T) as (v & V & OK). rewrite V. eauto. }
  destruct G as (v & G & OK). exists (v :: vs). cbn [map mapM]. rewrite G. cbn [rbind]. rewrite M. cbn [rbind]. split; [reflexivity|]. constructor; auto.
Qed.

(** Writing one string *)
Lemma set_string t b cn c r s : wf_table t -> nth_error (cnames t) c = Some cn -> nth_error (ctypes t) c = Some "string" -> (0 <= r < RowCount t)%Z ->
  exists t', run (SetT "string" cn r (VString s)) b t = (t', Ok tt) /\ wf_table t' /\ only_cell_changed t t' (Z.of_nat c) r (VString s).
Proof.
  intros W C T R. destruct (SetT_eq "string" cn r (VString s) (mkS t b []) W) as [(i & ct & _ & _ & C' & T' & HT & EQ)|H].
  - now apply str_in_In.
  - reflexivity.
  - cbn [s_tab] in *. assert (i = c). { eapply (NoDup_nth_error (cnames t)); [apply (wf_nodup _ W)|now apply nth_error_some_lt in C'|congruence]. } subst i.
    eexists. split; [unfold run; rewrite EQ; reflexivity|].
    destruct (written_only c (Z.to_nat r) (VString s) t ct W T' HT eq_refl) as [A B]; [unfold RowCount in R; lia|].
    rewrite Z2Nat.id in B by lia. split; [exact A|exact B].
  - exfalso. destruct H as [N _]. apply N. exists c, "string". cbn [s_tab]. repeat split; auto; lia.
Qed.

Section Loop.
  Variables (E : env) (ip : Z -> bool) (p q : ptr) (cn : string) (u : table).
  Hypothesis PQ : p <> q.
  Hypothesis CN : valid_name cn /\ all_ascii_chars cn.
  Hypothesis Wu : wf_table u.
  Hypothesis Ku : keys_ok u.
  Hypothesis Nu : no_nan_keys u.
  Hypothesis Eu : skeys u <> [].
  Hypothesis Su : sorted_table E u.
  Hypothesis Tu : Forall unpadded_type (ctypes u).
  Hypothesis Cu : Forall (Forall2 plain_cell (ctypes u)) (rows u).

  Lemma not_nil_u : is_nil u = false.
  Proof.
    destruct (is_nil u) eqn:N; [|reflexivity]. exfalso. pose proof (wf_nil_cols _ Wu N) as C.
    destruct (skeys u) as [|k ks] eqn:K; [congruence|]. unfold keys_ok in Ku. rewrite K in Ku. inversion Ku as [|? ? (i & I & _) _]. rewrite C in I. now destruct i.
  Qed.

  (** What a row gets *)
  Lemma range_text f l : (0 <= f)%Z -> (l < RowCount u)%Z -> forall h, exists n' h' s, new_tab (NewTableFromRows u cn f l) h = (h', Ok n')
    /\ (forall z, z < List.length h -> nth_error h' z = nth_error h z) /\ List.length h <= List.length h'
    /\ StringUnpadded ip h' (tab h' n') = Ok s /\ reads_as s cn (cnames u) (ctypes u) (row_range u f l).
  Proof.
    intros F L h. destruct (NewTableFromRows_spec u cn f l (S (List.length h)) Wu) as [(_ & _ & _ & t' & ns & R & FT & C & T & _ & RR)|[N _]].
    2:{ exfalso. apply N. split; [apply CN|]. split; [apply not_nil_u|]. right. right. lia. }
    assert (RW : rows t' = row_range u f l) by (apply RR; right; lia).
    set (h' := h ++ t' :: new_nils (List.length h) ns).
    assert (NT : new_tab (NewTableFromRows u cn f l) h = (h', Ok (List.length h))) by (unfold new_tab; rewrite R; reflexivity).
    assert (TB : tab h' (List.length h) = t').
    { apply tab_nth. unfold h'. rewrite nth_error_app2, Nat.sub_diag by lia. reflexivity. }
    assert (UT : unpadded_table t').
    { split; [apply (ft_wf _ _ FT)|]. split; [apply (ft_nil _ _ FT)|]. split; [rewrite (ft_name _ _ FT); apply CN|].
      split; [left; apply (ft_shape _ _ FT)|]. split.
      - intros C0. exfalso. rewrite C in C0. destruct (skeys u) as [|k ks] eqn:K; [congruence|]. unfold keys_ok in Ku. rewrite K in Ku. inversion Ku as [|? ? (i & I & _) _]. rewrite C0 in I. now destruct i.
      - rewrite T. split; [exact Tu|]. rewrite RW. unfold row_range. rewrite Forall_forall in *. intros x I. apply Cu.
        rewrite <- (firstn_skipn (Z.to_nat f) (rows u)). apply in_or_app. right.
        rewrite <- (firstn_skipn (Z.to_nat (l - f + 1)) (skipn (Z.to_nat f) (rows u))). apply in_or_app. now left. }
    destruct (C23_StringUnpadded ip h' t' [] UT) as (s & _ & _ & _ & SE & _).
    exists (List.length h), h', s. split; [exact NT|]. split; [intros z Z; unfold h'; now apply nth_app_old|]. split; [unfold h'; rewrite app_length; lia|].
    split; [now rewrite TB|].
    intros h1. destruct (C23_StringUnpadded ip h' t' h1 UT) as (s2 & h2 & n & t2 & SE2 & NE & NN & (A & B & C2 & D & _) & _).
    rewrite SE in SE2. injection SE2 as <-. exists h2, n, t2. split; [exact NE|]. split; [exact NN|].
    rewrite A, B, C2, D, map_map_id, (ft_name _ _ FT), C, T, RW. repeat split; reflexivity.
  Qed.

  Lemma row_matches_partner ks t vs i j : Forall2 (fun k v => GetVal t (k_col k) i = Ok v /\ cell_ok (k_type k) v) ks vs ->
    Forall2 (fun k v => exists c, GetVal u (k_col k) j = Ok c /\ val_eq c v) ks vs <-> partner ks t i u j.
  Proof.
    induction 1 as [|k v ks vs (G & _) F IH]; [split; constructor|]. split; intros H.
    - inversion H as [|? ? ? ? A B]; subst. destruct A as (c & A1 & A2). constructor; [eauto|]. now apply IH.
    - inversion H as [|? ? A B]; subst. destruct A as (v0 & w & A1 & A2 & A3). rewrite G in A1. injection A1 as <-. constructor; [eauto|]. now apply IH.
  Qed.

  Lemma nest_row_step h t c r : nth_error h p = Some t -> nth_error h q = Some u -> wf_table t ->
    Forall (fun k => exists i, nth_error (cnames t) i = Some (k_col k) /\ nth_error (ctypes t) i = Some (k_type k)) (skeys u) ->
    (forall k v, In k (skeys u) -> GetVal t (k_col k) r = Ok v -> ~ is_nan v) ->
    nth_error (cnames t) c = Some cn -> nth_error (ctypes t) c = Some "string" -> (0 <= r < RowCount t)%Z ->
    (exists h' t' s f l, nest_row E ip p q cn (map k_col (skeys u)) r h = (h', Ok tt)
       /\ nth_error h' p = Some t' /\ nth_error h' q = Some u /\ List.length h <= List.length h'
       /\ (forall z, z < List.length h -> z <> p -> nth_error h' z = nth_error h z)
       /\ wf_table t' /\ only_cell_changed t t' (Z.of_nat c) r (VString s)
       /\ (0 <= f <= l)%Z /\ (l < RowCount u)%Z /\ (forall j, (0 <= j < RowCount u)%Z -> partner (skeys u) t r u j <-> (f <= j <= l)%Z)
       /\ reads_as s cn (cnames u) (ctypes u) (row_range u f l))
    \/ (~ has_partner (skeys u) t r u /\ nest_row E ip p q cn (map k_col (skeys u)) r h = (h, Err)).
  Proof.
    intros HP HQ W KT NN C T R. destruct (key_values (skeys u) t r W R KT) as (vs & M & F2).
    assert (EQ : nest_row E ip p q cn (map k_col (skeys u)) r h = match SearchRange E u vs with
      | Ok x => (let^ n := (fun h => new_tab (NewTableFromRows (tab h q) cn (fst x) (snd x)) h) in
                 let^ s := asks (fun h => StringUnpadded ip h (tab h n)) in
                 on_heap p (SetT "string" cn r (VString s))) h
      | Err => (h, Err) | Panic => (h, Panic) end).
    { unfold nest_row. unfold hbind at 1. unfold asks at 1. rewrite (tab_nth _ _ _ HP), M. unfold hbind at 1. unfold asks at 1. rewrite (tab_nth _ _ _ HQ).
      destruct (SearchRange E u vs); reflexivity. }
    rewrite EQ. clear EQ.
    assert (SV : search_values u vs).
    { unfold search_values. clear -F2 NN. revert NN. induction F2 as [|k v ks vs (G & OK) F IH]; intros NN; constructor.
      - split; [exact OK|]. apply (NN k); [now left|exact G].
      - apply IH. intros k' v' I. apply NN. now right. }
    pose proof (C19_SearchRange E u vs Wu Ku Nu Eu SV Su) as SR. destruct (SearchRange E u vs) as [[f l]| |].
    - left. destruct SR as (A & B & D). cbn [fst snd].
      destruct (range_text f l ltac:(lia) B h) as (n & h1 & s & NT & FR & LE & SU & RA).
      unfold hbind at 1. rewrite (tab_nth _ _ _ HQ), NT. unfold hbind at 1. unfold asks at 1. rewrite SU.
      assert (HP1 : nth_error h1 p = Some t) by (rewrite FR; [exact HP|now apply nth_error_some_lt in HP]).
      assert (HQ1 : nth_error h1 q = Some u) by (rewrite FR; [exact HQ|now apply nth_error_some_lt in HQ]).
      destruct (set_string t (List.length h1) cn c r s W C T R) as (t' & RS & W' & OC).
      destruct (on_heap_run p _ _ _ _ _ HP1 RS) as (x & OH). rewrite OH.
      exists (upd h1 p t' ++ x), t', s, f, l. split; [reflexivity|].
      split; [eapply nth_put; exact HP1|]. split; [rewrite nth_put_ne; [exact HQ1|congruence|now apply nth_error_some_lt in HQ1]|].
      split; [pose proof (length_put h1 x p t'); lia|]. split.
      + intros z Z N. rewrite nth_put_ne; [now apply FR|exact N|lia].
      + split; [exact W'|]. split; [exact OC|]. split; [exact A|]. split; [exact B|]. split; [|exact RA].
        intros j J. rewrite <- (D j J). symmetry. apply row_matches_partner. exact F2.
    - right. split; [|reflexivity]. intros (j & J & P). apply (SR j J). unfold row_matches. now apply (row_matches_partner _ t vs r j F2).
    - destruct SR.
  Qed.

  (** The state of the loop after [k] rows; [ts] is the table before the loop, with the new column at [c]. *)
  Record upto (ts : table) (k : nat) (t : table) : Prop := {
    up_wf : wf_table t;
    up_header : same_header ts t;
    up_count : RowCount t = RowCount ts;
    up_else : forall cn' r, cn' <> cn -> GetVal t cn' r = GetVal ts cn' r;
    up_done : forall i, (0 <= i < Z.of_nat k)%Z -> nested_row (skeys u) t u cn i;
    up_rest : forall i, (Z.of_nat k <= i < RowCount ts)%Z -> GetVal t cn i = Ok (VString "") }.

  Lemma nested_row_keep ks t t' i r : ~ In cn (map k_col ks) -> (forall cn' r', (cn', r') <> (cn, r) -> GetVal t' cn' r' = GetVal t cn' r') -> i <> r ->
    nested_row ks t u cn i -> nested_row ks t' u cn i.
  Proof.
    intros NI K N (s & f & l & A & B & C & D & F). exists s, f, l. split; [rewrite K by congruence; exact A|].
    split; [exact B|]. split; [exact C|]. split; [|exact F]. intros j J. rewrite <- (D j J). apply partner_cong.
    intros k x I. apply K. intros Q. apply NI. injection Q as <- _. now apply in_map.
  Qed.

  Lemma nest_loop ts c : wf_table ts -> ~ In cn (map k_col (skeys u)) ->
    Forall (fun k => exists i, nth_error (cnames ts) i = Some (k_col k) /\ nth_error (ctypes ts) i = Some (k_type k)) (skeys u) ->
    no_nan_keys (with_skeys (skeys u) ts) ->
    nth_error (cnames ts) c = Some cn -> nth_error (ctypes ts) c = Some "string" ->
    forall m k h t, nth_error h p = Some t -> nth_error h q = Some u -> upto ts k t -> (Z.of_nat k + Z.of_nat m = RowCount ts)%Z ->
    exists h' t' k' r, hfor (map Z.of_nat (seq k m)) (nest_row E ip p q cn (map k_col (skeys u))) h = (h', r)
      /\ nth_error h' p = Some t' /\ nth_error h' q = Some u /\ List.length h <= List.length h'
      /\ (forall z, z < List.length h -> z <> p -> nth_error h' z = nth_error h z)
      /\ upto ts k' t' /\ (k <= k')%nat
      /\ (forall i, (Z.of_nat k <= i < Z.of_nat k')%Z -> has_partner (skeys u) ts i u)
      /\ (r = Ok tt /\ Z.of_nat k' = RowCount ts \/ r = Err /\ (Z.of_nat k' < RowCount ts)%Z /\ ~ has_partner (skeys u) ts (Z.of_nat k') u).
  Proof.
    intros Ws NI KT NN C T. induction m as [|m IH]; intros k h t HP HQ U L.
    - exists h, t, k, (Ok tt). split; [reflexivity|]. split; [exact HP|]. split; [exact HQ|]. split; [lia|]. split; [auto|]. split; [exact U|]. split; [lia|]. split; [intros; lia|]. left. split; [reflexivity|lia].
    - cbn [seq map hfor]. unfold hbind at 1.
      assert (SK : same_keys_cells (skeys u) ts t).
      { intros x r I. apply (up_else _ _ _ U). intros <-. apply NI. now apply in_map. }
      assert (HPT : forall i, has_partner (skeys u) t i u <-> has_partner (skeys u) ts i u).
      { intros i. unfold has_partner. split; intros (j & J & P); exists j; (split; [exact J|]); now apply (partner_cong _ ts t i u j SK). }
      destruct (nest_row_step h t c (Z.of_nat k) HP HQ (up_wf _ _ _ U)) as [(h1 & t1 & s & f & l & R & HP1 & HQ1 & LE & FR & W1 & OC & A & B & D & RA)|[N R]].
      + rewrite (sh_cols _ _ (up_header _ _ _ U)), (sh_types _ _ (up_header _ _ _ U)). exact KT.
      + intros x v I G. rewrite (SK x _ I) in G. exact (NN x _ v I G).
      + now rewrite (sh_cols _ _ (up_header _ _ _ U)).
      + now rewrite (sh_types _ _ (up_header _ _ _ U)).
      + rewrite (up_count _ _ _ U). lia.
      + rewrite R.
        assert (CA : col_at t (Z.of_nat c) cn) by (apply col_at_nat; now rewrite (sh_cols _ _ (up_header _ _ _ U))).
        destruct (only_by_name _ _ _ _ _ _ (up_wf _ _ _ U) W1 OC CA) as [HERE ELSE].
        assert (U1 : upto ts (S k) t1).
        { constructor.
          - exact W1.
          - destruct (up_header _ _ _ U), (occ_header _ _ _ _ _ OC). constructor; congruence.
          - rewrite (occ_rows _ _ _ _ _ OC). apply (up_count _ _ _ U).
          - intros cn' r N. rewrite ELSE by congruence. now apply (up_else _ _ _ U).
          - intros i I. destruct (Z.eq_dec i (Z.of_nat k)) as [->|NE].
            + exists s, f, l. split; [exact HERE|]. split; [exact A|]. split; [exact B|]. split; [|exact RA].
              intros j J. rewrite <- (D j J). apply partner_cong. intros x r I'. apply ELSE. intros Q. apply NI. injection Q as <- _. now apply in_map.
            + apply (nested_row_keep _ t t1 i (Z.of_nat k)); auto. apply (up_done _ _ _ U). lia.
          - intros i I. rewrite ELSE by (intros Q; injection Q as Q; lia). apply (up_rest _ _ _ U). lia. }
        destruct (IH (S k) h1 t1 HP1 HQ1 U1 ltac:(lia)) as (h' & t' & k' & r & F & HP' & HQ' & LE' & FR' & U' & KK & PA & RES).
        exists h', t', k', r. split; [exact F|]. split; [exact HP'|]. split; [exact HQ'|]. split; [lia|].
        split; [intros z Z N; rewrite FR' by (auto; lia); now apply FR|]. split; [exact U'|]. split; [lia|]. split; [|exact RES].
        intros i I. destruct (Z.eq_dec i (Z.of_nat k)) as [->|NE]; [|apply PA; lia]. apply HPT. exists f. split; [lia|]. apply D; lia.
      + rewrite R. exists h, t, k, Err. split; [reflexivity|]. split; [exact HP|]. split; [exact HQ|]. split; [lia|]. split; [auto|]. split; [exact U|]. split; [lia|]. split; [intros; lia|].
        right. split; [reflexivity|]. split; [lia|]. now rewrite <- HPT.
  Qed.
End Loop.

Lemma firstn_rows a b n : wf_table a -> wf_table b -> RowCount b = RowCount a -> n = List.length (cnames a) -> (n <= List.length (cnames b))%nat ->
  (forall c r, (0 <= c < Z.of_nat n)%Z -> GetValByColIndex b c r = GetValByColIndex a c r) -> map (firstn n) (rows b) = rows a.
Proof.
  intros Wa Wb RC N L H. unfold RowCount in RC. apply nth_error_ext. intros r. rewrite nth_error_map.
  destruct (nth_error (rows b) r) as [x|] eqn:X.
  2:{ symmetry. apply nth_error_None in X. apply nth_error_None. lia. }
  pose proof (nth_error_some_lt _ _ _ X) as LX. destruct (nth_error_lt (rows a) r) as [y Y]; [lia|]. rewrite Y. cbn [option_map]. f_equal.
  pose proof (wf_row_len b Wb r x X) as Lx. pose proof (wf_row_len a Wa r y Y) as Ly. apply nth_error_ext. intros c.
  destruct (Nat.lt_ge_cases c n) as [I|I].
  - specialize (H (Z.of_nat c) (Z.of_nat r) ltac:(lia)). rewrite !get_at_nat in H by assumption. unfold at_cell in H. rewrite X, Y in H.
    replace (nth_error (firstn n x) c) with (nth_error x c).
    + destruct (nth_error x c) as [v|] eqn:V; [|apply nth_error_None in V; lia]. destruct (nth_error y c) as [w|] eqn:Q; [congruence|discriminate].
    + rewrite <- (firstn_skipn n x) at 1. rewrite nth_error_app1; [reflexivity|]. rewrite firstn_length. lia.
  - rewrite (proj2 (nth_error_None _ _)) by (rewrite firstn_length; lia). symmetry. apply nth_error_None. lia.
Qed.

Lemma ColType_at t i cn ct : wf_table t -> nth_error (cnames t) i = Some cn -> nth_error (ctypes t) i = Some ct -> ColType t cn = Ok ct.
Proof. intros W A B. apply wf_ColType_iff; eauto. Qed.

Lemma Nest_run E ip h p q t u cn : env_ok E -> p <> q -> nth_error h p = Some t -> nth_error h q = Some u -> wf_table t -> wf_table u -> nest_ok t u cn ->
  exists h' t' u' n r, Nest E ip (Some p) (Some q) cn h = (h', r) /\ nth_error h' p = Some t' /\ nth_error h' q = Some u'
    /\ List.length h <= List.length h' /\ (forall z, z < List.length h -> z <> p -> z <> q -> nth_error h' z = nth_error h z)
    /\ nested_upto E t u cn t' u' n
    /\ (r = Ok tt /\ n = RowCount t /\ (forall i, (0 <= i < RowCount t)%Z -> has_partner (skeys t) t i u)
        \/ r = Err /\ (0 <= n < RowCount t)%Z /\ ~ has_partner (skeys t) t' n u' /\ exists i, (0 <= i < RowCount t)%Z /\ ~ has_partner (skeys t) t i u).
Proof.
  intros EO PQ HP HQ Wt Wu OK. destruct OK as [NE ONCE KO SH NT NU [CN1 CN2] NEW TY CE].
  (* the keys of the nestable table *)
  destruct (C39_same_keys u (List.length h) t Wu NE) as (u1 & R1 & S1 & K1); auto.
  { rewrite Forall_forall in *. intros k I. unfold keys_ok in KO. rewrite Forall_forall in KO. destruct (SH k I) as (i & A & B). destruct (KO k I) as (_ & _ & _ & D). split; [|exact D]. now apply (ColType_at u i). }
  assert (U1 : u1 = with_skeys (skeys t) u) by (rewrite <- K1; exact S1). subst u1. clear S1 K1.
  destruct (on_heap_run q _ _ _ _ _ HQ R1) as (l1 & OH1). set (h1 := upd h q (with_skeys (skeys t) u) ++ l1) in *.
  assert (HQ1 : nth_error h1 q = Some (with_skeys (skeys t) u)) by (eapply nth_put; exact HQ).
  assert (HP1 : nth_error h1 p = Some t) by (unfold h1; rewrite nth_put_ne; [exact HP|exact PQ|now apply nth_error_some_lt in HP]).
  assert (L1 : List.length h <= List.length h1) by apply length_put.
  assert (F1 : forall z, z < List.length h -> z <> q -> nth_error h1 z = nth_error h z) by (intros z Z N; now apply nth_put_ne).
  clearbody h1.
  (* sort the table *)
  destruct (C18_Sort E t (List.length h1) EO Wt NE KO) as (ts & R2 & SHt & PT & Wts & ST). specialize (ST NT).
  destruct (on_heap_run p _ _ _ _ _ HP1 R2) as (l2 & OH2). set (h2 := upd h1 p ts ++ l2) in *.
  assert (HP2 : nth_error h2 p = Some ts) by (eapply nth_put; exact HP1).
  assert (HQ2 : nth_error h2 q = Some (with_skeys (skeys t) u)) by (unfold h2; rewrite nth_put_ne; [exact HQ1|congruence|now apply nth_error_some_lt in HQ1]).
  assert (L2 : List.length h <= List.length h2) by (pose proof (length_put h1 l2 p ts); unfold h2; lia).
  assert (F2 : forall z, z < List.length h -> z <> p -> z <> q -> nth_error h2 z = nth_error h z) by (intros z Z N N'; unfold h2; rewrite nth_put_ne by (auto; lia); now apply F1).
  clearbody h2.
  (* sort the nestable table *)
  assert (KU : keys_ok (with_skeys (skeys t) u)).
  { unfold keys_ok in *. rewrite Forall_forall in *. cbn [skeys with_skeys cnames ctypes]. intros k I. destruct (SH k I) as (i & A & B). destruct (KO k I) as (_ & _ & _ & D). exists i. auto. }
  assert (NNU : no_nan_keys (with_skeys (skeys t) u)) by exact NU.
  destruct (C18_Sort E (with_skeys (skeys t) u) (List.length h2) EO (wf_with_skeys _ _ Wu) NE KU) as (u2 & R3 & SHu & PU & Wu2 & SU). specialize (SU NNU).
  destruct (on_heap_run q _ _ _ _ _ HQ2 R3) as (l3 & OH3). set (h3 := upd h2 q u2 ++ l3) in *.
  assert (HQ3 : nth_error h3 q = Some u2) by (eapply nth_put; exact HQ2).
  assert (HP3 : nth_error h3 p = Some ts) by (unfold h3; rewrite nth_put_ne; [exact HP2|congruence|now apply nth_error_some_lt in HP2]).
  assert (L3 : List.length h <= List.length h3) by (pose proof (length_put h2 l3 q u2); unfold h3; lia).
  assert (F3 : forall z, z < List.length h -> z <> p -> z <> q -> nth_error h3 z = nth_error h z) by (intros z Z N N'; unfold h3; rewrite nth_put_ne by (auto; lia); now apply F2).
  clearbody h3.
  (* the new column *)
  assert (NIL : is_nil ts = false).
  { rewrite (sh_nil _ _ SHt). destruct (is_nil t) eqn:N; [|reflexivity]. exfalso. pose proof (wf_nil_cols _ Wt N) as C0.
    destruct (skeys t) as [|k ks] eqn:K; [congruence|]. unfold keys_ok in KO. rewrite K in KO. inversion KO as [|? ? (i & I & _) _]. rewrite C0 in I. now destruct i. }
  assert (NEW' : ~ In cn (cnames ts)) by now rewrite (sh_cols _ _ SHt).
  destruct (C07_AppendCol ts (List.length h3) cn "string" Wts NIL CN1 NEW' ltac:(now apply str_in_In)) as (tc & R4 & SB & CC & CT & OLD & ZERO).
  assert (Wtc : wf_table tc).
  { pose proof (AppendCol_eq cn "string" (mkS ts (List.length h3) []) Wts) as Q. unfold run in R4. rewrite Q in R4. cbn [s_tab] in R4.
    destruct (can_append_col ts cn "string") eqn:CA; [|discriminate]. apply (f_equal fst) in R4. cbn [fst] in R4. rewrite <- R4. exact (col_added_wf cn "string" (mkS ts (List.length h3) []) Wts CA). }
  destruct (on_heap_run p _ _ _ _ _ HP3 R4) as (l4 & OH4). set (h4 := upd h3 p tc ++ l4) in *.
  assert (HP4 : nth_error h4 p = Some tc) by (eapply nth_put; exact HP3).
  assert (HQ4 : nth_error h4 q = Some u2) by (unfold h4; rewrite nth_put_ne; [exact HQ3|congruence|now apply nth_error_some_lt in HQ3]).
  assert (L4 : List.length h <= List.length h4) by (pose proof (length_put h3 l4 p tc); unfold h4; lia).
  assert (F4 : forall z, z < List.length h -> z <> p -> z <> q -> nth_error h4 z = nth_error h z) by (intros z Z N N'; unfold h4; rewrite nth_put_ne by (auto; lia); now apply F3).
  clearbody h4.
  set (c := List.length (cnames ts)).
  assert (TL : List.length (ctypes ts) = c) by apply (wf_types_len _ Wts).
  assert (Ac : nth_error (cnames tc) c = Some cn) by (rewrite CC, nth_error_app2 by (unfold c; lia); unfold c; now rewrite Nat.sub_diag).
  assert (At : nth_error (ctypes tc) c = Some "string") by (rewrite CT, nth_error_app2 by lia; now rewrite TL, Nat.sub_diag).
  assert (SKt : skeys tc = skeys t) by (rewrite (sbc_keys _ _ SB); apply (sh_keys _ _ SHt)).
  assert (SKu : skeys u2 = skeys t) by (rewrite (sh_keys _ _ SHu); reflexivity).
  assert (BYNAME : forall cn' r, cn' <> cn -> GetVal tc cn' r = GetVal ts cn' r).
  { intros cn' r N. destruct (in_dec string_dec cn' (cnames ts)) as [I|O].
    - apply col_at_In in I as [d D]. pose proof (col_at_range _ _ _ D) as DR. rewrite (GetVal_col_at ts d) by assumption.
      assert (D' : col_at tc d cn'). { destruct D as [D0 D1]. split; [exact D0|]. rewrite CC. rewrite nth_error_app1; [exact D1|]. unfold ColCount in DR. lia. }
      rewrite (GetVal_col_at tc d) by assumption. apply OLD. lia.
    - rewrite !GetVal_no_col; auto. rewrite CC. intros I. apply in_app_iff in I as [I|[I|[]]]; congruence. }
  assert (NIK : ~ In cn (map k_col (skeys t))).
  { intros I. apply in_map_iff in I as (k & <- & I). unfold keys_ok in KO. rewrite Forall_forall in KO. destruct (KO k I) as (i & A & _). apply NEW. now apply nth_error_In in A. }
  assert (SKC : same_keys_cells (skeys t) ts tc) by (intros k r I; apply BYNAME; intros <-; apply NIK; now apply in_map).
  assert (UP : upto cn u2 tc 0 tc).
  { constructor; auto.
    - constructor; reflexivity.
    - intros; lia.
    - intros i I. rewrite (GetVal_col_at tc (Z.of_nat c)) by (auto; now apply col_at_nat).
      destruct (ZERO i) as (v & V & Z0); [rewrite <- (sbc_rows _ _ SB); lia|]. change (ColCount ts) with (Z.of_nat c) in V. rewrite V. f_equal. clear -Z0.
      destruct v as [|b|x|k z|f|f|o|[o|]|tm|x]; cbn [zero_of] in Z0; try (destruct Z0 as [Z1 Z2]; discriminate Z1 || (subst; reflexivity)); try contradiction.
      + destruct Z0 as [Z1 _]. exfalso. destruct k; cbn in Z1; intuition discriminate.
      + destruct Z0 as [[Z1|Z1] _]; discriminate. }
  destruct (nest_loop E ip p q cn u2 PQ (conj CN1 CN2) Wu2) with (ts := tc) (c := c) (m := List.length (rows tc)) (k := 0) (h := h4) (t := tc)
    as (h5 & t5 & n & r & LOOP & HP5 & HQ5 & L5 & F5 & U5 & _ & PART & RES); auto.
  { unfold keys_ok in *. rewrite SKu. rewrite (sh_cols _ _ SHu), (sh_types _ _ SHu). exact KU. }
  { intros k r v I G. rewrite SKu in I. destruct (HasRow u2 r) eqn:HR.
    - apply HasRow_iff in HR. destruct (perm_row _ _ _ (wf_with_skeys _ _ Wu) Wu2 SHu PU HR) as (r' & _ & Q). rewrite Q in G. exact (NNU k r' v I G).
    - exfalso. unfold GetVal in G. destruct (is_nil u2); [discriminate|]. destruct (ColIndex u2 (k_col k)); try discriminate. cbn [rbind] in G. unfold GetValByColIndex in G. rewrite HR in G. destruct (is_nil u2); discriminate. }
  { rewrite SKu. exact NE. }
  { rewrite (sh_types _ _ SHu). exact TY. }
  { rewrite (sh_types _ _ SHu). cbn [ctypes with_skeys]. rewrite Forall_forall in *. intros x I. apply CE. eapply Permutation_in; [exact PU|exact I]. }
  { rewrite SKu. exact NIK. }
  { rewrite SKu. unfold keys_ok in KO. rewrite Forall_forall in *. intros k I. destruct (KO k I) as (i & A & B & _). exists i.
    rewrite CC, CT, (sh_cols _ _ SHt), (sh_types _ _ SHt). split; (rewrite nth_error_app1; [assumption|]); [exact (nth_error_some_lt _ _ _ A)|exact (nth_error_some_lt _ _ _ B)]. }
  { intros k r v I G. cbn [skeys with_skeys] in I. rewrite SKu in I. change (GetVal tc (k_col k) r = Ok v) in G. rewrite (SKC k r I) in G.
    destruct (HasRow ts r) eqn:HR.
    - apply HasRow_iff in HR. destruct (perm_row _ _ _ Wt Wts SHt PT HR) as (r' & _ & Q). rewrite Q in G. exact (NT k r' v I G).
    - exfalso. unfold GetVal in G. destruct (is_nil ts); [discriminate|]. destruct (ColIndex ts (k_col k)); try discriminate. cbn [rbind] in G. unfold GetValByColIndex in G. rewrite HR in G. destruct (is_nil ts); discriminate. }
  rewrite SKu in *.
  assert (RCt : RowCount tc = RowCount t) by (rewrite (sbc_rows _ _ SB); unfold RowCount; now rewrite (Permutation_length PT)).
  assert (RCu : RowCount u2 = RowCount u) by (unfold RowCount; now rewrite (Permutation_length PU)).
  (* partners before and after the sorting *)
  assert (FWD : forall i, (0 <= i < RowCount t)%Z -> exists i', (0 <= i' < RowCount t)%Z /\ forall j, (0 <= j < RowCount u)%Z -> exists j', (0 <= j' < RowCount u)%Z /\ (partner (skeys t) tc i u2 j <-> partner (skeys t) t i' u j')).
  { intros i I. destruct (perm_row _ _ i Wt Wts SHt PT) as (i' & I' & Q); [rewrite <- (sbc_rows _ _ SB), RCt; lia|]. exists i'. split; [exact I'|]. intros j J.
    destruct (perm_row _ _ j (wf_with_skeys _ _ Wu) Wu2 SHu PU) as (j' & J' & Q'); [rewrite RCu; lia|]. exists j'. split; [exact J'|].
    rewrite (partner_cong _ ts tc) by exact SKC. unfold partner. rewrite !Forall_forall.
    split; intros H k K; destruct (H k K) as (v & w & A & B & D); exists v, w; rewrite Q, Q' in *; auto. }
  assert (SYM : forall i', (0 <= i' < RowCount t)%Z -> exists i, (0 <= i < RowCount t)%Z /\ forall cn', GetVal ts cn' i = GetVal t cn' i').
  { intros i' I'. destruct (perm_row ts t i' Wts Wt) as (i & I & Q); [destruct SHt; constructor; congruence|now apply Permutation_sym|exact I'|].
    exists i. split; [rewrite <- RCt, (sbc_rows _ _ SB); exact I|]. intros cn'. now rewrite Q. }
  assert (SYMU : forall j', (0 <= j' < RowCount u)%Z -> exists j, (0 <= j < RowCount u)%Z /\ forall cn', GetVal u2 cn' j = GetVal u cn' j').
  { intros j' J'. destruct (perm_row u2 (with_skeys (skeys t) u) j' Wu2 (wf_with_skeys _ _ Wu)) as (j & J & Q); [destruct SHu; constructor; congruence|now apply Permutation_sym|exact J'|].
    exists j. split; [rewrite <- RCu; exact J|]. intros cn'. now rewrite <- Q. }
  assert (BACK : forall i', (0 <= i' < RowCount t)%Z -> exists i, (0 <= i < RowCount t)%Z /\ (has_partner (skeys t) tc i u2 <-> has_partner (skeys t) t i' u)).
  { intros i' I'. destruct (SYM i' I') as (i & I & Q). exists i. split; [exact I|]. unfold has_partner. rewrite RCu.
    split; intros (j & J & P).
    - destruct (perm_row _ _ j (wf_with_skeys _ _ Wu) Wu2 SHu PU) as (j' & J' & Q'); [rewrite RCu; lia|]. exists j'. split; [exact J'|].
      rewrite (partner_cong _ ts tc) in P by exact SKC. unfold partner in *. rewrite Forall_forall in *. intros k K. destruct (P k K) as (v & w & A & B & D). exists v, w. rewrite Q in A. rewrite Q' in B. auto.
    - destruct (SYMU j J) as (j' & J' & Q'). exists j'. split; [exact J'|]. rewrite (partner_cong _ ts tc) by exact SKC. unfold partner in *. rewrite Forall_forall in *. intros k K. destruct (P k K) as (v & w & A & B & D). exists v, w. rewrite Q, Q'. auto. }
  assert (BACK2 : forall i, (0 <= i < RowCount t)%Z -> exists i', (0 <= i' < RowCount t)%Z /\ (has_partner (skeys t) tc i u2 <-> has_partner (skeys t) t i' u)).
  { intros i I. destruct (perm_row _ _ i Wt Wts SHt PT) as (i' & I' & Q); [rewrite <- (sbc_rows _ _ SB), RCt; lia|]. exists i'. split; [exact I'|]. unfold has_partner. rewrite RCu.
    split; intros (j & J & P).
    - destruct (perm_row _ _ j (wf_with_skeys _ _ Wu) Wu2 SHu PU) as (j' & J' & Q'); [rewrite RCu; lia|]. exists j'. split; [exact J'|].
      rewrite (partner_cong _ ts tc) in P by exact SKC. unfold partner in *. rewrite Forall_forall in *. intros k K. destruct (P k K) as (v & w & A & B & D). exists v, w. rewrite Q in A. rewrite Q' in B. auto.
    - destruct (SYMU j J) as (j' & J' & Q'). exists j'. split; [exact J'|]. rewrite (partner_cong _ ts tc) by exact SKC. unfold partner in *. rewrite Forall_forall in *. intros k K. destruct (P k K) as (v & w & A & B & D). exists v, w. rewrite Q, Q'. auto. }
  clear FWD SYM SYMU.
  assert (SK5 : same_keys_cells (skeys t) tc t5).
  { intros k x I. apply (up_else _ _ _ _ _ U5). intros <-. apply NIK. now apply in_map. }
  exists h5, t5, u2, (Z.of_nat n), r. split.
  { unfold Nest. unfold hbind at 1. unfold asks at 1. rewrite (tab_nth _ _ _ HP). unfold hbind at 1.
    replace (SortKeyCount t =? 0)%Z with false by (unfold SortKeyCount; destruct (skeys t); [congruence|reflexivity]).
    unfold hbind at 1. rewrite (tab_nth _ _ _ HP), OH1. unfold hbind at 1. rewrite OH2. unfold hbind at 1. rewrite OH3.
    unfold hbind at 1. unfold asks at 1. rewrite (tab_nth _ _ _ HP3), key_columns_eq, (sh_keys _ _ SHt). unfold hbind at 1. rewrite OH4.
    unfold hbind at 1. unfold asks at 1. rewrite (tab_nth _ _ _ HP4). exact LOOP. }
  split; [exact HP5|]. split; [exact HQ5|]. split; [lia|]. split; [intros z Z N N'; rewrite F5 by (auto; lia); now apply F4|]. split.
  { constructor.
    - rewrite (sh_name _ _ SHu), (sh_cols _ _ SHu), (sh_types _ _ SHu). repeat split; auto.
    - exact SKu.
    - exact SU.
    - rewrite (sh_name _ _ (up_header _ _ _ _ _ U5)), (sh_keys _ _ (up_header _ _ _ _ _ U5)), (sbc_name _ _ SB), SKt, (sh_name _ _ SHt). auto.
    - rewrite (sh_cols _ _ (up_header _ _ _ _ _ U5)), (sh_types _ _ (up_header _ _ _ _ _ U5)), CC, CT, (sh_cols _ _ SHt), (sh_types _ _ SHt). auto.
    - replace (map (firstn (List.length (cnames t))) (rows t5)) with (rows ts); [exact PT|]. symmetry. rewrite <- (sh_cols _ _ SHt). fold c.
      apply firstn_rows; auto.
      + apply (up_wf _ _ _ _ _ U5).
      + rewrite (up_count _ _ _ _ _ U5). apply (sbc_rows _ _ SB).
      + rewrite (sh_cols _ _ (up_header _ _ _ _ _ U5)), CC, app_length. unfold c. lia.
      + intros d x D. rewrite <- (OLD d x) by (unfold ColCount; fold c; lia).
        destruct (col_at_ex tc d) as (cn' & CA); [unfold ColCount; rewrite CC, app_length; fold c; lia|].
        rewrite <- (GetVal_col_at tc d cn') by assumption. rewrite <- (GetVal_col_at t5 d cn') by (try apply (up_wf _ _ _ _ _ U5); now apply (same_header_col_at tc t5 d cn' (up_header _ _ _ _ _ U5))).
        apply (up_else _ _ _ _ _ U5). intros ->. assert (d = Z.of_nat c) by (eapply (col_at_inj tc); [exact Wtc|exact CA|now apply col_at_nat]). lia.
    - intros i j I J. rewrite (sh_keys _ _ (up_header _ _ _ _ _ U5)), SKt. rewrite (keys_lt_cong E tc t5) by exact SK5. rewrite (keys_lt_cong E ts tc) by exact SKC.
      rewrite <- (sh_keys _ _ SHt). apply ST; [exact I|]. rewrite (up_count _ _ _ _ _ U5), (sbc_rows _ _ SB) in J. exact J.
    - intros i I. rewrite <- SKu. apply (up_done _ _ _ _ _ U5). lia.
    - intros i I. apply (up_rest _ _ _ _ _ U5). rewrite RCt. lia. }
  rewrite RCt in RES. destruct RES as [[-> Q]|(-> & Q & NP)].
  - left. split; [reflexivity|]. split; [exact Q|]. intros i' I'. destruct (BACK i' I') as (i & I & X). apply X. apply PART. lia.
  - right. split; [reflexivity|]. split; [lia|]. split.
    + intros (j & J & P). apply NP. exists j. split; [exact J|]. now apply (partner_cong _ tc t5 _ u2 j SK5).
    + destruct (BACK2 (Z.of_nat n)) as (i' & I' & X); [lia|]. exists i'. split; [exact I'|]. now rewrite <- X.
Qed.
