(** Props_IsKey.v -- which columns are sort keys (C44). *)
From Coq Require Import ZArith List String Bool Lia.
From Verif Require Import Base Model_Names Model_Table Model_Sort Spec Spec_Sort Proofs_Lib Proofs_Table Samples Props_Sort.
Import ListNotations.
Local Open Scope string_scope.
Local Open Scope list_scope.

Lemma key_col cn ks : existsb (fun k => k_col k =? cn) ks = true <-> In cn (map k_col ks).
Proof.
  rewrite existsb_exists, in_map_iff. split; intros (k & A & B); exists k; [apply String.eqb_eq in B|split; [|apply String.eqb_eq]]; auto.
Qed.
(** IsSortKey tells whether one of the sort keys is the column, and refuses a column that the
    table has not. *)
Theorem C44_IsSortKey : forall t cn, wf_table t ->
  (IsSortKey t cn = Ok true <-> In cn (cnames t) /\ In cn (map k_col (skeys t)))
  /\ (IsSortKey t cn = Ok false <-> In cn (cnames t) /\ ~ In cn (map k_col (skeys t)))
  /\ (IsSortKey t cn = Err <-> ~ In cn (cnames t)).
Proof.
  intros t cn W. unfold IsSortKey. rewrite wf_HasCol by exact W. cbn [rbind]. pose proof (key_col cn (skeys t)) as K.
  destruct (in_dec string_dec cn (cnames t)) as [I|I]; [|split; [|split]; split; try discriminate; try tauto].
  destruct (existsb _ _); (split; [|split]; split; try discriminate; intuition congruence).
Qed.

(** After SetSortKeys the sort keys are the columns that it was called with, and no other ones. *)
Theorem C44_IsSortKey_after_SetSortKeys : forall t b cols t', wf_table t -> run (SetSortKeys cols) b t = (t', Ok tt) ->
  forall cn, In cn (cnames t) -> IsSortKey t' cn = Ok (if in_dec string_dec cn cols then true else false).
Proof.
  intros t b cols t' W R cn I. destruct (C18_SetSortKeys t b cols W) as [A B].
  assert (D : (exists ks, fresh_keys t cols ks) \/ exists cn, In cn cols /\ ~ exists ct, ColType t cn = Ok ct /\ In ct sortable_types).
  { clear. induction cols as [|c cols IH]; [left; exists []; constructor|]. destruct IH as [[ks F]|(x & X & N)]; [|right; exists x; split; [now right|exact N]].
    destruct (ColType t c) as [ct| |] eqn:C; [|right; exists c; split; [now left|]; intros (ct & E & _); congruence..].
    destruct (in_dec string_dec ct sortable_types) as [S|S]; [left; exists (mkKey c ct false :: ks); constructor; auto|right; exists c; split; [now left|]; intros (ct' & E & S'); congruence]. }
  destruct D as [[ks F]|X]; [|destruct (B X) as (u & E & _); congruence]. destruct (A ks F) as [E _]. rewrite R in E. injection E as ->.
  assert (N : map k_col ks = cols) by (clear - F; induction F as [|c k cs ks (<- & _) _ IH]; cbn [map]; congruence).
  pose proof (key_col cn ks) as K. rewrite N in K. unfold IsSortKey. change (HasCol (with_skeys ks t) cn) with (HasCol t cn). rewrite wf_HasCol by exact W. cbn [rbind].
  destruct (in_dec string_dec cn (cnames t)) as [_|Z]; [|contradiction]. change (skeys (with_skeys ks t)) with ks. f_equal.
  destruct (in_dec string_dec cn cols) as [J|J]; [now apply K|]. destruct (existsb _ ks) eqn:Q; [|reflexivity]. elim J. now apply K.
Qed.

(** A table with two columns of one type, of which one is a key *)
Example C44_IsSortKey_nonvacuous : exists t, run (SetName "T" ;;; AppendCol "a" "int" ;;; AppendCol "b" "int" ;;; SetSortKeys ["b"]) 0 NewNilTable = (t, Ok tt)
  /\ IsSortKey t "b" = Ok true /\ IsSortKey t "a" = Ok false /\ IsSortKey t "c" = Err.
Proof. eexists. split; [vm_compute; reflexivity|]. split; [|split]; vm_compute; reflexivity. Qed.

(** Axioms used by any theorem of this file. *)
Definition all_Props_IsKey := (@C44_IsSortKey, @C44_IsSortKey_after_SetSortKeys).
Print Assumptions all_Props_IsKey.
