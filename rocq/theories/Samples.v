(** Samples.v -- concrete tables used to show that hypotheses of theorems are met. *)
From Coq Require Import ZArith NArith List String Ascii Bool SpecFloat Permutation Lia.
From Verif Require Import Base Model_Names Model_Table Model_Sort Spec Spec_Sort.
From Verif Require Import Proofs_Lib Proofs_Table Proofs_Cells Proofs_Struct Proofs_Api Proofs_Pres.
Import ListNotations.
Local Open Scope string_scope.
Local Open Scope list_scope.

Lemma wf_NewNilTable : wf_table NewNilTable.
Proof.
  constructor; simpl; auto; try (now constructor).
  intros n i. destruct i; split; discriminate.
Qed.

Lemma run_pres {A} b (m : M A) t : pres b m -> wf_table t -> ptrs_lt b t -> wf_table (fst (run m b t)).
Proof.
  intros H W P. unfold run. destruct (H (mkS t b [])) as [G _]; auto.
  { split; auto. unfold next. simpl. now rewrite Nat.add_0_r. }
  destruct (m (mkS t b [])) as [s r]. apply G.
Qed.

(** A table with seven columns (one of every kind of cell) and three rows. *)
Definition sample_build : M unit :=
  SetName "Stock" ;;;
  AppendCol "id" "int" ;;;
  AppendCol "item" "string" ;;;
  AppendCol "price" "float64" ;;;
  AppendRows 2 ;;;
  AppendCol "code" "byte" ;;;
  AppendCol "data" "[]byte" ;;;
  AppendCol "child" "*Table" ;;;
  AppendCol "when" "time.Time" ;;;
  AppendRow ;;;
  SetT "int" "id" 0 (VInt KInt 7) ;;;
  SetT "int" "id" 1 (VInt KInt (-3)) ;;;
  SetT "int" "id" 2 (VInt KInt 7) ;;;
  SetVal "item" 0 (VString "spanner") ;;;
  SetVal "item" 1 (VString "hammer") ;;;
  SetT "uint8" "code" 2 (VInt KUint8 255).

Definition sample : table := Eval vm_compute in fst (run sample_build 1 NewNilTable).

Lemma sample_ok : run sample_build 1 NewNilTable = (sample, Ok tt).
Proof. vm_compute. reflexivity. Qed.

Lemma in_types ct : str_in ct all_types = true -> In ct all_types.
Proof. apply str_in_In. Qed.

Lemma pres_sample_build b : pres b sample_build.
Proof.
  unfold sample_build.
  pr; try (apply pres_SetT; try reflexivity; try exact I; now apply in_types);
      try (apply pres_SetVal; try reflexivity; exact I).
Qed.

Lemma wf_sample : wf_table sample.
Proof.
  change sample with (fst (sample, @Ok unit tt)). rewrite <- sample_ok.
  apply run_pres; [apply pres_sample_build|apply wf_NewNilTable|constructor].
Qed.
