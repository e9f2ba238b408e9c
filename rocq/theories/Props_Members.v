(** Props_Members.v -- C50: of two members of an object with the same key the later one counts. *)
From Coq Require Import ZArith NArith List String Ascii Bool Lia.
From Verif Require Import Base Model_Names Model_Table Model_Heap Model_Lex Model_Json Spec_Foreign Spec_Indent Proofs_Indent Props_JsonGrammar Props_Indent.
Import ListNotations.
Local Open Scope string_scope.
Local Open Scope list_scope.

Definition key_of (x : string * string * doc) : string := snd (fst x).
(** The document d is the value of the last member of the object whose key is k. *)
Definition last_member (m : list (string * string * doc)) (k : string) (d : doc) : Prop :=
  exists before spelled after, m = before ++ (spelled, k, d) :: after /\ ~ In k (map key_of after).

Lemma jput_in k v : forall m k' v', NoDup (map fst m) -> In (k', v') (jput k v m) <-> (k' = k /\ v' = v) \/ (k' <> k /\ In (k', v') m).
Proof.
  induction m as [|[a b] m IH]; intros k' v' ND; cbn [jput].
  - cbn. intuition congruence.
  - cbn [map fst] in ND. inversion ND as [|? ? NI ND']; subst. destruct (String.eqb_spec a k) as [->|NE].
    + cbn [In]. split.
      * intros [[= <- <-]|I]; [auto|]. right. split; [|auto]. intros ->. apply NI. apply in_map_iff. exists (k, v'). auto.
      * intros [[-> ->]|[N [[= <- <-]|I]]]; auto. congruence.
    + cbn [In]. rewrite (IH k' v' ND'). intuition congruence.
Qed.
Lemma jput_keys k v : forall m, NoDup (map fst m) -> NoDup (map fst (jput k v m)) /\ forall a, In a (map fst (jput k v m)) -> a = k \/ In a (map fst m).
Proof.
  induction m as [|[a b] m IH]; intros ND; cbn [jput].
  - split; [repeat constructor; intros []|]. cbn. intuition.
  - cbn [map fst] in ND. inversion ND as [|? ? NI ND']; subst. destruct (String.eqb_spec a k) as [->|NE]; cbn [map fst].
    + split; [exact ND|]. cbn. intuition.
    + destruct (IH ND') as [A B]. split; [constructor; [|exact A]|].
      * intros I. destruct (B a I); [congruence|contradiction].
      * intros x [<-|I]; [right; now left|]. destruct (B x I); [now left|right; now right].
Qed.

Lemma last_member_cons spelled k0 d0 m k d : last_member ((spelled, k0, d0) :: m) k d <->
  last_member m k d \/ (k = k0 /\ d = d0 /\ ~ In k (map key_of m)).
Proof.
  split.
  - intros ([|x b] & sp & a & E & N); cbn [app] in E; inversion E; subst; [right; auto|]. left. exists b, sp, a. auto.
  - intros [(b & sp & a & -> & N)|(-> & -> & N)]; [exists ((spelled, k0, d0) :: b), sp, a; auto|exists [], spelled, m; auto].
Qed.
Lemma last_member_key m k d : last_member m k d -> In k (map key_of m).
Proof. intros (b & sp & a & -> & _). rewrite map_app. apply in_or_app. right. now left. Qed.
Lemma key_last m k : In k (map key_of m) -> exists d, last_member m k d.
Proof.
  induction m as [|[[sp k0] d0] m IH]; [intros []|]. cbn [map key_of fst snd]. intros I. destruct (in_dec string_dec k (map key_of m)) as [J|J].
  - destruct (IH J) as (d & L). exists d. apply last_member_cons. now left.
  - destruct I as [<-|I]; [|contradiction]. exists d0. apply last_member_cons. right. auto.
Qed.

Lemma put_all_in : forall m acc k j, NoDup (map fst acc) ->
  NoDup (map fst (put_all m acc))
  /\ (In (k, j) (put_all m acc) <-> (exists d, last_member m k d /\ j = value_of d) \/ (~ In k (map key_of m) /\ In (k, j) acc)).
Proof.
  induction m as [|[[sp k0] d0] m IH]; intros acc k j ND; cbn [put_all].
  - split; [exact ND|]. split; [intros I; right; split; [intros []|exact I]|]. intros [(d & (b & s & a & E & _) & _)|[_ I]]; [destruct b; discriminate E|exact I].
  - destruct (jput_keys k0 (value_of d0) acc ND) as [ND' _]. destruct (IH (jput k0 (value_of d0) acc) k j ND') as [A B]. split; [exact A|]. rewrite B, (jput_in _ _ _ _ _ ND).
    cbn [map key_of fst snd In]. split.
    + intros [(d & L & ->)|[N [[-> ->]|[NE I]]]].
      * left. exists d. split; [apply last_member_cons; now left|reflexivity].
      * left. exists d0. split; [apply last_member_cons; right; auto|reflexivity].
      * right. split; [|exact I]. intros [E|E]; [now apply NE|contradiction].
    + intros [(d & L & ->)|[N I]].
      * apply last_member_cons in L as [L|(-> & -> & N)]; [left; eauto|right; split; [exact N|left; auto]].
      * right. split; [intros J; apply N; now right|]. right. split; [intros ->; apply N; now left|exact I].
Qed.

(** Whatever text of an object is read, with any number of members of the same key: each key
    occurs once in what is read, with the value of the last member of that key. *)
Theorem C50_JSON_members : forall n t m rest, spells n t (Obj m) -> no_number rest ->
  exists l, json_value n (t ++ rest) = Some (JObj l, rest) /\ NoDup (map fst l)
    /\ forall k j, In (k, j) l <-> exists d, last_member m k d /\ j = value_of d.
Proof.
  intros n t m rest S N. exists (put_all m []). split; [rewrite (C50_JSON_documents_complete _ _ _ _ S N); now rewrite value_of_obj|].
  split; [apply (put_all_in m [] "" JNull); constructor|]. intros k j. destruct (put_all_in m [] k j) as [_ ->]; [constructor|]. cbn [In]. intuition.
Qed.

(** Every key of the text is read. *)
Theorem C50_JSON_no_member_lost : forall n t m rest l, spells n t (Obj m) -> no_number rest -> json_value n (t ++ rest) = Some (JObj l, rest) ->
  forall k, In k (map fst l) <-> In k (map key_of m).
Proof.
  intros n t m rest l S N E k. destruct (C50_JSON_members n t m rest S N) as (l' & E' & _ & I). rewrite E in E'. injection E' as <-. split.
  - intros J. apply in_map_iff in J as ((k' & j) & <- & J). apply I in J as (d & L & _). eapply last_member_key; eauto.
  - intros J. destruct (key_last _ _ J) as (d & L). apply in_map_iff. exists (k, value_of d). split; [reflexivity|]. apply I. eauto.
Qed.

(** An object with two members of the same key *)
Definition twice : string := "{" ++ in_quotes "a" ++ ":1," ++ in_quotes "b" ++ ":2," ++ in_quotes "a" ++ ":3}".
Example C50_members_nonvacuous :
  json_value 1 twice = Some (JObj [("a", JNum "3"); ("b", JNum "2")], "") /\ exists d, spells 1 twice d /\ exists m, d = Obj m /\ m <> [].
Proof.
  assert (E : json_value 1 twice = Some (JObj [("a", JNum "3"); ("b", JNum "2")], "")) by (vm_compute; reflexivity).
  split; [exact E|]. destruct (C50_JSON_documents_sound 1 twice _ "" E) as (t & d & T & S & V). exists d.
  assert (t = twice) as ->. { rewrite T. clear. induction t as [|c t IH]; [reflexivity|]. cbn. now rewrite <- IH. }
  split; [exact S|]. destruct d as [x j|l|m].
  - exfalso. cbn [value_of] in V. subst j. cbn [spells] in S. inversion S as [t0 j0 SC| | | |]; subst. inversion SC.
  - discriminate V.
  - exists m. split; [reflexivity|]. intros ->. discriminate V.
Qed.

(** Axioms used by any theorem of this file. *)
Definition all_Props_Members :=
  (@C50_JSON_members,
   @C50_JSON_no_member_lost).
Print Assumptions all_Props_Members.
