(** Props_Deep.v -- property theorems: deep copies of structures
    Each theorem is closed by the lemma of the same statement in Deep_main.v; the examples
    show that concrete, non-trivial cases meet the hypotheses. *)

From Verif Require Import Base Deep Spec_Deep.
Open Scope string_scope.
Open Scope list_scope.

From Verif Require Import Deep_main.

(** C118, what does hold: a deep copy of a list, dict or record in which no record refers to
    itself is a copy of the whole structure: objects that are shared are copied once, so that
    their copies are shared, and nothing else is. *)
Theorem c118_sharing_partial : forall old fuel x y new,
  closed old -> no_record_cycle old -> x < List.length old -> (forall xs, nth_error old x <> Some (NTuple xs)) ->
  deep_copy_of old fuel x = Some (y, new) ->
  exists f, f x = y /\ is_copy old new x f.
Proof. exact (@c118_sharing_partial_proof). Qed.
Print Assumptions c118_sharing_partial.

(** C118: copying a structure without cycles ends. *)
Theorem c118_ends : forall old (rank : nat -> nat) x,
  (forall a n b, nth_error old a = Some n -> In b (children n) -> rank b < rank a) ->
  forall fuel, rank x < fuel -> exists y new, deep_copy_of old fuel x = Some (y, new).
Proof. exact (@c118_ends_proof). Qed.
Print Assumptions c118_ends.

(** C118 does not hold for tuples of records: two records share a list, their copies do not. *)
Theorem c118_tuple_refuted : exists old x r1 r2 l y new r1' r2' l1 l2,
  closed old /\ no_record_cycle old /\
  nth_error old x = Some (NTuple [r1; r2]) /\ nth_error old r1 = Some (NRec 0 [("x", l)]) /\ nth_error old r2 = Some (NRec 0 [("x", l)]) /\
  nth_error old l = Some (NList []) /\
  deep_copy_of old 5 x = Some (y, new) /\
  nth_error new y = Some (NTuple [r1'; r2']) /\ nth_error new r1' = Some (NRec 0 [("x", l1)]) /\ nth_error new r2' = Some (NRec 0 [("x", l2)]) /\
  l1 <> l2.
Proof. exact (@c118_tuple_refuted_proof). Qed.
Print Assumptions c118_tuple_refuted.

(** C118 does not hold for records in a cycle: a record that refers to itself directly cannot
    be copied, ... *)
Theorem c118_self_refuted : forall fuel, deep_copy_of [NRec 0 [("x", 0)]] fuel 0 = None.
Proof. exact (@c118_self_refuted_proof). Qed.
Print Assumptions c118_self_refuted.

(** ... and the copy of one that refers to itself over a list does not refer to itself. *)
Theorem c118_cycle_refuted : exists old r l y new l' r',
  closed old /\ nth_error old r = Some (NRec 0 [("x", l)]) /\ nth_error old l = Some (NList [r]) /\
  deep_copy_of old 5 r = Some (y, new) /\
  nth_error new y = Some (NRec 0 [("x", l')]) /\ nth_error new l' = Some (NList [r']) /\ r' <> y.
Proof. exact (@c118_cycle_refuted_proof). Qed.
Print Assumptions c118_cycle_refuted.

(** the same two records in a list: their copies share the copy of the list they share; there
    is also a list that contains itself *)
Definition shared_nodes : list node := [NList []; NRec 0 [("x", 0)]; NRec 0 [("x", 0); ("y", 3)]; NList [3; 1]; NAtom; NTuple [4; 4]; NTuple [5; 3]; NList [1; 2; 6]].
Example c118_case : closed shared_nodes /\ no_record_cycle shared_nodes /\ 
  deep_copy_of shared_nodes 9 7 = Some (8, shared_nodes ++ [NList [10; 12; 13]; NList []; NRec 0 [("x", 9)]; NList [11; 10]; NRec 0 [("x", 9); ("y", 11)]; NTuple [5; 11]]).
Proof.
  split; [|split].
  - intros a n b E HI. do 8 (destruct a as [|a]; [cbn in E; injection E as <-; cbn in HI; cbn; lia|]). destruct a; discriminate.
  - assert (R : forall a b, reaches shared_nodes a b -> (a = 0 -> False) /\ (a = 1 -> b = 0) /\ (a = 2 \/ a = 3 -> b = 0 \/ b = 1 \/ b = 3)).
    { intros a b H. induction H as [a n b E HI|a n b c E HI _ IH];
        (do 8 (destruct a as [|a]; [cbn in E; injection E as <-; cbn in HI; lia|]); destruct a; discriminate). }
    intros a c fs E H. apply R in H. do 8 (destruct a as [|a]; [cbn in E; first [discriminate|lia]|]). destruct a; discriminate.
  - vm_compute. reflexivity.
Qed.
