(** Props_Sorting.v -- property theorems: sorted(), min() and max() of ordered records (records/record.py:655-694)
    Each theorem is closed by the lemma of the same statement in Sorting_main.v; the examples
    show that concrete, non-trivial cases meet the hypotheses. *)

From Verif Require Import Base Py Select Filler Spec_Filler Classes Spec_Classes Runtime Record Spec_Record Spec_Inst Sorting Spec_Sorting Demo DemoRt DemoCls.
From Verif Require Dict_proofs Record_proofs Inst_proofs Inst_main.
Open Scope string_scope.
Open Scope list_scope.

From Verif Require Import Sorting_main.

(** C149: sorted() of instances of an ordered class, whatever their number, gives the same
    records, none less than one before it, and records that tie in their former order; nothing
    changes. *)
Theorem c149_sorted : forall {obj ty W} (R : Rt obj ty W) ctx eqb ltb D c w l,
  c_ordered c = true -> (forall k, In k (ordering_fields c) -> ordered_domain R eqb ltb (D k)) ->
  (forall x, In x l -> sortable R ctx D c w x) ->
  exists r, sort R ctx l w = (Ok r, w) /\ Permutation l r /\ ascending R eqb ltb c w r /\ same_order_of_ties R eqb c w l r.
Proof. exact (@c149_sorted_proof). Qed.
Print Assumptions c149_sorted.

(** C149: with reverse=True none is greater than one before it, and ties still keep their order. *)
Theorem c149_reverse : forall {obj ty W} (R : Rt obj ty W) ctx eqb ltb D c w l,
  c_ordered c = true -> (forall k, In k (ordering_fields c) -> ordered_domain R eqb ltb (D k)) ->
  (forall x, In x l -> sortable R ctx D c w x) ->
  exists r, sort_reverse R ctx l w = (Ok r, w) /\ Permutation l r /\ ascending R eqb ltb c w (rev r) /\ same_order_of_ties R eqb c w l r.
Proof. exact (@c149_reverse_proof). Qed.
Print Assumptions c149_reverse.

(** C149: min() and max() give the first of the least, and of the greatest, records. *)
Theorem c149_min_max : forall {obj ty W} (R : Rt obj ty W) ctx eqb ltb D c w l,
  c_ordered c = true -> (forall k, In k (ordering_fields c) -> ordered_domain R eqb ltb (D k)) ->
  (forall x, In x l -> sortable R ctx D c w x) -> l <> [] ->
  (exists m, minimum R ctx l w = (Ok m, w) /\ exists before after, l = before ++ m :: after /\
     (forall y, In y before -> less R eqb ltb c w m y) /\ (forall y, In y after -> ~ less R eqb ltb c w y m)) /\
  (exists m, maximum R ctx l w = (Ok m, w) /\ exists before after, l = before ++ m :: after /\
     (forall y, In y before -> less R eqb ltb c w y m) /\ (forall y, In y after -> ~ less R eqb ltb c w m y)).
Proof. exact (@c149_min_max_proof). Qed.
Print Assumptions c149_min_max.

(** C149: it does not matter how sorted() sorts.  Every way to sort the list that is right, and that
    asks only whether one record is less than another, gives the same list, as [sort] does;
    nothing changes. *)
Theorem c149_any_sort : forall {obj ty W} (R : Rt obj ty W) ctx eqb ltb D c w l s,
  c_ordered c = true -> (forall k, In k (ordering_fields c) -> ordered_domain R eqb ltb (D k)) ->
  (forall x, In x l -> sortable R ctx D c w x) -> sorts l s ->
  exists r, follow R ctx s w = (Ok r, w) /\ sort R ctx l w = (Ok r, w).
Proof. exact (@c149_any_sort_proof). Qed.
Print Assumptions c149_any_sort.

(** C149: min() and max() of no records are ValueErrors. *)
Theorem c149_empty : forall {obj ty W} (R : Rt obj ty W) ctx w,
  (exists e, minimum R ctx [] w = (Raise e, w) /\ exc_cls e = ValueError) /\
  (exists e, maximum R ctx [] w = (Raise e, w) /\ exc_cls e = ValueError).
Proof. exact (@c149_empty_proof). Qed.
Print Assumptions c149_empty.

From Verif Require Props_Inst.
Import Props_Inst.
(** z does not count: the first and the last record tie *)
Definition sort_state := RState [] [pO 2 0 9 SNone; pO 1 5 1 SNone; pO 1 4 1 SNone; pO 2 0 3 SNone] [].
Definition sort_list := [DRef (TRec 0) 0; DRef (TRec 0) 1; DRef (TRec 0) 2; DRef (TRec 0) 3].
Example c149_case :
  (forall x, In x sort_list -> sortable (demo_rt 0) ctxO (fun _ => ints) (made_of declO) sort_state x) /\
  (exists r, sort (demo_rt 0) ctxO sort_list sort_state = (Ok r, sort_state) /\ Permutation sort_list r /\
     ascending (demo_rt 0) dlit_eq ltb_int (made_of declO) sort_state r /\ same_order_of_ties (demo_rt 0) dlit_eq (made_of declO) sort_state sort_list r) /\
  sort (demo_rt 0) ctxO sort_list sort_state = (Ok [DRef (TRec 0) 2; DRef (TRec 0) 1; DRef (TRec 0) 0; DRef (TRec 0) 3], sort_state) /\
  sort_reverse (demo_rt 0) ctxO sort_list sort_state = (Ok [DRef (TRec 0) 0; DRef (TRec 0) 3; DRef (TRec 0) 1; DRef (TRec 0) 2], sort_state) /\
  minimum (demo_rt 0) ctxO sort_list sort_state = (Ok (DRef (TRec 0) 2), sort_state) /\
  maximum (demo_rt 0) ctxO sort_list sort_state = (Ok (DRef (TRec 0) 0), sort_state).
Proof.
  assert (G : forall x, In x sort_list -> sortable (demo_rt 0) ctxO (fun _ => ints) (made_of declO) sort_state x).
  { intros x HX. assert (E : exists a b c, lookup (demo_rt 0) sort_state x = Some (pO a b c SNone) /\ dtype x = TRec 0).
    { repeat destruct HX as [<-|HX]; try destruct HX; do 3 eexists; split; reflexivity. }
    destruct E as (a & b & c & E & T). exists (pO a b c SNone). destruct (pO_instance 0 sort_state x a b c SNone E T) as (A & B & _). split; [exact A|].
    intros k v HK HV. apply (B k v); [|exact HV]. destruct HK as [<-|[<-|[]]]; cbn; auto. }
  split; [exact G|]. split.
  - apply (c149_sorted (demo_rt 0) ctxO dlit_eq ltb_int (fun _ => ints) (made_of declO) sort_state sort_list eq_refl); [|exact G]. intros k _. apply ints_ordered.
  - vm_compute. auto.
Qed.

(** binary insertion of three records, as Python does it *)
Definition binary {obj} (a b c : obj) : strategy :=
  Ask b a (Ask c a (Ask c b (Done [c; b; a]) (Done [b; c; a])) (Done [b; a; c]))
          (Ask c b (Ask c a (Done [c; a; b]) (Done [a; c; b])) (Done [a; b; c])).
Example c149_binary : forall obj (a b c : obj), sorts [a; b; c] (binary a b c).
Proof.
  intros obj a b c. split; [cbn; tauto|]. intros lt (IRR & TRANS & WEAK).
  assert (IA : In a [a; b; c]) by (left; reflexivity). assert (IB : In b [a; b; c]) by (right; left; reflexivity).
  assert (IC : In c [a; b; c]) by (right; right; left; reflexivity).
  assert (ASYM : forall x y, In x [a; b; c] -> In y [a; b; c] -> lt x y = true -> lt y x = false).
  { intros x y IX IY E. destruct (lt y x) eqn:E'; [|reflexivity]. pose proof (TRANS x y x IX IY IX E E'). rewrite IRR in H by exact IX. discriminate. }
  assert (FIN : forall x y z, In x [a; b; c] -> In y [a; b; c] -> In z [a; b; c] -> lt y x = false -> lt z y = false ->
    forall before u after v, [x; y; z] = before ++ u :: after -> In v after -> lt v u = false).
  { intros x y z IX IY IZ E1 E2 before u after v E HV. destruct before as [|d1 [|d2 [|d3 [|d4 before]]]]; cbn in E; try discriminate; injection E; intros; subst.
    - destruct HV as [<-|[<-|[]]]; [exact E1|]. apply (WEAK z y u); assumption.
    - destruct HV as [<-|[]]. exact E2.
    - destruct HV. }
  cbn [binary outcome_of].
  destruct (lt b a) eqn:BA; [destruct (lt c a) eqn:CA; [destruct (lt c b) eqn:CB|]|destruct (lt c b) eqn:CB; [destruct (lt c a) eqn:CA|]];
    (split; [|split]).
  - apply (Permutation_rev [a; b; c]).
  - apply FIN; auto.
  - intros p HP. cbn. destruct (p a) eqn:PA, (p b) eqn:PB, (p c) eqn:PC; try reflexivity; exfalso;
      try (pose proof (HP b a IB IA PB PA); congruence); try (pose proof (HP c a IC IA PC PA); congruence); pose proof (HP c b IC IB PC PB); congruence.
  - change [b; c; a] with ([b; c] ++ [a]). apply Permutation_cons_append.
  - apply FIN; auto.
  - intros p HP. cbn. destruct (p a) eqn:PA, (p b) eqn:PB, (p c) eqn:PC; try reflexivity; exfalso;
      try (pose proof (HP b a IB IA PB PA); congruence); pose proof (HP c a IC IA PC PA); congruence.
  - apply perm_swap.
  - apply FIN; auto.
  - intros p HP. cbn. destruct (p a) eqn:PA, (p b) eqn:PB, (p c) eqn:PC; try reflexivity; exfalso; pose proof (HP b a IB IA PB PA); congruence.
  - eapply Permutation_trans; [apply perm_skip, perm_swap|apply perm_swap].
  - apply FIN; auto.
  - intros p HP. cbn. destruct (p a) eqn:PA, (p b) eqn:PB, (p c) eqn:PC; try reflexivity; exfalso;
      try (pose proof (HP c b IC IB PC PB); congruence); pose proof (HP c a IC IA PC PA); congruence.
  - apply perm_skip, perm_swap.
  - apply FIN; auto.
  - intros p HP. cbn. destruct (p a) eqn:PA, (p b) eqn:PB, (p c) eqn:PC; try reflexivity; exfalso; pose proof (HP c b IC IB PC PB); congruence.
  - reflexivity.
  - apply FIN; auto.
  - reflexivity.
Qed.
