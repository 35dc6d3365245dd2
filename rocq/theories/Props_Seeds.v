(** Props_Seeds.v -- property theorems: runs of Python that iterate sets in different orders (records/record.py:133-134, 227-231)
    Each theorem is closed by the lemma of the same statement in Seeds_main.v; the examples
    show that concrete, non-trivial cases meet the hypotheses. *)

From Verif Require Import Base Py Select Filler Classes Runtime Record Spec_Record Spec_Seeds Demo DemoRt DemoCls.
From Verif Require Dict_proofs Record_proofs.
Open Scope string_scope.
Open Scope list_scope.

From Verif Require Import Seeds_main.

(** C152: if the default factories of different fields do not influence each other, and there
    is no post_new, a construction with the same keywords from the same state gives the same in
    every run: the same error, or the same record, whose attributes may have been set in
    another order. *)
Theorem c152_orders_partial : forall {obj ty W} (R : Rt obj ty W) (o : @orders W) n c kw w,
  dict_ok (c_fields c) -> independent c -> no_post_new R c -> no_reserved kw ->
  match construct R (S n) c None kw w, construct (with_order R o) (S n) c None kw w with
  | (Ok x, w1), (Ok y, w2) => y = x /\ same_but_order R x w1 w2
  | (Raise e, w1), (Raise e', w2) => e' = e /\ w2 = w1
  | _, _ => False
  end.
Proof. exact (@c152_orders_partial_proof). Qed.
Print Assumptions c152_orders_partial.

(** C152, refuted otherwise: two fields whose factories draw numbers from one counter get them
    in an order that is not the order of their declaration, and is different in other runs. *)
Theorem c152_factories_refuted : exists (R : Rt dobj dty rstate) (o : @orders rstate) d c x w1 w2 w,
  make_class (rt_py R) d = Ok c /\ keys (c_fields c) = ["first"; "second"] /\ no_post_new R c /\
  construct R 1 c None [] w = (Ok x, w1) /\ construct (with_order R o) 1 c None [] w = (Ok x, w2) /\
  getattr R x "first" w1 = (Ok (DInt 0), w1) /\ getattr R x "second" w1 = (Ok (DInt 1), w1) /\
  getattr (with_order R o) x "first" w2 = (Ok (DInt 1), w2) /\ getattr (with_order R o) x "second" w2 = (Ok (DInt 0), w2).
Proof. exact (@c152_factories_refuted_proof). Qed.
Print Assumptions c152_factories_refuted.

(** C152: whatever the order in which the attributes were set, each can be read in both states
    and has the same value, and so have the attributes of all other records. *)
Theorem c152_reads : forall {obj ty W} (R : Rt obj ty W) x w1 w2 y i k v,
  same_but_order R x w1 w2 -> lookup R w1 y = Some i -> dict_ok (i_dict i) -> dget k (i_dict i) = Some v ->
  getattr R y k w1 = (Ok v, w1) /\ getattr R y k w2 = (Ok v, w2).
Proof. exact (@c152_reads_proof). Qed.
Print Assumptions c152_reads.

(** C152: nothing else depends on the order of sets: comparing, hashing, exporting, printing and
    assigning are the same in every run. *)
Theorem c152_others : forall {obj ty W} (R : Rt obj ty W) (o : @orders W) ctx,
  record_eq (with_order R o) ctx = record_eq R ctx /\ record_hash (with_order R o) ctx = record_hash R ctx /\
  compare (with_order R o) ctx = compare R ctx /\ to_dict (with_order R o) ctx = to_dict R ctx /\ to_json (with_order R o) ctx = to_json R ctx /\
  repr (with_order R o) ctx = repr R ctx /\ setattr (with_order R o) ctx = setattr R ctx /\ delattr (with_order R o) = delattr R.
Proof. exact (@c152_others_proof). Qed.
Print Assumptions c152_others.

(** two lists that do not influence each other, and one counter *)
Definition tick : M rstate dobj := fun w => (Ok DNone, RState (rs_lit w) (rs_heap w) (rs_log w ++ [DNone])).
Definition calm_decl := rdecl 0 false false (Some false) SCheck
  [("a", (an TInt, DefVal (DInt 1))); ("b", ((an TNone), DefFactory tick)); ("c", ((an TNone), DefFactory tick)); ("d", ((an TNone), DefFactory (ret DNone)))] [] no_post.
Example c152_case : let o := @backwards rstate in let c := made_of calm_decl in
  dict_ok (c_fields c) /\ independent c /\ no_post_new (demo_rt 0) c /\ keys (c_fields c) = ["a"; "b"; "c"; "d"] /\
  (exists w1 w2, construct (demo_rt 0) 1 c None [] (RState [] [] []) = (Ok (DRef (TRec 0) 0), w1) /\
     construct (with_order (demo_rt 0) o) 1 c None [] (RState [] [] []) = (Ok (DRef (TRec 0) 0), w2) /\ w1 <> w2).
Proof.
  cbv zeta. split; [repeat constructor; simpl; intuition discriminate|]. split.
  - intros k f g k' f' g' E D E' D' N w. unfold made_of in E, E'. cbn in E, E'.
    repeat match goal with H : (if ?b then _ else _) = Some _ |- _ => destruct b; [injection H as <-|] end; try discriminate; cbn in D, D';
      try discriminate; injection D as <-; injection D' as <-; reflexivity.
  - split; [intros x w; reflexivity|]. split; [reflexivity|]. eexists. eexists. split; [reflexivity|]. split; [reflexivity|]. discriminate.
Qed.
