(** Props_Given.v -- property theorems: Blacklists and whitelists as they are given (records/record.py:300-344)
    Each theorem is closed by the lemma of the same statement in Given_main.v; the examples
    show that concrete, non-trivial cases meet the hypotheses. *)

From Verif Require Import Base Py Select Filler Classes Spec_Classes Runtime Record Spec_Record Spec_Inst Given Spec_Given Demo DemoRt DemoCls.
From Verif Require Dict_proofs Filler_proofs Classes_proofs Record_proofs Inst_proofs Inst_main.
Open Scope string_scope.
Open Scope list_scope.

From Verif Require Import Given_main.

(** Containers whose [in] and [&] just say what is in them can be given in place of sets. *)
Theorem c144_same_partial : forall {obj ty W} (R : Rt obj ty W) c x a lb lw black white w,
  meets_tags black lb -> holds_names white lw ->
  to_dict_given R c x (e_defaults a) (e_sort a) black white w =
  to_dict_of R c x (ExportArgs (e_defaults a) (e_sort a) (BlackSet lb) lw) sel_empty w.
Proof. exact (@c144_same_partial_proof). Qed.
Print Assumptions c144_same_partial.

(** Sets are such containers: as a whitelist of names, and as a blacklist of tags. *)
Theorem c144_sets : forall {W} (names : list string) (tags : list nat),
  holds_names (W := W) (Many (set_of String.eqb names)) names /\ meets_tags (W := W) (Many (set_of Nat.eqb tags)) tags.
Proof. exact (@c144_sets_proof). Qed.
Print Assumptions c144_sets.

(** A list of tags, or any other container that does not know [&], can not be given as
    blacklist_tags: the export raises TypeError, for every class, object and state, if the class has
    a field that is not whitelisted and the values of the whitelisted ones can be read and
    compared. *)
Theorem c144_blacklist_refuted : forall {obj ty W} (R : Rt obj ty W) c x defaults s isin white lw w k f,
  made (rt_py R) c -> holds_names white lw -> dget k (c_fields c) = Some f -> ~ In k lw ->
  (forall k, In k lw -> In k (keys (c_fields c)) -> exists v, getattr R x k w = (Ok v, w)) ->
  exists m, to_dict_given R c x defaults s (Many (seq_of isin)) white w = (Raise (mkexc TypeError m), w).
Proof. exact (@c144_blacklist_refuted_proof). Qed.
Print Assumptions c144_blacklist_refuted.

Example c144_case :
  to_dict_given (demo_rt 0) giv_cls (DRef (TRec 0) 0) false SortNone (Many (set_of Nat.eqb [1; 2])) (Many (seq_of (fun k => ret (smem k ["q"])))) giv_state =
    (Ok [("x", DInt 3)], giv_state) /\
  to_dict_given (demo_rt 0) giv_cls (DRef (TRec 0) 0) false SortNone (One 1) (One "y") giv_state = (Ok [("x", DInt 3); ("y", DInt 1)], giv_state) /\
  to_dict_given (demo_rt 0) giv_cls (DRef (TRec 0) 0) false SortNone (Many (seq_of (fun t => ret (Nat.eqb t 1)))) (One "y") giv_state =
    (Raise (mkexc TypeError "unsupported operand type(s) for &"), giv_state).
Proof. repeat split. Qed.
Example c144_holds : @meets_tags rstate (Many (set_of Nat.eqb [1; 2])) [1; 2] /\ @holds_names rstate (Many (seq_of (fun k => ret (smem k ["q"])))) ["q"].
Proof.
  split.
  - intros s. eexists. split; [reflexivity|]. rewrite existsb_exists. split; intros (t & HT & H); exists t; (split; [assumption|]).
    + apply existsb_exists in H. destruct H as (t' & H & E). apply Nat.eqb_eq in E. subst. assumption.
    + apply existsb_exists. exists t. split; [assumption|apply Nat.eqb_refl].
  - intros k. eexists. split; [reflexivity|]. apply Dict_proofs.smem_In.
Qed.
