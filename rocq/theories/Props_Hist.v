(** Props_Hist.v -- property theorems: histories of programs: what exports, constructions and assignments do to existing records; interrupts
    Each theorem is closed by the lemma of the same statement in Hist_main.v; the examples
    show that concrete, non-trivial cases meet the hypotheses. *)

From Verif Require Import Base Py Select Filler Spec_Filler Classes Spec_Classes Runtime Record Spec_Record Spec_Inst Spec_Hist Demo DemoRt DemoCls.
From Verif Require Dict_proofs Filler_proofs Filler_main Filler_inv Classes_main Record_proofs Inst_proofs Inst_main Record_inv Hist_proofs.
Open Scope string_scope.
Open Scope list_scope.

From Verif Require Import Hist_main.

(** C34: exporting, comparing and hashing change no attribute of any record; all that can
    happen is that a frozen record gets its hash.  This holds for the arguments and Selects
    of all exports, and also if they raise.  Other code that is called, like == of the field
    values, must keep to that too. *)
Theorem c34_exports : forall {obj ty W} (R : Rt obj ty W) ctx,
  objects_obey R (keeping (only_hashed R ctx)) ->
  (forall t c, ctx t = Some c -> made (rt_py R) c /\
     forall k f g, dget k (c_fields c) = Some f -> f_default f = DefFactory g -> obeys (keeping (only_hashed R ctx)) g) ->
  forall w x y a s o,
    only_hashed R ctx w (snd (to_dict R ctx x a s w)) /\ only_hashed R ctx w (snd (to_json R ctx x a s w)) /\
    only_hashed R ctx w (snd (repr R ctx x a w)) /\ only_hashed R ctx w (snd (compare R ctx o x y w)) /\
    only_hashed R ctx w (snd (record_eq R ctx x y w)) /\ only_hashed R ctx w (snd (record_hash R ctx x w)).
Proof. exact (@c34_exports_proof). Qed.
Print Assumptions c34_exports.

(** C34: exports and order comparisons do not even fill in hashes, if the code that they call
    does not. *)
Theorem c34_untouched : forall {obj ty W} (R : Rt obj ty W) ctx,
  objects_obey R (keeping (all_kept R)) ->
  (forall t c, ctx t = Some c -> made (rt_py R) c /\
     forall k f g, dget k (c_fields c) = Some f -> f_default f = DefFactory g -> obeys (keeping (all_kept R)) g) ->
  forall w x y a s o,
    all_kept R w (snd (to_dict R ctx x a s w)) /\ all_kept R w (snd (to_json R ctx x a s w)) /\
    all_kept R w (snd (repr R ctx x a w)) /\ all_kept R w (snd (compare R ctx o x y w)).
Proof. exact (@c34_untouched_proof). Qed.
Print Assumptions c34_untouched.

(** C34: a whole history of exports, comparisons, hashes, copies and constructions, in any
    order, changes no existing record, but for hashes. *)
Theorem c34_history : forall {obj ty W} (R : Rt obj ty W) ctx,
  program_obeys R (keeping (only_hashed R ctx)) ctx ->
  forall l w, (forall a, In a l -> allowed ctx (only_hashed R ctx) a /\ forall x k v, a <> ASet x k v) ->
  only_hashed R ctx w (after_all R ctx l w).
Proof. exact (@c34_history_proof). Qed.
Print Assumptions c34_history.

(** C49: no history of assignments, comparisons, hashes, exports, copies and constructions
    changes a field of a record of a frozen class.  User code that is called meanwhile may
    do whatever it likes, as long as it does not change frozen records in other ways. *)
Theorem c49_history : forall {obj ty W} (R : Rt obj ty W) ctx,
  program_obeys R (keeping (frozen_kept R ctx)) ctx ->
  forall l w, (forall a, In a l -> allowed ctx (frozen_kept R ctx) a) ->
  frozen_kept R ctx w (after_all R ctx l w).
Proof. exact (@c49_history_proof). Qed.
Print Assumptions c49_history.

(** C49: an assignment to an attribute of a record of a frozen class raises TypeError and
    changes nothing. *)
Theorem c49_assignment : forall {obj ty W} (R : Rt obj ty W) ctx c w x i k v,
  instance_of R ctx c w x i -> c_frozen c = true -> k <> "_hash" ->
  exists m, setattr R ctx x k v w = (Raise (mkexc TypeError m), w).
Proof. exact (@c49_assignment_proof). Qed.
Print Assumptions c49_assignment.

(** C49: an assignment to an attribute of a record that is not frozen does just that. *)
Theorem c49_not_frozen : forall {obj ty W} (R : Rt obj ty W) ctx c w x i k v,
  instance_of R ctx c w x i -> c_frozen c = false -> k <> "_hash" ->
  exists w', setattr R ctx x k v w = (Ok tt, w') /\
    getattr R x k w' = (Ok v, w') /\
    (forall k' j, k' <> k -> lookup R w' x = Some j -> dget k' (i_dict j) = dget k' (i_dict i)) /\
    (forall y, deref R y <> deref R x -> lookup R w' y = lookup R w y).
Proof. exact (@c49_not_frozen_proof). Qed.
Print Assumptions c49_not_frozen.

(** C50 fails for every frozen record: del p.k works, and the field is gone. *)
Theorem c50_delete_refuted : forall {obj ty W} (R : Rt obj ty W) ctx c w x i k,
  instance_of R ctx c w x i -> c_frozen c = true -> In k (keys (c_fields c)) -> k <> "_hash" -> dict_ok (i_dict i) ->
  exists w' j, delattr R x k w = (Ok tt, w') /\ lookup R w x = Some i /\ (exists v, dget k (i_dict i) = Some v) /\
    lookup R w' x = Some j /\ dget k (i_dict j) = None.
Proof. exact (@c50_delete_refuted_proof). Qed.
Print Assumptions c50_delete_refuted.

(** C51 fails for every frozen record: an assignment to p._hash changes hash(p). *)
Theorem c51_assignment_refuted : forall {obj ty W} (R : Rt obj ty W) ctx c w x i v z,
  instance_of R ctx c w x i -> c_frozen c = true -> int_of R v = Some z -> v <> o_none (rt_py R) ->
  exists w', setattr R ctx x "_hash" v w = (Ok tt, w') /\ record_hash R ctx x w' = (Ok z, w').
Proof. exact (@c51_assignment_refuted_proof). Qed.
Print Assumptions c51_assignment_refuted.

(** C51 holds for histories in which nothing is assigned to p._hash and no other code does
    that: once hash(p) has returned a number, it always returns that number, without
    calling anything. *)
Theorem c51_history_partial : forall {obj ty W} (R : Rt obj ty W) ctx,
  program_obeys R (keeping (hashes_kept R)) ctx ->
  forall c w x i z w1, instance_of R ctx c w x i -> c_frozen c = true -> record_hash R ctx x w = (Ok z, w1) ->
  forall l, (forall a, In a l -> allowed ctx (hashes_kept R) a /\ no_hash_assignment a) ->
  record_hash R ctx x (after_all R ctx l w1) = (Ok z, after_all R ctx l w1).
Proof. exact (@c51_history_partial_proof). Qed.
Print Assumptions c51_history_partial.

(** C19: if user code is interrupted (it raises an exception that is not an Exception, or is
    passed one by code that it calls) while the library is constructing, parsing, exporting,
    comparing, hashing or copying records, that exception is what the library call raises:
    it is not replaced, and the call does not return. *)
Theorem c19_records : forall {obj ty W} (R : Rt obj ty W) ctx (pending : W -> option exc),
  (forall h w, pending (set_heap R h w) = pending w) ->
  (forall l t w, pending (lit_grow (rt_py R) l t w) = pending w) ->
  program_obeys R (passes_interrupts pending) ctx ->
  (forall t c n, ctx t = Some c ->
     (forall pos kw, obeys (passes_interrupts pending) (construct R n c pos kw)) /\
     (forall s ms kw, obeys (passes_interrupts pending) (from_mapping R n c s ms kw)) /\
     (forall s v ms kw, obeys (passes_interrupts pending) (from_instance R n c s v ms kw)) /\
     (forall s v, obeys (passes_interrupts pending) (from_json R n c s v)) /\
     (forall v, obeys (passes_interrupts pending) (parse R n c v)) /\
     (forall v, obeys (passes_interrupts pending) (from_pickled R n c v))) /\
  (forall x y a s o n,
     obeys (passes_interrupts pending) (to_dict R ctx x a s) /\ obeys (passes_interrupts pending) (to_json R ctx x a s) /\
     obeys (passes_interrupts pending) (repr R ctx x a) /\ obeys (passes_interrupts pending) (compare R ctx o x y) /\
     obeys (passes_interrupts pending) (record_eq R ctx x y) /\ obeys (passes_interrupts pending) (record_hash R ctx x) /\
     obeys (passes_interrupts pending) (copy R ctx n x) /\ obeys (passes_interrupts pending) (deepcopy R ctx n x)).
Proof. exact (@c19_records_proof). Qed.
Print Assumptions c19_records.

(** C78 holds for classes whose post_new returns None, the new record or anything else that was
    no record before: unpickling a record changes no existing record, whether it succeeds or not. *)
Theorem c78_fresh_result_partial : forall {obj ty W} (R : Rt obj ty W) ctx,
  program_obeys R (keeping (only_hashed R ctx)) ctx ->
  forall c n w x i, instance_of R ctx c w x i -> gives_no_old_record R c -> fields_callable c ->
  only_hashed R ctx w (snd (pickle_copy R ctx n x w)).
Proof. exact (@c78_fresh_result_partial_proof). Qed.
Print Assumptions c78_fresh_result_partial.

(** C78 holds for classes without post_new: unpickling a record changes no existing record,
    whether it succeeds or not. *)
Theorem c78_no_post_new_partial : forall {obj ty W} (R : Rt obj ty W) ctx,
  program_obeys R (keeping (only_hashed R ctx)) ctx ->
  forall c n w x i, instance_of R ctx c w x i -> no_post_new R c -> fields_callable c ->
  only_hashed R ctx w (snd (pickle_copy R ctx n x w)).
Proof. exact (@c78_no_post_new_partial_proof). Qed.
Print Assumptions c78_no_post_new_partial.

(** C78 fails for classes whose post_new returns an existing record: whenever cls( **kw ) would
    return the record y, unpickling writes the pickled state into y, even if it is frozen. *)
Theorem c78_post_new_refuted : forall {obj ty W} (R : Rt obj ty W) n c kw state h w y w1 j,
  no_reserved kw -> construct R n c None kw w = (Ok y, w1) -> lookup R w1 y = Some j -> dict_ok state ->
  exists w2 j', unpickle R n c kw state h w = (Ok y, w2) /\ lookup R w2 y = Some j' /\
    forall k v, dget k state = Some v -> dget k (i_dict j') = Some v.
Proof. exact (@c78_post_new_refuted_proof). Qed.
Print Assumptions c78_post_new_refuted.

(** a frozen class whose post_new always returns the first instance *)
Example c78_post_new_case :
  exists (c : @cls dobj dty rstate) ctx w x y w', made rt0 c /\ c_frozen c = true /\ ctx (c_ty c) = Some c /\
  fst (getattr (demo_rt 0) y "x" w) = Ok (DInt 1) /\ x <> y /\
  pickle_copy (demo_rt 0) ctx 1 x w = (Ok y, w') /\
  fst (getattr (demo_rt 0) y "x" w') = Ok (DInt 2).
Proof.
  exists (made_of shared_decl), shared_ctx, shared_state, (DRef (TRec 0) 1), (DRef (TRec 0) 0). eexists.
  split; [|split; [reflexivity|split; [reflexivity|split; [reflexivity|split; [discriminate|split; [vm_compute|]; reflexivity]]]]].
  apply (made_class _ shared_decl); [reflexivity|repeat constructor; simpl; tauto|]. intros b [H|[]]. discriminate.
Qed.

(** C99: what the filler of a field and its default guarantee of the values that they give
    ([Q] can be any such guarantee: that they are of a type, within bounds, ...) holds of
    that field in every record and at any time, whatever the program does, in any order:
    constructing, also with constructions that fail, parsing, copying, exporting, comparing,
    hashing, assigning to fields of frozen records -- but for assignments of other values to
    fields of records that are not frozen. *)
Theorem c99_always_partial : forall {obj ty W} (R : Rt obj ty W) ctx (Q : ty -> string -> obj -> Prop),
  program_obeys R (keeping (stays_right R ctx Q)) ctx ->
  (forall t c, ctx t = Some c -> guarantees R Q c) ->
  forall l w, (forall a, In a l -> allowed ctx (stays_right R ctx Q) a) -> assigns_right R ctx Q l w ->
  all_right R ctx Q w -> all_right R ctx Q (after_all R ctx l w).
Proof. exact (@c99_always_partial_proof). Qed.
Print Assumptions c99_always_partial.

(** C99 for types: with validators that only assert, honest containers and defaults of the
    right types, every field of every record has a value of its declared type at any time,
    to any depth. *)
Theorem c99_types_partial : forall {obj ty W} (R : Rt obj ty W) ctx,
  honest_containers (rt_py R) ->
  program_obeys R (keeping (stays_right R ctx (of_declared_type R ctx))) ctx ->
  (forall t c k f, ctx t = Some c -> dget k (c_fields c) = Some f -> forall w d w', default_of f w d w' -> of_declared_type R ctx t k d) ->
  forall l w, (forall a, In a l -> allowed ctx (stays_right R ctx (of_declared_type R ctx)) a) -> assigns_right R ctx (of_declared_type R ctx) l w ->
  all_right R ctx (of_declared_type R ctx) w -> all_right R ctx (of_declared_type R ctx) (after_all R ctx l w).
Proof. exact (@c99_types_partial_proof). Qed.
Print Assumptions c99_types_partial.

(** C99 fails for assignments to records that are not frozen: nothing is filled or checked.
    Whatever is right for a field, assigning anything else is possible. *)
Theorem c99_assignment_refuted : forall {obj ty W} (R : Rt obj ty W) ctx Q c w x i k v,
  instance_of R ctx c w x i -> c_frozen c = false -> In k (keys (c_fields c)) -> k <> "_hash" -> dict_ok (i_dict i) ->
  ~ Q (c_ty c) k v ->
  exists w', setattr R ctx x k v w = (Ok tt, w') /\ ~ all_right R ctx Q w'.
Proof. exact (@c99_assignment_refuted_proof). Qed.
Print Assumptions c99_assignment_refuted.

(** None is assigned to an int field *)
Example c99_assignment_case :
  exists (ctx : dty -> option (@cls dobj dty rstate)) Q l w,
    program_obeys (demo_rt 0) (keeping (stays_right (demo_rt 0) ctx Q)) ctx /\
    (forall t c, ctx t = Some c -> guarantees (demo_rt 0) Q c) /\
    (forall a, In a l -> allowed ctx (stays_right (demo_rt 0) ctx Q) a) /\
    all_right (demo_rt 0) ctx Q w /\ ~ all_right (demo_rt 0) ctx Q (after_all (demo_rt 0) ctx l w).
Proof.
  exists note_ctx, (fun _ _ v => isinstance rt0 v TInt = true), [ASet (DRef (TRec 1) 1) "x" DNone], note_state.
  split; [|split; [|split; [|split]]].
  - apply note_program; [intros w H; exact H|intros w e _ H; exact H|]. intros w x. apply right_heap. reflexivity.
  - exact note_guarantees.
  - intros a [<-|[]]. exact I.
  - exact note_right.
  - intro H. specialize (H (DRef (TRec 1) 1) (Inst (TRec 1) [("x", DNone)] SUnset) (made_of (note_decl 1 false)) "x" DNone eq_refl eq_refl (or_introl eq_refl) eq_refl). discriminate.
Qed.

From Verif Require Props_Filler.
(** the program tries to change the frozen record, hashes it, copies it, changes the other
    record and makes a new one from it *)
Definition note_history : list (@action dobj dty rstate) :=
  [ASet (DRef (TRec 0) 0) "x" (DInt 9); AHash (DRef (TRec 0) 0); AEq (DRef (TRec 0) 0) (DRef (TRec 1) 1);
   ADeepcopy 1 (DRef (TRec 0) 0); AFromInstance 1 (made_of (note_decl 0 true)) sel_empty (DRef (TRec 1) 1) [] [];
   ASet (DRef (TRec 1) 1) "x" (DInt 9); AToDict (DRef (TRec 1) 1) no_args sel_empty; AHash (DRef (TRec 0) 0)].
Example c49_case :
  frozen_kept (demo_rt 0) note_ctx note_state (after_all (demo_rt 0) note_ctx note_history note_state) /\
  after_all (demo_rt 0) note_ctx note_history note_state =
    RState [] [Inst (TRec 0) [("x", DInt 5)] (SHash 532); Inst (TRec 1) [("x", DInt 9)] SUnset;
               Inst (TRec 0) [("x", DInt 5)] SNone; Inst (TRec 0) [("x", DInt 6)] SNone] [DInt 5; DInt 6].
Proof.
  split; [|vm_compute; reflexivity]. apply c49_history.
  - apply note_program; try (intros; apply (Hist_proofs.frozen_kept_refl (demo_rt 0))).
    intros w x. apply Hist_proofs.frozen_kept_heap. reflexivity.
  - intros a HI. repeat destruct HI as [<-|HI]; try destruct HI; exact I || reflexivity.
Qed.
Example c34_case : only_hashed (demo_rt 0) note_ctx note_state (snd (record_eq (demo_rt 0) note_ctx (DRef (TRec 0) 0) (DRef (TRec 0) 0) note_state)) /\
  snd (record_eq (demo_rt 0) note_ctx (DRef (TRec 0) 0) (DRef (TRec 0) 0) note_state) <> note_state.
Proof.
  split; [|vm_compute; discriminate].
  refine (proj1 (proj2 (proj2 (proj2 (proj2 (c34_exports (demo_rt 0) note_ctx _ _ note_state (DRef (TRec 0) 0) (DRef (TRec 0) 0) no_args sel_empty CLt)))))).
  - apply demo_obey; intros; apply (Hist_proofs.only_hashed_refl (demo_rt 0)).
  - intros t c E. destruct t as [| | | | | | | | | | | | |[|[|]]]; cbn in E; try discriminate; injection E as <-.
    + split; [exact (Hist_proofs.class_obeys_made (demo_rt 0) _ _ (note_obeys (fun _ _ _ => True) (fun _ => I) (fun _ _ => I) 0 true (or_introl eq_refl)))|].
      intros k f g E. cbn in E. destruct (String.eqb k "x"); [injection E as <-; discriminate|discriminate].
    + split; [exact (Hist_proofs.class_obeys_made (demo_rt 0) _ _ (note_obeys (fun _ _ _ => True) (fun _ => I) (fun _ _ => I) 1 false (or_intror eq_refl)))|].
      intros k f g E. cbn in E. destruct (String.eqb k "x"); [injection E as <-; discriminate|discriminate].
Qed.
Example c50_case : delattr (demo_rt 0) (DRef (TRec 0) 0) "x" note_state =
  (Ok tt, RState [] [Inst (TRec 0) [] SNone; Inst (TRec 1) [("x", DInt 6)] SUnset] []).
Proof. reflexivity. Qed.
Example note_instance : instance_of (demo_rt 0) note_ctx (made_of (note_decl 0 true)) note_state (DRef (TRec 0) 0) (Inst (TRec 0) [("x", DInt 5)] SNone).
Proof. repeat split. intros k [<-|[]]. eexists. reflexivity. Qed.
Example c51_case : record_hash (demo_rt 0) note_ctx (DRef (TRec 0) 0) (after_all (demo_rt 0) note_ctx note_history (snd (record_hash (demo_rt 0) note_ctx (DRef (TRec 0) 0) note_state))) =
  (Ok 532%Z, after_all (demo_rt 0) note_ctx note_history (snd (record_hash (demo_rt 0) note_ctx (DRef (TRec 0) 0) note_state))).
Proof.
  apply (c51_history_partial (demo_rt 0) note_ctx) with (c := made_of (note_decl 0 true)) (w := note_state) (i := Inst (TRec 0) [("x", DInt 5)] SNone).
  - apply note_program; try (intros; apply (Hist_proofs.hashes_kept_refl (demo_rt 0))). intros w x. apply Hist_proofs.hashes_kept_heap. reflexivity.
  - exact note_instance.
  - reflexivity.
  - vm_compute. reflexivity.
  - intros a HI. split; repeat destruct HI as [<-|HI]; try destruct HI; try exact I; try reflexivity; discriminate.
Qed.
Example c51_assignment_case : exists w', setattr (demo_rt 0) note_ctx (DRef (TRec 0) 0) "_hash" (DInt 7) note_state = (Ok tt, w') /\
  record_hash (demo_rt 0) note_ctx (DRef (TRec 0) 0) w' = (Ok 7%Z, w').
Proof. eapply c51_assignment_refuted; [exact note_instance|reflexivity|reflexivity|discriminate]. Qed.
Example c78_case : only_hashed (demo_rt 0) note_ctx note_state (snd (pickle_copy (demo_rt 0) note_ctx 1 (DRef (TRec 0) 0) note_state)) /\
  heap (demo_rt 0) (snd (pickle_copy (demo_rt 0) note_ctx 1 (DRef (TRec 0) 0) note_state)) = rs_heap note_state ++ [Inst (TRec 0) [("x", DInt 5)] SNone].
Proof.
  split; [|vm_compute; reflexivity]. eapply c78_no_post_new_partial; [|exact note_instance|intros x w; reflexivity|].
  - apply note_program; try (intros; apply (Hist_proofs.only_hashed_refl (demo_rt 0))). intros w x. apply Hist_proofs.only_hashed_heap. reflexivity.
  - intros k [<-|[]] [H|[H|H]]; discriminate.
Qed.
(** post_new returns a new record each time *)
Definition twin (self : dobj) : M rstate dobj := fun w =>
  (Ok (DRef (TRec 0) (List.length (rs_heap w))), RState (rs_lit w) (rs_heap w ++ [Inst (TRec 0) [("x", DInt 7)] SNone]) (rs_log w)).
Definition twin_decl := rdecl 0 true false (Some false) SCheck [("x", (an TInt, NoDefault))] [] twin.
Definition twin_ctx (t : dty) : option (@cls dobj dty rstate) := match t with TRec 0 => Some (made_of twin_decl) | _ => None end.
Example c78_fresh_case : gives_no_old_record (demo_rt 0) (made_of twin_decl) /\
  only_hashed (demo_rt 0) twin_ctx note_state (snd (pickle_copy (demo_rt 0) twin_ctx 1 (DRef (TRec 0) 0) note_state)) /\
  fst (pickle_copy (demo_rt 0) twin_ctx 1 (DRef (TRec 0) 0) note_state) = Ok (DRef (TRec 0) 3) /\
  heap (demo_rt 0) (snd (pickle_copy (demo_rt 0) twin_ctx 1 (DRef (TRec 0) 0) note_state)) =
    rs_heap note_state ++ [Inst (TRec 0) [("x", DInt 5)] SNone; Inst (TRec 0) [("x", DInt 5)] SNone].
Proof.
  assert (G : gives_no_old_record (demo_rt 0) (made_of twin_decl)).
  { intros self w r w' E. right. right. injection E as <- _. unfold lookup. cbn. apply nth_error_None. lia. }
  split; [exact G|]. split; [|split; vm_compute; reflexivity].
  apply (c78_fresh_result_partial (demo_rt 0) twin_ctx) with (c := made_of twin_decl) (i := Inst (TRec 0) [("x", DInt 5)] SNone).
  - split; [apply demo_obey; intros; apply (Hist_proofs.only_hashed_refl (demo_rt 0))|].
    intros t c E. destruct t as [| | | | | | | | | | | | |[|]]; cbn in E; try discriminate. injection E as <-. split; [reflexivity|].
    apply (Spec_Hist.class_obeys_made _ _ twin_decl).
    + reflexivity.
    + repeat constructor; simpl; tauto.
    + constructor.
      * intros k a t [H|[]] HT. injection H as <- <-. destruct HT.
      * intros k key t [].
      * intros k g E. cbn in E. destruct (String.eqb k "x"); discriminate.
      * intros k p v [].
      * intros x w y i H. left. unfold lookup in *. destruct (deref (demo_rt 0) y) as [n|]; [|discriminate]. cbn in *.
        rewrite nth_error_app1; [exact H|]. apply nth_error_Some. congruence.
    + intros b [H|[]]. discriminate.
  - repeat split. intros k [<-|[]]. eexists. reflexivity.
  - exact G.
  - intros k [<-|[]] [H|[H|H]]; discriminate.
Qed.
(** a class whose validator is interrupted by 0; the pending interrupt is in the log *)
Definition stop : exc := mkexc (NotException 0) "KeyboardInterrupt".
Definition pending_of (w : rstate) : option exc := match rs_log w with [] => None | _ => Some stop end.
Definition stopping : dobj -> M rstate dobj := fun x w =>
  match x with DInt 0 => (Raise stop, RState (rs_lit w) (rs_heap w) [x]) | _ => (Ok x, w) end.
Definition stop_decl := rdecl 0 true false (Some true) SCheck
  [("x", (AHint (HTy TInt) [ATok (TValid (VGlobal (fun _ => Ok stopping)))], NoDefault))] [] no_post.
Definition stop_ctx (t : dty) : option (@cls dobj dty rstate) := match t with TRec 0 => Some (made_of stop_decl) | _ => None end.
Lemma stop_program : program_obeys (demo_rt 0) (passes_interrupts pending_of) stop_ctx.
Proof.
  assert (R1 : forall w, passes_interrupts pending_of w None w) by (intros w H; exact H).
  assert (R2 : forall w e, is_Exception e = true -> passes_interrupts pending_of w (Some e) w) by (intros w e E H; rewrite E; exact H).
  split; [apply demo_obey; assumption|]. intros t c E. destruct t as [| | | | | | | | | | | | |[|]]; cbn in E; try discriminate. injection E as <-. split; [reflexivity|].
  apply (Spec_Hist.class_obeys_made _ _ stop_decl).
  - reflexivity.
  - repeat constructor; simpl; tauto.
  - constructor.
    + intros k a t [H|[]] HT. injection H as <- <-. cbn in HT. destruct HT as [<-|[]]. intros o f E x w. injection E as <-.
      unfold stopping. destruct x as [| | |[| |]| | | | | | | | | |]; try apply R1. intro H. reflexivity.
    + intros k key t [].
    + intros k g E. cbn in E. destruct (String.eqb k "x"); discriminate.
    + intros k p v [].
    + intros x w. apply R1.
  - intros b [H|[]]. discriminate.
Qed.
Example c19_case : obeys (passes_interrupts pending_of) (construct (demo_rt 0) 3 (made_of stop_decl) (Some (mapping [("x", DInt 0)])) []) /\
  fst (construct (demo_rt 0) 3 (made_of stop_decl) (Some (mapping [("x", DInt 0)])) [] w0) = Raise stop.
Proof.
  split; [|vm_compute; reflexivity].
  destruct (c19_records (demo_rt 0) stop_ctx pending_of (fun _ _ => eq_refl) (fun _ _ _ => eq_refl) stop_program) as [H _].
  exact (proj1 (H (TRec 0) (made_of stop_decl) 3 eq_refl) _ _).
Qed.
Example c99_case : all_right (demo_rt 0) note_ctx (fun _ _ v => isinstance rt0 v TInt = true)
  (after_all (demo_rt 0) note_ctx (ACall 1 (made_of (note_decl 1 false)) None [("x", DNone)] :: ASet (DRef (TRec 0) 0) "x" DNone :: note_history) note_state).
Proof.
  apply c99_always_partial.
  - apply note_program; [intros w H; exact H|intros w e _ H; exact H|]. intros w x. apply right_heap. reflexivity.
  - exact note_guarantees.
  - intros a HI. destruct HI as [<-|[<-|HI]]; [reflexivity|exact I|]. repeat destruct HI as [<-|HI]; try destruct HI; exact I || reflexivity.
  - repeat match goal with |- _ /\ _ => split | |- assigns_right _ _ _ _ _ => cbn [assigns_right note_history] end; try exact I.
    all: intros i c HL HC; vm_compute in HL; injection HL as <-; cbn in HC; injection HC as <-; first [left; reflexivity|right; reflexivity].
  - exact note_right.
Qed.
Definition typed_history : list (@action dobj dty rstate) :=
  [ACall 1 (made_of (note_decl 0 true)) None [("x", DInt 5)]; ACall 1 (made_of (note_decl 1 false)) None [("x", DInt 6)];
   ASet (DRef (TRec 0) 0) "x" DNone; ACall 1 (made_of (note_decl 0 true)) None [("x", DNone)]; ACopy 1 (DRef (TRec 1) 1); AHash (DRef (TRec 0) 0)].
Example c99_types_case :
  let w := after_all (demo_rt 0) note_ctx typed_history w0 in
  all_right (demo_rt 0) note_ctx (of_declared_type (demo_rt 0) note_ctx) w /\ List.length (heap (demo_rt 0) w) = 3.
Proof.
  cbv zeta. split; [|vm_compute; reflexivity]. apply c99_types_partial.
  - apply Props_Filler.demo_honest.
  - apply note_program; [intros w H; exact H|intros w e _ H; exact H|]. intros w x. apply right_heap. reflexivity.
  - intros t c k f E EF w d w' HD. exfalso. destruct t as [| | | | | | | | | | | | |[|[|]]]; cbn in E; try discriminate; injection E as <-;
      cbn in EF; (destruct (String.eqb k "x"); [|discriminate]); injection EF as <-; inversion HD; discriminate.
  - intros a HI. repeat destruct HI as [<-|HI]; try destruct HI; exact I || reflexivity.
  - repeat match goal with |- _ /\ _ => split | |- assigns_right _ _ _ _ _ => cbn [assigns_right typed_history] end; try exact I.
    intros i c HL HC; vm_compute in HL; injection HL as <-; cbn in HC; injection HC as <-. left; reflexivity.
  - intros x i c k v HL. unfold lookup in HL. destruct (deref (demo_rt 0) x) as [[|]|]; discriminate.
Qed.
