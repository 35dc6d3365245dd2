(** Props_Keyed.v -- property theorems: frozen records as keys of dicts and members of sets (records/record.py:281-289, 411-420)
    Each theorem is closed by the lemma of the same statement in Keyed_main.v; the examples
    show that concrete, non-trivial cases meet the hypotheses. *)

From Verif Require Import Base Py Select Filler Spec_Filler Classes Spec_Classes Runtime Record Spec_Record Spec_Inst Spec_Hist Keyed Spec_Keyed Demo DemoRt DemoCls.
From Verif Require Dict_proofs Filler_proofs Classes_proofs Record_proofs Classes_main Inst_proofs Inst_main Record_inv Hist_proofs Hist_main.
Open Scope string_scope.
Open Scope list_scope.

From Verif Require Import Keyed_main.

(** C148: whatever has been done with a dict and with the records before, looking a record up
    gives the value that was last assigned to an equal record and not removed since. *)
Theorem c148_get : forall {obj ty W} (R : Rt obj ty W) ctx {V : Type} D eqb hf,
  program_obeys R (keeping (steady R ctx)) ctx -> has_eq R D eqb -> equivalence D eqb -> hash_contract D eqb hf ->
  forall past (t : @table obj V) w c k i, used R ctx D eqb hf past t w -> is_key R ctx D eqb hf c w k i ->
  exists o w', get R ctx t k w = (Ok o, w') /\ held eqb (c, i) past o /\
    forall o', held eqb (c, i) past o' -> o' = o.
Proof. exact (@c148_get_proof). Qed.
Print Assumptions c148_get.

(** C148: so does removing it; assigning to it and removing it succeed. *)
Theorem c148_put_pop : forall {obj ty W} (R : Rt obj ty W) ctx {V : Type} D eqb hf,
  program_obeys R (keeping (steady R ctx)) ctx -> has_eq R D eqb -> equivalence D eqb -> hash_contract D eqb hf ->
  forall past (t : @table obj V) w c k i, used R ctx D eqb hf past t w -> is_key R ctx D eqb hf c w k i ->
  (forall v, exists t' w', put R ctx t k v w = (Ok t', w')) /\
  (exists o t' w', pop R ctx t k w = (Ok (o, t'), w') /\ held eqb (c, i) past o).
Proof. exact (@c148_put_pop_proof). Qed.
Print Assumptions c148_put_pop.

(** C148: the entries of the dict are what it holds: no two have equal keys, the key of every
    entry has its value, and a record that has a value is equal to the key of an entry. *)
Theorem c148_entries : forall {obj ty W} (R : Rt obj ty W) ctx {V : Type} D eqb hf,
  program_obeys R (keeping (steady R ctx)) ctx -> has_eq R D eqb -> equivalence D eqb -> hash_contract D eqb hf ->
  forall past (t : @table obj V) w, used R ctx D eqb hf past t w ->
  exists ps : list (@content obj ty W),
    Forall2 (fun e p => exists i, is_key R ctx D eqb hf (fst p) w (fst (snd e)) i /\ i_dict i = i_dict (snd p) /\ i_cls i = i_cls (snd p) /\
                          held eqb p past (Some (snd (snd e)))) t ps /\
    (forall n m p q, nth_error ps n = Some p -> nth_error ps m = Some q -> equal eqb p q -> n = m) /\
    (forall c k i v, is_key R ctx D eqb hf c w k i -> held eqb (c, i) past (Some v) -> exists p, In p ps /\ equal eqb p (c, i)).
Proof. exact (@c148_entries_proof). Qed.
Print Assumptions c148_entries.

(** C148 needs that nothing is assigned to p._hash: a record whose _hash has been assigned to is
    not found in a dict that has it as a key. *)
Theorem c148_hash_assigned : forall {obj ty W} (R : Rt obj ty W) ctx {V : Type} c w x i v z h (d : V),
  instance_of R ctx c w x i -> c_frozen c = true -> int_of R v = Some z -> v <> o_none (rt_py R) -> h <> z ->
  exists w', setattr R ctx x "_hash" v w = (Ok tt, w') /\ get R ctx [(h, (x, d))] x w' = (Ok None, w').
Proof. exact (@c148_hash_assigned_proof). Qed.
Print Assumptions c148_hash_assigned.

From Verif Require Props_Inst Props_Hist.
Import Props_Inst Props_Hist Hist_main.
(** two equal records, another one, and a history between the uses *)
Definition key_state := RState [] [Inst (TRec 0) [("x", DInt 5)] SNone; Inst (TRec 1) [("x", DInt 6)] SUnset;
                                   Inst (TRec 0) [("x", DInt 5)] SNone; Inst (TRec 0) [("x", DInt 7)] SNone] [].
Lemma note_made : made rt0 (made_of (note_decl 0 true)).
Proof. apply (made_class _ (note_decl 0 true)); [reflexivity|repeat constructor; simpl; intuition discriminate|]. intros b [H|[]]. discriminate. Qed.
Lemma note_key : forall w x z h, lookup (demo_rt 0) w x = Some (Inst (TRec 0) [("x", DInt z)] h) -> dtype x = TRec 0 ->
  (h = SNone \/ h = SHash (tuple_hash (demo_rt 0) [z])) ->
  is_key (demo_rt 0) note_ctx ints dlit_eq hf_int (made_of (note_decl 0 true)) w x (Inst (TRec 0) [("x", DInt z)] h).
Proof.
  intros w x z h HL HT HH. split; [exact note_made|]. split; [reflexivity|]. split; [|split; [|split; [|split]]].
  - intros k f d E. cbn in E. destruct (String.eqb k "x"); [injection E as <-; cbn; discriminate|discriminate].
  - repeat split; try assumption. intros k [<-|[]]; eexists; reflexivity.
  - intros k v [<-|[]] E; cbn in E; injection E as <-; eexists; reflexivity.
  - intros k v [<-|[]] E; cbn in E; injection E as <-; reflexivity.
  - destruct HH as [->| ->]; [left; reflexivity|]. right. exists [("x", DInt z)]. split; [repeat constructor; intros []|]. split; [exists (fun _ => true); reflexivity|]. split; [|reflexivity].
    intros k v. split.
    + intros [E|[]]. injection E as <- <-. eexists. split; [reflexivity|]. split; [reflexivity|]. right. split; [intros t []|]. right. intros d E. discriminate.
    + intros (f & E1 & E2 & _). cbn in E1, E2. destruct (String.eqb_spec k "x"); [|discriminate]. injection E2 as <-. left. congruence.
Qed.
Lemma note_steady : program_obeys (demo_rt 0) (keeping (steady (demo_rt 0) note_ctx)) note_ctx.
Proof. apply note_program; try (intros; apply (Keyed_main.steady_refl (demo_rt 0))). intros w x. apply Keyed_main.steady_heap. reflexivity. Qed.
(** d[p] = 1; ...; d[q] = 2; d.get(p) == 2 for equal p and q; d.get(r) is None for another r *)
Example c148_case : exists t w,
  used (demo_rt 0) note_ctx ints dlit_eq hf_int
    [EPut (made_of (note_decl 0 true), Inst (TRec 0) [("x", DInt 5)] SNone) 2; EPut (made_of (note_decl 0 true), Inst (TRec 0) [("x", DInt 5)] SNone) 1] t w /\
  List.length t = 1 /\
  fst (get (demo_rt 0) note_ctx t (DRef (TRec 0) 0) w) = Ok (Some 2) /\
  fst (get (demo_rt 0) note_ctx t (DRef (TRec 0) 2) w) = Ok (Some 2) /\
  fst (get (demo_rt 0) note_ctx t (DRef (TRec 0) 3) w) = Ok None.
Proof.
  destruct (put (demo_rt 0) note_ctx [] (DRef (TRec 0) 0) 1 key_state) as [[t1|e1] w1] eqn:E1; [|vm_compute in E1; discriminate].
  destruct (put (demo_rt 0) note_ctx t1 (DRef (TRec 0) 2) 2 (after_all (demo_rt 0) note_ctx note_history w1)) as [[t2|e2] w2] eqn:E2.
  - exists t2, w2. split.
    + eapply used_put; [|apply note_key|exact E2].
      * apply used_else; [eapply used_put; [apply used_new|apply note_key|exact E1]; [reflexivity|reflexivity|left; reflexivity]|].
        intros a HI. split; repeat destruct HI as [<-|HI]; try destruct HI; try exact I; try reflexivity; discriminate.
      * vm_compute in E1. injection E1 as <- <-. vm_compute. reflexivity.
      * reflexivity.
      * left. reflexivity.
    + vm_compute in E1. injection E1 as <- <-. vm_compute in E2. injection E2 as <- <-. vm_compute. auto.
  - vm_compute in E1. injection E1 as <- <-. vm_compute in E2. discriminate.
Qed.
Example c148_hash_case : exists w', setattr (demo_rt 0) note_ctx (DRef (TRec 0) 0) "_hash" (DInt 7) key_state = (Ok tt, w') /\
  get (demo_rt 0) note_ctx [(8%Z, (DRef (TRec 0) 0, 1))] (DRef (TRec 0) 0) w' = (Ok None, w').
Proof.
  eapply c148_hash_assigned with (z := 7%Z); [exact (proj1 (proj2 (proj2 (proj2 (note_key key_state (DRef (TRec 0) 0) 5 SNone eq_refl eq_refl (or_introl eq_refl))))))|reflexivity|reflexivity|discriminate|discriminate].
Qed.
