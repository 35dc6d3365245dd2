(** Props_Threads.v -- property theorems: several threads that share records
    Each theorem is closed by the lemma of the same statement in Threads_main.v; the examples
    show that concrete, non-trivial cases meet the hypotheses. *)

From Verif Require Import Base Py Select Filler Spec_Filler Classes Spec_Classes Runtime Record Spec_Record Spec_Inst Threads Spec_Threads Demo DemoRt DemoCls.
From Verif Require Dict_proofs Filler_proofs Classes_main Record_proofs Inst_proofs Inst_main.
Open Scope string_scope.
Open Scope list_scope.

From Verif Require Import Threads_main.

(** C100: the steps of an operation, with nothing in between, are the operation of Record.v,
    whatever the state and whatever the code does that is called. *)
Theorem c100_alone : forall {obj ty W} (R : Rt obj ty W) ctx j w,
  run (job_steps R ctx j) w = job_alone R ctx j w.
Proof. exact (@c100_alone_proof). Qed.
Print Assumptions c100_alone.

(** C100: Threads share records of frozen classes, hash them, compare them with ==, export
    them with to_dict, try to assign to them, and do anything else that leaves those records
    alone.  Whatever the schedule: no field of such a record changes, and every operation on
    it has the outcome that it has if nothing else runs -- although hash stores its result
    in the record the first time. *)
Theorem c100_schedules : forall {obj ty W} (R : Rt obj ty W) ctx D eqb hf w ts, has_eq R D eqb ->
  (forall js j, In js ts -> In j js -> sharing R ctx D hf w j) ->
  forall sched pool w', execute sched (map (thread R ctx) ts) w = (pool, w') ->
  frozen_as_in R ctx w w' /\
  forall n js, nth_error ts n = Some js -> exists p, nth_error pool n = Some p /\
    forall o, p = Done o -> exists os, o = Ok os /\
    Forall2 (fun j o => match j with JOther _ => True | _ => o = fst (job_alone R ctx j w) end) js os.
Proof. exact (@c100_schedules_proof). Qed.
Print Assumptions c100_schedules.

(** C100: no thread ever waits for another: after any schedule, whatever the records and the
    code that is called, the threads can go on until all are done. *)
Theorem c100_finishes : forall {obj ty W} (R : Rt obj ty W) ctx ts sched w,
  exists more, Forall (fun p => exists o, p = Done o) (fst (execute (sched ++ more) (map (thread R ctx) ts) w)).
Proof. exact (@c100_finishes_proof). Qed.
Print Assumptions c100_finishes.

(** C101 holds field by field: while any other threads do anything at all -- as long as the
    record keeps its class and no field is deleted -- every value that to_dict shows is
    one that the field had at some moment; with include_defaults and no blacklist, every
    field is shown. *)
Theorem c101_fields_partial : forall {obj ty W} (R : Rt obj ty W) ctx c x a sched pool n w d, made (rt_py R) c ->
  nth_error pool n = Some (to_dict_t R ctx x a sel_empty) ->
  (forall w1, In w1 (moments sched pool w) -> class_of R ctx x w1 = Some c /\
     forall k, In k (keys (c_fields c)) -> exists v, fst (getattr R x k w1) = Ok v) ->
  nth_error (fst (execute sched pool w)) n = Some (Done (Ok d)) ->
  (forall k v, In (k, v) d -> In k (keys (c_fields c)) /\ exists w1, In w1 (moments sched pool w) /\ fst (getattr R x k w1) = Ok v) /\
  (e_defaults a = true -> e_black a = BlackSet [] -> Permutation (keys d) (keys (c_fields c))).
Proof. exact (@c101_fields_partial_proof). Qed.
Print Assumptions c101_fields_partial.

(** C101 fails for the record as a whole: to_dict reads field after field, so that it can
    show a record that never was. *)
Theorem c101_whole_refuted : exists sched w' os d,
  execute sched torn_pool torn_state = ([Done (Ok [Ok (NDict d)]); Done (Ok os)], w') /\
  os = [Ok NNothing; Ok NNothing] /\
  ~ exists w1, In w1 (moments sched torn_pool torn_state) /\ exists w2, to_dict (demo_rt 0) torn_ctx (DRef (TRec 0) 0) no_args sel_empty w1 = (Ok d, w2).
Proof. exact (@c101_whole_refuted_proof). Qed.
Print Assumptions c101_whole_refuted.

From Verif Require Import Props_Inst.
(** three threads with two records of a frozen class: the hypotheses are met *)
Definition c100_threads : list (list (job (obj:=dobj) (W:=rstate))) :=
  [[JHash (DRef (TRec 0) 0); JEq (DRef (TRec 0) 0) (DRef (TRec 0) 1)];
   [JHash (DRef (TRec 0) 0); JSet (DRef (TRec 0) 0) "x" (DInt 7)];
   [JEq (DRef (TRec 0) 1) (DRef (TRec 0) 2); JToDict (DRef (TRec 0) 0) no_args sel_empty; JOther (fun w => (Ok tt, RState (rs_lit w) (rs_heap w) []))]].
Lemma c100_sharing : forall js j, In js c100_threads -> In j js -> sharing (demo_rt 0) ctxO ints hf_int wO j.
Proof.
  assert (S : forall n a b c, lookup (demo_rt 0) wO (DRef (TRec 0) n) = Some (pO a b c SNone) -> shareable (demo_rt 0) ctxO ints hf_int wO (DRef (TRec 0) n)).
  { intros n a b c H. destruct (pO_instance 0 wO (DRef (TRec 0) n) a b c SNone H eq_refl) as (A1 & A2 & A3).
    exists (made_of declO), (pO a b c SNone). repeat split; try assumption; [exact declO_made|apply A1|exact declO_defaults]. }
  pose proof (S 0 _ _ _ eq_refl) as S0. pose proof (S 1 _ _ _ eq_refl) as S1. pose proof (S 2 _ _ _ eq_refl) as S2.
  intros js j [<-|[<-|[<-|[]]]] HJ; repeat (destruct HJ as [<-|HJ]; [|]); try contradiction; cbn [sharing]; auto.
  destruct S0 as (c & i & _ & HX & HF & _). split; [eauto|discriminate].
Qed.
Example c100_case : forall sched pool w', execute sched (map (thread (demo_rt 0) ctxO) c100_threads) wO = (pool, w') ->
  frozen_as_in (demo_rt 0) ctxO wO w' /\
  forall o, nth_error pool 0 = Some (Done o) -> o = Ok [fst (job_alone (demo_rt 0) ctxO (JHash (DRef (TRec 0) 0)) wO); Ok (NEq true)].
Proof.
  intros sched pool w' E. destruct (c100_schedules (demo_rt 0) ctxO ints dlit_eq hf_int wO c100_threads (ints_eq 0) c100_sharing sched pool w' E) as [H1 H2].
  split; [exact H1|]. intros o H. destruct (H2 0 _ eq_refl) as (p & Ep & Hp). rewrite H in Ep. injection Ep as <-. destruct (Hp o eq_refl) as (os & -> & HF).
  inversion HF as [|? a ? r Ha Hr]; subst. inversion Hr as [|? b ? r' Hb Hr']; subst. inversion Hr'; subst.
  replace (Ok (NEq true)) with (fst (job_alone (demo_rt 0) ctxO (JEq (DRef (TRec 0) 0) (DRef (TRec 0) 1)) wO)) by (vm_compute; reflexivity).
  reflexivity.
Qed.
(** in between, two threads both compute the hash *)
Example c100_race : exists pool w' z,
  execute [0; 1; 0; 1; 0; 1; 0; 1; 0; 1; 0; 1; 0; 1; 0; 1; 0; 1; 0; 1; 0; 1; 0; 1; 0; 1; 0; 1; 0; 1] (map (thread (demo_rt 0) ctxO) [[JHash (DRef (TRec 0) 0)]; [JHash (DRef (TRec 0) 0)]]) wO = (pool, w') /\
  pool = [Done (Ok [Ok (NHash z)]); Done (Ok [Ok (NHash z)])].
Proof. do 3 eexists. split; [vm_compute; reflexivity|reflexivity]. Qed.
Example c101_case : exists d,
  nth_error (fst (execute [0; 0; 0; 0; 0; 0; 0] [to_dict_t (demo_rt 0) torn_ctx (DRef (TRec 0) 0) no_args sel_empty; Step (fun w => (Done (Ok []), w))] torn_state)) 0 = Some (Done (Ok d)) /\
  keys d = ["a"; "b"].
Proof. eexists. split; [vm_compute; reflexivity|reflexivity]. Qed.
