(** Props_Special.v -- property theorems: the special methods of record classes: __init__, __setattr__ and __hash__
    Each theorem is closed by the lemma of the same statement in Special_main.v; the examples
    show that concrete, non-trivial cases meet the hypotheses. *)

From Verif Require Import Base Py Select Filler Classes Runtime Record Special Spec_Special Spec_Inst Demo DemoRt DemoCls.
From Verif Require Dict_proofs Record_proofs.
Open Scope string_scope.
Open Scope list_scope.

From Verif Require Import Special_main.

(** C111: whatever __setattr__ and __hash__ record classes and their bases define,
    assignments to their instances and hash() of them do what Record.v says. *)
Theorem c111_assignment : forall {obj ty W} (R : Rt obj ty W) ctx t_record ss wd known s b c x i k v w,
  program R ctx t_record ss wd known -> In (s, b) ss ->
  ctx (m_ty s) = Some c -> c_frozen c = m_frozen s ->
  type_of (rt_py R) x = m_ty s -> lookup R w x = Some i -> i_cls i = m_ty s ->
  assign R wd x k v w = setattr R ctx x k v w.
Proof. exact (@c111_assignment_proof). Qed.
Print Assumptions c111_assignment.

Theorem c111_hash : forall {obj ty W} (R : Rt obj ty W) ctx t_record ss wd known s b c x i w,
  program R ctx t_record ss wd known -> In (s, b) ss ->
  ctx (m_ty s) = Some c -> c_frozen c = m_frozen s ->
  type_of (rt_py R) x = m_ty s -> lookup R w x = Some i -> i_cls i = m_ty s ->
  hash_of R wd x w = record_hash R ctx x w.
Proof. exact (@c111_hash_proof). Qed.
Print Assumptions c111_hash.

(** C111, seen from outside: instances of a class declared frozen refuse every assignment
    but the one of the library's own hash slot, and nothing changes ... *)
Theorem c111_frozen : forall {obj ty W} (R : Rt obj ty W) ctx t_record ss wd known s b x i k v w,
  program R ctx t_record ss wd known -> In (s, b) ss -> m_frozen s = true ->
  type_of (rt_py R) x = m_ty s -> lookup R w x = Some i -> k <> "_hash" ->
  exists e, assign R wd x k v w = (Raise e, w) /\ exc_cls e = TypeError.
Proof. exact (@c111_frozen_proof). Qed.
Print Assumptions c111_frozen.

(** ... and instances of any other class accept every assignment of a field and are not
    hashable. *)
Theorem c111_unfrozen : forall {obj ty W} (R : Rt obj ty W) ctx t_record ss wd known s b x i k v w,
  program R ctx t_record ss wd known -> In (s, b) ss -> m_frozen s = false ->
  type_of (rt_py R) x = m_ty s -> lookup R w x = Some i -> k <> "_hash" ->
  (exists w', assign R wd x k v w = (Ok tt, w') /\ exists i', lookup R w' x = Some i' /\ dget k (i_dict i') = Some v) /\
  (exists e, hash_of R wd x w = (Raise e, w) /\ exc_cls e = TypeError).
Proof. exact (@c111_unfrozen_proof). Qed.
Print Assumptions c111_unfrozen.

(** C110, what does hold: if no class statement of the program caused a warning about
    __init__, no other __init__ than the library's runs, and calling a class does what
    Record.v says. *)
Theorem c110_no_warning_partial : forall {obj ty W} (R : Rt obj ty W) ctx t_record ss wd known c,
  program R ctx t_record ss wd known ->
  (forall r, isinstance (rt_py R) r (c_ty c) = true -> exists s, In (s, false) ss /\ m_ty s = type_of (rt_py R) r) ->
  forall fuel pos kw w, construct_with_init R wd fuel c pos kw w = construct R fuel c pos kw w.
Proof. exact (@c110_no_warning_partial_proof). Qed.
Print Assumptions c110_no_warning_partial.

(** The same for classes with warnings, provided that no class before RecordBase in the
    __mro__ defines __init__. *)
Theorem c110_after_partial : forall {obj ty W} (R : Rt obj ty W) ctx t_record ss wd known c,
  program R ctx t_record ss wd known ->
  (forall r, isinstance (rt_py R) r (c_ty c) = true ->
     exists p q, w_mro wd (type_of (rt_py R) r) = p ++ t_record :: q /\ forall t, In t p -> w_init wd t = None) ->
  forall fuel pos kw w, construct_with_init R wd fuel c pos kw w = construct R fuel c pos kw w.
Proof. exact (@c110_after_partial_proof). Qed.
Print Assumptions c110_after_partial.

(** C110 refuted for every class without parser strategies that has another __init__ in front
    of the library's: the call makes the instance as Record.v says, and then that __init__ runs
    with the arguments of the call; its errors are those of the call. *)
Theorem c110_runs_refuted : forall {obj ty W} (R : Rt obj ty W) wd fuel c pos kw w x w1 p t q f,
  c_unary c = false -> construct R fuel c pos kw w = (Ok x, w1) -> isinstance (rt_py R) x (c_ty c) = true ->
  w_mro wd (type_of (rt_py R) x) = p ++ t :: q -> (forall u, In u p -> w_init wd u = None) -> w_init wd t = Some f ->
  construct_with_init R wd fuel c pos kw w =
    match f x pos kw w1 with (Ok _, w2) => (Ok x, w2) | (Raise e, w2) => (Raise e, w2) end.
Proof. exact (@c110_runs_refuted_proof). Qed.
Print Assumptions c110_runs_refuted.

(** C110 refuted: __init__ of the class itself, which the warning says is overridden, runs. *)
Theorem c110_own_refuted : exists ss wd known s c x w,
  program (demo_rt 0) (one_class false) (TRec 50) ss wd known /\ In (s, true) ss /\ In "__init__" (own_warnings s) /\
  make_class rt0 (rdecl 0 false false None SCheck [("x", (an TInt, NoDefault))] [] no_post) = Ok c /\ c_ty c = m_ty s /\
  construct_with_init (demo_rt 0) wd 1 c None [("x", DInt 1)] w0 = (Ok x, w) /\ rs_log w = [x].
Proof. exact (@c110_own_refuted_proof). Qed.
Print Assumptions c110_own_refuted.

(** C110 refuted: so does __init__ of a base class that comes before RecordBase, which the
    other warning says will not be called. *)
Theorem c110_parent_refuted : exists ss wd known s c x w,
  program (demo_rt 0) (one_class false) (TRec 50) ss wd known /\ In (s, true) ss /\
  own_warnings s = [] /\ parents_warning (demo_rt 0) (TRec 50) start_world s = true /\
  make_class rt0 (rdecl 0 false false None SCheck [("x", (an TInt, NoDefault))] [] no_post) = Ok c /\ c_ty c = m_ty s /\
  construct_with_init (demo_rt 0) wd 1 c None [("x", DInt 1)] w0 = (Ok x, w) /\ rs_log w = [x].
Proof. exact (@c110_parent_refuted_proof). Qed.
Print Assumptions c110_parent_refuted.

(** C112 refuted: a subclass of a frozen class, without frozen=True of its own, is not
    frozen: assignments to its instances succeed and they are not hashable. *)
Theorem c112_subclass_refuted : exists ss wd known s s' x w v,
  program (demo_rt 0) (one_class true) (TRec 50) ss wd known /\ In (s, false) ss /\ In (s', false) ss /\
  m_frozen s = true /\ m_bases s' = [m_ty s] /\ isinstance rt0 x (m_ty s) = true /\
  type_of rt0 x = m_ty s' /\ (exists i, lookup (demo_rt 0) w x = Some i /\ dget "x" (i_dict i) = Some (DInt 1)) /\
  (exists w', assign (demo_rt 0) wd x "x" v w = (Ok tt, w') /\
     exists i, lookup (demo_rt 0) w' x = Some i /\ dget "x" (i_dict i) = Some (DInt 2)) /\
  fst (hash_of (demo_rt 0) wd x w) = Raise (mkexc TypeError "unhashable type").
Proof. exact (@c112_subclass_refuted_proof). Qed.
Print Assumptions c112_subclass_refuted.

(** a frozen class that tries to keep its own __setattr__ and __hash__: both are ignored *)
Definition loose_stmt (frozen : bool) : @stmt dobj dty rstate :=
  Stmt (TRec 0) [TRec 50] [TRec 50; TObject] frozen None (Some (fun _ _ _ => ret tt)) (Some (Some (fun _ => ret 0%Z))).
Lemma start_ok' : start (demo_rt 0) (TRec 50) start_world [TRec 50; TRec 51; TObject].
Proof.
  constructor; [|split; [left; reflexivity|discriminate]|reflexivity].
  intros t [<-|[<-|[<-|[]]]]; (split; [|split; [|eexists; reflexivity]]).
  - exists [TRec 50]. split; [reflexivity|]. intros [H|[]]; discriminate.
  - intros z [<-|[<-|[]]]; cbn; auto.
  - exists [TRec 51]. split; [reflexivity|]. intros [H|[]]; discriminate.
  - intros z [<-|[<-|[]]]; cbn; auto.
  - exists []. split; [reflexivity|]. intros [].
  - intros z [<-|[]]; cbn; auto.
Qed.
Example c111_program : forall frozen,
  program (demo_rt 0) (one_class frozen) (TRec 50) [(loose_stmt frozen, false)]
    (declare (demo_rt 0) (one_class frozen) (loose_stmt frozen) start_world) [TRec 0; TRec 50; TRec 51; TObject].
Proof.
  intro frozen. refine (program_record (demo_rt 0) _ (TRec 50) [] start_world _ _ (program_start _ _ _ _ _ start_ok') _ _); [|left; reflexivity].
  split; [cbn; intuition discriminate|]. split; [discriminate|]. split; [discriminate|]. split; [intros b [<-|[]]; left; reflexivity|].
  unfold linearised. cbn [m_bases map app m_rest start_world w_mro loose_stmt].
  apply merges_take; [eexists; left; reflexivity|intros l [<-|[<-|[]]]; cbn; intuition discriminate|]. cbn.
  apply merges_take; [eexists; left; reflexivity|intros l [<-|[<-|[]]]; cbn; intuition discriminate|]. cbn.
  apply merges_done. intros l [<-|[<-|[]]]; reflexivity.
Qed.
Example c111_case :
  let h := RState [] [Inst (TRec 0) [("x", DInt 1)] SNone] [] in
  let wd f := declare (demo_rt 0) (one_class f) (loose_stmt f) start_world in
  own_warnings (loose_stmt true) = ["__setattr__"; "__hash__"] /\
  assign (demo_rt 0) (wd true) (DRef (TRec 0) 0) "x" (DInt 2) h = (Raise (mkexc TypeError "is frozen"), h) /\
  fst (assign (demo_rt 0) (wd false) (DRef (TRec 0) 0) "x" (DInt 2) h) = Ok tt /\
  fst (hash_of (demo_rt 0) (wd true) (DRef (TRec 0) 0) h) = Ok (17 * 31 + 1)%Z /\
  fst (hash_of (demo_rt 0) (wd false) (DRef (TRec 0) 0) h) = Raise (mkexc TypeError "unhashable type").
Proof. repeat split; reflexivity. Qed.

(** a subclass of it, class 100 + 0 of the demonstration *)
Definition sub_stmt : @stmt dobj dty rstate := Stmt (TRec 100) [TRec 0] [TRec 0; TRec 50; TObject] false None None None.
Definition sub_world : @world dobj dty rstate :=
  declare (demo_rt 0) (one_class true) sub_stmt (declare (demo_rt 0) (one_class true) (loose_stmt true) start_world).
Example c110_case :
  program (demo_rt 0) (one_class true) (TRec 50) [(sub_stmt, false); (loose_stmt true, false)] sub_world [TRec 100; TRec 0; TRec 50; TRec 51; TObject] /\
  (forall r, isinstance rt0 r (c_ty (int_class true)) = true ->
     exists s, In (s, false) [(sub_stmt, false); (loose_stmt true, false)] /\ m_ty s = type_of rt0 r) /\
  fst (construct_with_init (demo_rt 0) sub_world 1 (int_class true) None [("x", DInt 1)] w0) = Ok (DRef (TRec 0) 0).
Proof.
  split; [|split].
  - refine (program_record (demo_rt 0) _ (TRec 50) _ _ _ _ (c111_program true) _ _); [|right; left; reflexivity].
    split; [cbn; intuition discriminate|]. split; [discriminate|]. split; [discriminate|]. split; [intros b [<-|[]]; left; reflexivity|].
    unfold linearised.
    change (merges (demo_rt 0) [[TRec 0; TRec 50; TObject]; [TRec 0]] [TRec 0; TRec 50; TObject]).
    apply merges_take; [eexists; left; reflexivity|intros l [<-|[<-|[]]]; cbn; intuition discriminate|]. cbn.
    apply merges_take; [eexists; left; reflexivity|intros l [<-|[<-|[]]]; cbn; intuition discriminate|]. cbn.
    apply merges_take; [eexists; left; reflexivity|intros l [<-|[<-|[]]]; cbn; intuition discriminate|]. cbn.
    apply merges_done. intros l [<-|[<-|[]]]; reflexivity.
  - intros r H. change (dsub (dtype r) (TRec 0) = true) in H. change (type_of rt0 r) with (dtype r). unfold dsub in H.
    apply orb_prop in H. destruct H as [H|H].
    + exists (loose_stmt true). split; [right; left; reflexivity|]. cbn. destruct (dtyP (dtype r) (TRec 0)); congruence.
    + exists sub_stmt. split; [left; reflexivity|]. destruct (dtype r); try discriminate. apply Nat.eqb_eq in H. subst. reflexivity.
  - reflexivity.
Qed.
Example c110_after_case : w_mro sub_world (TRec 100) = [TRec 100; TRec 0] ++ TRec 50 :: [TObject] /\ forall t, In t [TRec 100; TRec 0] -> w_init sub_world t = None.
Proof. split; [reflexivity|]. intros t [<-|[<-|[]]]; reflexivity. Qed.
Example c110_runs_case :
  let wd := declare (demo_rt 0) (one_class false) (Stmt (TRec 0) [TRec 50] [TRec 50; TObject] false (Some log_init) None None) start_world in
  c_unary (int_class false) = false /\
  (exists w1, construct (demo_rt 0) 1 (int_class false) (Some (DInt 1)) [] w0 = (Ok (DRef (TRec 0) 0), w1)) /\
  isinstance rt0 (DRef (TRec 0) 0) (c_ty (int_class false)) = true /\
  w_mro wd (TRec 0) = [] ++ TRec 0 :: [TRec 50; TObject] /\ w_init wd (TRec 0) = Some log_init /\
  rs_log (snd (construct_with_init (demo_rt 0) wd 1 (int_class false) (Some (DInt 1)) [] w0)) = [DRef (TRec 0) 0].
Proof. repeat split; try reflexivity. eexists. reflexivity. Qed.
