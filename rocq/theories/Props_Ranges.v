(** Props_Ranges.v -- property theorems: ranges: what Clamp, Cyclic and Within promise of the fields of all records, at any time
    Each theorem is closed by the lemma of the same statement in Ranges_main.v; the examples
    show that concrete, non-trivial cases meet the hypotheses. *)

From Coq Require Import QArith.
From Verif Require Import Base Py Select Filler Spec_Filler Classes Spec_Classes Runtime Record Spec_Record Spec_Inst Spec_Hist Tokens Spec_Tokens Spec_Ranges Demo DemoRt DemoCls DemoTok.
From Verif Require Dict_proofs Filler_main Props_Filler Classes_main Hist_main Tok_main.
Open Scope string_scope.
Open Scope list_scope.

From Verif Require Import Ranges_main.

(** C134: with Clamp as the last validator of a checked field of a totally ordered class, the
    field lies between the bounds in all records of the class and of the classes below it, at
    any time in any history: if all other code keeps it that way, the default is in the
    range, and so are the values that are assigned to records that are not frozen. *)
Theorem c134_clamp_partial : forall {obj ty W} (R : Rt obj ty W) ctx (X : Ops obj ty W) D lt d c k t toks ge le w0 w1,
  honest_containers (rt_py R) -> declares R d c k t (toks ++ [TValid (validation (clamp X ge le))]) ->
  eff_style (d_style d) toks <> SHollow -> Forall asserting toks ->
  totally_ordered X D lt -> (forall v, type_of (rt_py R) v = t \/ isinstance (rt_py R) v t = true -> D v) ->
  bound_in D ge -> bound_in D le -> clamp_new X ge le w0 = (Ok tt, w1) ->
  let good := fun y => above lt true ge y /\ below lt true le y in
  default_is good d k ->
  program_obeys R (keeping (stays_right R ctx (good_for R ctx c k good))) ctx ->
  forall l w, (forall a, In a l -> allowed ctx (stays_right R ctx (good_for R ctx c k good)) a) ->
  assigns_right R ctx (good_for R ctx c k good) l w ->
  good_everywhere R ctx c k good w -> good_everywhere R ctx c k good (after_all R ctx l w).
Proof. exact (@c134_clamp_partial_proof). Qed.
Print Assumptions c134_clamp_partial.

(** C134: likewise for Cyclic, on classes with exact arithmetic. *)
Theorem c134_cyclic_partial : forall {obj ty W} (R : Rt obj ty W) ctx (X : Ops obj ty W) D val d c k t toks lo hi,
  honest_containers (rt_py R) -> declares R d c k t (toks ++ [TValid (validation (cyclic X lo hi))]) ->
  eff_style (d_style d) toks <> SHollow -> Forall asserting toks ->
  exact_numbers X D val -> (forall v, type_of (rt_py R) v = t \/ isinstance (rt_py R) v t = true -> D v) ->
  D lo -> D hi -> (val lo < val hi)%Q ->
  let good := fun y => (val lo <= val y)%Q /\ (val y < val hi)%Q in
  default_is good d k ->
  program_obeys R (keeping (stays_right R ctx (good_for R ctx c k good))) ctx ->
  forall l w, (forall a, In a l -> allowed ctx (stays_right R ctx (good_for R ctx c k good)) a) ->
  assigns_right R ctx (good_for R ctx c k good) l w ->
  good_everywhere R ctx c k good w -> good_everywhere R ctx c k good (after_all R ctx l w).
Proof. exact (@c134_cyclic_partial_proof). Qed.
Print Assumptions c134_cyclic_partial.

(** C134: likewise for a Within that raises, wherever it stands among asserting validators. *)
Theorem c134_within_partial : forall {obj ty W} (R : Rt obj ty W) ctx (X : Ops obj ty W) D lt d c k t toks ge le g_eq l_eq a,
  honest_containers (rt_py R) -> declares R d c k t toks ->
  eff_style (d_style d) toks <> SHollow -> Forall asserting toks ->
  In (TValid (validation (within X ge le g_eq l_eq a))) toks -> as_warn a = WarnFalse ->
  totally_ordered X D lt -> (forall v, type_of (rt_py R) v = t \/ isinstance (rt_py R) v t = true -> D v) ->
  bound_in D ge -> bound_in D le ->
  let good := fun y => above lt g_eq ge y /\ below lt l_eq le y in
  default_is good d k ->
  program_obeys R (keeping (stays_right R ctx (good_for R ctx c k good))) ctx ->
  forall l w, (forall a, In a l -> allowed ctx (stays_right R ctx (good_for R ctx c k good)) a) ->
  assigns_right R ctx (good_for R ctx c k good) l w ->
  good_everywhere R ctx c k good w -> good_everywhere R ctx c k good (after_all R ctx l w).
Proof. exact (@c134_within_partial_proof). Qed.
Print Assumptions c134_within_partial.

(** C134: assignments to the records of frozen classes need not be looked at: the condition on
    them always holds. *)
Theorem c134_frozen : forall {obj ty W} (R : Rt obj ty W) ctx c k (good : obj -> Prop),
  frozen_family R ctx c -> forall l w, assigns_right R ctx (good_for R ctx c k good) l w.
Proof. exact (@c134_frozen_proof). Qed.
Print Assumptions c134_frozen.

(** the history makes records of both classes, with values in and out of the range, and copies
    one; assigning fails *)
Definition dial_history : list (@action dobj dty rstate) :=
  [ACall 1 (made_of (dial_decl true NoDefault)) None [("x", DInt 9)];
   ACall 1 (made_of (subdial_decl true NoDefault)) None [("x", DInt 0); ("y", DInt 7)];
   ASet (DRef (TRec 0) 0) "x" (DInt 8); ADeepcopy 1 (DRef (TRec 1) 1)].
Example c134_case : good_everywhere (demo_rt 0) (dial_ctx true NoDefault) (made_of (dial_decl true NoDefault)) "x" between_1_5
    (after_all (demo_rt 0) (dial_ctx true NoDefault) dial_history w0) /\
  rs_heap (after_all (demo_rt 0) (dial_ctx true NoDefault) dial_history w0) =
    [Inst (TRec 0) [("x", DInt 5)] SNone; Inst (TRec 1) [("x", DInt 1); ("y", DInt 7)] SNone; Inst (TRec 1) [("x", DInt 1); ("y", DInt 7)] SNone].
Proof.
  split; [|vm_compute; reflexivity].
  apply (c134_clamp_partial (demo_rt 0) (dial_ctx true NoDefault) range_ops is_num num_lt (dial_decl true NoDefault) _ "x" TInt [] (Some (DInt 1)) (Some (DInt 5)) w0 w0).
  - apply Props_Filler.demo_honest.
  - apply dial_declares. left. reflexivity.
  - discriminate.
  - constructor.
  - exact num_ordered.
  - exact ints_num.
  - intros a E. injection E as <-. discriminate.
  - intros a E. injection E as <-. discriminate.
  - reflexivity.
  - exact I.
  - apply dial_program; [intros w H; exact H|intros w e _ H; exact H].
  - intros a HI. repeat destruct HI as [<-|HI]; try destruct HI; exact I || reflexivity.
  - apply c134_frozen. intros t c' E _. destruct t as [| | | | | | | | | | | | |[|[|]]]; cbn in E; try discriminate; injection E as <-; reflexivity.
  - intros x i c' v HL. unfold lookup in HL. destruct (deref (demo_rt 0) x) as [[|]|]; discriminate.
Qed.
Example c134_family : descends (demo_rt 0) (made_of (dial_decl true NoDefault)) (made_of (subdial_decl true NoDefault)).
Proof.
  apply (descends_base (demo_rt 0) _ (subdial_decl true NoDefault) (made_of (dial_decl true NoDefault))).
  - reflexivity.
  - repeat constructor; simpl; tauto.
  - intros b [H|[]]. injection H as <-. apply (made_class rt0 (dial_decl true NoDefault)); [reflexivity|repeat constructor; simpl; tauto|]. intros b [F|[]]. discriminate.
  - left. reflexivity.
  - constructor.
Qed.

(** C134 fails for defaults: they are not filled, so a record made without a value of the
    field has the default even if it is out of the range. *)
Theorem c134_default_refuted : forall z : Z, (z < 1 \/ 5 < z)%Z -> exists c w,
  declares (demo_rt 0) (dial_decl true (DefVal (DInt z))) c "x" TInt [dial_token] /\
  construct (demo_rt 0) 1 c None [] w0 = (Ok (DRef (TRec 0) 0), w) /\
  good_everywhere (demo_rt 0) (dial_ctx true (DefVal (DInt z))) c "x" between_1_5 w0 /\
  ~ good_everywhere (demo_rt 0) (dial_ctx true (DefVal (DInt z))) c "x" between_1_5 w.
Proof. exact (@c134_default_refuted_proof). Qed.
Print Assumptions c134_default_refuted.

Example c134_default_case : exists w, construct (demo_rt 0) 1 (made_of (dial_decl true (DefVal (DInt 9)))) None [] w0 = (Ok (DRef (TRec 0) 0), w) /\
  rs_heap w = [Inst (TRec 0) [("x", DInt 9)] SNone].
Proof. eexists. split; vm_compute; reflexivity. Qed.
