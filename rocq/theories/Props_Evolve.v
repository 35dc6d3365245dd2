(** Props_Evolve.v -- property theorems: records of an earlier version of a class, read by a later one (records/record.py:418-485, 588-643; records/select.py:103-140)
    Each theorem is closed by the lemma of the same statement in Evolve_main.v; the examples
    show that concrete, non-trivial cases meet the hypotheses. *)

From Verif Require Import Base Py Select Filler Spec_Filler Classes Spec_Classes Runtime Record Spec_Record Spec_Inst Spec_Copy Spec_Keywords Spec_Settle Spec_Hist Spec_Again Spec_Evolve Demo DemoRt DemoCls.
From Verif Require Dict_proofs Classes_proofs Record_proofs Classes_main Inst_proofs Inst_main Copy_proofs Copy_main Again_main Props_Again.
Open Scope string_scope.
Open Scope list_scope.

From Verif Require Import Evolve_main.

(** a record exported by to_dict and read by a later version of its class *)
Theorem c163_mapping : forall {obj ty W} (R R' : Rt obj ty W) ctx ctx' D eqb Q n c c' gone w x i,
  made (rt_py R) c -> made (rt_py R') c' -> ctx' (c_ty c') = Some c' -> fields_callable c' ->
  instance_of R ctx c w x i -> has_eq R D eqb -> defaults_in D c -> values_in D c i ->
  later_version gone c c' -> defaults_still c c' -> accepts R' ctx' c' (stems_from eqb Q c c' i) ->
  exists d, to_dict R ctx x no_args sel_empty w = (Ok d, w) /\
  forall m d' w1, is_mapping R' m d' -> arrives R' Q c' d d' ->
  exists y w' j, from_mapping R' (S n) c' (forgetting gone) [m] [] w1 = (Ok y, w') /\ fresh_instance R' ctx' c' w1 w' y j /\
    all_kept R' w1 w' /\ stems_from eqb Q c c' i j /\ (defaults_kept c c' -> continues (or_equal eqb Q) c c' i j).
Proof. exact (@c163_mapping_proof). Qed.
Print Assumptions c163_mapping.

(** with include_defaults=True the defaults may change, appear or go away *)
Theorem c163_defaults : forall {obj ty W} (R R' : Rt obj ty W) ctx ctx' D eqb Q n c c' gone w x i,
  made (rt_py R) c -> made (rt_py R') c' -> ctx' (c_ty c') = Some c' -> fields_callable c' ->
  instance_of R ctx c w x i -> has_eq R D eqb -> defaults_in D c -> values_in D c i ->
  later_version gone c c' -> accepts R' ctx' c' (continues Q c c' i) ->
  exists d, to_dict R ctx x with_defaults sel_empty w = (Ok d, w) /\
  forall m d' w1, is_mapping R' m d' -> arrives R' Q c' d d' ->
  exists y w' j, from_mapping R' (S n) c' (forgetting gone) [m] [] w1 = (Ok y, w') /\ fresh_instance R' ctx' c' w1 w' y j /\
    all_kept R' w1 w' /\ continues Q c c' i j.
Proof. exact (@c163_defaults_proof). Qed.
Print Assumptions c163_defaults.

(** a record exported by to_json and read by from_json of a later version of its class *)
Theorem c163_json : forall {obj ty W} (R R' : Rt obj ty W) ctx ctx' D eqb Q n c c' gone w x i,
  made (rt_py R) c -> made (rt_py R') c' -> ctx' (c_ty c') = Some c' -> fields_callable c' ->
  instance_of R ctx c w x i -> has_eq R D eqb -> defaults_in D c -> values_in D c i ->
  later_version gone c c' -> defaults_still c c' -> accepts R' ctx' c' (stems_from eqb Q c c' i) ->
  exists d, to_dict R ctx x no_args sel_empty w = (Ok d, w) /\
  forall t w1, json_dumps R d w = (Ok t, w1) ->
  to_json R ctx x no_args sel_empty w = (Ok t, w1) /\
  forall w2 o w3 d' w4, json_loads R' t w2 = (Ok o, w3) -> as_dict R' o w3 = (Ok d', w4) -> unpack R' o w3 = (Ok d', w4) ->
  arrives R' Q c' d d' ->
  exists y w' j, from_json R' (S n) c' (forgetting gone) t w2 = (Ok y, w') /\ fresh_instance R' ctx' c' w4 w' y j /\
    all_kept R' w4 w' /\ stems_from eqb Q c c' i j /\ (defaults_kept c c' -> continues (or_equal eqb Q) c c' i j).
Proof. exact (@c163_json_proof). Qed.
Print Assumptions c163_json.

(** records that a program with classes as in C156 made are read by a version whose fields are as they were *)
Theorem c163_always : forall {obj ty W} (R : Rt obj ty W) ctx ctx' D eqb l w0 n c c' gone x i,
  settled_program R ctx l w0 -> all_right R ctx (kept_value R ctx) w0 ->
  let w := after_all R ctx l w0 in
  made (rt_py R) c' -> ctx' (c_ty c') = Some c' -> fields_callable c' ->
  instance_of R ctx c w x i -> has_eq R D eqb -> defaults_in D c -> values_in D c i ->
  later_version gone c c' -> defaults_kept c c' ->
  (forall k f f', dget k (c_fields c) = Some f -> dget k (c_fields c') = Some f' -> f_filler f' = f_filler f) ->
  accepts R ctx' c' (continues (or_equal eqb eq) c c' i) ->
  exists d, to_dict R ctx x no_args sel_empty w = (Ok d, w) /\
  forall m w1, is_mapping R m d ->
  exists y w' j, from_mapping R (S n) c' (forgetting gone) [m] [] w1 = (Ok y, w') /\ fresh_instance R ctx' c' w1 w' y j /\
    all_kept R w1 w' /\ continues (or_equal eqb eq) c c' i j.
Proof. exact (@c163_always_proof). Qed.
Print Assumptions c163_always.

(** Select(keys_to_remove=...) does not read the data of a record that has the default there *)
Theorem c163_strict : forall {obj ty W} (R R' : Rt obj ty W) ctx D eqb n c c' k f dv v w x i,
  made (rt_py R) c -> instance_of R ctx c w x i -> has_eq R D eqb -> defaults_in D c -> values_in D c i ->
  dget k (c_fields c) = Some f -> f_default f = DefVal dv -> dget k (i_dict i) = Some v -> eqb dv v = true ->
  exists d, to_dict R ctx x no_args sel_empty w = (Ok d, w) /\
  forall m d' w1, is_mapping R' m d' -> (forall k, In k (keys d') <-> In k (keys d)) ->
  exists e, from_mapping R' n c' (removing [k]) [m] [] w1 = (Raise e, w1) /\ exc_cls e = KeyError.
Proof. exact (@c163_strict_proof). Qed.
Print Assumptions c163_strict.

(** the first version has the fields x, y with the default None, and z with the default 0; the later one
    has x, y and a new field n with the default 3 *)
Definition first_decl := rdecl 0 false false (Some false) SCheck
  [("x", (AHint (HTy TInt) [], NoDefault)); ("y", (AHint (HUnion [HTy TInt; HNone]) [], DefVal DNone)); ("z", (AHint (HTy TInt) [], DefVal (DInt 0)))] [] no_post.
Definition later_decl := rdecl 0 false false (Some false) SCheck
  [("y", (AHint (HUnion [HTy TInt; HNone]) [], DefVal DNone)); ("n", (AHint (HTy TInt) [], DefVal (DInt 3))); ("x", (AHint (HTy TInt) [], NoDefault))] [] no_post.
Definition first_ctx (t : dty) : option (@cls dobj dty rstate) := match t with TRec 0 => Some (made_of first_decl) | _ => None end.
Definition later_ctx (t : dty) : option (@cls dobj dty rstate) := match t with TRec 0 => Some (made_of later_decl) | _ => None end.
Definition one_first : rstate := snd (construct (demo_rt 0) 1 (made_of first_decl) None [("x", DInt 5)] w0).

Example c163_case :
  later_version ["z"] (made_of first_decl) (made_of later_decl) /\ defaults_kept (made_of first_decl) (made_of later_decl) /\
  (forall Q, accepts (demo_rt 0) later_ctx (made_of later_decl) Q) /\
  exists i, instance_of (demo_rt 0) first_ctx (made_of first_decl) one_first (DRef (TRec 0) 0) i /\
    arrives (demo_rt 0) eq (made_of later_decl) [("x", DInt 5)] [("x", DInt 5)] /\
    to_dict (demo_rt 0) first_ctx (DRef (TRec 0) 0) no_args sel_empty one_first = (Ok [("x", DInt 5)], one_first) /\
    to_dict (demo_rt 0) first_ctx (DRef (TRec 0) 0) with_defaults sel_empty one_first =
      (Ok [("x", DInt 5); ("y", DNone); ("z", DInt 0)], one_first).
Proof.
  split; [|split; [|split]].
  - split; [|split].
    + intros k [<-|[]] H. vm_compute in H. repeat (destruct H as [H|H]; [discriminate|]). contradiction.
    + intros k H N. vm_compute in H. repeat (destruct H as [<-|H]; [vm_compute; tauto|]). destruct H as [<-|[]] || contradiction. exfalso. apply N. left. reflexivity.
    + intros k f E N. assert (H : In k ["y"; "n"; "x"]) by (change ["y"; "n"; "x"] with (keys (c_fields (made_of later_decl))); eapply Dict_proofs.dget_some_key; exact E).
      destruct H as [<-|[<-|[<-|[]]]]; [exfalso; apply N; vm_compute; tauto| |exfalso; apply N; vm_compute; tauto].
      cbn in E. injection E as <-. eexists. reflexivity.
  - intros k f f' d E E' ED. assert (H : In k ["x"; "y"; "z"]) by (change ["x"; "y"; "z"] with (keys (c_fields (made_of first_decl))); eapply Dict_proofs.dget_some_key; exact E).
    destruct H as [<-|[<-|[<-|[]]]]; cbn in E, E'; try discriminate; injection E as <-; injection E' as <-; cbn in *; congruence.
  - intros Q self w j _ _. reflexivity.
  - eexists. split; [|split; [|split]].
    + split; [reflexivity|]. split; [vm_compute; reflexivity|]. split; [reflexivity|]. split; [reflexivity|].
      intros k H. vm_compute in H. destruct H as [<-|[<-|[<-|[]]]]; eexists; reflexivity.
    + split; [repeat constructor; simpl; tauto|]. split; [intro; reflexivity|]. intros k v u H E E'. cbn in E, E'.
      destruct (String.eqb_spec k "x") as [->|]; [|discriminate]. injection E as <-. injection E' as <-. exists (DInt 5). split; [|reflexivity].
      eexists. split; [eexists; split; reflexivity|]. intro w. reflexivity.
    + vm_compute. reflexivity.
    + vm_compute. reflexivity.
Qed.
