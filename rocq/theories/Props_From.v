(** Props_From.v -- property theorems: from_instance, with and without a Select (records/record.py:451-485)
    Each theorem is closed by the lemma of the same statement in From_main.v; the examples
    show that concrete, non-trivial cases meet the hypotheses. *)

From Verif Require Import Base Py Select Filler Classes Spec_Classes Runtime Record Spec_Record Spec_Inst Spec_Copy Demo DemoRt DemoCls.
From Verif Require Dict_proofs Select_proofs Select_proofs2 Select_main Spec_Select Filler_proofs Classes_proofs Record_proofs Classes_main Inst_proofs Inst_main Copy_proofs.
Open Scope string_scope.
Open Scope list_scope.

From Verif Require Import From_main.

(** C72: from_instance of a frozen class returns an instance of the class as it is. *)
Theorem c72_same : forall {obj ty W} (R : Rt obj ty W) n c v w,
  c_frozen c = true -> isinstance (rt_py R) v (c_ty c) = true -> from_instance R n c sel_empty v [] [] w = (Ok v, w).
Proof. exact (@c72_same_proof). Qed.
Print Assumptions c72_same.

(** C72: otherwise from_instance constructs the class from the attributes of the object
    that are named like fields.  Missing optional ones are left out, and so are those that
    are equal to the default of their field; items of the extra mapping and keywords take
    precedence. *)
Theorem c72_attributes : forall {obj ty W} (R : Rt obj ty W) D eqb n c v d maps e kw w,
  made (rt_py R) c -> has_eq R D eqb -> defaults_in D c -> dict_ok kw ->
  ~ (c_frozen c = true /\ isinstance (rt_py R) v (c_ty c) = true /\ maps = [] /\ kw = []) ->
  has_attributes R w (fun k => In k (keys (c_fields c))) v d -> (forall k a, dget k d = Some a -> D a) ->
  (forall k f, dget k (c_fields c) = Some f -> f_default f = NoDefault -> exists a, dget k d = Some a) ->
  (maps = [] /\ e = []) \/ (exists m, maps = [m] /\ as_dict R m w = (Ok e, w)) ->
  exists d', dict_ok d' /\
    (forall k a, dget k d' = Some a <->
       dget k kw = Some a \/
       dget k kw = None /\ dget k e = Some a \/
       dget k kw = None /\ dget k e = None /\
         exists f, dget k (c_fields c) = Some f /\ dget k d = Some a /\ (forall dv, f_default f = DefVal dv -> eqb dv a = false)) /\
    from_instance R n c sel_empty v maps kw w = construct R n c None d' w.
Proof. exact (@c72_attributes_proof). Qed.
Print Assumptions c72_attributes.

(** C72: if the object lacks the attribute of a required field, AttributeError is raised. *)
Theorem c72_missing : forall {obj ty W} (R : Rt obj ty W) D eqb n c v d maps kw w k f,
  made (rt_py R) c -> has_eq R D eqb -> defaults_in D c ->
  ~ (c_frozen c = true /\ isinstance (rt_py R) v (c_ty c) = true /\ maps = [] /\ kw = []) ->
  has_attributes R w (fun k => In k (keys (c_fields c))) v d -> (forall k a, dget k d = Some a -> D a) ->
  dget k (c_fields c) = Some f -> f_default f = NoDefault -> dget k d = None ->
  exists m, from_instance R n c sel_empty v maps kw w = (Raise (mkexc AttributeError m), w).
Proof. exact (@c72_missing_proof). Qed.
Print Assumptions c72_missing.

(** C73 holds for a Select that adds no name it also takes away and maybe-adds no required
    field, and objects whose attributes are not equal to the defaults of their fields: if
    from_mapping.select(s)(vars(v)) works, from_instance.select(s)(v) calls the constructor
    with the same keyword arguments. *)
Theorem c73_same_partial : forall {obj ty W} (R : Rt obj ty W) D eqb n c (s : sel obj) v m d w y w',
  made (rt_py R) c -> has_eq R D eqb -> defaults_in D c -> Select_proofs2.reachable s -> fst (sel_truth s) = true ->
  is_mapping R m d -> has_attributes R w (fun _ => True) v d -> (forall k a, dget k d = Some a -> D a) ->
  (forall k f dv a, dget k (c_fields c) = Some f -> f_default f = DefVal dv -> dget k d = Some a -> eqb dv a = false) ->
  (forall k, In k (keys (elements (s_madd s))) -> ~ In k (required_keys (c_fields c))) ->
  (forall k, In k (keys (elements (s_add s))) -> ~ In k (Select_main.removed s) /\ ~ In k (Select_main.sources s)) ->
  from_mapping R (S n) c s [m] [] w = (Ok y, w') ->
  exists d2, sel_apply s d = Ok d2 /\
    (no_reserved d2 ->
     from_mapping R (S n) c s [m] [] w = construct R (S n) c None d2 w /\
     exists d2', Permutation d2 d2' /\ from_instance R (S n) c s v [] [] w = construct R (S n) c None d2' w).
Proof. exact (@c73_same_partial_proof). Qed.
Print Assumptions c73_same_partial.

(** C73 fails: an attribute that is equal to the default of its field is left out before
    the Select is applied, which then does not find it. *)
Theorem c73_default_refuted :
  exists (c : @cls dobj dty rstate) s v d w y w', made rt0 c /\ has_attributes (demo_rt 0) w (fun _ => True) v d /\
  from_mapping (demo_rt 0) 1 c s [mapping d] [] w = (Ok y, w') /\
  exists k, from_instance (demo_rt 0) 1 c s v [] [] w = (Raise (mkexc KeyError k), w).
Proof. exact (@c73_default_refuted_proof). Qed.
Print Assumptions c73_default_refuted.

(** C73 fails: a required field that is only maybe-added is looked for in the object. *)
Theorem c73_maybe_add_refuted :
  exists (c : @cls dobj dty rstate) s v d w y w', made rt0 c /\ has_attributes (demo_rt 0) w (fun _ => True) v d /\
  from_mapping (demo_rt 0) 1 c s [mapping d] [] w = (Ok y, w') /\
  exists k, from_instance (demo_rt 0) 1 c s v [] [] w = (Raise (mkexc AttributeError k), w).
Proof. exact (@c73_maybe_add_refuted_proof). Qed.
Print Assumptions c73_maybe_add_refuted.

(** C73 fails: a name that is removed and added again is not read from the object, so that
    there is nothing to remove. *)
Theorem c73_replace_refuted :
  exists (c : @cls dobj dty rstate) s v d w y w', made rt0 c /\ has_attributes (demo_rt 0) w (fun _ => True) v d /\
  from_mapping (demo_rt 0) 1 c s [mapping d] [] w = (Ok y, w') /\
  exists k, from_instance (demo_rt 0) 1 c s v [] [] w = (Raise (mkexc KeyError k), w).
Proof. exact (@c73_replace_refuted_proof). Qed.
Print Assumptions c73_replace_refuted.

(** an object with x = 7 and y = 1, of a class that is not the record class *)
Example c72_case : exists d', 
  (forall k a, dget k d' = Some a <-> (k = "x" /\ a = DInt 7) \/ (k = "y" /\ a = DInt 2)) /\
  from_instance (demo_rt 0) 1 (made_of from_decl) sel_empty (DRef (TRec 5) 2) [] [("y", DInt 2)] from_state =
  construct (demo_rt 0) 1 (made_of from_decl) None d' from_state.
Proof.
  exists [("x", DInt 7); ("y", DInt 2)]. split; [|reflexivity]. intros k a. cbn.
  destruct (String.eqb_spec k "x") as [->|N1]; [split; [intro H; injection H as <-; auto|intros [[_ ->]|[H _]]; [reflexivity|discriminate]]|].
  destruct (String.eqb_spec k "y") as [->|N2]; [split; [intro H; injection H as <-; auto|intros [[H _]|[_ ->]]; [discriminate|reflexivity]]|].
  split; [discriminate|tauto].
Qed.
Lemma demo_eq : forall seed, has_eq (demo_rt seed) (fun _ => True) dlit_eq.
Proof. intros seed x y w _ _. split; reflexivity. Qed.
Lemma defaults_any : forall c : @cls dobj dty rstate, defaults_in (fun _ => True) c.
Proof. intros c k f d _ _. exact I. Qed.
Example c72_hypotheses : exists d', dict_ok d' /\ dget "x" d' = Some (DInt 7) /\ dget "y" d' = Some (DInt 2) /\
  from_instance (demo_rt 0) 1 (made_of from_decl) sel_empty (DRef (TRec 5) 2) [mapping [("y", DInt 2)]] [] from_state =
  construct (demo_rt 0) 1 (made_of from_decl) None d' from_state.
Proof.
  assert (MD : made rt0 (made_of from_decl)).
  { apply (made_class _ from_decl); [reflexivity|repeat constructor; simpl; intuition discriminate|]. intros b [H|[]]. discriminate. }
  destruct (c72_attributes (demo_rt 0) (fun _ => True) dlit_eq 1 (made_of from_decl) (DRef (TRec 5) 2) [("x", DInt 7); ("y", DInt 1)]
              [mapping [("y", DInt 2)]] [("y", DInt 2)] [] from_state MD (demo_eq 0) (defaults_any _)) as (d' & H1 & H2 & H3).
  - constructor.
  - intros (_ & _ & H & _). discriminate.
  - intros k _. cbn. destruct (String.eqb k "x"); [reflexivity|]. destruct (String.eqb k "y"); [reflexivity|]. eexists. reflexivity.
  - auto.
  - intros k f E _. cbn in E. destruct (String.eqb_spec k "x") as [->|N1]; [eexists; reflexivity|].
    destruct (String.eqb_spec k "y") as [->|N2]; [eexists; reflexivity|discriminate].
  - right. eexists. split; reflexivity.
  - exists d'. split; [assumption|]. split; [|split; [|assumption]]; apply H2.
    + right. right. split; [reflexivity|]. split; [reflexivity|]. eexists. split; [reflexivity|]. split; [reflexivity|]. intros dv E. cbn in E. injection E as <-. reflexivity.
    + right. left. split; reflexivity.
Qed.
Example c72_missing_case : exists m,
  from_instance (demo_rt 0) 1 (made_of from_decl) sel_empty (DRef (TRec 5) 1) [] [] from_state = (Raise (mkexc AttributeError m), from_state).
Proof. eexists. reflexivity. Qed.
(** the object has an attribute of another name: select(keys_to_rename={"z": "y"}) *)
Example c73_case :
  let w := RState [] [Inst (TRec 5) [("x", DInt 7); ("z", DInt 1)] SUnset] [] in
  let s := sel_of [] [] [] [] [("z", "y")] [] in
  exists d2', Permutation [("x", DInt 7); ("y", DInt 1)] d2' /\
  from_instance (demo_rt 0) 1 (made_of from_decl) s (DRef (TRec 5) 0) [] [] w = construct (demo_rt 0) 1 (made_of from_decl) None d2' w.
Proof.
  intros w s.
  assert (MD : made rt0 (made_of from_decl)).
  { apply (made_class _ from_decl); [reflexivity|repeat constructor; simpl; intuition discriminate|]. intros b [H|[]]. discriminate. }
  destruct (c73_same_partial (demo_rt 0) (fun _ => True) dlit_eq 0 (made_of from_decl) s (DRef (TRec 5) 0) (mapping [("x", DInt 7); ("z", DInt 1)])
     [("x", DInt 7); ("z", DInt 1)] w (DRef (TRec 0) 1) (snd (construct (demo_rt 0) 1 (made_of from_decl) None [("x", DInt 7); ("y", DInt 1)] w))) as (d2 & H1 & H2).
  - exact MD.
  - apply demo_eq.
  - apply defaults_any.
  - apply Select_proofs2.reach_init. repeat split; reflexivity.
  - reflexivity.
  - split; [repeat constructor; simpl; intuition discriminate|]. split; [reflexivity|]. intros k w1. cbn. destruct (String.eqb k "x"), (String.eqb k "z"); reflexivity.
  - intros k _. cbn. destruct (String.eqb k "x"); [reflexivity|]. destruct (String.eqb k "z"); [reflexivity|]. eexists. reflexivity.
  - auto.
  - intros k f dv a EF ED EA. cbn in EF, EA. destruct (String.eqb_spec k "x") as [->|N1].
    + injection EF as <-. cbn in ED. injection ED as <-. injection EA as <-. reflexivity.
    + destruct (String.eqb_spec k "y") as [->|N2]; [discriminate EA|discriminate EF].
  - intros k [].
  - intros k [].
  - reflexivity.
  - cbn in H1. injection H1 as <-. destruct H2 as (_ & H2).
    + intros k HI HR. unfold reserved in HR. destruct HI as [<-|[<-|[]]]; destruct HR as [H|[H|H]]; discriminate.
    + exact H2.
Qed.
