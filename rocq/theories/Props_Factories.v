(** Props_Factories.v -- property theorems: several mappings, from_pickle, failing attributes and repr
    Each theorem is closed by the lemma of the same statement in Factories_main.v; the examples
    show that concrete, non-trivial cases meet the hypotheses. *)

From Verif Require Import Base Py Select Filler Classes Spec_Classes Runtime Record Spec_Record Spec_Inst Spec_Copy Spec_Factories Demo DemoRt DemoCls.
From Verif Require Dict_proofs Filler_proofs Classes_proofs Record_proofs Classes_main Inst_proofs Inst_main Copy_proofs From_main New_main Copy_main.
Open Scope string_scope.
Open Scope list_scope.

From Verif Require Import Factories_main.

(** C91: from_mapping( *maps, **kw) builds the class from the union of the items, where the
    earlier mapping wins and the keywords come last; a Select is applied to the union. *)
Theorem c91_first_wins : forall {obj ty W} (R : Rt obj ty W) n c (s : sel obj) maps ds kw,
  Forall2 (is_mapping R) maps ds -> dict_ok kw ->
  exists d, dict_ok d /\ (forall k v, dget k d = Some v <-> first_with k (ds ++ [kw]) v) /\
    (forall w e, sel_apply s d = Raise e -> from_mapping R n c s maps kw w = (Raise e, w)) /\
    (forall w d', sel_apply s d = Ok d' -> from_mapping R n c s maps kw w = construct R n c None d' w).
Proof. exact (@c91_first_wins_proof). Qed.
Print Assumptions c91_first_wins.

(** C91: without a Select, and with one mapping that has all names, the rest is ignored. *)
Theorem c91_shadowed : forall {obj ty W} (R : Rt obj ty W) n c m d maps ds kw w,
  is_mapping R m d -> Forall2 (is_mapping R) maps ds -> dict_ok kw ->
  (forall d' k, In d' (ds ++ [kw]) -> In k (keys d') -> In k (keys d)) ->
  exists d', Permutation d d' /\ from_mapping R n c sel_empty (m :: maps) kw w = construct R n c None d' w.
Proof. exact (@c91_shadowed_proof). Qed.
Print Assumptions c91_shadowed.

(** C92: from_pickle returns an unpickled instance of the class, or of a subclass, as it is. *)
Theorem c92_instance : forall {obj ty W} (R : Rt obj ty W) n c v w,
  isinstance (rt_py R) v (c_ty c) = true -> from_pickled R n c v w = (Ok v, w).
Proof. exact (@c92_instance_proof). Qed.
Print Assumptions c92_instance.

(** C92: anything else is given to every parser of the class, and the result is the only
    result there is. *)
Theorem c92_other : forall {obj ty W} (R : Rt obj ty W) n c v w os w',
  isinstance (rt_py R) v (c_ty c) = false ->
  parser_runs (fun p => run_parser R (construct R n c None) c p v) (c_parsers c) w os w' ->
  snd (from_pickled R n c v w) = w' /\ parse_verdict os (fst (from_pickled R n c v w)).
Proof. exact (@c92_other_proof). Qed.
Print Assumptions c92_other.

(** C92: so from_pickle of a base class restores a pickled instance of a subclass. *)
Theorem c92_round_trip : forall {obj ty W} (R : Rt obj ty W) ctx D eqb hf n m c base w x i vs w1,
  made (rt_py R) c -> accepts R ctx c (refilled R c (combine (keys (i_dict i)) vs)) -> fields_callable c ->
  instance_of R ctx c w x i -> comparable R D eqb hf c i -> dict_ok (i_dict i) ->
  pickle_values R (dvalues (i_dict i)) w = (Ok vs, w1) -> all_kept R w w1 -> List.length vs = List.length (i_dict i) ->
  (forall y, type_of (rt_py R) y = c_ty c -> isinstance (rt_py R) y (c_ty base) = true) ->
  let copies := combine (keys (i_dict i)) vs in
  (forall k f v u, dget k (c_fields c) = Some f -> dget k (i_dict i) = Some v -> dget k copies = Some u ->
     D u /\ eqb v u = true /\ (c_frozen c = true -> forall w, v_hash R u w = (Ok (hf u), w)) /\
     exists y, forall w, call (rt_py R) (f_filler f) u w = (Ok y, w)) ->
  exists y w' j, (let* v := pickle_copy R ctx (S n) x in from_pickled R m base v) w = (Ok y, w') /\
    instance_of R ctx c w' y j /\ lookup R w1 y = None /\
    exists w'', record_eq R ctx x y w' = (Ok true, w'').
Proof. exact (@c92_round_trip_proof). Qed.
Print Assumptions c92_round_trip.

(** C93: an exception other than AttributeError from an attribute of the object is raised by
    from_instance as it is, even for an optional field. *)
Theorem c93_attribute_error : forall {obj ty W} (R : Rt obj ty W) D eqb n c v d maps kw w k f e w',
  made (rt_py R) c -> has_eq R D eqb -> defaults_in D c ->
  ~ (c_frozen c = true /\ isinstance (rt_py R) v (c_ty c) = true /\ maps = [] /\ kw = []) ->
  has_attributes R w (fun k' => In k' (keys (c_fields c)) /\ k' <> k) v d -> (forall k a, dget k d = Some a -> D a) ->
  (forall k' f, dget k' (c_fields c) = Some f -> k' <> k -> f_default f = NoDefault -> exists a, dget k' d = Some a) ->
  dget k (c_fields c) = Some f -> getattr R v k w = (Raise e, w') -> is_AttributeError e = false ->
  from_instance R n c sel_empty v maps kw w = (Raise e, w').
Proof. exact (@c93_attribute_error_proof). Qed.
Print Assumptions c93_attribute_error.

(** C94: repr(p) is the name of the class and, in parentheses, name=repr(value) for exactly
    the fields whose value is not equal to a non-factory default, in field order. *)
Theorem c94_repr : forall {obj ty W} (R : Rt obj ty W) ctx D eqb c w x i show,
  made (rt_py R) c -> has_eq R D eqb -> defaults_in D c -> instance_of R ctx c w x i -> values_in D c i ->
  (forall k v, dget k (i_dict i) = Some v -> v_repr R v w = (Ok (show v), w)) ->
  exists d, repr R ctx x no_args w = (Ok (call_text (type_name R (c_ty c)) show d), w) /\
    keys d = filter (fun k => smem k (keys d)) (keys (c_fields c)) /\
    forall k v, In (k, v) d <->
      exists f, dget k (c_fields c) = Some f /\ dget k (i_dict i) = Some v /\ (forall dv, f_default f = DefVal dv -> eqb dv v = false).
Proof. exact (@c94_repr_proof). Qed.
Print Assumptions c94_repr.

(** C95: records that are equal print the same, if values that are equal do. *)
Theorem c95_same_partial : forall {obj ty W} (R : Rt obj ty W) ctx D eqb c w x i y j show,
  made (rt_py R) c -> has_eq R D eqb -> equivalence D eqb -> defaults_in D c ->
  instance_of R ctx c w x i -> instance_of R ctx c w y j -> values_in D c i -> values_in D c j ->
  (forall v, D v -> v_repr R v w = (Ok (show v), w)) ->
  (forall a b, D a -> D b -> eqb a b = true -> show a = show b) ->
  fieldwise eqb c i j ->
  exists s, repr R ctx x no_args w = (Ok s, w) /\ repr R ctx y no_args w = (Ok s, w).
Proof. exact (@c95_same_partial_proof). Qed.
Print Assumptions c95_same_partial.

(** C95 fails in general: C(x=1, y=5) == C(x=True, y=5), but their reprs are different. *)
Theorem c95_same_refuted :
  exists (d : @decl dobj dty rstate) c ctx w x i y j s s',
    make_class rt0 d = Ok c /\ instance_of (demo_rt 0) ctx c w x i /\ instance_of (demo_rt 0) ctx c w y j /\
    record_eq (demo_rt 0) ctx x y w = (Ok true, w) /\
    repr (demo_rt 0) ctx x no_args w = (Ok s, w) /\ repr (demo_rt 0) ctx y no_args w = (Ok s', w) /\ s <> s'.
Proof. exact (@c95_same_refuted_proof). Qed.
Print Assumptions c95_same_refuted.

Example c91_case : exists d,
  is_mapping (demo_rt 0) (mapping [("x", DInt 1)]) [("x", DInt 1)] /\
  is_mapping (demo_rt 0) (mapping [("x", DInt 2); ("y", DInt 3)]) [("x", DInt 2); ("y", DInt 3)] /\
  dget "x" d = Some (DInt 1) /\ dget "y" d = Some (DInt 3) /\
  from_mapping (demo_rt 0) 1 (made_of shown_decl) sel_empty [mapping [("x", DInt 1)]; mapping [("x", DInt 2); ("y", DInt 3)]] [("y", DInt 9)] shown_w =
  construct (demo_rt 0) 1 (made_of shown_decl) None d shown_w /\
  exists i, lookup (demo_rt 0) (snd (construct (demo_rt 0) 1 (made_of shown_decl) None d shown_w)) (DRef (TRec 0) 2) = Some i /\
    dget "x" (i_dict i) = Some (DInt 1) /\ dget "y" (i_dict i) = Some (DInt 3).
Proof.
  exists [("y", DInt 3); ("x", DInt 1)].
  split; [split; [repeat constructor; simpl; tauto|]; split; [reflexivity|]; intros k w1; cbn; destruct (String.eqb k "x"); reflexivity|].
  split; [split; [repeat constructor; simpl; intuition discriminate|]; split; [reflexivity|]; intros k w1; cbn; destruct (String.eqb k "x"), (String.eqb k "y"); reflexivity|].
  split; [reflexivity|]. split; [reflexivity|]. split; [reflexivity|]. eexists. split; [reflexivity|]. split; reflexivity.
Qed.
Example c91_shadowed_case : exists d', Permutation [("x", DInt 1); ("y", DInt 3)] d' /\
  from_mapping (demo_rt 0) 1 (made_of shown_decl) sel_empty [mapping [("x", DInt 1); ("y", DInt 3)]; mapping [("x", DInt 2)]] [("y", DInt 9)] shown_w =
  construct (demo_rt 0) 1 (made_of shown_decl) None d' shown_w.
Proof.
  apply (c91_shadowed (demo_rt 0) 1 (made_of shown_decl) _ _ _ [[("x", DInt 2)]]).
  - split; [repeat constructor; simpl; intuition discriminate|]. split; [reflexivity|]. intros k w1. cbn. destruct (String.eqb k "x"), (String.eqb k "y"); reflexivity.
  - constructor; [|constructor]. split; [repeat constructor; simpl; tauto|]. split; [reflexivity|]. intros k w1. cbn. destruct (String.eqb k "x"); reflexivity.
  - repeat constructor; simpl; tauto.
  - intros d' k [<-|[<-|[]]] HK; cbn in *; tauto.
Qed.
(** an unpickled dict is parsed *)
Example c92_case :
  isinstance (rt_py (demo_rt 0)) (DRef (TRec 100) 1) (c_ty (made_of shown_decl)) = true /\
  isinstance (rt_py (demo_rt 0)) (mapping [("x", DInt 4)]) (c_ty (made_of shown_decl)) = false /\
  exists w', from_pickled (demo_rt 0) 2 (made_of shown_decl) (mapping [("x", DInt 4)]) shown_w = (Ok (DRef (TRec 0) 2), w') /\
    lookup (demo_rt 0) w' (DRef (TRec 0) 2) = Some (Inst (TRec 0) [("x", DInt 4); ("y", DInt 0)] SUnset).
Proof. split; [reflexivity|]. split; [reflexivity|]. eexists. split; reflexivity. Qed.
(** the attribute of an optional field raises ValueError *)
Definition boom_decl := rdecl 0 true false (Some false) SCheck [("x", (an TInt, NoDefault)); ("boom", (an TInt, DefVal (DInt 0)))] [] no_post.
Example c93_case :
  has_attributes (demo_rt 0) shown_w (fun k => In k (keys (c_fields (made_of boom_decl))) /\ k <> "boom") (DFun 3) [("x", DInt 3)] /\
  getattr (demo_rt 0) (DFun 3) "boom" shown_w = (Raise (mkexc ValueError "boom"), shown_w) /\
  from_instance (demo_rt 0) 1 (made_of boom_decl) sel_empty (DFun 3) [] [] shown_w = (Raise (mkexc ValueError "boom"), shown_w).
Proof. split; [|split; reflexivity]. intros k [[<-|[<-|[]]] N]; [reflexivity|destruct (N eq_refl)]. Qed.
Example c94_case : repr (demo_rt 0) shown_ctx (DRef (TRec 0) 0) no_args shown_w = (Ok "C(x=1, y=1)", shown_w) /\
  repr (demo_rt 0) shown_ctx (DRef (TRec 0) 0) no_args (RState [] [Inst (TRec 0) [("x", DInt 1); ("y", DInt 0)] SUnset] []) =
  (Ok "C(x=1)", RState [] [Inst (TRec 0) [("x", DInt 1); ("y", DInt 0)] SUnset] []).
Proof. split; reflexivity. Qed.

(** C97: from_json.select(s) on the text of a JSON object does what from_mapping.select(s)
    does on that object. *)
Theorem c97_select : forall {obj ty W} (R : Rt obj ty W) n c (s : sel obj) t o d w w1,
  json_loads R t w = (Ok o, w1) -> is_mapping R o d ->
  (forall w, unpack R o w = (Ok d, w)) -> (forall w, as_dict R o w = (Ok d, w)) ->
  from_json R n c s t w = from_mapping R n c s [o] [] w1.
Proof. exact (@c97_select_proof). Qed.
Print Assumptions c97_select.

(** C97: a text that is not JSON is refused, with the error of json.loads, and nothing
    else happens. *)
Theorem c97_not_json : forall {obj ty W} (R : Rt obj ty W) n c (s : sel obj) t e w w1,
  json_loads R t w = (Raise e, w1) -> from_json R n c s t w = (Raise e, w1).
Proof. exact (@c97_not_json_proof). Qed.
Print Assumptions c97_not_json.

(** C97: sending a record to another class as JSON, with a Select on either side, is sending
    it as a mapping. *)
Theorem c97_exchange : forall {obj ty W} (R : Rt obj ty W) ctx n c x a (s s' : sel obj) d t o w w1 w2 w3,
  to_dict R ctx x a s w = (Ok d, w1) -> json_dumps R d w1 = (Ok t, w2) -> json_loads R t w2 = (Ok o, w3) ->
  is_mapping R o d -> (forall w, unpack R o w = (Ok d, w)) -> (forall w, as_dict R o w = (Ok d, w)) ->
  (let* t := to_json R ctx x a s in from_json R n c s' t) w = from_mapping R n c s' [o] [] w3.
Proof. exact (@c97_exchange_proof). Qed.
Print Assumptions c97_exchange.

(** C97 fails: with a Select, from_json also takes a JSON list of pairs. *)
Theorem c97_pairs_refuted :
  ~ (forall obj ty W (R : Rt obj ty W) n c (s : sel obj) t w y w',
       from_json R n c s t w = (Ok y, w') -> exists o w1 d, json_loads R t w = (Ok o, w1) /\ is_mapping R o d).
Proof. exact (@c97_pairs_refuted_proof). Qed.
Print Assumptions c97_pairs_refuted.

(** C98: of no or one mapping from_instance takes the values it has for fields that the
    keywords do not name, before those of the object. *)
Theorem c98_single_partial : forall {obj ty W} (R : Rt obj ty W) D eqb n c v d m e kw w,
  made (rt_py R) c -> has_eq R D eqb -> defaults_in D c -> dict_ok kw ->
  has_attributes R w (fun k => In k (keys (c_fields c))) v d -> (forall k a, dget k d = Some a -> D a) ->
  (forall k f, dget k (c_fields c) = Some f -> f_default f = NoDefault -> exists a, dget k d = Some a) ->
  as_dict R m w = (Ok e, w) ->
  exists d', dict_ok d' /\ from_instance R n c sel_empty v [m] kw w = construct R n c None d' w /\
    (forall k a, dget k d' = Some a ->
       first_with k [kw; e; d] a /\ (dget k kw = None -> dget k e = None -> In k (keys (c_fields c)))) /\
    (forall k a, first_with k [kw; e] a -> dget k d' = Some a).
Proof. exact (@c98_single_partial_proof). Qed.
Print Assumptions c98_single_partial.

(** C98 fails: with more than one mapping from_instance always raises; if it would have succeeded
    without the mappings, the error is a TypeError. *)
Theorem c98_many_refuted : forall {obj ty W} (R : Rt obj ty W) n c (s : sel obj) v m1 m2 maps kw w o w',
  from_instance R n c s v (m1 :: m2 :: maps) kw w = (o, w') ->
  exists e, o = Raise e /\
    (c_frozen c = false -> forall y w1, from_instance R n c s v [] kw w = (Ok y, w1) -> exc_cls e = TypeError).
Proof. exact (@c98_many_refuted_proof). Qed.
Print Assumptions c98_many_refuted.

(** {"x": 5} with and without a Select *)
Example c97_case :
  let t := DTuple (DCons (mapping [("y", DInt 5); ("z", DInt 6)]) DNil) in
  let s := Sel (Reiter []) (Reiter []) (Reiter ["z"]) (Reiter []) (Reiter [("y", "x")]) (Reiter []) None in
  is_mapping (demo_rt 0) (mapping [("y", DInt 5); ("z", DInt 6)]) [("y", DInt 5); ("z", DInt 6)] /\
  from_json (demo_rt 0) 1 (made_of shown_decl) s t (RState [] [] []) =
    (Ok (DRef (TRec 0) 0), RState [] [Inst (TRec 0) [("x", DInt 5); ("y", DInt 0)] SUnset] []).
Proof.
  split; [|vm_compute; reflexivity]. split.
  - repeat constructor; cbn; intuition discriminate.
  - split; [reflexivity|]. intros k w. cbn. destruct (String.eqb k "y"); [reflexivity|]. destruct (String.eqb k "z"); reflexivity.
Qed.
Example c98_case :
  from_instance (demo_rt 0) 1 (made_of shown_decl) sel_empty (DFun 3) [mapping [("y", DInt 7)]] [] (RState [] [] []) =
    (Ok (DRef (TRec 0) 0), RState [] [Inst (TRec 0) [("x", DInt 3); ("y", DInt 7)] SUnset] []) /\
  from_instance (demo_rt 0) 1 (made_of shown_decl) sel_empty (DFun 3) [mapping [("y", DInt 7)]] [("x", DInt 1)] (RState [] [] []) =
    (Ok (DRef (TRec 0) 0), RState [] [Inst (TRec 0) [("x", DInt 1); ("y", DInt 7)] SUnset] []) /\
  exists e w', from_instance (demo_rt 0) 1 (made_of shown_decl) sel_empty (DFun 3) [mapping [("y", DInt 7)]; mapping [("x", DInt 7)]] [] (RState [] [] []) = (Raise e, w').
Proof. repeat split; try (vm_compute; reflexivity). do 2 eexists. vm_compute. reflexivity. Qed.

(** classes with AttributeError among their bases count as AttributeErrors *)
Example c93_subclass :
  is_AttributeError (mkexc (SubExc 1 [SubExc 2 [KeyError] CtorStr; SubExc 3 [AttributeError] CtorStr] CtorStr) "x") = true /\
  is_AttributeError (mkexc (SubExc 2 [KeyError] CtorStr) "x") = false /\
  is_Exception (mkexc (SubExc 4 [NotException 0] CtorStr) "x") = false /\
  is_Exception (mkexc (SubExc 5 [NotException 0; ValueError] CtorStr) "x") = true.
Proof. repeat split. Qed.
