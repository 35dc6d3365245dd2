(** Copy_main.v -- proofs of the properties stated in Props_Copy.v: exporting and rebuilding record instances: from_mapping, JSON, copy, deepcopy, pickle, from_instance *)

From Verif Require Import Base Py Select Filler Classes Spec_Classes Runtime Record Spec_Record Spec_Inst Spec_Copy Demo DemoRt DemoCls.
From Verif Require Dict_proofs Filler_proofs Classes_proofs Record_proofs Classes_main Inst_proofs Inst_main Copy_proofs.
Open Scope string_scope.
Open Scope list_scope.

Import Dict_proofs Filler_proofs Classes_proofs Record_proofs Classes_main Inst_proofs Inst_main Copy_proofs.

(** what is constructed from an export has the values back, or the defaults *)
Lemma exported_rebuilt : forall {obj ty W} eqb (c : @cls obj ty W) (i j : inst obj ty), dict_ok (c_fields c) ->
  (forall k v, dget k (exported eqb no_args [] c i) = Some v -> dget k (i_dict j) = Some v) ->
  (forall k f v, dget k (c_fields c) = Some f -> ~ In k (keys (exported eqb no_args [] c i)) -> f_default f = DefVal v -> dget k (i_dict j) = Some v) ->
  rebuilt eqb c i j.
Proof.
  intros obj ty W eqb c i j HO H1 H2 k f v EF EV. destruct (exported_or_default eqb c i k f v HO EF EV) as [E|[NI (d & ED & EE)]].
  - left. apply H1. assumption.
  - right. exists d. split; [assumption|]. split; [assumption|]. eapply H2; eassumption.
Qed.

Lemma c36_mapping_proof : forall {obj ty W} (R : Rt obj ty W) ctx D eqb hf n c w x i,
  made (rt_py R) c -> accepts R ctx c (fieldwise eqb c i) -> fields_callable c ->
  instance_of R ctx c w x i -> comparable R D eqb hf c i -> stored_fixed R c i ->
  exists d, to_dict R ctx x no_args sel_empty w = (Ok d, w) /\
    forall m, is_mapping R m d ->
    exists y w', from_mapping R (S n) c sel_empty [m] [] w = (Ok y, w') /\ equal_copy R ctx c w w' x y.
Proof.
  intros obj ty W R ctx D eqb hf n c w x i HM HP HFC HI HC HS. apply (made_named R) in HM. pose proof HM as [HO _].
  exists (exported eqb no_args [] c i). split; [eapply to_dict_plain; eassumption|]. intros m HMm.
  destruct (restored_copy R ctx D eqb hf n c x i (exported eqb no_args [] c i) w) as (y & w' & H1 & H2); try assumption; [reflexivity|apply fixed_restores; assumption|].
  exists y, w'. split; [|assumption]. unfold from_mapping, from_mapping_with. apply bind_ok. exists (exported eqb no_args [] c i), w.
  split; [apply chain_map_one; assumption|]. apply bind_ok. exists (exported eqb no_args [] c i), w. split; [reflexivity|assumption].
Qed.

Lemma c39_json_proof : forall {obj ty W} (R : Rt obj ty W) ctx D eqb hf n c w x i,
  made (rt_py R) c -> accepts R ctx c (fieldwise eqb c i) -> fields_callable c ->
  instance_of R ctx c w x i -> comparable R D eqb hf c i ->
  exists d, to_dict R ctx x no_args sel_empty w = (Ok d, w) /\
    forall t w1 o w2 d' w3, json_dumps R d w = (Ok t, w1) -> json_loads R t w1 = (Ok o, w2) -> unpack R o w2 = (Ok d', w3) ->
    all_kept R w w3 -> keys d' = keys d -> restores R D eqb hf c i d' ->
    to_json R ctx x no_args sel_empty w = (Ok t, w1) /\
    exists y w', from_json R (S n) c sel_empty t w1 = (Ok y, w') /\ equal_copy R ctx c w3 w' x y.
Proof.
  intros obj ty W R ctx D eqb hf n c w x i HM HP HFC HI HC. apply (made_named R) in HM. pose proof HM as [HO _].
  exists (exported eqb no_args [] c i). assert (TD : to_dict R ctx x no_args sel_empty w = (Ok (exported eqb no_args [] c i), w)) by (eapply to_dict_plain; eassumption).
  split; [assumption|]. intros t w1 o w2 d' w3 HD HL HU HK KD HR. split.
  - unfold to_json. apply bind_ok. exists (exported eqb no_args [] c i), w. auto.
  - destruct (restored_copy R ctx D eqb hf n c x i d' w3) as (y & w' & H1 & H2); try assumption; [eapply kept_instance; eassumption|].
    exists y, w'. split; [|assumption]. unfold from_json, from_json_with. apply bind_ok. exists o, w2. split; [assumption|].
    apply bind_ok. exists d', w3. split; [exact HU|]. apply bind_ok. exists d', w3. split; [reflexivity|assumption].
Qed.

Lemma copy_frozen : forall {obj ty W} (R : Rt obj ty W) ctx n c w x i, instance_of R ctx c w x i -> c_frozen c = true ->
  copy R ctx n x w = (Ok x, w).
Proof. intros obj ty W R ctx n c w x i HI EF. unfold copy, with_class. rewrite (class_of_instance R ctx c w x i HI), EF. reflexivity. Qed.
Lemma copy_builds : forall {obj ty W} (R : Rt obj ty W) ctx D eqb n c w x i, well_named c -> c_frozen c = false ->
  instance_of R ctx c w x i -> has_eq R D eqb -> defaults_in D c -> values_in D c i ->
  copy R ctx n x w = construct R n c None (exported eqb no_args [] c i) w.
Proof.
  intros obj ty W R ctx D eqb n c w x i HN EF HI HE HD HV. unfold copy, with_class. rewrite (class_of_instance R ctx c w x i HI), EF.
  unfold from_instance, from_instance_with. rewrite EF, andb_false_r. cbn [andb]. unfold bind at 1.
  rewrite (to_dict_of_exported R ctx D eqb HE c no_args [] w x i) by (auto; reflexivity). reflexivity.
Qed.

Lemma c38_frozen_partial_proof : forall {obj ty W} (R : Rt obj ty W) ctx n c w x i,
  instance_of R ctx c w x i -> c_frozen c = true -> copy R ctx n x w = (Ok x, w).
Proof.
 intros obj ty W R ctx n c w x i HI EF. eapply copy_frozen; eassumption. Qed.

Lemma c38_not_default_partial_proof : forall {obj ty W} (R : Rt obj ty W) ctx D eqb n c w x i,
  made (rt_py R) c -> accepts R ctx c (rebuilt eqb c i) -> fields_callable c -> c_frozen c = false ->
  instance_of R ctx c w x i -> has_eq R D eqb -> defaults_in D c -> values_in D c i -> stored_fixed R c i ->
  exists y w' j, copy R ctx (S n) x w = (Ok y, w') /\ fresh_instance R ctx c w w' y j /\ all_kept R w w' /\
    (forall k f v, dget k (c_fields c) = Some f -> dget k (i_dict i) = Some v ->
       (forall d, f_default f = DefVal d -> eqb d v = false) -> dget k (i_dict j) = Some v) /\
    (forall k f v d, dget k (c_fields c) = Some f -> dget k (i_dict i) = Some v ->
       f_default f = DefVal d -> eqb d v = true -> dget k (i_dict j) = Some d).
Proof.
  intros obj ty W R ctx D eqb n c w x i HM HP HFC EF HI HE HD HV HS. apply (made_named R) in HM. pose proof HM as [HO _].
  rewrite (copy_builds R ctx D eqb (S n) c w x i) by assumption. pose proof HI as (HX & _ & _ & _ & FI).
  destruct (construct_fixed R ctx n c (exported eqb no_args [] c i) w) as (y & w' & j & HC & HFr & HK & H1 & H2); try assumption.
  - eapply accepts_less; [|exact HP]. intros j [H1 H2]. apply exported_rebuilt; assumption.
  - apply exported_ok. assumption.
  - intros k v HIn. apply in_exported in HIn; [|assumption]. destruct HIn as (f & EFk & EV & _). exists f. split; [assumption|]. eapply HS; eassumption.
  - intros k f EFk NI. destruct (FI k) as [v EV]; [eapply dget_some_key; exact EFk|].
    destruct (exported_or_default eqb c i k f v HO EFk EV) as [HIn|[_ (d & ED & _)]]; [|eauto].
    destruct NI. eapply dget_some_key. exact HIn.
  - exists y, w', j. split; [assumption|]. split; [assumption|]. split; [assumption|]. split.
    + intros k f v EFk EV ND. destruct (exported_or_default eqb c i k f v HO EFk EV) as [HIn|[_ (d & ED & EE)]].
      * apply H1. assumption.
      * rewrite (ND d ED) in EE. discriminate.
    + intros k f v d EFk EV ED EE. apply (H2 k f d EFk); [|assumption]. intro HIn. apply in_keys_get in HIn. destruct HIn as [v' E].
      apply dget_exported in E; [|assumption]. destruct E as (f' & EF' & EV' & [[]|[_ [HT|HT]]]); [discriminate|].
      assert (f' = f) by congruence. assert (v' = v) by congruence. subst. rewrite (HT d ED) in EE. discriminate.
Qed.

(** a class with one integer field with default 0, not frozen *)
Definition copy_decl := rdecl 0 false false (Some false) SCheck [("x", (an TInt, DefVal (DInt 0)))] [] no_post.
Definition copy_ctx (t : dty) : option (@cls dobj dty rstate) := match t with TRec 0 => Some (made_of copy_decl) | _ => None end.

Lemma c38_default_refuted_proof : forall {obj ty W} (R : Rt obj ty W) ctx D eqb n c w x i k f v d,
  made (rt_py R) c -> accepts R ctx c (rebuilt eqb c i) -> fields_callable c -> c_frozen c = false ->
  instance_of R ctx c w x i -> has_eq R D eqb -> defaults_in D c -> values_in D c i -> stored_fixed R c i ->
  dget k (c_fields c) = Some f -> dget k (i_dict i) = Some v -> f_default f = DefVal d -> eqb d v = true -> d <> v ->
  exists y w' j, copy R ctx (S n) x w = (Ok y, w') /\ instance_of R ctx c w' y j /\
    dget k (i_dict j) = Some d /\ dget k (i_dict j) <> dget k (i_dict i).
Proof.
  intros obj ty W R ctx D eqb n c w x i k f v d H1 H2 H3 H4 H5 H6 H7 H8 H9 EF EV ED EE N.
  destruct (c38_not_default_partial_proof R ctx D eqb n c w x i H1 H2 H3 H4 H5 H6 H7 H8 H9) as (y & w' & j & A & (B & _) & _ & _ & E).
  exists y, w', j. split; [exact A|]. split; [exact B|]. pose proof (E k f v d EF EV ED EE) as G. split; [exact G|]. congruence.
Qed.

Lemma c55_copy_proof : forall {obj ty W} (R : Rt obj ty W) ctx D eqb hf n c w x i,
  made (rt_py R) c -> accepts R ctx c (fieldwise eqb c i) -> fields_callable c -> c_frozen c = false ->
  instance_of R ctx c w x i -> comparable R D eqb hf c i -> restores R D eqb hf c i (i_dict i) ->
  exists y w', copy R ctx (S n) x w = (Ok y, w') /\ equal_copy R ctx c w w' x y.
Proof.
  intros obj ty W R ctx D eqb hf n c w x i HM HP HFC EF HI HC HR. apply (made_named R) in HM. pose proof HM as [HO _].
  pose proof HC as (HE & _ & HD & HV & _). rewrite (copy_builds R ctx D eqb (S n) c w x i) by assumption.
  apply (restored_copy R ctx D eqb hf n c x i); try assumption; [reflexivity|].
  intros k f u v EFk EU EV. apply dget_exported in EU; [|assumption]. destruct EU as (f' & _ & EV' & _). eapply HR; eassumption.
Qed.

Lemma c55_frozen_proof : forall {obj ty W} (R : Rt obj ty W) ctx n c w x i,
  instance_of R ctx c w x i -> c_frozen c = true -> copy R ctx n x w = (Ok x, w).
Proof.
 intros obj ty W R ctx n c w x i HI EF. eapply copy_frozen; eassumption. Qed.

Lemma c76_deepcopy_proof : forall {obj ty W} (R : Rt obj ty W) ctx D eqb hf n c w x i,
  made (rt_py R) c -> accepts R ctx c (fieldwise eqb c i) -> fields_callable c ->
  instance_of R ctx c w x i -> comparable R D eqb hf c i ->
  exists d, to_dict R ctx x no_args sel_empty w = (Ok d, w) /\
    forall vs w1, deep_copy R (dvalues d) w = (Ok vs, w1) -> all_kept R w w1 -> List.length vs = List.length d ->
    restores R D eqb hf c i (combine (keys d) vs) ->
    exists y w', deepcopy R ctx (S n) x w = (Ok y, w') /\ equal_copy R ctx c w1 w' x y.
Proof.
  intros obj ty W R ctx D eqb hf n c w x i HM HP HFC HI HC. apply (made_named R) in HM. pose proof HM as [HO _].
  exists (exported eqb no_args [] c i). assert (TD : to_dict R ctx x no_args sel_empty w = (Ok (exported eqb no_args [] c i), w)) by (eapply to_dict_plain; eassumption).
  split; [assumption|]. intros vs w1 HDC HK HL HR.
  destruct (restored_copy R ctx D eqb hf n c x i (combine (keys (exported eqb no_args [] c i)) vs) w1) as (y & w' & H1 & H2); try assumption.
  - eapply kept_instance; eassumption.
  - apply keys_combine. rewrite HL. apply map_length.
  - exists y, w'. split; [|assumption]. unfold deepcopy, with_class. rewrite (class_of_instance R ctx c w x i HI).
    apply bind_ok. exists (exported eqb no_args [] c i), w. split; [assumption|]. apply bind_ok. exists vs, w1. auto.
Qed.

(** a class with a list field whose default is a list object *)
Definition deep_decl := rdecl 0 true false (Some false) SCheck [("x", (an TList, DefVal (dlist [])))] [] no_post.
Definition deep_ctx (t : dty) : option (@cls dobj dty rstate) := match t with TRec 0 => Some (made_of deep_decl) | _ => None end.

Lemma deepcopy_fields : forall {obj ty W} (R : Rt obj ty W) ctx D eqb n c w x i d vs w1,
  made (rt_py R) c -> accepts R ctx c (fun j => forall k u, dget k (combine (keys d) vs) = Some u -> dget k (i_dict j) = Some u) -> fields_callable c ->
  instance_of R ctx c w x i -> has_eq R D eqb -> defaults_in D c -> values_in D c i ->
  to_dict R ctx x no_args sel_empty w = (Ok d, w) -> deep_copy R (dvalues d) w = (Ok vs, w1) -> List.length vs = List.length d ->
  (forall k f u w, dget k (c_fields c) = Some f -> dget k (combine (keys d) vs) = Some u -> call (rt_py R) (f_filler f) u w = (Ok u, w)) ->
  exists y w' j, deepcopy R ctx (S n) x w = (Ok y, w') /\ fresh_instance R ctx c w1 w' y j /\ all_kept R w1 w' /\
    (forall k f v, dget k (c_fields c) = Some f -> dget k (i_dict i) = Some v ->
      (forall d, f_default f = DefVal d -> eqb d v = false) ->
      exists u, In u vs /\ dget k (combine (keys d) vs) = Some u /\ dget k (i_dict j) = Some u) /\
    (forall k f v d0, dget k (c_fields c) = Some f -> dget k (i_dict i) = Some v ->
      f_default f = DefVal d0 -> eqb d0 v = true -> dget k (i_dict j) = Some d0).
Proof.
  intros obj ty W R ctx D eqb n c w x i d vs w1 HM HP HFC HI HE HD HV HT HDC HL HFx. apply (made_named R) in HM. pose proof HM as [HO _].
  rewrite (to_dict_exported R ctx D eqb HE c no_args [] w x i) in HT by (auto; reflexivity). cbn [sort_items e_sort no_args] in HT. injection HT as <-.
  pose proof HI as (HX & _ & _ & _ & FI).
  assert (KC : keys (combine (keys (exported eqb no_args [] c i)) vs) = keys (exported eqb no_args [] c i)) by (apply keys_combine; rewrite HL; apply map_length).
  assert (OC : dict_ok (combine (keys (exported eqb no_args [] c i)) vs)) by (unfold dict_ok; rewrite KC; apply exported_ok; assumption).
  destruct (construct_fixed R ctx n c (combine (keys (exported eqb no_args [] c i)) vs) w1) as (y & w' & j & HC & HFr & HK & H1 & H2); try assumption.
  - eapply accepts_less; [|exact HP]. intros j [H1 _]. exact H1.
  - intros k u HIn. assert (KI : In k (keys (exported eqb no_args [] c i))) by (rewrite <- KC; apply in_map_iff; exists (k, u); auto).
    apply in_keys_get in KI. destruct KI as [v E]. apply dget_exported in E; [|assumption]. destruct E as (f & EF & _). exists f. split; [assumption|].
    intro w2. eapply HFx; [exact EF|]. apply dget_In; assumption.
  - rewrite KC. intros k f EFk NI. destruct (FI k) as [v EV]; [eapply dget_some_key; exact EFk|].
    destruct (exported_or_default eqb c i k f v HO EFk EV) as [HIn|[_ (d & ED & _)]]; [|eauto].
    destruct NI. eapply dget_some_key. exact HIn.
  - exists y, w', j. split; [|split; [assumption|split; [assumption|split]]].
    + unfold deepcopy, with_class. rewrite (class_of_instance R ctx c w x i HI). apply bind_ok. exists (exported eqb no_args [] c i), w.
      split; [rewrite (to_dict_exported R ctx D eqb HE c no_args [] w x i) by (auto; reflexivity); reflexivity|].
      apply bind_ok. exists vs, w1. auto.
    + intros k f v EFk EV ND. destruct (exported_or_default eqb c i k f v HO EFk EV) as [HIn|[_ (d & ED & EE)]].
      * assert (KI : In k (keys (combine (keys (exported eqb no_args [] c i)) vs))) by (rewrite KC; eapply dget_some_key; exact HIn).
        apply in_keys_get in KI. destruct KI as [u EU]. exists u. split; [|split; [assumption|apply H1; assumption]].
        apply dget_Some_In in EU. apply in_combine_r in EU. assumption.
      * rewrite (ND d ED) in EE. discriminate.
    + intros k f v d0 EFk EV ED EE. apply (H2 k f d0 EFk); [|assumption]. rewrite KC. intro HIn. apply in_keys_get in HIn. destruct HIn as [v' E].
      apply dget_exported in E; [|assumption]. destruct E as (f' & EF' & EV' & [[]|[_ [HT|HT]]]); [discriminate|].
      assert (f' = f) by congruence. assert (v' = v) by congruence. subst. rewrite (HT d0 ED) in EE. discriminate.
Qed.

Lemma c77_default_shared_refuted_proof : forall {obj ty W} (R : Rt obj ty W) ctx D eqb n c w x i d vs w1 k f v d0,
  made (rt_py R) c -> accepts R ctx c (fun j => forall k u, dget k (combine (keys d) vs) = Some u -> dget k (i_dict j) = Some u) -> fields_callable c ->
  instance_of R ctx c w x i -> has_eq R D eqb -> defaults_in D c -> values_in D c i ->
  to_dict R ctx x no_args sel_empty w = (Ok d, w) -> deep_copy R (dvalues d) w = (Ok vs, w1) -> List.length vs = List.length d ->
  (forall k f u w, dget k (c_fields c) = Some f -> dget k (combine (keys d) vs) = Some u -> call (rt_py R) (f_filler f) u w = (Ok u, w)) ->
  dget k (c_fields c) = Some f -> dget k (i_dict i) = Some v -> f_default f = DefVal d0 -> eqb d0 v = true ->
  exists y w' j, deepcopy R ctx (S n) x w = (Ok y, w') /\ fresh_instance R ctx c w1 w' y j /\
    dget k (i_dict j) = Some d0 /\ (v = d0 -> dget k (i_dict j) = dget k (i_dict i)).
Proof.
  intros obj ty W R ctx D eqb n c w x i d vs w1 k f v d0 H1 H2 H3 H4 H5 H6 H7 H8 H9 H10 H11 EF EV ED EE.
  destruct (deepcopy_fields R ctx D eqb n c w x i d vs w1 H1 H2 H3 H4 H5 H6 H7 H8 H9 H10 H11) as (y & w' & j & A & B & C & _ & E).
  exists y, w', j. split; [exact A|]. split; [exact B|]. pose proof (E k f v d0 EF EV ED EE) as G. split; [exact G|]. intros ->. congruence.
Qed.

Lemma c77_not_default_partial_proof : forall {obj ty W} (R : Rt obj ty W) ctx D eqb n c w x i d vs w1,
  made (rt_py R) c -> accepts R ctx c (fun j => forall k u, dget k (combine (keys d) vs) = Some u -> dget k (i_dict j) = Some u) -> fields_callable c ->
  instance_of R ctx c w x i -> has_eq R D eqb -> defaults_in D c -> values_in D c i ->
  to_dict R ctx x no_args sel_empty w = (Ok d, w) -> deep_copy R (dvalues d) w = (Ok vs, w1) -> List.length vs = List.length d ->
  (forall k f u w, dget k (c_fields c) = Some f -> dget k (combine (keys d) vs) = Some u -> call (rt_py R) (f_filler f) u w = (Ok u, w)) ->
  exists y w' j, deepcopy R ctx (S n) x w = (Ok y, w') /\ fresh_instance R ctx c w1 w' y j /\ all_kept R w1 w' /\
    forall k f v, dget k (c_fields c) = Some f -> dget k (i_dict i) = Some v ->
      (forall d, f_default f = DefVal d -> eqb d v = false) ->
      exists u, In u vs /\ dget k (combine (keys d) vs) = Some u /\ dget k (i_dict j) = Some u.
Proof.
  intros obj ty W R ctx D eqb n c w x i d vs w1 H1 H2 H3 H4 H5 H6 H7 H8 H9 H10 H11.
  destruct (deepcopy_fields R ctx D eqb n c w x i d vs w1 H1 H2 H3 H4 H5 H6 H7 H8 H9 H10 H11) as (y & w' & j & A & B & C & E & _).
  exists y, w', j. auto.
Qed.

(** unpickling: the attributes are those of the state, the slot too *)
Lemma unpickle_restores : forall {obj ty W} (R : Rt obj ty W) ctx Q n c kw state h w,
  well_named c -> ctx (c_ty c) = Some c ->
  accepts R ctx c (fun j => (forall k v, dget k kw = Some v -> exists u, dget k (i_dict j) = Some u /\ Q k v u) /\
    (forall k f v, dget k (c_fields c) = Some f -> ~ In k (keys kw) -> f_default f = DefVal v -> dget k (i_dict j) = Some v)) ->
  fields_callable c -> dict_ok kw -> dict_ok state ->
  (forall k v, In (k, v) kw -> exists f y, dget k (c_fields c) = Some f /\ (forall w, call (rt_py R) (f_filler f) v w = (Ok y, w)) /\ Q k v y) ->
  (forall k f, dget k (c_fields c) = Some f -> ~ In k (keys kw) -> exists v, f_default f = DefVal v) ->
  (forall k, In k (keys (c_fields c)) -> In k (keys state)) ->
  exists y w' j, unpickle R (S n) c kw state h w = (Ok y, w') /\ instance_of R ctx c w' y j /\ lookup R w y = None /\ all_kept R w w' /\
    (forall k, dget k (i_dict j) = dget k state) /\ (h <> SUnset -> i_hash j = h) /\ (h = SUnset -> i_hash j = if c_frozen c then SNone else SUnset).
Proof.
  intros obj ty W R ctx Q n c kw state h w HN HX HP HFC HOK HOS HF HD HKS.
  destruct (construct_filled R ctx n c Q kw w) as (y & w' & j & _ & HNW & HFr & HK & _ & _); try assumption.
  assert (KN : forall k, In k (keys kw) -> In k (keys (c_fields c))).
  { intros k HI. apply in_keys_get in HI. destruct HI as [v E]. apply dget_Some_In in E. destruct (HF k v E) as (f & _ & EF & _). eapply dget_some_key. exact EF. }
  destruct HFr as ((_ & HL & HT & HTY & HFl) & HFN & HSub & HSl).
  set (j' := Inst (i_cls j) (dupdate (i_dict j) state) (match h with SUnset => i_hash j | _ => h end)).
  assert (GD : forall k, dget k (i_dict j') = dget k state).
  { intro k. cbn. rewrite dget_dupdate by assumption. destruct (dget k state) eqn:E; [reflexivity|].
    apply dget_None. intro HI. apply dget_None in E. apply E. apply HKS. apply HSub. assumption. }
  exists y, (store R y j' w'), j'. split; [|split; [|split; [|split; [|split; [|split]]]]].
  - unfold unpickle. assert (E1 : dmem "cls" kw = false) by (apply dmem_false; intro HI; apply (HFC "cls" (KN _ HI)); left; reflexivity).
    assert (E2 : dget "arg" kw = None) by (apply dget_None; intro HI; apply (HFC "arg" (KN _ HI)); right; left; reflexivity).
    rewrite E1, E2. unfold bind. rewrite HNW, HL. reflexivity.
  - split; [assumption|]. split; [|split; [exact HT|split; [assumption|]]].
    + eapply lookup_store_same. exact HL.
    + intros k HI. rewrite GD. apply in_keys_get. apply HKS. assumption.
  - assumption.
  - intros z i HZ. destruct (deref_dec (deref R z) (deref R y)) as [E|E].
    + unfold lookup in HFN, HZ. rewrite E in HZ. congruence.
    + rewrite lookup_store_other by congruence. apply HK. assumption.
  - exact GD.
  - intro NE. cbn. destruct h; congruence.
  - intros ->. cbn. assumption.
Qed.
Lemma dget_picked : forall {A} (d : dict A) ks, (forall k, In k ks -> In k (keys d)) ->
  keys (flat_map (fun k => match dget k d with Some v => [(k, v)] | None => [] end) ks) = ks /\
  forall k v, In (k, v) (flat_map (fun k => match dget k d with Some v => [(k, v)] | None => [] end) ks) -> dget k d = Some v.
Proof.
  intros A d ks. induction ks as [|k r IH]; intro H; [split; [reflexivity|intros ? ? []]|].
  destruct IH as [I1 I2]; [intros; apply H; right; assumption|].
  destruct (in_keys_get k d (H k (or_introl eq_refl))) as [v E]. cbn [flat_map]. rewrite E. split.
  - cbn. f_equal. exact I1.
  - intros k' v' [HI|HI]; [injection HI as <- <-; assumption|apply I2; assumption].
Qed.

Lemma c40_pickle_proof : forall {obj ty W} (R : Rt obj ty W) ctx D eqb hf n c w x i vs w1,
  made (rt_py R) c -> accepts R ctx c (refilled R c (combine (keys (i_dict i)) vs)) -> fields_callable c ->
  instance_of R ctx c w x i -> comparable R D eqb hf c i -> dict_ok (i_dict i) ->
  pickle_values R (dvalues (i_dict i)) w = (Ok vs, w1) -> all_kept R w w1 -> List.length vs = List.length (i_dict i) ->
  let copies := combine (keys (i_dict i)) vs in
  (forall k f v u, dget k (c_fields c) = Some f -> dget k (i_dict i) = Some v -> dget k copies = Some u ->
     D u /\ eqb v u = true /\ (c_frozen c = true -> forall w, v_hash R u w = (Ok (hf u), w)) /\
     exists y, forall w, call (rt_py R) (f_filler f) u w = (Ok y, w)) ->
  exists y w' j, pickle_copy R ctx (S n) x w = (Ok y, w') /\ instance_of R ctx c w' y j /\ lookup R w1 y = None /\ all_kept R w1 w' /\
    (forall k, dget k (i_dict j) = dget k copies) /\
    exists w'', record_eq R ctx x y w' = (Ok true, w'') /\ fields_kept R w' w''.
Proof.
  intros obj ty W R ctx D eqb hf n c w x i vs w1 HM HP HFC HI HC HOI HPV HK1 HLen copies HAcc. apply (made_named R) in HM. pose proof HM as [HO _].
  pose proof HI as (HX & HL & HTi & HTx & FI). pose proof HC as (HE & HQ & HD & HV & HH).
  assert (KC : keys copies = keys (i_dict i)) by (apply keys_combine; rewrite HLen; apply map_length).
  assert (OC : dict_ok copies) by (unfold dict_ok; rewrite KC; assumption).
  set (kw := flat_map (fun k => match dget k copies with Some v => [(k, v)] | None => [] end) (keys (exported eqb no_args [] c i))).
  assert (KX : forall k, In k (keys (exported eqb no_args [] c i)) -> exists f v, dget k (c_fields c) = Some f /\ dget k (i_dict i) = Some v).
  { intros k HIn. apply in_keys_get in HIn. destruct HIn as [v E]. apply dget_exported in E; [|assumption]. destruct E as (f & EF & EV & _). eauto. }
  destruct (dget_picked copies (keys (exported eqb no_args [] c i))) as [KW GW].
  { intros k HIn. rewrite KC. destruct (KX k HIn) as (f & v & _ & EV). eapply dget_some_key. exact EV. }
  fold kw in KW, GW.
  assert (SOME : forall k, In k (keys (c_fields c)) -> exists f v u, dget k (c_fields c) = Some f /\ dget k (i_dict i) = Some v /\ dget k copies = Some u).
  { intros k HIn. apply in_keys_get in HIn as HF. destruct HF as [f EF]. destruct (FI k HIn) as [v EV].
    assert (KI : In k (keys copies)) by (rewrite KC; eapply dget_some_key; exact EV). apply in_keys_get in KI. destruct KI as [u EU]. exists f, v, u. auto. }
  assert (DF : forall k f, dget k (c_fields c) = Some f -> ~ In k (keys kw) -> exists v, f_default f = DefVal v).
  { intros k f EF NI. rewrite KW in NI. destruct (FI k) as [v EV]; [eapply dget_some_key; exact EF|].
    destruct (exported_or_default eqb c i k f v HO EF EV) as [HIn|[_ (d & ED & _)]]; [|eauto].
    destruct NI. eapply dget_some_key. exact HIn. }
  destruct (unpickle_restores R ctx (fun k u y => forall f, dget k (c_fields c) = Some f -> forall w, call (rt_py R) (f_filler f) u w = (Ok y, w)) n c kw copies (i_hash i) w1)
    as (y & w' & j & HU & HJ & HLN & HK & GJ & S1 & S2); try assumption.
  - eapply accepts_less; [|exact HP]. intros j [H1 H2] k f u EF EU. destruct (in_dec string_dec k (keys kw)) as [KI|NI].
    + left. apply in_keys_get in KI. destruct KI as [u' EU']. assert (u' = u) by (apply dget_Some_In in EU'; apply GW in EU'; unfold copies in EU'; congruence). subst u'.
      destruct (H1 k u EU') as (y & EY & HY). exists y. auto.
    + right. destruct (DF k f EF NI) as [v ED]. exists v. split; [assumption|]. eapply H2; eassumption.
  - unfold dict_ok. rewrite KW. apply exported_ok. assumption.
  - intros k u HIn. assert (KI : In k (keys (exported eqb no_args [] c i))) by (rewrite <- KW; apply in_map_iff; exists (k, u); auto).
    destruct (KX k KI) as (f & v & EF & EV). destruct (HAcc k f v u EF EV (GW k u HIn)) as (_ & _ & _ & y & HY). exists f, y. split; [assumption|]. split; [assumption|]. intros f' EF'. assert (f' = f) by congruence. subst. assumption.
  - intros k HIn. destruct (SOME k HIn) as (f & v & u & _ & _ & EU). eapply dget_some_key. exact EU.
  - exists y, w', j. split; [|split; [assumption|split; [assumption|split; [assumption|split; [assumption|]]]]].
    + unfold pickle_copy, with_class. rewrite (class_of_instance R ctx c w x i HI). unfold pickle_state, bind.
      rewrite (to_dict_plain R ctx D eqb hf c w x i HM HC HI), HL, HPV. exact HU.
    + assert (FW : fieldwise eqb c i j).
      { intros k a b KI EA EB. rewrite GJ in EB. destruct (SOME k KI) as (f & v & u & EF & EV & EU).
        destruct (HAcc k f v u EF EV EU) as (_ & H & _). congruence. }
      assert (VJ : values_in D c j).
      { intros k b KI EB. rewrite GJ in EB. destruct (SOME k KI) as (f & v & u & EF & EV & EU).
        destruct (HAcc k f v u EF EV EU) as (H & _). congruence. }
      apply (fieldwise_equal R ctx D eqb hf c w' x i y j); try assumption.
      * apply (kept_instance R ctx c w1 w' x i HK). apply (kept_instance R ctx c w w1 x i HK1 HI).
      * intro EFz. destruct (HH EFz) as (HCo & HHa & HCa & _).
        assert (HJh : hashable R hf c j).
        { intros k b KI EB w2. rewrite GJ in EB. destruct (SOME k KI) as (f & v & u & EF & EV & EU).
          destruct (HAcc k f v u EF EV EU) as (_ & _ & H & _). assert (u = b) by congruence. subst. auto. }
        split; [assumption|]. destruct (cache_ok_content R eqb hf c i HO HCa) as [EN|EN].
        { left. rewrite S1; congruence. }
        apply (content_cache_ok R eqb hf c j HO). rewrite S1 by congruence. rewrite EN. f_equal.
        destruct HJ as (_ & _ & _ & _ & FJ). apply (fieldwise_exported R D eqb hf c i j HO HQ HD HCo FI FJ HV VJ FW).
Qed.

(** a frozen class with one string field *)
Definition str_decl := rdecl 0 true false (Some false) SCheck [("x", (an TStr, NoDefault))] [] no_post.
Definition str_ctx (t : dty) : option (@cls dobj dty rstate) := match t with TRec 0 => Some (made_of str_decl) | _ => None end.

Lemma c41_hashed_refuted_proof :
  exists (c : @cls dobj dty rstate) ctx x w z w1 kw d h, made rt0 c /\
  construct (demo_rt 0) 1 c None [("x", DStr "a")] w0 = (Ok x, w) /\
  record_hash (demo_rt 0) ctx x w = (Ok z, w1) /\
  pickle_state (demo_rt 0) ctx x w1 = (Ok (kw, d, h), w1) /\
  exists y w2 p w3, unpickle (demo_rt 1) 1 c kw d h w0 = (Ok y, w2) /\
  construct (demo_rt 1) 1 c None [("x", DStr "a")] w2 = (Ok p, w3) /\
  fst (getattr (demo_rt 1) y "x" w3) = fst (getattr (demo_rt 1) p "x" w3) /\
  fst (record_eq (demo_rt 1) ctx y p w3) = Ok false.
Proof.
  exists (made_of str_decl), str_ctx, (DRef (TRec 0) 0). do 6 eexists. split; [|split; [reflexivity|split; [reflexivity|split; [reflexivity|]]]].
  - apply (made_class _ str_decl); [reflexivity|repeat constructor; simpl; tauto|]. intros b [H|[]]. discriminate.
  - do 4 eexists. repeat split; reflexivity.
Qed.

Lemma c41_not_hashed_partial_proof : forall {obj ty W} (R R' : Rt obj ty W) ctx D eqb hf n c w x i kw d h w1 w',
  made (rt_py R) c -> made (rt_py R') c -> accepts R' ctx c (rebuilt eqb c i) -> fields_callable c -> c_frozen c = true ->
  instance_of R ctx c w x i -> has_eq R D eqb -> comparable R' D eqb hf c i -> stored_fixed R' c i ->
  dict_ok (i_dict i) -> (forall k, In k (keys (i_dict i)) -> In k (keys (c_fields c))) -> i_hash i = SNone ->
  pickle_state R ctx x w = (Ok (kw, d, h), w1) ->
  exists y w2 p w3 w4, unpickle R' (S n) c kw d h w' = (Ok y, w2) /\ construct R' (S n) c None d w2 = (Ok p, w3) /\
    record_eq R' ctx y p w3 = (Ok true, w4).
Proof.
  intros obj ty W R R' ctx D eqb hf n c w x i kw d h w1 w' HM HM' HP HFC EFz HI HE HC HS HOI KI0 EH HPS.
  apply (made_named R) in HM. pose proof HM as [HO _]. pose proof HI as (HX & HL & HTi & HTx & FI). pose proof HC as (HE' & HQ & HD & HV & HH).
  unfold pickle_state, bind in HPS. rewrite (to_dict_exported R ctx D eqb HE c no_args [] w x i) in HPS by (auto; reflexivity).
  cbn [sort_items e_sort no_args] in HPS. rewrite HL, EH in HPS. injection HPS as <- <- <- <-.
  destruct (unpickle_restores R' ctx (fun _ u y => u = y) n c (exported eqb no_args [] c i) (i_dict i) SNone w') as (y & w2 & j & HU & HJ & HLN & HK & GJ & S1 & _); try assumption.
  - eapply accepts_less; [|exact HP]. intros j [H1 H2]. apply exported_rebuilt; try assumption.
    intros k v E. destruct (H1 k v E) as (u & EU & ->). assumption.
  - apply exported_ok. assumption.
  - intros k v HIn. apply in_exported in HIn; [|assumption]. destruct HIn as (f & EF & EV & _). exists f, v. split; [assumption|]. split; [|reflexivity]. eapply HS; eassumption.
  - intros k f EF NI. destruct (FI k) as [v EV]; [eapply dget_some_key; exact EF|].
    destruct (exported_or_default eqb c i k f v HO EF EV) as [HIn|[_ (d & ED & _)]]; [|eauto].
    destruct NI. eapply dget_some_key. exact HIn.
  - intros k HIn. destruct (FI k HIn) as [v EV]. eapply dget_some_key. exact EV.
  - destruct (construct_fixed R' ctx n c (i_dict i) w2) as (p & w3 & l & HCn & HFr & HK3 & H1 & _); try assumption.
    + eapply accepts_less; [|exact HP]. intros l [H1 _] k f v _ EV. left. apply H1. assumption.
    + intros k v HIn. assert (KI : In k (keys (c_fields c))) by (apply KI0; apply in_map_iff; exists (k, v); auto).
      apply in_keys_get in KI. destruct KI as [f EF]. exists f. split; [assumption|]. eapply HS; [exact EF|]. apply dget_In; assumption.
    + intros k f EF NI. destruct NI. destruct (FI k) as [v EV]; [eapply dget_some_key; exact EF|]. eapply dget_some_key. exact EV.
    + destruct (HH EFz) as (HCo & HHa & _ & HDh).
      assert (SAME : forall k v b, In k (keys (c_fields c)) -> dget k (i_dict i) = Some v -> dget k (i_dict l) = Some b -> b = v).
      { intros k v b _ EV EB. rewrite (H1 k v EV) in EB. congruence. }
      assert (HCj : comparable R' D eqb hf c j).
      { split; [assumption|]. split; [assumption|]. split; [assumption|]. split; [intros k v KI E; rewrite GJ in E; eapply HV; eassumption|].
        intros _. split; [assumption|]. split; [intros k v KI E; rewrite GJ in E; eapply HHa; eassumption|]. split; [left; apply S1; discriminate|].
        intros; eapply HDh; eassumption. }
      destruct (fieldwise_equal R' ctx D eqb hf c w3 y j p l HM HCj) as (w4 & EQ & _).
      * eapply kept_instance; eassumption.
      * apply HFr.
      * intros k b KI EB. destruct (FI k KI) as [v EV]. rewrite (SAME k v b KI EV EB). eapply HV; eassumption.
      * intros _. split.
        { intros k b KI EB. destruct (FI k KI) as [v EV]. rewrite (SAME k v b KI EV EB). eapply HHa; eassumption. }
        left. destruct HFr as (_ & _ & _ & HSl). rewrite HSl, EFz. reflexivity.
      * intros k a b KI EA EB. rewrite GJ in EA. rewrite (SAME k a b KI EA EB). destruct HQ as (E1 & _). apply E1. eapply HV; eassumption.
      * exists y, w2, p, w3, w4. auto.
Qed.
