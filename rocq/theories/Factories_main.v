(** Factories_main.v -- proofs of the properties stated in Props_Factories.v: several mappings, from_pickle, failing attributes and repr *)

From Verif Require Import Base Py Select Filler Classes Spec_Classes Runtime Record Spec_Record Spec_Inst Spec_Copy Spec_Factories Demo DemoRt DemoCls.
From Verif Require Dict_proofs Filler_proofs Classes_proofs Record_proofs Classes_main Inst_proofs Inst_main Copy_proofs From_main New_main Copy_main.
Open Scope string_scope.
Open Scope list_scope.

Import Dict_proofs Filler_proofs Classes_proofs Record_proofs Classes_main Inst_proofs Inst_main Copy_proofs.

Section Chain.
Context {obj ty W : Type} (R : Rt obj ty W).

Fixpoint lookup_first (ds : list (dict obj)) (k : string) : option obj :=
  match ds with [] => None | d :: r => match dget k d with Some v => Some v | None => lookup_first r k end end.
Lemma lookup_first_spec : forall k v ds, lookup_first ds k = Some v <-> first_with k ds v.
Proof.
  intros k v. induction ds as [|d r IH]; cbn [lookup_first].
  - split; [discriminate|]. intros ([|b B] & d & a & E & _); discriminate.
  - destruct (dget k d) as [u|] eqn:E.
    + split.
      * intros [= <-]. exists [], d, r. split; [reflexivity|]. split; [assumption|]. intros ? [].
      * intros ([|b B] & d' & a & E' & H & N); cbn in E'; injection E' as <- ->; [congruence|].
        rewrite (N d (or_introl eq_refl)) in E. discriminate.
    + rewrite IH. split.
      * intros (B & d' & a & -> & H & N). exists (d :: B), d', a. split; [reflexivity|]. split; [assumption|]. intros ? [<-|HI]; auto.
      * intros ([|b B] & d' & a & E' & H & N); cbn in E'; injection E' as <- ->; [congruence|].
        exists B, d', a. split; [reflexivity|]. split; [assumption|]. intros; apply N; right; assumption.
Qed.
Lemma lookup_first_app : forall k ds es, lookup_first (ds ++ es) k = match lookup_first ds k with Some v => Some v | None => lookup_first es k end.
Proof. intros k. induction ds as [|d r IH]; intro es; cbn; [reflexivity|]. destruct (dget k d); [reflexivity|apply IH]. Qed.

Definition add_keys (ks acc : list string) := fold_left (fun acc k => if smem k acc then acc else acc ++ [k]) ks acc.
Lemma NoDup_snoc : forall {A} (k : A) l, NoDup l -> ~ In k l -> NoDup (l ++ [k]).
Proof.
  intros A k l ND N. apply (Permutation_NoDup (l := k :: l)); [apply Permutation_cons_append|constructor; assumption].
Qed.
Lemma add_keys_ok : forall ks acc, NoDup acc -> NoDup (add_keys ks acc) /\ forall k, In k (add_keys ks acc) <-> In k acc \/ In k ks.
Proof.
  induction ks as [|k r IH]; intros acc ND; cbn; [split; [assumption|]; intro; tauto|].
  change (fold_left (fun acc k => if smem k acc then acc else acc ++ [k]) r ?a) with (add_keys r a).
  destruct (smem k acc) eqn:E.
  - apply smem_In in E. destruct (IH acc ND) as [A B]. split; [exact A|]. intro k'. rewrite B. split; [tauto|].
    intros [H|[<-|H]]; auto.
  - apply smem_false in E. destruct (IH (acc ++ [k])) as [A B].
    + apply NoDup_snoc; assumption.
    + split; [exact A|]. intro k'. rewrite B, in_app_iff. cbn. tauto.
Qed.
Definition all_keys (ds : list (dict obj)) (seen : list string) := fold_left (fun acc d => add_keys (keys d) acc) ds seen.
Lemma chain_keys_ok : forall maps ds, Forall2 (is_mapping R) maps ds -> forall seen w, chain_keys R maps seen w = (Ok (all_keys ds seen), w).
Proof.
  induction 1 as [|m d maps ds HM H IH]; intros seen w; cbn [chain_keys]; [reflexivity|].
  destruct HM as (_ & HI & _). unfold bind. rewrite HI. apply IH.
Qed.
Lemma all_keys_ok : forall ds seen, NoDup seen -> NoDup (all_keys ds seen) /\ forall k, In k (all_keys ds seen) <-> In k seen \/ exists d, In d ds /\ In k (keys d).
Proof.
  induction ds as [|d r IH]; intros seen ND; cbn.
  - split; [assumption|]. intro k. split; [tauto|]. intros [?|(? & [] & _)]. assumption.
  - destruct (add_keys_ok (keys d) seen ND) as [A B]. destruct (IH (add_keys (keys d) seen) A) as (N & HK). split; [exact N|].
    intro k. change (fold_left (fun acc d => add_keys (keys d) acc) r ?a) with (all_keys r a). rewrite HK, B. split.
    + intros [[?|?]|(d' & ? & ?)]; [left; assumption|right; exists d|right; exists d']; (split; [cbn; auto|assumption]).
    + intros [?|(d' & [<-|?] & ?)]; [tauto|tauto|]. right. exists d'. auto.
Qed.
Lemma Forall2_rev' : forall {A B} (Q : A -> B -> Prop) l m, Forall2 Q l m -> Forall2 Q (rev l) (rev m).
Proof. induction 1; [constructor|]. cbn. apply Forall2_app; [assumption|]. constructor; [assumption|constructor]. Qed.
Lemma chain_item_ok : forall maps ds kw k w, Forall2 (is_mapping R) maps ds ->
  chain_item R maps kw k w = (match lookup_first (ds ++ [kw]) k with Some v => Ok v | None => Raise (mkexc KeyError k) end, w).
Proof.
  intros maps ds kw k w H. induction H as [|m d maps ds HM H IH]; cbn [chain_item app lookup_first].
  - destruct (dget k kw); reflexivity.
  - destruct HM as (_ & _ & HG). rewrite HG. destruct (dget k d); [reflexivity|exact IH].
Qed.
Lemma lookup_first_none : forall ds k, (forall d, In d ds -> ~ In k (keys d)) -> lookup_first ds k = None.
Proof.
  induction ds as [|d r IH]; intros k H; cbn; [reflexivity|]. destruct (dget k d) eqn:E.
  - exfalso. apply (H d (or_introl eq_refl)). eapply dget_some_key. eassumption.
  - apply IH. intros; apply H; right; assumption.
Qed.
Lemma lookup_first_has : forall ds k d, In d ds -> In k (keys d) -> exists v, lookup_first ds k = Some v.
Proof.
  induction ds as [|d r IH]; intros k e HI HK; [destruct HI|]. cbn. destruct (dget k d) as [v|] eqn:E; [eauto|].
  destruct HI as [<-|HI]; [|eauto]. exfalso. apply (proj1 (dget_None k d) E). assumption.
Qed.
Definition picked (ds : list (dict obj)) (ks : list string) : dict obj :=
  flat_map (fun k => match lookup_first ds k with Some v => [(k, v)] | None => [] end) ks.
Lemma picked_keys : forall ds ks, (forall k, In k ks -> exists v, lookup_first ds k = Some v) -> keys (picked ds ks) = ks.
Proof.
  intros ds. induction ks as [|k r IH]; intro H; [reflexivity|]. destruct (H k (or_introl eq_refl)) as [v E]. unfold picked. cbn. rewrite E. cbn. f_equal.
  apply IH. intros; apply H; right; assumption.
Qed.
Lemma picked_get : forall ds ks k, In k ks -> dget k (picked ds ks) = lookup_first ds k.
Proof.
  intros ds. induction ks as [|k' r IH]; intros k [].
  - subst k'. unfold picked. cbn. destruct (lookup_first ds k) as [v|] eqn:E.
    + cbn. rewrite String.eqb_refl. reflexivity.
    + cbn. destruct (dget k (picked ds r)) as [v|] eqn:E'; [|exact E'].
      exfalso. apply dget_Some_In in E'. unfold picked in E'. apply in_flat_map in E'. destruct E' as (k' & _ & HI).
      destruct (lookup_first ds k') eqn:E2; [|destruct HI]. destruct HI as [[= -> ->]|[]]. congruence.
  - unfold picked. cbn. destruct (String.eqb_spec k k') as [->|N].
    + destruct (lookup_first ds k') as [v|] eqn:E; cbn; [rewrite String.eqb_refl; reflexivity|]. rewrite <- E. apply IH. assumption.
    + destruct (lookup_first ds k') as [v|] eqn:E; cbn; [apply String.eqb_neq in N; rewrite N|]; apply IH; assumption.
Qed.
Lemma chain_map_ok : forall maps ds kw, Forall2 (is_mapping R) maps ds -> dict_ok kw ->
  exists d, dict_ok d /\ (forall k, dget k d = lookup_first (ds ++ [kw]) k) /\ forall w, chain_map R maps kw w = (Ok d, w).
Proof.
  intros maps ds kw H HK. set (ks := all_keys (rev ds) (keys kw)). destruct (all_keys_ok (rev ds) (keys kw) HK) as [ND IK]. fold ks in ND, IK.
  assert (HAS : forall k, In k ks -> exists v, lookup_first (ds ++ [kw]) k = Some v).
  { intros k HI. apply IK in HI. destruct HI as [HI|(d & HI & HD)].
    - apply (lookup_first_has _ k kw); [|assumption]. apply in_or_app. right. left. reflexivity.
    - apply (lookup_first_has _ k d); [|assumption]. apply in_or_app. left. apply in_rev. assumption. }
  exists (picked (ds ++ [kw]) ks). split; [unfold dict_ok; rewrite picked_keys; assumption|]. split.
  - intro k. destruct (in_dec string_dec k ks) as [HI|HN]; [apply picked_get; assumption|].
    rewrite (lookup_first_none (ds ++ [kw]) k).
    + apply dget_None. rewrite picked_keys; assumption.
    + intros d HI HD. apply HN. apply IK. apply in_app_iff in HI. destruct HI as [HI|[<-|[]]]; [|left; assumption]. right. exists d. split; [apply -> in_rev; assumption|assumption].
  - intro w. unfold chain_map. unfold bind at 1. rewrite (chain_keys_ok (rev maps) (rev ds)) by (apply Forall2_rev'; assumption). fold ks.
    clear ND IK. clearbody ks. induction ks as [|k r IH]; [reflexivity|]. destruct (HAS k (or_introl eq_refl)) as [v E]. cbn [mapM].
    apply bind_ok. exists (k, v), w. split; [unfold bind; rewrite (chain_item_ok maps ds) by assumption; rewrite E; reflexivity|].
    apply bind_ok. exists (picked (ds ++ [kw]) r), w. split; [apply IH; intros; apply HAS; right; assumption|].
    unfold picked at 2. cbn. rewrite E. reflexivity.
Qed.
End Chain.

Lemma c91_first_wins_proof : forall {obj ty W} (R : Rt obj ty W) n c (s : sel obj) maps ds kw,
  Forall2 (is_mapping R) maps ds -> dict_ok kw ->
  exists d, dict_ok d /\ (forall k v, dget k d = Some v <-> first_with k (ds ++ [kw]) v) /\
    (forall w e, sel_apply s d = Raise e -> from_mapping R n c s maps kw w = (Raise e, w)) /\
    (forall w d', sel_apply s d = Ok d' -> from_mapping R n c s maps kw w = construct R n c None d' w).
Proof.
  intros obj ty W R n c s maps ds kw H HK. destruct (chain_map_ok R maps ds kw H HK) as (d & HO & HD & HC).
  exists d. split; [assumption|]. split; [intros; rewrite HD; apply lookup_first_spec|].
  unfold from_mapping, from_mapping_with, bind. split; intros w e E; rewrite HC, E; reflexivity.
Qed.

Lemma c91_shadowed_proof : forall {obj ty W} (R : Rt obj ty W) n c m d maps ds kw w,
  is_mapping R m d -> Forall2 (is_mapping R) maps ds -> dict_ok kw ->
  (forall d' k, In d' (ds ++ [kw]) -> In k (keys d') -> In k (keys d)) ->
  exists d', Permutation d d' /\ from_mapping R n c sel_empty (m :: maps) kw w = construct R n c None d' w.
Proof.
  intros obj ty W R n c m d maps ds kw w HM H HK HS. destruct (chain_map_ok R (m :: maps) (d :: ds) kw (Forall2_cons _ _ HM H) HK) as (d' & HO & HD & HC).
  exists d'. destruct HM as (HMO & _). split.
  - apply NoDup_Permutation; [eapply NoDup_map_inv; exact HMO|eapply NoDup_map_inv; exact HO|]. intros [k v]. split; intro HI.
    + apply dget_Some_In. rewrite HD. cbn. rewrite (dget_In k v d HMO HI). reflexivity.
    + apply (dget_In k v d' HO) in HI. rewrite HD in HI. cbn in HI. destruct (dget k d) as [u|] eqn:E; [apply dget_Some_In; congruence|].
      exfalso. rewrite (lookup_first_none (ds ++ [kw]) k) in HI; [discriminate|]. intros d2 HI2 HK2. apply HS in HK2; [|assumption].
      apply dget_None in E. contradiction.
  - unfold from_mapping, from_mapping_with, bind. rewrite HC. reflexivity.
Qed.

Lemma c92_instance_proof : forall {obj ty W} (R : Rt obj ty W) n c v w,
  isinstance (rt_py R) v (c_ty c) = true -> from_pickled R n c v w = (Ok v, w).
Proof.
 intros obj ty W R n c v w H. unfold from_pickled. rewrite H. reflexivity. Qed.

Lemma c92_other_proof : forall {obj ty W} (R : Rt obj ty W) n c v w os w',
  isinstance (rt_py R) v (c_ty c) = false ->
  parser_runs (fun p => run_parser R (construct R n c None) c p v) (c_parsers c) w os w' ->
  snd (from_pickled R n c v w) = w' /\ parse_verdict os (fst (from_pickled R n c v w)).
Proof.
  intros obj ty W R n c v w os w' HI H. unfold from_pickled. rewrite HI. exact (New_main.c24_parse_proof R c n v w os w' H).
Qed.

Lemma c92_round_trip_proof : forall {obj ty W} (R : Rt obj ty W) ctx D eqb hf n m c base w x i vs w1,
  made (rt_py R) c -> accepts R ctx c (refilled R c (combine (keys (i_dict i)) vs)) -> fields_callable c ->
  instance_of R ctx c w x i -> comparable R D eqb hf c i -> dict_ok (i_dict i) ->
  pickle_values R (dvalues (i_dict i)) w = (Ok vs, w1) -> all_kept R w w1 -> List.length vs = List.length (i_dict i) ->
  (forall y, type_of (rt_py R) y = c_ty c -> isinstance (rt_py R) y (c_ty base) = true) ->
  let copies := combine (keys (i_dict i)) vs in
  (forall k f v u, dget k (c_fields c) = Some f -> dget k (i_dict i) = Some v -> dget k copies = Some u ->
     D u /\ eqb v u = true /\ (c_frozen c = true -> forall w, v_hash R u w = (Ok (hf u), w)) /\
     exists y, forall w, call (rt_py R) (f_filler f) u w = (Ok y, w)) ->
  exists y w' j, (let* v := pickle_copy R ctx (S n) x in from_pickled R m base v) w = (Ok y, w') /\
    instance_of R ctx c w' y j /\ lookup R w1 y = None /\
    exists w'', record_eq R ctx x y w' = (Ok true, w'').
Proof.
  intros obj ty W R ctx D eqb hf n m c base w x i vs w1 HM HP HFC HI HC HOI HPV HK HL HB copies HA.
  destruct (Copy_main.c40_pickle_proof R ctx D eqb hf n c w x i vs w1 HM HP HFC HI HC HOI HPV HK HL HA) as (y & w' & j & H1 & H2 & H3 & _ & _ & w'' & H4 & _).
  exists y, w', j. split; [|split; [assumption|split; [assumption|exists w''; assumption]]].
  apply bind_ok. exists y, w'. split; [exact H1|]. unfold from_pickled. destruct H2 as (_ & _ & _ & T & _). rewrite (HB y T). reflexivity.
Qed.

Lemma extract_stops : forall {obj ty W} (R : Rt obj ty W) ok v a pre f post w l w1 e w',
  extract R ok v a pre w = (Ok l, w1) -> extract_one R ok v a f w1 = (Raise e, w') ->
  extract R ok v a (pre ++ f :: post) w = (Raise e, w').
Proof.
  intros obj ty W R ok v a. induction pre as [|g r IH]; intros f post w l w1 e w' H1 H2.
  - cbn [app extract] in *. injection H1 as <- <-. unfold bind. rewrite H2. reflexivity.
  - cbn [app extract] in *. unfold bind in *. destruct (extract_one R ok v a g w) as [[h|e1] w2]; [|discriminate].
    destruct (extract R ok v a r w2) as [[t|e2] w3] eqn:E2; [|discriminate]. injection H1 as <- <-.
    rewrite (IH f post w2 t w3 e w' E2 H2). reflexivity.
Qed.

Lemma c93_attribute_error_proof : forall {obj ty W} (R : Rt obj ty W) D eqb n c v d maps kw w k f e w',
  made (rt_py R) c -> has_eq R D eqb -> defaults_in D c ->
  ~ (c_frozen c = true /\ isinstance (rt_py R) v (c_ty c) = true /\ maps = [] /\ kw = []) ->
  has_attributes R w (fun k' => In k' (keys (c_fields c)) /\ k' <> k) v d -> (forall k a, dget k d = Some a -> D a) ->
  (forall k' f, dget k' (c_fields c) = Some f -> k' <> k -> f_default f = NoDefault -> exists a, dget k' d = Some a) ->
  dget k (c_fields c) = Some f -> getattr R v k w = (Raise e, w') -> is_AttributeError e = false ->
  from_instance R n c sel_empty v maps kw w = (Raise e, w').
Proof.
  intros obj ty W R D eqb n c v d maps kw w k f e w' HM HE HD NS HA HDa HR EF HG NE. apply (made_named R) in HM. pose proof HM as [HO HN].
  assert (TD : to_dict_of R c v no_args sel_empty w = (Raise e, w')).
  { unfold to_dict_of. unfold bind at 1. rewrite extraction_empty.
    pose proof (dget_Some_In _ _ _ EF) as HI. apply in_split in HI. destruct HI as (pre & post & ES). rewrite ES, map_app, map_cons. cbn [snd].
    assert (INP : forall k' f', In (k', f') pre -> dget k' (c_fields c) = Some f' /\ k' <> k).
    { intros k' f' HI. split; [apply dget_In; [assumption|]; rewrite ES; apply in_or_app; left; assumption|].
      intros ->. unfold dict_ok in HO. rewrite ES in HO. unfold keys in HO. rewrite map_app, map_cons in HO. cbn [fst] in HO. apply NoDup_remove_2 in HO. apply HO.
      apply in_or_app. left. change k with (fst (k, f')). apply in_map. assumption. }
    assert (XP : forall x, In x (map (fun kf : string * field => real_field (snd kf)) pre) -> exists f', dget (x_name x) (c_fields c) = Some f' /\ x_name x <> k /\ x = real_field f').
    { intros x HI. apply in_map_iff in HI. destruct HI as ([k' f'] & <- & HI). destruct (INP k' f' HI) as [E N]. exists f'. cbn. rewrite (HN k' f' E). auto. }
    rewrite (extract_stops R (missing_ok c sel_empty) v no_args _ (real_field f) _ w
               (From_main.taken eqb d (map (fun kf : string * field => real_field (snd kf)) pre)) w e w'); [reflexivity| |].
    - apply (From_main.extract_attrs R D eqb HE (missing_ok c sel_empty) (fun k' => In k' (keys (c_fields c)) /\ k' <> k) v d); try assumption.
      + intros x HI. destruct (XP x HI) as (f' & E & N & _). split; [eapply dget_some_key; exact E|assumption].
      + intros x dv a HI ED EA. destruct (XP x HI) as (f' & E & N & ->). split; [eapply HD; [exact E|exact ED]|eapply HDa; exact EA].
      + intros x HI EN. destruct (XP x HI) as (f' & E & N & EX). apply (From_main.missing_ok_empty c _ f' HO E).
        unfold has_default. destruct (f_default f') eqn:ED; [|reflexivity|reflexivity]. destruct (HR _ f' E N ED) as [a EA]. congruence.
    - unfold extract_one. rewrite From_main.export_field_no_args. cbn [x_name real_field]. rewrite (HN k f EF), HG, NE. reflexivity. }
  unfold from_instance, from_instance_with. change (fst (sel_truth (@sel_empty obj))) with false. cbn [negb andb].
  destruct (c_frozen c && match maps with [] => true | _ => false end && match kw with [] => true | _ => false end && isinstance (rt_py R) v (c_ty c)) eqn:EB.
  - destruct NS. apply andb_true_iff in EB. destruct EB as [EB E4]. apply andb_true_iff in EB. destruct EB as [EB E3]. apply andb_true_iff in EB. destruct EB as [E1 E2].
    split; [assumption|]. split; [assumption|]. split; [destruct maps; [reflexivity|discriminate]|destruct kw; [reflexivity|discriminate]].
  - unfold bind. rewrite TD. reflexivity.
Qed.

Lemma join_concat : forall l, join_parts l = String.concat ", " l.
Proof. induction l as [|s r IH]; [reflexivity|]. destruct r; [reflexivity|]. cbn in *. rewrite IH. reflexivity. Qed.
Lemma repr_text : forall {obj ty W} (R : Rt obj ty W) ctx c a w x d show w1, class_of R ctx x w = Some c ->
  to_dict R ctx x a sel_empty w = (Ok d, w1) ->
  (forall k v, In (k, v) d -> v_repr R v w1 = (Ok (show v), w1)) ->
  repr R ctx x a w = (Ok (call_text (type_name R (c_ty c)) show d), w1).
Proof.
  intros obj ty W R ctx c a w x d show w1 HC HT HS. unfold repr, with_class. rewrite HC. unfold bind at 1. rewrite HT.
  assert (M : mapM (fun kv : string * obj => let* s := v_repr R (snd kv) in ret (fst kv ++ "=" ++ s)%string) d w1 =
              (Ok (map (fun kv => fst kv ++ "=" ++ show (snd kv))%string d), w1)).
  { clear HT. induction d as [|[k v] r IH]; [reflexivity|]. cbn [mapM]. apply bind_ok. exists (k ++ "=" ++ show v)%string, w1.
    split; [unfold bind; cbn [snd fst]; rewrite (HS k v (or_introl eq_refl)); reflexivity|].
    apply bind_ok. exists (map (fun kv => fst kv ++ "=" ++ show (snd kv))%string r), w1. split; [apply IH; intros; eapply HS; right; eassumption|reflexivity]. }
  unfold bind at 1. rewrite M. unfold ret. rewrite join_concat. reflexivity.
Qed.

Lemma c94_repr_proof : forall {obj ty W} (R : Rt obj ty W) ctx D eqb c w x i show,
  made (rt_py R) c -> has_eq R D eqb -> defaults_in D c -> instance_of R ctx c w x i -> values_in D c i ->
  (forall k v, dget k (i_dict i) = Some v -> v_repr R v w = (Ok (show v), w)) ->
  exists d, repr R ctx x no_args w = (Ok (call_text (type_name R (c_ty c)) show d), w) /\
    keys d = filter (fun k => smem k (keys d)) (keys (c_fields c)) /\
    forall k v, In (k, v) d <->
      exists f, dget k (c_fields c) = Some f /\ dget k (i_dict i) = Some v /\ (forall dv, f_default f = DefVal dv -> eqb dv v = false).
Proof.
  intros obj ty W R ctx D eqb c w x i show HM HE HD HI HV HS.
  destruct (Inst_main.c32_to_dict_proof R ctx D eqb c no_args [] w x i HM HE HD HI HV eq_refl eq_refl) as (d & H1 & H2 & H3 & H4).
  exists d. split; [|split; [exact H3|]].
  - eapply repr_text; [exact (class_of_instance R ctx c w x i HI)|exact H1|]. intros k v HIn. apply H4 in HIn. destruct HIn as (f & _ & E & _). eapply HS. exact E.
  - intros k v. rewrite H4. unfold to_export. split; intros (f & E1 & E2 & E3); exists f; (split; [assumption|]; split; [assumption|]).
    + destruct E3 as [[]|[_ [E3|E3]]]; [discriminate|assumption].
    + right. split; [intros ? _ []|]. right. assumption.
Qed.

Lemma exported_same_repr : forall {obj ty W} D (eqb : obj -> obj -> bool) (c : @cls obj ty W) (i j : inst obj ty) (show : obj -> string) fs,
  equivalence D eqb -> (forall k f, In (k, f) fs -> dget k (c_fields c) = Some f) ->
  defaults_in D c -> values_in D c i -> values_in D c j -> fieldwise eqb c i j ->
  (forall k, In k (keys fs) -> (exists a, dget k (i_dict i) = Some a) /\ (exists b, dget k (i_dict j) = Some b)) ->
  (forall a b, D a -> D b -> eqb a b = true -> show a = show b) ->
  map (fun kv => fst kv ++ "=" ++ show (snd kv))%string (exported_from eqb no_args [] fs i) =
  map (fun kv => fst kv ++ "=" ++ show (snd kv))%string (exported_from eqb no_args [] fs j).
Proof.
  intros obj ty W D eqb c i j show fs (Q1 & Q2 & Q3) HF HD VI VJ HW HP HS. induction fs as [|[k f] r IH]; [reflexivity|].
  destruct (HP k (or_introl eq_refl)) as [[a EA] [b EB]]. pose proof (HF k f (or_introl eq_refl)) as EF.
  pose proof (dget_some_key _ _ _ EF) as HK. pose proof (HW k a b HK EA EB) as EQ. assert (DA : D a) by (eapply VI; eassumption). assert (DB : D b) by (eapply VJ; eassumption).
  unfold exported_from in *. cbn [flat_map]. rewrite !map_app. f_equal; [|apply IH; [intros; apply HF; right; assumption|intros; apply HP; right; assumption]].
  cbn [fst snd]. rewrite EA, EB.
  assert (EE : to_exportb eqb no_args [] k f a = to_exportb eqb no_args [] k f b).
  { unfold to_exportb. do 2 f_equal. f_equal. f_equal. destruct (f_default f) as [|dv|g] eqn:ED; try reflexivity.
    assert (DV : D dv) by (eapply HD; eassumption).
    destruct (eqb dv a) eqn:E1, (eqb dv b) eqn:E2; try reflexivity.
    - rewrite (Q3 dv a b) in E2 by assumption. discriminate.
    - rewrite (Q3 dv b a) in E1 by (try assumption; apply Q2; assumption). discriminate. }
  rewrite EE. destruct (to_exportb eqb no_args [] k f b); [|reflexivity]. cbn [map fst snd]. rewrite (HS a b) by assumption. reflexivity.
Qed.

Lemma c95_same_partial_proof : forall {obj ty W} (R : Rt obj ty W) ctx D eqb c w x i y j show,
  made (rt_py R) c -> has_eq R D eqb -> equivalence D eqb -> defaults_in D c ->
  instance_of R ctx c w x i -> instance_of R ctx c w y j -> values_in D c i -> values_in D c j ->
  (forall v, D v -> v_repr R v w = (Ok (show v), w)) ->
  (forall a b, D a -> D b -> eqb a b = true -> show a = show b) ->
  fieldwise eqb c i j ->
  exists s, repr R ctx x no_args w = (Ok s, w) /\ repr R ctx y no_args w = (Ok s, w).
Proof.
  intros obj ty W R ctx D eqb c w x i y j show HM HE HQ HD HI HJ VI VJ HR HS HW. apply (made_named R) in HM. pose proof HM as [HO _].
  assert (T : forall x i, instance_of R ctx c w x i -> values_in D c i ->
     repr R ctx x no_args w = (Ok (call_text (type_name R (c_ty c)) show (exported eqb no_args [] c i)), w)).
  { intros x0 i0 HI0 VI0. eapply repr_text; [exact (class_of_instance R ctx c w x0 i0 HI0)| |].
    - rewrite (to_dict_exported R ctx D eqb HE c no_args [] w x0 i0) by (auto; reflexivity). reflexivity.
    - intros k v HIn. apply in_exported in HIn; [|assumption]. destruct HIn as (f & E1 & E2 & _). apply HR. eapply VI0; [|exact E2]. eapply dget_some_key. exact E1. }
  eexists. split; [exact (T x i HI VI)|]. rewrite (T y j HJ VJ). unfold call_text, exported.
  rewrite (exported_same_repr D eqb c j i show (c_fields c)); [reflexivity|..]; try assumption.
  - intros k f HIn. apply dget_In; assumption.
  - intros k a b HK EA EB. destruct HQ as (_ & Q2 & _). apply Q2; [eapply VI; eassumption|eapply VJ; eassumption|]. eapply HW; eassumption.
  - intros k HK. destruct HI as (_ & _ & _ & _ & FI). destruct HJ as (_ & _ & _ & _ & FJ). split; [apply FJ|apply FI]; assumption.
Qed.

Definition shown_decl := rdecl 0 false false (Some false) SCheck [("x", (an TInt, NoDefault)); ("y", (an TInt, DefVal (DInt 0)))] [] no_post.
Definition shown_ctx (t : dty) : option (@cls dobj dty rstate) := match t with TRec 0 => Some (made_of shown_decl) | _ => None end.
Definition shown_w : rstate := RState []
  [Inst (TRec 0) [("x", DInt 1); ("y", DInt 5)] SUnset; Inst (TRec 0) [("x", DBool true); ("y", DInt 5)] SUnset] [].

Lemma c95_same_refuted_proof :
  exists (d : @decl dobj dty rstate) c ctx w x i y j s s',
    make_class rt0 d = Ok c /\ instance_of (demo_rt 0) ctx c w x i /\ instance_of (demo_rt 0) ctx c w y j /\
    record_eq (demo_rt 0) ctx x y w = (Ok true, w) /\
    repr (demo_rt 0) ctx x no_args w = (Ok s, w) /\ repr (demo_rt 0) ctx y no_args w = (Ok s', w) /\ s <> s'.
Proof.
  exists shown_decl, (made_of shown_decl), shown_ctx, shown_w, (DRef (TRec 0) 0), (Inst (TRec 0) [("x", DInt 1); ("y", DInt 5)] SUnset),
    (DRef (TRec 0) 1), (Inst (TRec 0) [("x", DBool true); ("y", DInt 5)] SUnset), "C(x=1, y=1)", "C(x=?, y=1)".
  split; [reflexivity|]. split; [repeat split; intros k [<-|[<-|[]]]; eexists; reflexivity|].
  split; [repeat split; intros k [<-|[<-|[]]]; eexists; reflexivity|]. repeat split. discriminate.
Qed.

Lemma c97_select_proof : forall {obj ty W} (R : Rt obj ty W) n c (s : sel obj) t o d w w1,
  json_loads R t w = (Ok o, w1) -> is_mapping R o d ->
  (forall w, unpack R o w = (Ok d, w)) -> (forall w, as_dict R o w = (Ok d, w)) ->
  from_json R n c s t w = from_mapping R n c s [o] [] w1.
Proof.
  intros obj ty W R n c s t o d w w1 HJ HM HU HA. unfold from_json, from_json_with, from_mapping, from_mapping_with.
  unfold bind at 1. rewrite HJ. unfold bind at 1 3. rewrite (chain_map_one R o d w1 HM).
  destruct (fst (sel_truth s)); [rewrite HA|rewrite HU]; reflexivity.
Qed.

Lemma c97_not_json_proof : forall {obj ty W} (R : Rt obj ty W) n c (s : sel obj) t e w w1,
  json_loads R t w = (Raise e, w1) -> from_json R n c s t w = (Raise e, w1).
Proof.
  intros obj ty W R n c s t e w w1 HJ. unfold from_json, from_json_with, bind. rewrite HJ. reflexivity.
Qed.

Lemma c97_exchange_proof : forall {obj ty W} (R : Rt obj ty W) ctx n c x a (s s' : sel obj) d t o w w1 w2 w3,
  to_dict R ctx x a s w = (Ok d, w1) -> json_dumps R d w1 = (Ok t, w2) -> json_loads R t w2 = (Ok o, w3) ->
  is_mapping R o d -> (forall w, unpack R o w = (Ok d, w)) -> (forall w, as_dict R o w = (Ok d, w)) ->
  (let* t := to_json R ctx x a s in from_json R n c s' t) w = from_mapping R n c s' [o] [] w3.
Proof.
  intros obj ty W R ctx n c x a s s' d t o w w1 w2 w3 HD HT HJ HM HU HA. unfold to_json. unfold bind at 1 2. rewrite HD, HT.
  eapply c97_select_proof; eassumption.
Qed.

Lemma c97_pairs_refuted_proof :
  ~ (forall obj ty W (R : Rt obj ty W) n c (s : sel obj) t w y w',
       from_json R n c s t w = (Ok y, w') -> exists o w1 d, json_loads R t w = (Ok o, w1) /\ is_mapping R o d).
Proof.
  intros H.
  set (t := DTuple (DCons (dlist [dtuple [DStr "x"; DInt 1]; dtuple [DStr "z"; DInt 2]]) DNil)).
  set (s := Sel (Reiter []) (Reiter []) (Reiter ["z"]) (Reiter []) (Reiter []) (Reiter []) None : sel dobj).
  destruct (from_json (demo_rt 0) 1 (made_of shown_decl) s t (RState [] [] [])) as [[y|e] w'] eqn:E; [|vm_compute in E; discriminate].
  destruct (H _ _ _ (demo_rt 0) 1 _ s t _ y w' E) as (o & w1 & d & HJ & HM).
  vm_compute in HJ. injection HJ as <- <-. destruct HM as (_ & HI & _). specialize (HI (RState [] [] [])). vm_compute in HI. discriminate.
Qed.

Lemma c98_single_partial_proof : forall {obj ty W} (R : Rt obj ty W) D eqb n c v d m e kw w,
  made (rt_py R) c -> has_eq R D eqb -> defaults_in D c -> dict_ok kw ->
  has_attributes R w (fun k => In k (keys (c_fields c))) v d -> (forall k a, dget k d = Some a -> D a) ->
  (forall k f, dget k (c_fields c) = Some f -> f_default f = NoDefault -> exists a, dget k d = Some a) ->
  as_dict R m w = (Ok e, w) ->
  exists d', dict_ok d' /\ from_instance R n c sel_empty v [m] kw w = construct R n c None d' w /\
    (forall k a, dget k d' = Some a ->
       first_with k [kw; e; d] a /\ (dget k kw = None -> dget k e = None -> In k (keys (c_fields c)))) /\
    (forall k a, first_with k [kw; e] a -> dget k d' = Some a).
Proof.
  intros obj ty W R D eqb n c v d m e kw w MC HE HD OK HA HV HR HM.
  destruct (From_main.c72_attributes_proof R D eqb n c v d [m] e kw w MC HE HD OK) as (d' & OK' & H & E); auto.
  - intros (_ & _ & N & _). discriminate.
  - right. eauto.
  - exists d'. split; [exact OK'|]. split; [exact E|]. split.
    + intros k a K. apply H in K as [K|[[K1 K2]|(K1 & K2 & f & F & K3 & _)]].
      * split; [exists [], kw, [e; d]; repeat split; auto; intros ? []|congruence].
      * split; [exists [kw], e, [d]; repeat split; auto; intros ? [<-|[]]; exact K1|congruence].
      * split; [exists [kw; e], d, []; repeat split; auto; intros ? [<-|[<-|[]]]; assumption|]. intros _ _. eapply dget_some_key. exact F.
    + intros k a (B & x & A & L & K & N). apply H. destruct B as [|b1 B]; cbn in L.
      * injection L as <- _. left. exact K.
      * injection L as -> L. destruct B as [|b2 B]; cbn in L; [injection L as <- _|].
        -- right. left. split; [apply N; left; reflexivity|exact K].
        -- injection L as _ L. destruct B; discriminate.
Qed.

Lemma c98_many_refuted_proof : forall {obj ty W} (R : Rt obj ty W) n c (s : sel obj) v m1 m2 maps kw w o w',
  from_instance R n c s v (m1 :: m2 :: maps) kw w = (o, w') ->
  exists e, o = Raise e /\
    (c_frozen c = false -> forall y w1, from_instance R n c s v [] kw w = (Ok y, w1) -> exc_cls e = TypeError).
Proof.
  intros obj ty W R n c s v m1 m2 maps kw w o w' H. unfold from_instance, from_instance_with in *.
  rewrite !andb_false_r, !andb_false_l in H. cbn [andb] in H. unfold bind at 1 in H.
  destruct (to_dict_of R c v no_args s w) as [[d|e] w1] eqn:E.
  - cbn in H. injection H as <- _. eexists. split; [reflexivity|]. intros _ y w2 _. reflexivity.
  - injection H as <- _. exists e. split; [reflexivity|]. intros HF y w2 H. rewrite HF, !andb_false_r in H. cbn [andb] in H.
    unfold bind at 1 in H. rewrite E in H. discriminate.
Qed.
