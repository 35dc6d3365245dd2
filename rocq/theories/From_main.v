(** From_main.v -- proofs of the properties stated in Props_From.v: from_instance, with and without a Select (records/record.py:451-485) *)

From Verif Require Import Base Py Select Filler Classes Spec_Classes Runtime Record Spec_Record Spec_Inst Spec_Copy Demo DemoRt DemoCls.
From Verif Require Dict_proofs Select_proofs Select_proofs2 Select_main Spec_Select Filler_proofs Classes_proofs Record_proofs Classes_main Inst_proofs Inst_main Copy_proofs.
Open Scope string_scope.
Open Scope list_scope.

Import Dict_proofs Select_proofs Spec_Select Select_proofs2 Select_main Filler_proofs Classes_proofs Record_proofs Classes_main Inst_proofs Inst_main Copy_proofs.
Section Attrs.
Context {obj ty W : Type} (R : Rt obj ty W).
Variables (D : obj -> Prop) (eqb : obj -> obj -> bool).
Hypothesis HE : has_eq R D eqb.

Definition kept_value (f : @xfield obj W) (a : obj) : bool := match x_default f with DefVal dv => negb (eqb dv a) | _ => true end.
Definition taken (d : dict obj) (fs : list (@xfield obj W)) : dict obj :=
  flat_map (fun f => match dget (x_name f) d with Some a => if kept_value f a then [(x_name f, a)] else [] | None => [] end) fs.

Lemma export_field_no_args : forall f : @xfield obj W, export_field no_args f = Ok true.
Proof.
  intro f. unfold export_field. cbn. f_equal. induction (x_tags f) as [|t r IH]; [reflexivity|exact IH].
Qed.

Lemma extract_attrs : forall ok (N : string -> Prop) v d fs w, has_attributes R w N v d ->
  (forall f, In f fs -> N (x_name f)) ->
  (forall f dv a, In f fs -> x_default f = DefVal dv -> dget (x_name f) d = Some a -> D dv /\ D a) ->
  (forall f, In f fs -> dget (x_name f) d = None -> ok (x_name f) = true) ->
  extract R ok v no_args fs w = (Ok (taken d fs), w).
Proof.
  intros ok N v d fs w HA. induction fs as [|f r IH]; intros HN HD HO; [reflexivity|].
  cbn [extract]. apply bind_ok. exists (match dget (x_name f) d with Some a => if kept_value f a then [(x_name f, a)] else [] | None => [] end), w. split.
  - unfold extract_one. rewrite export_field_no_args. pose proof (HA (x_name f) (HN f (or_introl eq_refl))) as HG.
    destruct (dget (x_name f) d) as [a|] eqn:EA.
    + rewrite HG. unfold export_value, kept_value. cbn [smem existsb e_white e_defaults no_args orb].
      destruct (x_default f) as [|dv|g] eqn:ED; try reflexivity. unfold bind. destruct (HD f dv a (or_introl eq_refl) ED EA) as [D1 D2].
      rewrite (proj1 (HE dv a w D1 D2)). unfold ret. destruct (eqb dv a); reflexivity.
    + destruct HG as [m HG]. rewrite HG. cbn [exc_cls mkexc]. rewrite (HO f (or_introl eq_refl) EA). reflexivity.
  - apply bind_ok. exists (taken d r), w. split; [|reflexivity]. apply IH.
    + intros; apply HN; right; assumption.
    + intros; eapply HD; [right|..]; eassumption.
    + intros; apply HO; [right; assumption|assumption].
Qed.

Lemma in_taken : forall d fs k a, In (k, a) (taken d fs) <-> exists f, In f fs /\ x_name f = k /\ dget k d = Some a /\ kept_value f a = true.
Proof.
  intros d fs k a. unfold taken. rewrite in_flat_map. split.
  - intros (f & HI & H). destruct (dget (x_name f) d) as [b|] eqn:E; [|destruct H]. destruct (kept_value f b) eqn:EK; [|destruct H].
    destruct H as [H|[]]. injection H as <- <-. exists f. auto.
  - intros (f & HI & <- & E & EK). exists f. split; [assumption|]. rewrite E, EK. left. reflexivity.
Qed.
Lemma taken_ok : forall d fs, NoDup (map (@x_name obj W) fs) -> dict_ok (taken d fs).
Proof.
  intros d fs. induction fs as [|f r IH]; intro ND; [constructor|]. cbn in ND. inversion ND as [|? ? N ND']; subst.
  unfold dict_ok, taken. cbn [flat_map]. fold (taken d r). rewrite keys_app.
  assert (NI : ~ In (x_name f) (keys (taken d r))).
  { intro HI. apply in_map_iff in HI. destruct HI as ([k a] & E & HI). cbn in E. subst k. apply in_taken in HI. destruct HI as (f' & HI & E & _).
    apply N. rewrite <- E. apply in_map. assumption. }
  destruct (dget (x_name f) d) as [a|]; [|apply IH; assumption]. destruct (kept_value f a); [|apply IH; assumption].
  cbn. constructor; [assumption|apply IH; assumption].
Qed.
End Attrs.

Lemma c72_same_proof : forall {obj ty W} (R : Rt obj ty W) n c v w,
  c_frozen c = true -> isinstance (rt_py R) v (c_ty c) = true -> from_instance R n c sel_empty v [] [] w = (Ok v, w).
Proof.
 intros obj ty W R n c v w EF HI. unfold from_instance, from_instance_with. cbn. rewrite EF, HI. reflexivity. Qed.

Lemma fields_extracted : forall {obj ty W} (c : @cls obj ty W) f, well_named c ->
  (In f (map snd (extraction c (@sel_empty obj))) <-> exists f', dget (x_name f) (c_fields c) = Some f' /\ f = real_field f').
Proof.
  intros obj ty W c f [HO HN]. rewrite extraction_empty, in_map_iff. split.
  - intros ([k f'] & <- & HI). apply (dget_In _ _ _ HO) in HI. exists f'. cbn. rewrite (HN k f' HI). auto.
  - intros (f' & E & ->). exists (x_name (real_field f'), f'). split; [reflexivity|]. apply dget_Some_In. assumption.
Qed.
Lemma required_spec : forall {obj ty W} (c : @cls obj ty W) k f, dict_ok (c_fields c) -> dget k (c_fields c) = Some f ->
  (In k (required_keys (c_fields c)) <-> has_default f = false).
Proof.
  intros obj ty W c k f HO E. rewrite required_keys_filter, filter_In, E, negb_true_iff by assumption. split; [tauto|].
  intro H. split; [eapply dget_some_key; exact E|assumption].
Qed.
Lemma optional_spec : forall {obj ty W} (c : @cls obj ty W) k f, dict_ok (c_fields c) -> dget k (c_fields c) = Some f ->
  smem k (optional_keys (c_fields c)) = has_default f.
Proof.
  intros obj ty W c k f HO E. pose proof (required_spec c k f HO E) as R. unfold optional_keys. destruct (has_default f) eqn:ED.
  - apply smem_In. apply filter_In. split; [eapply dget_some_key; exact E|]. apply negb_true_iff. apply smem_false. rewrite R. discriminate.
  - apply smem_false. rewrite filter_In, negb_true_iff, smem_false, R. tauto.
Qed.
Lemma missing_ok_empty : forall {obj ty W} (c : @cls obj ty W) k f, dict_ok (c_fields c) -> dget k (c_fields c) = Some f -> has_default f = true ->
  missing_ok c (@sel_empty obj) k = true.
Proof.
  intros obj ty W c k f HO E HD. unfold missing_ok. rewrite (optional_spec c k f HO E), HD. reflexivity.
Qed.
Lemma names_extracted : forall {obj ty W} (c : @cls obj ty W), well_named c -> NoDup (map (@x_name obj W) (map snd (extraction c (@sel_empty obj)))).
Proof.
  intros obj ty W c [HO HN]. rewrite extraction_empty, map_map.
  assert (E : map (fun x => x_name (real_field (snd x))) (c_fields c) = keys (c_fields c)).
  { unfold keys. apply map_ext_in. intros [k f] HI. cbn. apply HN. apply dget_In; assumption. }
  rewrite E. exact HO.
Qed.

Lemma c72_attributes_proof : forall {obj ty W} (R : Rt obj ty W) D eqb n c v d maps e kw w,
  made (rt_py R) c -> has_eq R D eqb -> defaults_in D c -> dict_ok kw ->
  ~ (c_frozen c = true /\ isinstance (rt_py R) v (c_ty c) = true /\ maps = [] /\ kw = []) ->
  has_attributes R w (fun k => In k (keys (c_fields c))) v d -> (forall k a, dget k d = Some a -> D a) ->
  (forall k f, dget k (c_fields c) = Some f -> f_default f = NoDefault -> exists a, dget k d = Some a) ->
  (maps = [] /\ e = []) \/ (exists m, maps = [m] /\ as_dict R m w = (Ok e, w)) ->
  exists d', dict_ok d' /\
    (forall k a, dget k d' = Some a <->
       dget k kw = Some a \/
       dget k kw = None /\ dget k e = Some a \/
       dget k kw = None /\ dget k e = None /\
         exists f, dget k (c_fields c) = Some f /\ dget k d = Some a /\ (forall dv, f_default f = DefVal dv -> eqb dv a = false)) /\
    from_instance R n c sel_empty v maps kw w = construct R n c None d' w.
Proof.
  intros obj ty W R D eqb n c v d maps e kw w HM HE HD HKW NS HA HDa HR HMp. apply (made_named R) in HM. pose proof HM as [HO HN].
  set (t := taken eqb d (map snd (extraction c (@sel_empty obj)))).
  assert (OT : dict_ok t) by (apply taken_ok; apply names_extracted; assumption).
  assert (TD : to_dict_of R c v no_args sel_empty w = (Ok t, w)).
  { unfold to_dict_of. apply bind_ok. exists t, w. split; [|reflexivity].
    apply (extract_attrs R D eqb HE (missing_ok c sel_empty) (fun k => In k (keys (c_fields c))) v d); try assumption.
    - intros f HI. apply fields_extracted in HI; [|assumption]. destruct HI as (f' & E & _). eapply dget_some_key. exact E.
    - intros f dv a HI EDf EA. apply fields_extracted in HI; [|assumption]. destruct HI as (f' & E & ->). split; [|eapply HDa; exact EA].
      eapply HD; [exact E|exact EDf].
    - intros f HI EN. apply fields_extracted in HI; [|assumption]. destruct HI as (f' & E & EQ). apply (missing_ok_empty c _ f' HO E).
      unfold has_default. destruct (f_default f') as [|dv|g] eqn:EDf; try reflexivity.
      destruct (HR _ f' E EDf) as [a EA]. congruence. }
  assert (OE : dict_ok e).
  { destruct HMp as [[_ ->]|(m & _ & HM')]; [constructor|]. eapply as_dict_ok. exact HM'. }
  assert (UD : update_dict R t maps kw w = (Ok (dupdate (dupdate t e) kw), w)).
  { destruct HMp as [[-> ->]|(m & -> & HM')]; cbn [update_dict]; [reflexivity|]. unfold bind. rewrite HM'. reflexivity. }
  exists (dupdate (dupdate t e) kw). split; [|split].
  - apply dict_ok_dupdate. apply dict_ok_dupdate. assumption.
  - intros k a. rewrite !dget_dupdate by assumption.
    assert (GT : dget k t = Some a <-> exists f, dget k (c_fields c) = Some f /\ dget k d = Some a /\ (forall dv, f_default f = DefVal dv -> eqb dv a = false)).
    { assert (G : dget k t = Some a <-> In (k, a) t) by (split; [apply dget_Some_In|apply dget_In; assumption]). rewrite G. unfold t. rewrite in_taken. split.
      - intros (f & HI & <- & EA & EK). apply fields_extracted in HI; [|assumption]. destruct HI as (f' & E & ->). exists f'. split; [assumption|]. split; [assumption|].
        intros dv EDf. unfold kept_value in EK. cbn in EK. rewrite EDf in EK. apply negb_true_iff. assumption.
      - intros (f & E & EA & EK). exists (real_field f). split; [|split; [cbn; apply HN; assumption|split; [assumption|]]].
        + apply fields_extracted; [assumption|]. exists f. cbn. rewrite (HN k f E). auto.
        + unfold kept_value. cbn. destruct (f_default f) as [|dv|g]; try reflexivity. rewrite (EK dv eq_refl). reflexivity. }
    destruct (dget k kw) as [a1|] eqn:E1.
    + split; [auto|]. intros [H|[[H _]|[H _]]]; [assumption|discriminate|discriminate].
    + destruct (dget k e) as [a2|] eqn:E2.
      * split; [auto|]. intros [H|[[_ H]|(_ & H & _)]]; [discriminate|assumption|discriminate].
      * rewrite GT. split; [auto|]. intros [H|[[_ H]|(_ & _ & H)]]; [discriminate|discriminate|assumption].
  - unfold from_instance, from_instance_with. change (fst (sel_truth (@sel_empty obj))) with false. cbn [negb andb].
    destruct (c_frozen c && match maps with [] => true | _ => false end && match kw with [] => true | _ => false end && isinstance (rt_py R) v (c_ty c)) eqn:EB.
    + destruct NS. apply andb_true_iff in EB. destruct EB as [EB E4]. apply andb_true_iff in EB. destruct EB as [EB E3]. apply andb_true_iff in EB. destruct EB as [E1 E2].
      split; [assumption|]. split; [assumption|]. split; [destruct maps; [reflexivity|discriminate]|destruct kw; [reflexivity|discriminate]].
    + unfold bind. rewrite TD, UD. reflexivity.
Qed.

Lemma c72_missing_proof : forall {obj ty W} (R : Rt obj ty W) D eqb n c v d maps kw w k f,
  made (rt_py R) c -> has_eq R D eqb -> defaults_in D c ->
  ~ (c_frozen c = true /\ isinstance (rt_py R) v (c_ty c) = true /\ maps = [] /\ kw = []) ->
  has_attributes R w (fun k => In k (keys (c_fields c))) v d -> (forall k a, dget k d = Some a -> D a) ->
  dget k (c_fields c) = Some f -> f_default f = NoDefault -> dget k d = None ->
  exists m, from_instance R n c sel_empty v maps kw w = (Raise (mkexc AttributeError m), w).
Proof.
  intros obj ty W R D eqb n c v d maps kw w k f HM HE HD NS HA HDa EF EDk EN. apply (made_named R) in HM. pose proof HM as [HO HN].
  assert (G : forall fs, (forall x, In x fs -> exists f', dget (x_name x) (c_fields c) = Some f' /\ x = real_field f') ->
    (exists m, extract R (missing_ok c sel_empty) v no_args fs w = (Raise (mkexc AttributeError m), w)) \/
    ((exists l, extract R (missing_ok c sel_empty) v no_args fs w = (Ok l, w)) /\
     forall x, In x fs -> dget (x_name x) d = None -> missing_ok c (@sel_empty obj) (x_name x) = true)).
  { induction fs as [|x r IH]; intro HX; [right; split; [exists []; reflexivity|intros ? []]|].
    destruct (HX x (or_introl eq_refl)) as (f' & E & EX).
    assert (XO : (exists m, extract_one R (missing_ok c sel_empty) v no_args x w = (Raise (mkexc AttributeError m), w)) \/
                 ((exists l, extract_one R (missing_ok c sel_empty) v no_args x w = (Ok l, w)) /\ (dget (x_name x) d = None -> missing_ok c (@sel_empty obj) (x_name x) = true))).
    { unfold extract_one. rewrite export_field_no_args. pose proof (HA (x_name x) (dget_some_key _ _ _ E)) as HG.
      destruct (dget (x_name x) d) as [a|] eqn:EA.
      - right. split; [|discriminate]. rewrite HG. unfold export_value. cbn [smem existsb e_white e_defaults no_args orb].
        destruct (x_default x) as [|dv|g] eqn:EDf; try (eexists; reflexivity). unfold bind.
        rewrite (proj1 (HE dv a w (HD _ _ _ E ltac:(rewrite EX in EDf; exact EDf)) (HDa _ _ EA))). eexists. reflexivity.
      - destruct HG as [m HG]. rewrite HG. cbn [exc_cls mkexc]. destruct (missing_ok c sel_empty (x_name x)); cbn [negb].
        + right. split; [eexists; reflexivity|reflexivity].
        + left. eexists. reflexivity. }
    cbn [extract]. unfold bind. destruct XO as [[m XO]|[[l XO] XM]]; rewrite XO; [left; eexists; reflexivity|].
    destruct IH as [[m IH]|[[l' IH] IM]]; [intros; apply HX; right; assumption| |]; rewrite IH.
    - left. eexists. reflexivity.
    - right. split; [eexists; reflexivity|]. intros y [<-|HI]; [assumption|apply IM; assumption]. }
  destruct (G (map snd (extraction c (@sel_empty obj)))) as [[m H]|[_ H]].
  - intros x HI. apply fields_extracted in HI; assumption.
  - exists m. unfold from_instance, from_instance_with. change (fst (sel_truth (@sel_empty obj))) with false. cbn [negb andb].
    destruct (c_frozen c && match maps with [] => true | _ => false end && match kw with [] => true | _ => false end && isinstance (rt_py R) v (c_ty c)) eqn:EB.
    + destruct NS. apply andb_true_iff in EB. destruct EB as [EB E4]. apply andb_true_iff in EB. destruct EB as [EB E3]. apply andb_true_iff in EB. destruct EB as [E1 E2].
      split; [assumption|]. split; [assumption|]. split; [destruct maps; [reflexivity|discriminate]|destruct kw; [reflexivity|discriminate]].
    + unfold bind, to_dict_of, bind. rewrite H. reflexivity.
  - exfalso. specialize (H (real_field f)). cbn in H. rewrite (HN k f EF) in H.
    assert (HM1 : missing_ok c (@sel_empty obj) k = true) by (apply H; [apply fields_extracted; [assumption|]; exists f; cbn; rewrite (HN k f EF); auto|assumption]).
    unfold missing_ok in HM1. change (fst (sel_truth (@sel_empty obj))) with false in HM1. cbn [andb] in HM1. rewrite orb_false_r in HM1.
    rewrite (optional_spec c k f HO EF) in HM1. unfold has_default in HM1. rewrite EDk in HM1. discriminate.
Qed.

Lemma dget_fold_mock : forall {obj W B} (g : B -> string) (l : list B) (d0 : dict (@xfield obj W)) k,
  dget k (fold_left (fun d x => dset (g x) (mock_field (g x)) d) l d0) = if smem k (map g l) then Some (mock_field k) else dget k d0.
Proof.
  intros obj W B g l. induction l as [|x r IH]; intros d0 k; [reflexivity|]. cbn [fold_left map]. rewrite IH. unfold smem. cbn [existsb]. fold (smem k (map g r)).
  destruct (smem k (map g r)); [rewrite orb_true_r; reflexivity|]. rewrite orb_false_r. destruct (String.eqb_spec k (g x)) as [->|N].
  - apply dget_dset_same.
  - apply dget_dset_other. assumption.
Qed.
Lemma dget_fold_rem : forall {obj ty W} (fs : dict (@field obj ty W)) (l : list string) (d0 : dict (@xfield obj W)) k,
  dget k (fold_left (fun d k => if dmem k fs then d else dset k (mock_field k) d) l d0) =
  if smem k l && negb (dmem k fs) then Some (mock_field k) else dget k d0.
Proof.
  intros obj ty W fs l. induction l as [|x r IH]; intros d0 k; [reflexivity|]. cbn [fold_left]. rewrite IH. unfold smem. cbn [existsb]. fold (smem k r).
  destruct (smem k r) eqn:ES; cbn [andb].
  - rewrite orb_true_r. cbn [andb]. destruct (dmem k fs) eqn:EM; cbn [negb]; [|reflexivity].
    destruct (dmem x fs) eqn:EX; [reflexivity|]. apply dget_dset_other. intros ->. congruence.
  - rewrite orb_false_r. destruct (String.eqb_spec k x) as [->|N]; cbn [andb].
    + destruct (dmem x fs); cbn [negb]; [reflexivity|]. apply dget_dset_same.
    + destruct (dmem x fs); [reflexivity|]. apply dget_dset_other. assumption.
Qed.
Lemma dget_fold_del : forall {A B} (l : dict B) (d0 : dict A) k, dict_ok d0 ->
  dget k (fold_left (fun d kv => ddel (fst kv) d) l d0) = if smem k (keys l) then None else dget k d0.
Proof.
  intros A B l. induction l as [|[x b] r IH]; intros d0 k HO; [reflexivity|]. cbn [fold_left fst]. rewrite IH by (apply dict_ok_ddel; assumption).
  change (keys ((x, b) :: r)) with (x :: keys r). unfold smem. cbn [existsb]. fold (smem k (keys r)).
  destruct (smem k (keys r)); [rewrite orb_true_r; reflexivity|]. rewrite orb_false_r. destruct (String.eqb_spec k x) as [->|N].
  - apply dget_ddel_same. assumption.
  - apply dget_ddel_other. assumption.
Qed.
Lemma fold_dict_ok : forall {A B} (f : dict A -> B -> dict A), (forall d b, dict_ok d -> dict_ok (f d b)) -> forall l d, dict_ok d -> dict_ok (fold_left f l d).
Proof. intros A B f H l. induction l as [|b r IH]; intros d HO; [assumption|]. cbn. apply IH. apply H. assumption. Qed.
Lemma extraction_ok : forall {obj ty W} (c : @cls obj ty W) (s : sel obj), dict_ok (c_fields c) -> dict_ok (extraction c s).
Proof.
  intros obj ty W c s HO. assert (H0 : dict_ok (map (fun kf => (fst kf, real_field (snd kf))) (c_fields c))).
  { unfold dict_ok, keys. rewrite map_map. cbn. exact HO. }
  unfold extraction. destruct (fst (sel_truth s)); [|assumption]. cbv zeta. repeat apply fold_dict_ok; try assumption.
  - intros; apply dict_ok_ddel; assumption.
  - intros; apply dict_ok_dset; assumption.
  - intros; apply dict_ok_dset; assumption.
  - intros d b H. destruct (dmem b (c_fields c)); [assumption|apply dict_ok_dset; assumption].
Qed.
Lemma dget_extraction : forall {obj ty W} (c : @cls obj ty W) (s : sel obj) k, dict_ok (c_fields c) -> fst (sel_truth s) = true ->
  dget k (extraction c s) =
  if smem k (keys (elements (s_add s))) then None else
  if smem k (sources s) then Some (mock_field k) else
  match dget k (c_fields c) with
  | Some f => Some (real_field f)
  | None => if smem k (elements (s_rem s)) then Some (mock_field k) else None
  end.
Proof.
  intros obj ty W c s k HO HT. assert (H0 : dict_ok (map (fun kf => (fst kf, real_field (snd kf))) (c_fields c))).
  { unfold dict_ok, keys. rewrite map_map. cbn. exact HO. }
  unfold extraction. rewrite HT. cbv zeta. rewrite dget_fold_del.
  2:{ repeat apply fold_dict_ok; try assumption.
      - intros; apply dict_ok_dset; assumption.
      - intros; apply dict_ok_dset; assumption.
      - intros d b H. destruct (dmem b (c_fields c)); [assumption|apply dict_ok_dset; assumption]. }
  destruct (smem k (keys (elements (s_add s)))); [reflexivity|]. rewrite !dget_fold_mock, dget_fold_rem.
  unfold sources, renames. rewrite map_app.
  assert (SA : smem k (map fst (elements (s_ren s)) ++ map fst (elements (s_mren s))) = smem k (map fst (elements (s_ren s))) || smem k (map fst (elements (s_mren s)))) by apply existsb_app.
  rewrite SA. destruct (smem k (map fst (elements (s_mren s)))) eqn:E1; [rewrite orb_true_r; reflexivity|]. rewrite orb_false_r.
  destruct (smem k (map fst (elements (s_ren s)))) eqn:E2; [reflexivity|].
  assert (GM : dget k (map (fun kf => (fst kf, real_field (snd kf))) (c_fields c)) = option_map real_field (dget k (c_fields c))).
  { induction (c_fields c) as [|[x f] r IH]; [reflexivity|]. cbn. destruct (String.eqb k x); [reflexivity|]. apply IH; [inversion HO; assumption|inversion H0; assumption]. }
  rewrite GM. unfold dmem. destruct (dget k (c_fields c)); cbn [negb option_map]; [rewrite andb_false_r; reflexivity|]. rewrite andb_true_r. reflexivity.
Qed.
Lemma extraction_name : forall {obj ty W} (c : @cls obj ty W) (s : sel obj) k f, well_named c -> dget k (extraction c s) = Some f -> x_name f = k.
Proof.
  intros obj ty W c s k f [HO HN] E. destruct (fst (sel_truth s)) eqn:ET.
  - rewrite dget_extraction in E by assumption. destruct (smem k (keys (elements (s_add s)))); [discriminate|].
    destruct (smem k (sources s)); [injection E as <-; reflexivity|]. destruct (dget k (c_fields c)) as [f'|] eqn:EF; [injection E as <-; cbn; apply HN; assumption|].
    destruct (smem k (elements (s_rem s))); [injection E as <-; reflexivity|discriminate].
  - unfold extraction in E. rewrite ET in E. apply dget_Some_In in E. apply in_map_iff in E. destruct E as ([k' f'] & E & HI). injection E as <- <-.
    cbn. apply HN. apply dget_In; assumption.
Qed.

(** removing what is removed anyway changes nothing *)
Lemma edits_forget : forall {A} (rem mrem : list string) (rest : list (edit A)) (m m1 m2 : fmap A),
  (forall k, m1 k = m k \/ (m1 k = None /\ In k mrem /\ ~ In k rem)) ->
  edits (map Remove rem ++ map MaybeRemove mrem ++ rest) m = Done m2 ->
  exists m2', edits (map Remove rem ++ map MaybeRemove mrem ++ rest) m1 = Done m2' /\ forall k, m2' k = m2 k.
Proof.
  intros A. induction rem as [|k0 rem IH]; intros mrem rest m m1 m2 HK H.
  - cbn [map app] in *. revert m m1 HK H. induction mrem as [|k0 mrem IH]; intros m m1 HK H.
    + cbn [map app] in *. assert (EQ : forall k, m1 k = m k) by (intro k; destruct (HK k) as [E|(_ & [] & _)]; exact E).
      pose proof (edits_ext_same rest m1 m EQ) as SV. rewrite H in SV. destruct (edits rest m1) as [m2'| |]; cbn in SV; try contradiction. exists m2'. auto.
    + cbn [map app edits edit_step] in *. apply (IH (fput k0 None m)).
      * intro k. unfold fput. destruct (String.eqb_spec k k0) as [->|N]; [left; reflexivity|]. destruct (HK k) as [E|(E & [->|HI] & _)]; [left; assumption|congruence|].
        right. split; [assumption|]. split; [assumption|intros []].
      * exact H.
  - cbn [map app edits edit_step] in *. assert (E0 : m1 k0 = m k0) by (destruct (HK k0) as [E|(_ & _ & N)]; [assumption|destruct N; left; reflexivity]).
    rewrite E0. destruct (m k0) as [v|]; [|discriminate]. apply (IH mrem rest (fput k0 None m)); [|exact H].
    intro k. unfold fput. destruct (String.eqb_spec k k0) as [->|N]; [left; reflexivity|]. destruct (HK k) as [E|(E & HI & NI)]; [left; assumption|].
    right. split; [assumption|]. split; [assumption|]. intro HR. apply NI. right. assumption.
Qed.

Lemma in_edits_split : forall {A} (l : list (edit A)) e m m2, edits l m = Done m2 -> In e l ->
  exists l1 l2 m', l = l1 ++ e :: l2 /\ edits l1 m = Done m' /\ exists m'', edit_step e m' = Done m''.
Proof.
  intros A l e m m2 H HI. apply in_split in HI. destruct HI as (l1 & l2 & ->). exists l1, l2. rewrite edits_app in H.
  destruct (edits l1 m) as [m'| |] eqn:E1; try discriminate. exists m'. split; [reflexivity|]. split; [reflexivity|].
  cbn [edits] in H. destruct (edit_step e m') as [m''| |]; try discriminate. eauto.
Qed.

(** if the Select succeeds on [d], the attributes that from_instance collects are enough for it *)
Lemma select_attributes : forall {obj ty W} (R : Rt obj ty W) D eqb c (s : sel obj) d d2 v w,
  well_named c -> has_eq R D eqb -> defaults_in D c -> reachable s -> fst (sel_truth s) = true ->
  dict_ok d -> has_attributes R w (fun _ => True) v d -> (forall k a, dget k d = Some a -> D a) ->
  (forall k f dv a, dget k (c_fields c) = Some f -> f_default f = DefVal dv -> dget k d = Some a -> eqb dv a = false) ->
  (forall k, In k (keys (elements (s_madd s))) -> ~ In k (required_keys (c_fields c))) ->
  (forall k, In k (keys (elements (s_add s))) -> ~ In k (removed s) /\ ~ In k (sources s)) ->
  sel_apply s d = Ok d2 -> known c d2 -> complete c d2 ->
  exists d1 d2', to_dict_of R c v no_args s w = (Ok d1, w) /\ dict_ok d1 /\ sel_apply s d1 = Ok d2' /\ Permutation d2 d2'.
Proof.
  intros obj ty W R D eqb c s d d2 v w HM HE HD HS HT HO HA HDa HND HMA HAD HAp HKn HCp. pose proof HM as [HOF HN].
  destruct (sel_apply_ok_inv s d d2 HS HO HAp) as (m2 & HEd & HO2 & HG2).
  set (ext := extraction c s). set (fs := map snd ext).
  assert (OX : dict_ok ext) by (apply extraction_ok; assumption).
  assert (FN : map (@x_name obj W) fs = keys ext).
  { unfold fs, keys. rewrite map_map. apply map_ext_in. intros [k f] HI. cbn. apply (extraction_name c s k f HM). apply dget_In; assumption. }
  assert (INF : forall f, In f fs -> dget (x_name f) ext = Some f).
  { intros f HI. unfold fs in HI. apply in_map_iff in HI. destruct HI as ([k f'] & E & HI). cbn in E. subst f'. apply (dget_In _ _ _ OX) in HI.
    rewrite (extraction_name c s k f HM HI). assumption. }
  set (d1 := taken eqb d fs).
  assert (O1 : dict_ok d1) by (apply taken_ok; rewrite FN; assumption).
  (* a strict rename of a missing key needs an earlier rename onto it *)
  assert (RS : forall k, In k (map fst (elements (s_ren s))) -> dget k d = None -> In k (map snd (elements (s_ren s)))).
  { intros k HI EN. destruct (in_dec string_dec k (map snd (elements (s_ren s)))) as [H|H]; [assumption|exfalso].
    set (pre := map (@Remove obj) (elements (s_rem s)) ++ map (@MaybeRemove obj) (elements (s_mrem s))).
    set (ren := map (fun p => @Rename obj (fst p) (snd p)) (elements (s_ren s))).
    set (rest := map (fun p => MaybeRename (fst p) (snd p)) (elements (s_mren s))
      ++ map (fun p => Add (fst p) (snd p)) (elements (s_add s)) ++ map (fun p => MaybeAdd (fst p) (snd p)) (elements (s_madd s))).
    assert (SPL : edits_of s = (pre ++ ren) ++ rest) by (unfold edits_of, pre, ren, rest; rewrite <- !app_assoc; reflexivity).
    rewrite SPL, edits_app in HEd. destruct (edits (pre ++ ren) (abs d)) as [m'| |] eqn:EP; try discriminate.
    apply in_map_iff in HI. destruct HI as ([o t] & Eo & HI). cbn in Eo. subst o.
    destruct (in_edits_split (pre ++ ren) (Rename k t) (abs d) m' EP) as (l1 & l2 & m1 & EL & E1 & m'' & ES).
    - apply in_app_iff. right. unfold ren. apply in_map_iff. exists (k, t). auto.
    - assert (NW : m1 k = None).
      { destruct (edits_nowrite l1 (abs d) m1 k E1) as [E|E]; [|rewrite E; exact EN|assumption].
        intros e HIe HW. assert (HIe' : In e (pre ++ ren)) by (rewrite EL; apply in_app_iff; left; assumption).
        apply in_app_iff in HIe'. unfold pre, ren in HIe'. rewrite in_app_iff, !in_map_iff in HIe'.
        destruct HIe' as [[(x & <- & _)|(x & <- & _)]|(x & <- & Hx)]; cbn in HW; try contradiction. apply H. rewrite HW. apply in_map. assumption. }
      cbn in ES. rewrite NW in ES. destruct (m1 t); discriminate. }
  (* a strict removal of a missing key fails *)
  assert (RM : forall k, In k (elements (s_rem s)) -> dget k d <> None).
  { intros k HI EN. unfold edits_of in HEd. rewrite edits_app in HEd. destruct (edits (map Remove (elements (s_rem s))) (abs d)) as [m'| |] eqn:EP; try discriminate.
    destruct (in_edits_split (map Remove (elements (s_rem s))) (Remove k) (abs d) m' EP) as (l1 & l2 & m1 & EL & E1 & m'' & ES).
    - apply in_map. assumption.
    - assert (NW : m1 k = None).
      { destruct (edits_nowrite l1 (abs d) m1 k E1) as [E|E]; [|rewrite E; exact EN|assumption].
        intros e HIe HW. assert (HIe' : In e (map Remove (elements (s_rem s)))) by (rewrite EL; apply in_app_iff; left; assumption).
        apply in_map_iff in HIe'. destruct HIe' as (x & <- & _). exact HW. }
      cbn in ES. rewrite NW in ES. discriminate. }
  assert (TD : extract R (missing_ok c s) v no_args fs w = (Ok d1, w)).
  { apply (extract_attrs R D eqb HE (missing_ok c s) (fun _ => True) v d); try assumption.
    - auto.
    - intros f dv a HI EDf EA. split; [|eapply HDa; exact EA]. pose proof (INF f HI) as E. unfold ext in E. rewrite dget_extraction in E by assumption.
      destruct (smem (x_name f) (keys (elements (s_add s)))); [discriminate|]. destruct (smem (x_name f) (sources s)); [injection E as E; rewrite <- E in EDf; discriminate|].
      destruct (dget (x_name f) (c_fields c)) as [f'|] eqn:EF.
      + injection E as E. eapply HD; [exact EF|]. rewrite <- E in EDf. exact EDf.
      + destruct (smem (x_name f) (elements (s_rem s))); [injection E as E; rewrite <- E in EDf; discriminate|discriminate].
    - intros f HI EN. pose proof (INF f HI) as E. set (k := x_name f) in *. unfold ext in E. rewrite dget_extraction in E by assumption.
      unfold missing_ok. rewrite HT. cbn [andb].
      destruct (smem k (keys (elements (s_add s)))) eqn:EA; [discriminate|]. apply smem_false in EA.
      assert (REN : In k (map snd (elements (s_ren s))) -> existsb (fun sd : string * string => String.eqb k (snd sd)) (elements (s_ren s)) = true).
      { intro H. apply in_map_iff in H. destruct H as (x & <- & H). apply existsb_exists. exists x. split; [assumption|apply String.eqb_refl]. }
      assert (MREN : In k (map fst (elements (s_mren s))) \/ In k (map snd (elements (s_mren s))) ->
        existsb (fun sd : string * string => String.eqb k (fst sd) || String.eqb k (snd sd)) (elements (s_mren s)) = true).
      { intros [H|H]; apply in_map_iff in H; destruct H as (x & <- & H); apply existsb_exists; exists x; (split; [assumption|]); rewrite String.eqb_refl; [reflexivity|apply orb_true_r]. }
      destruct (smem k (sources s)) eqn:ESr.
      + apply smem_In in ESr. unfold sources, renames in ESr. rewrite map_app in ESr. apply in_app_iff in ESr. destruct ESr as [H|H].
        * rewrite (REN (RS k H EN)). cbn. apply orb_true_r.
        * rewrite (MREN (or_introl H)). rewrite !orb_true_r. reflexivity.
      + destruct (dget k (c_fields c)) as [f'|] eqn:EF.
        * rewrite (optional_spec c k f' HOF EF). destruct (has_default f') eqn:EDf; [reflexivity|]. cbn [orb].
          assert (KR : In k (required_keys (c_fields c))) by (apply (required_spec c k f' HOF EF); assumption).
          pose proof (HCp k KR) as K2. apply in_keys_get in K2. destruct K2 as [a E2].
          destruct (in_dec string_dec k (targets s ++ added s)) as [H|H].
          -- apply in_app_iff in H. destruct H as [H|H].
             ++ unfold targets, renames in H. rewrite map_app in H. apply in_app_iff in H. destruct H as [H|H].
                ** rewrite (REN H). reflexivity.
                ** rewrite (MREN (or_intror H)). apply orb_true_r.
             ++ unfold added in H. apply in_app_iff in H. destruct H as [H|H]; [contradiction|]. destruct (HMA k H KR).
          -- exfalso. destruct (edits_nowrite (edits_of s) (abs d) m2 k HEd) as [E3|E3].
             ++ intros e HIe HW. destruct (writes_cases s e k HIe HW) as [H'|H']; apply H; apply in_app_iff; auto.
             ++ rewrite HG2, E3 in E2. unfold abs in E2. congruence.
             ++ rewrite HG2, E3 in E2. discriminate.
        * destruct (smem k (elements (s_rem s))) eqn:ER; [|discriminate]. apply smem_In in ER. destruct (RM k ER EN). }
  assert (G1 : forall k, dget k d1 = if dmem k ext then dget k d else None).
  { intro k. destruct (dmem k ext) eqn:EM.
    - unfold dmem in EM. destruct (dget k ext) as [f|] eqn:EX; [|discriminate]. pose proof (extraction_name c s k f HM EX) as NF.
      destruct (dget k d) as [a|] eqn:EA.
      + apply dget_In; [assumption|]. apply in_taken. exists f. split; [|split; [assumption|split; [assumption|]]].
        * unfold fs. apply in_map_iff. exists (k, f). split; [reflexivity|]. apply dget_Some_In. assumption.
        * unfold kept_value. destruct (x_default f) as [|dv|g] eqn:EDf; try reflexivity. unfold ext in EX. rewrite dget_extraction in EX by assumption.
          destruct (smem k (keys (elements (s_add s)))); [discriminate|]. destruct (smem k (sources s)); [injection EX as <-; discriminate|].
          destruct (dget k (c_fields c)) as [f'|] eqn:EF.
          -- injection EX as <-. rewrite (HND k f' dv a EF EDf EA). reflexivity.
          -- destruct (smem k (elements (s_rem s))); [injection EX as <-; discriminate|discriminate].
      + apply dget_None. intro HI. apply in_keys_get in HI. destruct HI as [a HI]. apply dget_Some_In in HI. apply in_taken in HI.
        destruct HI as (f' & _ & _ & E & _). congruence.
    - apply dget_None. intro HI. apply in_keys_get in HI. destruct HI as [a HI]. apply dget_Some_In in HI. apply in_taken in HI.
      destruct HI as (f' & HI & E & _). apply INF in HI. rewrite E in HI. unfold dmem in EM. rewrite HI in EM. discriminate. }
  assert (FG : forall k, abs d1 k = abs d k \/ (abs d1 k = None /\ In k (elements (s_mrem s)) /\ ~ In k (elements (s_rem s)))).
  { intro k. unfold abs. rewrite G1. destruct (dmem k ext) eqn:EM; [left; reflexivity|]. destruct (dget k d) as [a|] eqn:EA; [|left; reflexivity]. right.
    split; [reflexivity|]. assert (EX : dget k ext = None) by (unfold dmem in EM; destruct (dget k ext); [discriminate|reflexivity]).
    unfold ext in EX. rewrite dget_extraction in EX by assumption. destruct (smem k (keys (elements (s_add s)))) eqn:EAd.
    - exfalso. apply smem_In in EAd. destruct (HAD k EAd) as [NR NS]. apply in_map_iff in EAd. destruct EAd as ([k' u] & Ek & HI). cbn in Ek. subst k'.
      destruct (in_edits_split (edits_of s) (Add k u) (abs d) m2 HEd) as (l1 & l2 & m1 & EL & E1 & m'' & ES).
      + unfold edits_of. rewrite !in_app_iff. right; right; right; right; left. apply in_map_iff. exists (k, u). auto.
      + assert (KP : m1 k = Some a).
        { apply (edits_keeps l1 (abs d) m1 k a E1); [|exact EA]. intros e HIe HTk. destruct (takes_cases s e k) as [H|H]; try assumption; [|contradiction|contradiction].
          rewrite EL. apply in_app_iff. left. assumption. }
        cbn in ES. rewrite KP in ES. discriminate.
    - destruct (smem k (sources s)) eqn:ESr; [discriminate|]. destruct (dget k (c_fields c)) as [f|] eqn:EF; [discriminate|].
      destruct (smem k (elements (s_rem s))) eqn:ER; [discriminate|]. apply smem_false in ER, ESr. split; [|assumption].
      destruct (in_dec string_dec k (elements (s_mrem s))) as [H|H]; [assumption|exfalso].
      assert (E2 : dget k d2 = Some a).
      { rewrite HG2. apply (edits_keeps (edits_of s) (abs d) m2 k a HEd); [|exact EA]. intros e HIe HTk. destruct (takes_cases s e k HIe HTk) as [H'|H'].
        - unfold removed in H'. apply in_app_iff in H'. tauto.
        - contradiction. }
      assert (KF : In k (keys (c_fields c))) by (apply HKn; eapply dget_some_key; exact E2). apply in_keys_get in KF. destruct KF as [f EF']. congruence. }
  destruct (edits_forget (elements (s_rem s)) (elements (s_mrem s)) _ (abs d) (abs d1) m2 FG HEd) as (m2' & HE1 & HEq).
  pose proof (sel_apply_spec s d1 HS O1) as SP. change (edits (edits_of s) (abs d1)) with (edits (documented_edits s) (abs d1)) in SP. unfold documented_edits in SP. rewrite HE1 in SP.
  destruct SP as (d2' & HA1 & HO2' & HG2'). exists d1, d2'. split; [|split; [assumption|split; [assumption|]]].
  - unfold to_dict_of. apply bind_ok. exists d1, w. split; [exact TD|reflexivity].
  - apply NoDup_Permutation.
    + apply (NoDup_map_inv fst). exact HO2.
    + apply (NoDup_map_inv fst). exact HO2'.
    + intros [k a]. split; intro H.
      * apply (dget_In _ _ _ HO2) in H. apply dget_Some_In. rewrite HG2', HEq, <- HG2. assumption.
      * apply (dget_In _ _ _ HO2') in H. apply dget_Some_In. rewrite HG2, <- HEq, <- HG2'. assumption.
Qed.

Lemma c73_same_partial_proof : forall {obj ty W} (R : Rt obj ty W) D eqb n c (s : sel obj) v m d w y w',
  made (rt_py R) c -> has_eq R D eqb -> defaults_in D c -> Select_proofs2.reachable s -> fst (sel_truth s) = true ->
  is_mapping R m d -> has_attributes R w (fun _ => True) v d -> (forall k a, dget k d = Some a -> D a) ->
  (forall k f dv a, dget k (c_fields c) = Some f -> f_default f = DefVal dv -> dget k d = Some a -> eqb dv a = false) ->
  (forall k, In k (keys (elements (s_madd s))) -> ~ In k (required_keys (c_fields c))) ->
  (forall k, In k (keys (elements (s_add s))) -> ~ In k (Select_main.removed s) /\ ~ In k (Select_main.sources s)) ->
  from_mapping R (S n) c s [m] [] w = (Ok y, w') ->
  exists d2, sel_apply s d = Ok d2 /\
    (no_reserved d2 ->
     from_mapping R (S n) c s [m] [] w = construct R (S n) c None d2 w /\
     exists d2', Permutation d2 d2' /\ from_instance R (S n) c s v [] [] w = construct R (S n) c None d2' w).
Proof.
  intros obj ty W R D eqb n c s v m d w y w' HM HE HD HS HT HMp HA HDa HND HMA HAD H. apply (made_named R) in HM.
  assert (EQ : from_mapping R (S n) c s [m] [] w = (let* d := lift (sel_apply s d) in construct R (S n) c None d) w).
  { unfold from_mapping, from_mapping_with. unfold bind at 1. rewrite (chain_map_one R m d w HMp). reflexivity. }
  destruct (sel_apply s d) as [d2|e] eqn:EA; [|rewrite EQ in H; discriminate].
  exists d2. split; [reflexivity|]. intro NR. rewrite EQ. split; [reflexivity|]. rewrite EQ in H. cbn in H. pose proof H as HB.
  unfold bind, lift in HB. cbn in HB. change (construct R (S n) c None d2 w = (Ok y, w')) in HB.
  rewrite construct_plain in HB by assumption. apply build_ok in HB. destruct HB as (HKn & HCp & _).
  destruct (select_attributes R D eqb c s d d2 v w) as (d1 & d2' & H1 & HO1 & H2 & HPm); try assumption; [apply HMp|].
  exists d2'. split; [assumption|]. unfold from_instance, from_instance_with. rewrite HT. cbn [negb andb]. unfold bind. rewrite H1. cbn [update_dict ret].
  unfold lift. change (dupdate d1 []) with d1. rewrite H2. reflexivity.
Qed.

(** a class with a required field y and a field x with default 0, and an object whose
    attributes are 0 and 1 *)
Definition from_decl := rdecl 0 true false (Some false) SCheck [("x", (an TInt, DefVal (DInt 0))); ("y", (an TInt, NoDefault))] [] no_post.
Definition from_attrs : dict dobj := [("x", DInt 0); ("y", DInt 1)].
Definition from_state : rstate := RState [] [Inst (TRec 5) from_attrs SUnset; Inst (TRec 5) [("x", DInt 7)] SUnset; Inst (TRec 5) [("x", DInt 7); ("y", DInt 1)] SUnset] [].
Definition sel_of (add madd : dict dobj) (rem mrem : list string) (ren mren : list (string * string)) : sel dobj :=
  sel_init (PIter (Reiter add)) (PIter (Reiter madd)) (NIter (Reiter rem)) (NIter (Reiter mrem)) (PIter (Reiter ren)) (PIter (Reiter mren)).

Lemma from_decl_made : made rt0 (made_of from_decl).
Proof. apply (made_class _ from_decl); [reflexivity|repeat constructor; simpl; intuition discriminate|]. intros b [H|[]]. discriminate. Qed.
Lemma heap_attributes : forall t n i w, nth_error (rs_heap w) n = Some i -> has_attributes (demo_rt 0) w (fun _ => True) (DRef t n) (i_dict i).
Proof.
  intros t n i w H k _. unfold getattr, lookup. cbn [deref demo_rt heap]. rewrite H. destruct (dget k (i_dict i)); [reflexivity|]. eexists. reflexivity.
Qed.

Lemma c73_default_refuted_proof :
  exists (c : @cls dobj dty rstate) s v d w y w', made rt0 c /\ has_attributes (demo_rt 0) w (fun _ => True) v d /\
  from_mapping (demo_rt 0) 1 c s [mapping d] [] w = (Ok y, w') /\
  exists k, from_instance (demo_rt 0) 1 c s v [] [] w = (Raise (mkexc KeyError k), w).
Proof.
  exists (made_of from_decl), (sel_of [] [] ["x"] [] [] []), (DRef (TRec 5) 0), from_attrs, from_state. do 2 eexists.
  split; [exact from_decl_made|]. split; [|split; [reflexivity|eexists; reflexivity]].
  exact (heap_attributes (TRec 5) 0 _ from_state eq_refl).
Qed.

Lemma c73_maybe_add_refuted_proof :
  exists (c : @cls dobj dty rstate) s v d w y w', made rt0 c /\ has_attributes (demo_rt 0) w (fun _ => True) v d /\
  from_mapping (demo_rt 0) 1 c s [mapping d] [] w = (Ok y, w') /\
  exists k, from_instance (demo_rt 0) 1 c s v [] [] w = (Raise (mkexc AttributeError k), w).
Proof.
  exists (made_of from_decl), (sel_of [] [("y", DInt 3)] [] [] [] []), (DRef (TRec 5) 1), [("x", DInt 7)], from_state. do 2 eexists.
  split; [exact from_decl_made|]. split; [|split; [reflexivity|eexists; reflexivity]].
  exact (heap_attributes (TRec 5) 1 _ from_state eq_refl).
Qed.

Lemma c73_replace_refuted_proof :
  exists (c : @cls dobj dty rstate) s v d w y w', made rt0 c /\ has_attributes (demo_rt 0) w (fun _ => True) v d /\
  from_mapping (demo_rt 0) 1 c s [mapping d] [] w = (Ok y, w') /\
  exists k, from_instance (demo_rt 0) 1 c s v [] [] w = (Raise (mkexc KeyError k), w).
Proof.
  exists (made_of from_decl), (sel_of [("y", DInt 3)] [] ["y"] [] [] []), (DRef (TRec 5) 2), [("x", DInt 7); ("y", DInt 1)], from_state. do 2 eexists.
  split; [exact from_decl_made|]. split; [|split; [reflexivity|eexists; reflexivity]].
  exact (heap_attributes (TRec 5) 2 _ from_state eq_refl).
Qed.
