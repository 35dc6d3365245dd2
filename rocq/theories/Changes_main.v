(** Changes_main.v -- proofs of the properties stated in Props_Changes.v: changed copies of records: cls.from_instance(x, **changes) (records/record.py:451-485) *)

From Verif Require Import Base Py Select Filler Classes Spec_Classes Runtime Record Spec_Record Spec_Inst Spec_Copy Spec_Keywords Spec_Changes Demo DemoRt DemoCls.
From Verif Require Dict_proofs Classes_proofs Record_proofs Classes_main Inst_proofs Inst_main Copy_proofs From_main.
Open Scope string_scope.
Open Scope list_scope.

Import Dict_proofs Classes_proofs Record_proofs Classes_main Inst_proofs Inst_main Copy_proofs From_main.
Section Changes.
Context {obj ty W : Type} (R : Rt obj ty W) (ctx : ty -> option (@cls obj ty W)).
Lemma dget_filter_keys {A B} : forall (fs : dict A) (d : dict B) k,
  dget k (filter (fun kv => smem (fst kv) (keys fs)) d) = if smem k (keys fs) then dget k d else None.
Proof.
  intros fs d k. induction d as [|[k' v] r IH]; cbn; [destruct (smem k (keys fs)); reflexivity|].
  destruct (smem k' (keys fs)) eqn:E; cbn; rewrite IH; destruct (String.eqb_spec k k') as [->|N].
  - rewrite E. reflexivity.
  - reflexivity.
  - rewrite E. reflexivity.
  - reflexivity.
Qed.
Lemma settled_det : forall (c : @cls obj ty W) k v r r', W -> settled R c k v r -> settled R c k v r' -> r = r'.
Proof. intros c k v r r' w (g & (f & E & ->) & H) (g' & (f' & E' & ->) & H'). specialize (H w). specialize (H' w). congruence. Qed.
End Changes.

Lemma c154_changed_proof : forall {obj ty W} (R : Rt obj ty W) ctx D eqb n c w x i kw new,
  made (rt_py R) c -> fields_callable c -> instance_of R ctx c w x i ->
  has_eq R D eqb -> defaults_in D c -> values_in D c i ->
  dict_ok kw -> kw <> [] -> taken_as R c kw new -> others_fixed R eqb c i kw -> accepts R ctx c (changed eqb c i new) ->
  exists y w' j, from_instance R (S n) c sel_empty x [] kw w = (Ok y, w') /\
    fresh_instance R ctx c w w' y j /\ all_kept R w w' /\ changed eqb c i new j.
Proof.
  intros obj ty W R ctx D eqb n c w x i kw new HM HFC HI HE HD HV HOK HNE HT HF HA.
  pose proof (made_named R _ HM) as HN. pose proof HN as [HO _]. pose proof HI as (HX & HL & HCl & HTy & HAll).
  set (d := filter (fun kv => smem (fst kv) (keys (c_fields c))) (i_dict i)).
  assert (GD : forall k, dget k d = if smem k (keys (c_fields c)) then dget k (i_dict i) else None) by (intro; apply dget_filter_keys).
  assert (SM : forall k f, dget k (c_fields c) = Some f -> smem k (keys (c_fields c)) = true) by (intros k f E; apply smem_In; eapply dget_some_key; exact E).
  destruct (c72_attributes_proof R D eqb (S n) c x d [] [] kw w HM HE HD HOK) as (d' & OD & HG & HC).
  - tauto.
  - intros k HK. rewrite GD. apply smem_In in HK as HK'. rewrite HK'. destruct (HAll k HK) as [v E]. rewrite E. unfold getattr. rewrite HL, E. reflexivity.
  - intros k a EA. rewrite GD in EA. destruct (smem k (keys (c_fields c))) eqn:ES; [|discriminate]. eapply HV; [apply smem_In; exact ES|exact EA].
  - intros k f EF _. destruct (HAll k ltac:(eapply dget_some_key; exact EF)) as [v E]. exists v. rewrite GD, (SM _ _ EF). exact E.
  - left. split; reflexivity.
  - assert (NK : forall k f v, dget k (c_fields c) = Some f -> dget k (i_dict i) = Some v -> ~ In k (keys d') ->
               dget k kw = None /\ exists dv, f_default f = DefVal dv /\ eqb dv v = true).
    { intros k f v EF EV NI. destruct (dget k kw) as [u|] eqn:EK.
      - exfalso. apply NI. apply (dget_some_key k u). apply HG. left. assumption.
      - split; [reflexivity|]. assert (HX1 : forall dv, f_default f = DefVal dv -> eqb dv v = true).
        { intros dv ED. destruct (eqb dv v) eqn:EB; [reflexivity|]. exfalso. apply NI. apply (dget_some_key k v). apply HG. right. right. split; [assumption|]. split; [reflexivity|].
          exists f. split; [assumption|]. split; [rewrite GD, (SM _ _ EF); assumption|]. intros dv' ED'. congruence. }
        destruct (f_default f) as [|dv|g] eqn:ED.
        + exfalso. apply NI. apply (dget_some_key k v). apply HG. right. right. split; [assumption|]. split; [reflexivity|].
          exists f. split; [assumption|]. split; [rewrite GD, (SM _ _ EF); assumption|]. intros dv' ED'. congruence.
        + exists dv. split; [reflexivity|]. apply HX1. reflexivity.
        + exfalso. apply NI. apply (dget_some_key k v). apply HG. right. right. split; [assumption|]. split; [reflexivity|].
          exists f. split; [assumption|]. split; [rewrite GD, (SM _ _ EF); assumption|]. intros dv' ED'. congruence. }
    assert (HCh : forall j, (forall k v, dget k d' = Some v -> exists u, dget k (i_dict j) = Some u /\ (match new k with Some y => u = y | None => u = v end)) /\
       (forall k f v, dget k (c_fields c) = Some f -> ~ In k (keys d') -> f_default f = DefVal v -> dget k (i_dict j) = Some v) -> changed eqb c i new j).
    { intros j [H1 H2] k f v EF EV. specialize (HT k). destruct (dget k kw) as [u|] eqn:EK.
      - destruct HT as (y & EN & _). rewrite EN. destruct (H1 k u) as (u' & EU & HU); [apply HG; left; assumption|]. rewrite EN in HU. subst. assumption.
      - rewrite HT. destruct (in_dec string_dec k (keys d')) as [HK|HK].
        + left. apply in_keys_get in HK as (a & EA). destruct (H1 k a EA) as (u' & EU & HU). rewrite HT in HU. subst u'.
          apply HG in EA. destruct EA as [EA|[[_ EA]|(_ & _ & f' & _ & EA & _)]]; [congruence|discriminate|]. rewrite GD, (SM _ _ EF) in EA. congruence.
        + right. destruct (NK k f v EF EV HK) as (_ & dv & ED & EB). exists dv. split; [assumption|]. split; [assumption|]. eapply H2; eassumption. }
    destruct (construct_filled R ctx n c (fun k v u => match new k with Some y => u = y | None => u = v end) d' w) as (y & w' & j & HC1 & _ & HFr & HK & H1 & H2); try assumption.
    + intros self w0 j HIj HJ. apply (HA self w0 j HIj). apply HCh. exact HJ.
    + intros k v HIn. apply (dget_In _ _ _ OD) in HIn. apply HG in HIn. specialize (HT k). destruct HIn as [EK|[[_ EA]|(EK & _ & f & EF & EV & HDf)]].
      * rewrite EK in HT. destruct HT as (y & EN & g & (f & EF & ->) & HS). exists f, y. split; [assumption|]. split; [assumption|]. rewrite EN. reflexivity.
      * discriminate.
      * rewrite EK in HT. rewrite GD, (SM _ _ EF) in EV. destruct (HF k f v EF EK EV HDf) as (g & (f' & EF' & ->) & HS). assert (f' = f) by congruence. subst.
        exists f, v. split; [assumption|]. split; [assumption|]. rewrite HT. reflexivity.
    + intros k f EF NI. destruct (HAll k ltac:(eapply dget_some_key; exact EF)) as [v EV]. destruct (NK k f v EF EV NI) as (_ & dv & ED & _). exists dv. assumption.
    + exists y, w', j. rewrite HC. split; [assumption|]. split; [assumption|]. split; [assumption|]. apply HCh. split; assumption.
Qed.

Lemma c154_twice_proof : forall {obj ty W} (R : Rt obj ty W) ctx D eqb n c w x i kw kw' both new new' y w1 z w2,
  made (rt_py R) c -> fields_callable c -> instance_of R ctx c w x i ->
  has_eq R D eqb -> equivalence D eqb -> defaults_in D c -> values_in D c i -> accepts R ctx c (fun _ => True) ->
  dict_ok kw -> dict_ok kw' -> dict_ok both -> kw <> [] -> kw' <> [] -> one_after_other kw kw' both ->
  taken_as R c kw new -> taken_as R c kw' new' -> (forall k v, new k = Some v \/ new' k = Some v -> D v) ->
  others_fixed R eqb c i kw -> (forall k v, new k = Some v -> settled R c k v (Ok v)) ->
  from_instance R (S n) c sel_empty x [] kw w = (Ok y, w1) -> from_instance R (S n) c sel_empty y [] kw' w1 = (Ok z, w2) ->
  exists z' w3 j j', from_instance R (S n) c sel_empty x [] both w2 = (Ok z', w3) /\
    instance_of R ctx c w3 z j /\ instance_of R ctx c w3 z' j' /\ fieldwise eqb c j j'.
Proof.
  intros obj ty W R ctx D eqb n c w x i kw kw' both new new' y w1 z w2 HM HFC HI HE HQ HD HV HA O1 O2 O3 N1 N2 HB T1 T2 HDn HF HS E1 E2.
  assert (HAA : forall Q, accepts R ctx c Q) by (intros Q self w0 j HIj _; exact (HA self w0 j HIj I)).
  destruct (c154_changed_proof R ctx D eqb n c w x i kw new HM HFC HI HE HD HV O1 N1 T1 HF (HAA _)) as (y0 & w1' & j1 & E1' & FR1 & AK1 & CH1).
  rewrite E1 in E1'. injection E1' as <- <-. pose proof FR1 as (IY & _). pose proof HI as (_ & _ & _ & _ & HAll).
  assert (VJ1 : values_in D c j1).
  { intros k v HK EV. destruct (HAll k HK) as [v0 EV0]. apply in_keys_get in HK as [f EF]. specialize (CH1 k f v0 EF EV0).
    destruct (new k) as [u|] eqn:EN; [apply (HDn k); left; congruence|]. destruct CH1 as [EJ|(dv & ED & _ & EJ)].
    - assert (v = v0) by congruence. subst. eapply HV; [eapply dget_some_key; exact EF|exact EV0].
    - assert (v = dv) by congruence. subst. eapply HD; eassumption. }
  assert (OF1 : others_fixed R eqb c j1 kw').
  { intros k f v EF EK' EV HDf. destruct (HAll k ltac:(eapply dget_some_key; exact EF)) as [v0 EV0]. specialize (CH1 k f v0 EF EV0). specialize (T1 k).
    destruct (dget k kw) as [u|] eqn:EK.
    - destruct T1 as (u' & EN & _). rewrite EN in CH1. apply HS. congruence.
    - rewrite T1 in CH1. destruct CH1 as [EJ|(dv & ED & EB & EJ)].
      + assert (v = v0) by congruence. subst. eapply HF; eassumption.
      + exfalso. assert (v = dv) by congruence. subst. specialize (HDf dv ED). destruct HQ as (HQ & _). rewrite HQ in HDf; [discriminate|]. eapply HD; eassumption. }
  destruct (c154_changed_proof R ctx D eqb n c w1 y j1 kw' new' HM HFC IY HE HD VJ1 O2 N2 T2 OF1 (HAA _)) as (z0 & w2' & j2 & E2' & FR2 & AK2 & CH2).
  rewrite E2 in E2'. injection E2' as <- <-. pose proof FR2 as (IZ & _).
  assert (IX2 : instance_of R ctx c w2 x i) by (eapply kept_instance; [exact AK2|]; eapply kept_instance; eassumption).
  set (nb := fun k => match new' k with Some v => Some v | None => new k end).
  assert (TB : taken_as R c both nb).
  { intro k. rewrite HB. specialize (T1 k). specialize (T2 k). unfold nb. destruct (dget k kw') as [v|].
    - destruct T2 as (u & EN & HSe). exists u. rewrite EN. split; [reflexivity|assumption].
    - rewrite T2. exact T1. }
  destruct (c154_changed_proof R ctx D eqb n c w2 x i both nb HM HFC IX2 HE HD HV O3) as (z' & w3 & j3 & E3 & FR3 & AK3 & CH3).
  - intros ->. destruct kw' as [|[k v] r]; [congruence|]. specialize (HB k). cbn in HB. rewrite String.eqb_refl in HB. discriminate.
  - exact TB.
  - intros k f v EF EK EV HDf. eapply HF; try eassumption. rewrite HB in EK. destruct (dget k kw'); [discriminate|assumption].
  - apply HAA.
  - exists z', w3, j2, j3. split; [assumption|]. split; [eapply kept_instance; eassumption|]. split; [apply FR3|].
    intros k a b HK EA EB. destruct HQ as (Q1 & Q2 & Q3). destruct (HAll k HK) as [v0 EV0]. destruct IY as (_ & _ & _ & _ & HAY). destruct (HAY k HK) as [v1 EV1].
    apply in_keys_get in HK as HK'. destruct HK' as [f EF]. specialize (CH1 k f v0 EF EV0). specialize (CH2 k f v1 EF EV1). specialize (CH3 k f v0 EF EV0).
    unfold nb in CH3. assert (DV0 : D v0) by (eapply HV; eassumption).
    destruct (new' k) as [u'|] eqn:EN'.
    + assert (a = u') by congruence. assert (b = u') by congruence. subst. apply Q1. apply (HDn k). right. assumption.
    + destruct (new k) as [u|] eqn:EN.
      * assert (v1 = u) by congruence. assert (b = u) by congruence. subst. assert (DU : D u) by (apply (HDn k); left; assumption).
        destruct CH2 as [EJ|(dv & ED & EQ & EJ)]; [assert (a = u) by congruence; subst; apply Q1; assumption|].
        assert (a = dv) by congruence. subst. assumption.
      * assert (HV1 : eqb a v0 = true /\ D a).
        { destruct CH1 as [E|(dv & ED & EQ & E)].
          - assert (v1 = v0) by congruence. subst. destruct CH2 as [EJ|(dv & ED & EQ & EJ)].
            + assert (a = v0) by congruence. subst. split; [apply Q1|]; assumption.
            + assert (a = dv) by congruence. subst. split; [assumption|]. eapply HD; eassumption.
          - assert (v1 = dv) by congruence. subst. destruct CH2 as [EJ|(dv' & ED' & EQ' & EJ)].
            + assert (a = dv) by congruence. subst. split; [assumption|]. eapply HD; eassumption.
            + assert (dv' = dv) by congruence. subst. assert (a = dv) by congruence. subst. split; [assumption|]. eapply HD; eassumption. }
        destruct HV1 as [HV1 DA]. destruct CH3 as [EJ|(dv & ED & EQ & EJ)].
        -- assert (b = v0) by congruence. subst. assumption.
        -- assert (b = dv) by congruence. subst. assert (D dv) by (eapply HD; eassumption). apply (Q3 a v0 dv); try assumption. apply Q2; assumption.
Qed.

Lemma c154_same_proof : forall {obj ty W} (R : Rt obj ty W) ctx D eqb hf n c w x i kw,
  made (rt_py R) c -> fields_callable c -> accepts R ctx c (fieldwise eqb c i) ->
  instance_of R ctx c w x i -> comparable R D eqb hf c i -> stored_fixed R c i ->
  dict_ok kw -> kw <> [] -> (forall k v, dget k kw = Some v -> In k (keys (c_fields c)) /\ dget k (i_dict i) = Some v) ->
  exists y w', from_instance R (S n) c sel_empty x [] kw w = (Ok y, w') /\ equal_copy R ctx c w w' x y.
Proof.
  intros obj ty W R ctx D eqb hf n c w x i kw HM HFC HA HI HCo HS HOK HNE HKW.
  pose proof (made_named R _ HM) as HN. pose proof HN as [HO _]. pose proof HI as (HX & HL & HCl & HTy & HAll). pose proof HCo as (HE & HQ & HD & HV & HH).
  set (d := filter (fun kv => smem (fst kv) (keys (c_fields c))) (i_dict i)).
  assert (GD : forall k, dget k d = if smem k (keys (c_fields c)) then dget k (i_dict i) else None) by (intro; apply dget_filter_keys).
  assert (SM : forall k f, dget k (c_fields c) = Some f -> smem k (keys (c_fields c)) = true) by (intros k f E; apply smem_In; eapply dget_some_key; exact E).
  destruct (c72_attributes_proof R D eqb (S n) c x d [] [] kw w HM HE HD HOK) as (d' & OD & HG & HC).
  - tauto.
  - intros k HK. rewrite GD. apply smem_In in HK as HK'. rewrite HK'. destruct (HAll k HK) as [v E]. rewrite E. unfold getattr. rewrite HL, E. reflexivity.
  - intros k a EA. rewrite GD in EA. destruct (smem k (keys (c_fields c))) eqn:ES; [|discriminate]. eapply HV; [apply smem_In; exact ES|exact EA].
  - intros k f EF _. destruct (HAll k ltac:(eapply dget_some_key; exact EF)) as [v E]. exists v. rewrite GD, (SM _ _ EF). exact E.
  - left. split; reflexivity.
  - rewrite HC. assert (HDV : forall k v, dget k d' = Some v -> In k (keys (c_fields c)) /\ dget k (i_dict i) = Some v).
    { intros k v E. apply HG in E. destruct E as [E|[[_ E]|(_ & _ & f & EF & E & _)]]; [apply HKW; assumption|discriminate|].
      rewrite GD, (SM _ _ EF) in E. split; [eapply dget_some_key; exact EF|assumption]. }
    apply (covering_copy R ctx D eqb hf n c x i d' w); try assumption.
    + intros k HK. apply in_keys_get in HK as [v E]. apply dget_exported in E; [|assumption]. destruct E as (f & EF & EV & HT).
      destruct (dget k kw) as [u|] eqn:EK; [apply (dget_some_key k u); apply HG; left; assumption|].
      apply (dget_some_key k v). apply HG. right. right. split; [assumption|]. split; [reflexivity|]. exists f. split; [assumption|]. split; [rewrite GD, (SM _ _ EF); assumption|].
      destruct HT as [[]|[_ [HT|HT]]]; [discriminate|]. exact HT.
    + intros k HK. apply in_keys_get in HK as [v E]. apply HDV in E. tauto.
    + intros k f u v EF EU EV. apply HDV in EU. destruct EU as [_ EU]. assert (u = v) by congruence. subst.
      exists v. split; [apply (HS k f v EF EV)|]. assert (H : D v) by (eapply HV; [eapply dget_some_key; exact EF|exact EV]). split; [assumption|]. split; [exact (proj1 HQ v H)|].
      intros EFz w0. destruct (HH EFz) as (_ & HHa & _). eapply HHa; [eapply dget_some_key; exact EF|exact EV].
Qed.

Lemma c154_refill_refuted_proof : exists (R : Rt dobj dty rstate) d c x w y w1,
  make_class (rt_py R) d = Ok c /\ construct R 1 c None [("a", DInt 1); ("b", DInt 1)] w0 = (Ok x, w) /\
  getattr R x "a" w = (Ok (DInt 2), w) /\
  from_instance R 1 c sel_empty x [] [("b", DInt 5)] w = (Ok y, w1) /\
  getattr R y "a" w1 = (Ok (DInt 3), w1) /\ getattr R y "b" w1 = (Ok (DInt 5), w1).
Proof.
  exists (demo_rt 0), (rdecl 0 true false (Some false) SCheck
    [("a", (AHint (HTy TInt) [ATok (TValid (VGlobal (fun _ => Ok (fun v => match v with DInt z => ret (DInt (z + 1)) | _ => ret v end))))], NoDefault));
     ("b", (an TInt, NoDefault))] [] no_post).
  eexists. exists (DRef (TRec 0) 0). eexists. exists (DRef (TRec 0) 1). eexists. split; [reflexivity|]. split; [reflexivity|]. repeat split.
Qed.
