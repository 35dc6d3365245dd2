(** Convert_main.v -- proofs of the properties stated in Props_Convert.v: making records of one class from records of another, and from any objects (records/record.py:451-485) *)

From Verif Require Import Base Py Select Filler Spec_Filler Classes Spec_Classes Runtime Record Spec_Record Spec_Inst Spec_Copy Spec_Keywords Spec_Settle Spec_Hist Spec_Again Spec_Convert Demo DemoRt DemoCls.
From Verif Require Dict_proofs Classes_proofs Record_proofs Classes_main Inst_proofs Inst_main Copy_proofs From_main Changes_main Again_main Props_Again.
Open Scope string_scope.
Open Scope list_scope.

Import Dict_proofs Classes_proofs Record_proofs Classes_main Inst_proofs Inst_main Copy_proofs From_main Changes_main.
Lemma not_like : forall {obj ty W} eqb (f : @field obj ty W) v,
  ~ like_default eqb f v <-> (forall dv, f_default f = DefVal dv -> eqb dv v = false).
Proof.
  intros obj ty W eqb f v. split.
  - intros H dv ED. destruct (eqb dv v) eqn:E; [|reflexivity]. exfalso. apply H. exists dv. auto.
  - intros H (dv & ED & E). specialize (H dv ED). congruence.
Qed.
Lemma like_dec : forall {obj ty W} eqb (f : @field obj ty W) v, like_default eqb f v \/ ~ like_default eqb f v.
Proof.
  intros obj ty W eqb f v. destruct (f_default f) as [|dv|g] eqn:ED.
  - right. intros (dv & E & _). congruence.
  - destruct (eqb dv v) eqn:E; [left; exists dv; auto|right; intros (dv' & E' & H); congruence].
  - right. intros (dv & E & _). congruence.
Qed.

Lemma c158_any_proof : forall {obj ty W} (R : Rt obj ty W) ctx D eqb n c v d w,
  made (rt_py R) c -> ctx (c_ty c) = Some c -> fields_callable c -> has_eq R D eqb -> defaults_in D c ->
  has_attributes R w (fun k => In k (keys (c_fields c))) v d -> (forall k a, dget k d = Some a -> D a) ->
  convertible R eqb c d -> ~ (c_frozen c = true /\ isinstance (rt_py R) v (c_ty c) = true) ->
  Spec_Inst.accepts R ctx c (made_from R eqb c d) ->
  exists y w' j, from_instance R (S n) c sel_empty v [] [] w = (Ok y, w') /\
    fresh_instance R ctx c w w' y j /\ all_kept R w w' /\ made_from R eqb c d j.
Proof.
  intros obj ty W R ctx D eqb n c v d w HM HX HFC HE HD HAt HV HC HZ HA.
  pose proof (made_named R _ HM) as HN.
  destruct (c72_attributes_proof R D eqb (S n) c v d [] [] [] w HM HE HD) as (d' & OD & HG & HF); try assumption.
  - constructor.
  - tauto.
  - intros k f EF ED. specialize (HC k f EF). destruct (dget k d) as [a|]; [exists a; reflexivity|]. destruct HC as (dv & E). congruence.
  - left. split; reflexivity.
  - assert (HG' : forall k a, dget k d' = Some a <-> exists f, dget k (c_fields c) = Some f /\ dget k d = Some a /\ ~ like_default eqb f a).
    { intros k a. rewrite HG. split.
      - intros [H|[[_ H]|(_ & _ & f & H1 & H2 & H3)]]; [discriminate|discriminate|]. exists f. split; [assumption|]. split; [assumption|]. apply not_like. assumption.
      - intros (f & H1 & H2 & H3). right. right. split; [reflexivity|]. split; [reflexivity|]. exists f. split; [assumption|]. split; [assumption|]. apply not_like. assumption. }
    assert (HCh : forall j, (forall k u, dget k d' = Some u -> exists y, dget k (i_dict j) = Some y /\ settled R c k u (Ok y)) /\
       (forall k f dv, dget k (c_fields c) = Some f -> ~ In k (keys d') -> f_default f = DefVal dv -> dget k (i_dict j) = Some dv) -> made_from R eqb c d j).
    { intros j [H1 H2] k f EF. specialize (HC k f EF). destruct (in_dec string_dec k (keys d')) as [HK|HK].
      - left. apply in_keys_get in HK as (a & EA). destruct (H1 k a EA) as (y & EY & HS). apply HG' in EA. destruct EA as (f' & EF' & EA & NL).
        assert (f' = f) by congruence. subst. exists a, y. auto.
      - right. destruct (dget k d) as [a|] eqn:EA.
        + destruct (like_dec eqb f a) as [(dv & ED & EB)|NL].
          * exists dv. split; [assumption|]. split; [eapply H2; eassumption|]. right. exists a. auto.
          * exfalso. apply HK. apply (dget_some_key k a). apply HG'. exists f. auto.
        + destruct HC as (dv & ED). exists dv. split; [assumption|]. split; [eapply H2; eassumption|]. left. reflexivity. }
    destruct (construct_filled R ctx n c (fun k u y => settled R c k u (Ok y)) d' w) as (y & w' & j & HC1 & _ & HFr & HK & H1 & H2); try assumption.
    + intros self w0 j HIj HJ. apply (HA self w0 j HIj). apply HCh. exact HJ.
    + intros k u HIn. apply (dget_In _ _ _ OD) in HIn. apply HG' in HIn. destruct HIn as (f & EF & EU & NL).
      specialize (HC k f EF). rewrite EU in HC. destruct HC as [L|(y & HS)]; [contradiction|].
      pose proof HS as (g & (f' & EF' & ->) & HS'). assert (f' = f) by congruence. subst. exists f, y. auto.
    + intros k f EF NI. specialize (HC k f EF). destruct (dget k d) as [a|] eqn:EA; [|exact HC].
      destruct (like_dec eqb f a) as [(dv & ED & EB)|NL]; [exists dv; assumption|].
      exfalso. apply NI. apply (dget_some_key k a). apply HG'. exists f. auto.
    + exists y, w', j. rewrite HF. split; [assumption|]. split; [assumption|]. split; [assumption|]. apply HCh. split; assumption.
Qed.

Lemma derives_fields : forall {obj ty W} (R : Rt obj ty W) b c, derives R b c -> forall k f, dget k (c_fields b) = Some f -> dget k (c_fields c) = Some f.
Proof.
  intros obj ty W R b c H. induction H as [|d c p HM HD HB HI H IH]; intros k f E; [assumption|].
  destruct (c59_fields_proof (rt_py R) d c HM HD HB) as (FB & _). apply (FB p k f HI). apply IH. assumption.
Qed.
Definition own_attributes {obj ty W} (c : @cls obj ty W) (i : inst obj ty) : dict obj :=
  filter (fun kv => smem (fst kv) (keys (c_fields c))) (i_dict i).
Lemma get_own : forall {obj ty W} (c : @cls obj ty W) (i : inst obj ty) k,
  In k (keys (c_fields c)) -> dget k (own_attributes c i) = dget k (i_dict i).
Proof. intros obj ty W c i k HK. unfold own_attributes. rewrite dget_filter_keys. apply smem_In in HK. rewrite HK. reflexivity. Qed.
Lemma own_in : forall {obj ty W} (c : @cls obj ty W) (i : inst obj ty) k v,
  dget k (own_attributes c i) = Some v -> In k (keys (c_fields c)) /\ dget k (i_dict i) = Some v.
Proof.
  intros obj ty W c i k v. unfold own_attributes. rewrite dget_filter_keys. destruct (smem k (keys (c_fields c))) eqn:E; [|discriminate].
  intro H. split; [apply smem_In; exact E|exact H].
Qed.

Lemma c158_base_proof : forall {obj ty W} (R : Rt obj ty W) ctx D eqb l w n b c x i,
  settled_program R ctx l w -> all_right R ctx (Spec_Again.kept_value R ctx) w ->
  let now := after_all R ctx l w in
  derives R b c -> ctx (c_ty b) = Some b -> c_frozen b = false -> instance_of R ctx c now x i ->
  Spec_Inst.accepts R ctx b (rebuilt eqb b i) -> fields_callable b -> has_eq R D eqb -> defaults_in D b -> values_in D b i ->
  exists y w' j, from_instance R (S n) b sel_empty x [] [] now = (Ok y, w') /\
    fresh_instance R ctx b now w' y j /\ all_kept R now w' /\ rebuilt eqb b i j.
Proof.
  intros obj ty W R ctx D eqb l w n b c x i HS H0 now HDer HX HZ HI HA HFC HE HD HV.
  assert (SF : stored_fixed R c i) by (eapply Again_main.right_fixed; [|exact HI]; apply Again_main.c156_always_proof; assumption).
  assert (HM : made (rt_py R) b) by exact (Again_main.program_made R ctx l w b HS HX).
  pose proof HI as (_ & HL & _ & _ & HAll).
  assert (HFi : forall k f, dget k (c_fields b) = Some f -> exists v, dget k (i_dict i) = Some v /\ settled R b k v (Ok v)).
  { intros k f EF. pose proof (derives_fields R b c HDer k f EF) as EF'. destruct (HAll k ltac:(eapply dget_some_key; exact EF')) as (v & EV).
    exists v. split; [assumption|]. eexists. split; [exists f; split; [exact EF|reflexivity]|]. exact (SF k f v EF' EV). }
  assert (HR : forall j, made_from R eqb b (own_attributes b i) j -> rebuilt eqb b i j).
  { intros j H k f v EF EV. assert (HK : In k (keys (c_fields b))) by (eapply dget_some_key; exact EF).
    destruct (HFi k f EF) as (v0 & EV0 & HSe). assert (v0 = v) by congruence. subst v0.
    destruct (H k f EF) as [(v' & y & E1 & NL & ST & EJ)|(dv & ED & EJ & [E|(v' & E1 & EB)])]; rewrite get_own in * by assumption.
    - left. assert (v' = v) by congruence. subst. pose proof (settled_det R b k v (Ok y) (Ok v) now ST HSe) as E. congruence.
    - congruence.
    - right. assert (v' = v) by congruence. subst. exists dv. auto. }
  destruct (c158_any_proof R ctx D eqb n b x (own_attributes b i) now) as (y & w' & j & E & FI & AK & MF); try assumption.
  - intros k HK. rewrite get_own by assumption. apply in_keys_get in HK. destruct HK as (f & EF). destruct (HFi k f EF) as (v & EV & _). rewrite EV.
    unfold getattr. rewrite HL, EV. reflexivity.
  - intros k a E. apply own_in in E. destruct E as (HK & E). exact (HV k a HK E).
  - intros k f EF. assert (HK : In k (keys (c_fields b))) by (eapply dget_some_key; exact EF). rewrite get_own by assumption.
    destruct (HFi k f EF) as (v & EV & HSe). rewrite EV. right. exists v. assumption.
  - intros (E & _). congruence.
  - intros self w0 j HIj HJ. apply (HA self w0 j HIj). apply HR. exact HJ.
  - exists y, w', j. split; [assumption|]. split; [assumption|]. split; [assumption|]. apply HR. assumption.
Qed.

Lemma c158_back_proof : forall {obj ty W} (R : Rt obj ty W) ctx D eqb n c c' w x i,
  made (rt_py R) c -> made (rt_py R) c' -> fields_callable c -> fields_callable c' -> ctx (c_ty c') = Some c' ->
  instance_of R ctx c w x i -> has_eq R D eqb -> equivalence D eqb -> defaults_in D c -> defaults_in D c' -> values_in D c i ->
  has_attributes R w (fun k => In k (keys (c_fields c')) /\ ~ In k (keys (c_fields c))) x [] ->
  interchangeable R c c' i ->
  ~ (c_frozen c' = true /\ isinstance (rt_py R) x (c_ty c') = true) ->
  (forall y, type_of (rt_py R) y = c_ty c' -> ~ (c_frozen c = true /\ isinstance (rt_py R) y (c_ty c) = true)) ->
  (forall Q, Spec_Inst.accepts R ctx c Q) -> (forall Q, Spec_Inst.accepts R ctx c' Q) ->
  exists y w1 z w2 j, from_instance R (S n) c' sel_empty x [] [] w = (Ok y, w1) /\
    from_instance R (S n) c sel_empty y [] [] w1 = (Ok z, w2) /\
    fresh_instance R ctx c w1 w2 z j /\ all_kept R w w2 /\ fieldwise eqb c i j.
Proof.
  intros obj ty W R ctx D eqb n c c' w x i HM HM' HFC HFC' HX' HI HE HQ HD HD' HV HNo (HSub & HDf & HSt & HSd) HZ HZ' HA HA'.
  pose proof HI as (HX & HL & _ & _ & HAll). pose proof HQ as (Q1 & Q2 & Q3).
  destruct (c158_any_proof R ctx D eqb n c' x (own_attributes c i) w) as (y & w1 & j1 & E1 & FI1 & AK1 & MF1); try assumption.
  - intros k HK'. destruct (in_dec string_dec k (keys (c_fields c))) as [HK|HK].
    + rewrite get_own by assumption. destruct (HAll k HK) as (v & EV). rewrite EV. unfold getattr. rewrite HL, EV. reflexivity.
    + specialize (HNo k (conj HK' HK)). cbn in HNo. destruct (dget k (own_attributes c i)) as [a|] eqn:E; [|exact HNo]. apply own_in in E. destruct E. contradiction.
  - intros k a E. apply own_in in E. destruct E as (HK & E). exact (HV k a HK E).
  - intros k f EF. destruct (dget k (own_attributes c i)) as [a|] eqn:E.
    + apply own_in in E. destruct E as (HK & E). right. exists a. exact (proj2 (HSt k a HK E)).
    + apply (HDf k f EF). destruct (dget k (c_fields c)) as [g|] eqn:EG; [|reflexivity]. exfalso.
      assert (HK : In k (keys (c_fields c))) by (eapply dget_some_key; exact EG). rewrite get_own in E by assumption. destruct (HAll k HK). congruence.
  - apply HA'.
  - pose proof FI1 as ((_ & HL1 & _ & HT1 & HAll1) & _).
    assert (HJ1 : forall k v, In k (keys (c_fields c)) -> dget k (i_dict i) = Some v ->
       exists u, dget k (i_dict j1) = Some u /\ D u /\ eqb v u = true /\ settled R c k u (Ok u)).
    { intros k v HK EV. pose proof (HV k v HK EV) as DV. apply in_keys_get in HK as HK2. destruct HK2 as (f & EF). destruct (HSub k f EF) as (f' & EF').
      destruct (HSt k v HK EV) as (S1 & S2).
      destruct (MF1 k f' EF') as [(v' & u & E & _ & ST & EJ)|(dv & ED & EJ & HB)].
      - rewrite get_own in E by assumption. assert (v' = v) by congruence. subst. pose proof (settled_det R c' k v _ _ w ST S2) as E2. injection E2 as ->.
        exists v. auto.
      - exists dv. split; [assumption|]. assert (DD : D dv) by (eapply HD'; eassumption). split; [assumption|]. split.
        + destruct HB as [E|(v' & E & EB)]; rewrite get_own in E by assumption; [congruence|]. assert (v' = v) by congruence. subst. apply Q2; assumption.
        + eapply HSd; eassumption. }
    destruct (c158_any_proof R ctx D eqb n c y (own_attributes c j1) w1) as (z & w2 & j2 & E2 & FI2 & AK2 & MF2); try assumption.
    + intros k HK. rewrite get_own by assumption. destruct (HAll k HK) as (v & EV). destruct (HJ1 k v HK EV) as (u & EU & _). rewrite EU.
      unfold getattr. rewrite HL1, EU. reflexivity.
    + intros k a E. apply own_in in E. destruct E as (HK & E). destruct (HAll k HK) as (v & EV). destruct (HJ1 k v HK EV) as (u & EU & DU & _). congruence.
    + intros k f EF. assert (HK : In k (keys (c_fields c))) by (eapply dget_some_key; exact EF). rewrite get_own by assumption.
      destruct (HAll k HK) as (v & EV). destruct (HJ1 k v HK EV) as (u & EU & _ & _ & SU). rewrite EU. right. exists u. assumption.
    + apply HZ'. assumption.
    + apply HA.
    + exists y, w1, z, w2, j2. split; [assumption|]. split; [assumption|]. split; [assumption|].
      split; [intros o io HO; apply AK2, AK1, HO|].
      intros k a b HK EA EB. destruct (HJ1 k a HK EA) as (u & EU & DU & EQ & SU). pose proof (HV k a HK EA) as DA.
      apply in_keys_get in HK as HK2. destruct HK2 as (f & EF).
      destruct (MF2 k f EF) as [(v' & t & E & _ & ST & EJ)|(dv & ED & EJ & HB)].
      * rewrite get_own in E by assumption. assert (v' = u) by congruence. subst. pose proof (settled_det R c k u _ _ w ST SU) as E3. injection E3 as ->. congruence.
      * assert (b = dv) by congruence. subst. assert (DD : D dv) by (eapply HD; eassumption).
        destruct HB as [E|(v' & E & EB2)]; rewrite get_own in E by assumption; [congruence|]. assert (v' = u) by congruence. subst.
        apply (Q3 a u dv); try assumption. apply Q2; assumption.
Qed.
