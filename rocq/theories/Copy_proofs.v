(** Copy_proofs.v -- lemmas about restoring records from their exports. *)
From Verif Require Import Base Dict_proofs Py Select Filler Classes Spec_Classes Runtime Record Spec_Record Record_proofs Spec_Inst Inst_proofs Inst_main Spec_Copy.

Section Copy.
Context {obj ty W : Type} (R : Rt obj ty W) (ctx : ty -> option (@cls obj ty W)).
Notation P := (rt_py R).
Notation cls := (@cls obj ty W).
Notation inst := (inst obj ty).

Lemma filled_pure : forall (c : cls) (Q : string -> obj -> obj -> Prop) (d : dict obj), dict_ok d ->
  (forall k v, In (k, v) d -> exists f y, dget k (c_fields c) = Some f /\ (forall w, call P (f_filler f) v w = (Ok y, w)) /\ Q k v y) ->
  exists e, keys e = keys d /\ (forall w, filled R c d w e w) /\ forall k v, dget k d = Some v -> exists y, dget k e = Some y /\ Q k v y.
Proof.
  intros c Q d. induction d as [|[k v] r IH]; intros HO H.
  - exists []. split; [reflexivity|]. split; [intro; constructor|]. intros ? ? E. discriminate.
  - unfold dict_ok in *. change (keys ((k, v) :: r)) with (k :: keys r) in HO. inversion HO as [|? ? N HO']; subst.
    destruct IH as (e & KE & HF & HQ); [assumption|intros; apply H; right; assumption|].
    destruct (H k v (or_introl eq_refl)) as (f & y & EF & EC & HY). exists ((k, y) :: e). split; [|split].
    + unfold keys in *. cbn. f_equal. assumption.
    + intro w. econstructor; [exact EF|apply EC|apply HF].
    + intros k' v' E. cbn in *. destruct (String.eqb k' k) eqn:EK.
      * apply String.eqb_eq in EK. subst. injection E as <-. exists y. auto.
      * apply HQ. assumption.
Qed.

Lemma construct_filled : forall n c Q (d : dict obj) w, well_named c -> ctx (c_ty c) = Some c ->
  accepts R ctx c (fun j => (forall k v, dget k d = Some v -> exists u, dget k (i_dict j) = Some u /\ Q k v u) /\
    (forall k f v, dget k (c_fields c) = Some f -> ~ In k (keys d) -> f_default f = DefVal v -> dget k (i_dict j) = Some v)) -> fields_callable c ->
  dict_ok d ->
  (forall k v, In (k, v) d -> exists f y, dget k (c_fields c) = Some f /\ (forall w, call P (f_filler f) v w = (Ok y, w)) /\ Q k v y) ->
  (forall k f, dget k (c_fields c) = Some f -> ~ In k (keys d) -> exists v, f_default f = DefVal v) ->
  exists y w' j, construct R (S n) c None d w = (Ok y, w') /\ new R (S n) c None d w = (Ok y, w') /\ fresh_instance R ctx c w w' y j /\ all_kept R w w' /\
    (forall k v, dget k d = Some v -> exists u, dget k (i_dict j) = Some u /\ Q k v u) /\
    (forall k f v, dget k (c_fields c) = Some f -> ~ In k (keys d) -> f_default f = DefVal v -> dget k (i_dict j) = Some v).
Proof.
  intros n c Q d w [HO HN] HX HP HFC HOD HF HDF.
  assert (KN : known c d).
  { intros k HI. apply in_keys_get in HI. destruct HI as [v HI]. apply dget_Some_In in HI. destruct (HF k v HI) as (f & y & EF & _).
    eapply dget_some_key. exact EF. }
  assert (NR : no_reserved d) by (intros k HI; apply HFC; apply KN; assumption).
  assert (CP : complete c d).
  { intros k HI. unfold required_keys, keys in HI. apply in_map_iff in HI. destruct HI as ([k' f] & <- & HI). apply filter_In in HI.
    destruct HI as [HI HD]. apply (dget_In _ _ _ HO) in HI. cbn in *. destruct (in_dec string_dec k' (keys d)) as [H|H]; [assumption|].
    destruct (HDF k' f HI H) as [v EV]. unfold has_default in HD. rewrite EV in HD. discriminate. }
  destruct (filled_pure c Q d HOD HF) as (e & KE & FD & HQ).
  assert (OM : forall k, In k (set_order R w (omitted c d)) <-> In k (keys (c_fields c)) /\ ~ In k (keys d)).
  { intro k. split.
    - intro HI. apply (Permutation_in _ (Permutation_sym (set_order_perm R w (omitted c d)))) in HI. unfold omitted in HI. apply filter_In in HI.
      rewrite negb_true_iff, dmem_false in HI. assumption.
    - intros H. apply (Permutation_in _ (set_order_perm R w (omitted c d))). unfold omitted. apply filter_In. rewrite negb_true_iff, dmem_false. assumption. }
  destruct (defaulted_values c (set_order R w (omitted c d)) w) as (ds & DD & DG).
  { intros k HI. apply OM in HI. destruct HI as [HI HI']. apply in_keys_get in HI. destruct HI as [f EF].
    destruct (HDF k f EF HI') as [v EV]. exists f, v. auto. }
  assert (KD : keys ds = set_order R w (omitted c d)) by (eapply defaulted_keys; exact DD).
  set (y := ref R (c_ty c) (List.length (heap R w))).
  exists y, (snd (alloc R c (e ++ ds) w)), (Inst (c_ty c) (e ++ ds) (if c_frozen c then SNone else SUnset)).
  assert (G1 : forall k v, dget k d = Some v -> exists u, dget k (e ++ ds) = Some u /\ Q k v u).
  { intros k v E. destruct (HQ k v E) as (u & EU & HU). exists u. split; [|assumption]. rewrite dget_app, EU. reflexivity. }
  assert (G2 : forall k f v, dget k (c_fields c) = Some f -> ~ In k (keys d) -> f_default f = DefVal v -> dget k (e ++ ds) = Some v).
  { intros k f v EF NI EV. assert (E : dget k e = None) by (apply dget_None; rewrite KE; assumption).
    rewrite dget_app, E. eapply DG; [|exact EF|exact EV]. apply OM. split; [|assumption].
    eapply dget_some_key. exact EF. }
  assert (IO : instance_of R ctx c (snd (alloc R c (e ++ ds) w)) y (Inst (c_ty c) (e ++ ds) (if c_frozen c then SNone else SUnset))).
  { split; [assumption|]. split; [apply lookup_alloc|]. split; [reflexivity|]. split; [apply type_ref|]. cbn [i_dict].
    intros k HI. destruct (in_dec string_dec k (keys d)) as [HD|HD].
    - apply in_keys_get in HD. destruct HD as [v E]. destruct (G1 k v E) as (u & EU & _). exists u. assumption.
    - apply in_keys_get in HI. destruct HI as [f EF]. destruct (HDF k f EF HD) as [v EV]. exists v. eapply G2; eassumption. }
  assert (BLD : build R c (none R) d w = (Ok y, snd (alloc R c (e ++ ds) w))).
  { apply build_ok. split; [assumption|]. split; [assumption|].
    exists e, w, ds, w. split; [apply FD|]. split; [assumption|]. exact (HP _ _ _ IO (conj G1 G2)). }
  split; [|split; [|split; [|split; [|split]]]].
  - rewrite construct_plain by assumption. exact BLD.
  - exact BLD.
  - split; [|split; [|split]].
    + exact IO.
    + unfold lookup, y. rewrite deref_ref. apply nth_error_None. lia.
    + cbn [i_dict]. intros k HI. rewrite keys_app, in_app_iff, KE in HI. destruct HI as [HI|HI]; [apply KN; assumption|].
      rewrite KD in HI. apply OM in HI. tauto.
    + reflexivity.
  - apply lookup_alloc_kept.
  - exact G1.
  - exact G2.
Qed.

(** the exported keys: a field whose value is not exported has a default equal to it *)
Lemma exported_or_default : forall eqb (c : cls) (i : inst) k f v, dict_ok (c_fields c) ->
  dget k (c_fields c) = Some f -> dget k (i_dict i) = Some v ->
  dget k (exported eqb no_args [] c i) = Some v \/
  ~ In k (keys (exported eqb no_args [] c i)) /\ exists d, f_default f = DefVal d /\ eqb d v = true.
Proof.
  intros eqb c i k f v HO EF EV. destruct (to_exportb eqb no_args [] k f v) eqn:ET.
  - left. apply dget_exported; [assumption|]. exists f. split; [exact EF|]. split; [exact EV|]. apply to_exportb_spec. exact ET.
  - right. split.
    + intro HI. apply in_keys_get in HI. destruct HI as [v' E]. apply dget_exported in E; [|assumption]. destruct E as (f' & EF' & EV' & HT).
      apply to_exportb_spec in HT. assert (f' = f) by congruence. assert (v' = v) by congruence. subst. congruence.
    + unfold to_exportb in ET. cbn in ET.
      assert (TG : tagged [] f = false) by (apply tagged_false; intros t _ []). rewrite TG in ET. cbn in ET.
      apply negb_false_iff in ET. destruct (f_default f) as [|d|g]; try discriminate. exists d. auto.
Qed.

Section Eq.
Variable D : obj -> Prop.
Variable eqb : obj -> obj -> bool.
Variable hf : obj -> Z.

(** building from values that restore those of [i], at least those that are not defaults *)
Lemma construct_covering : forall n c i d w, well_named c -> ctx (c_ty c) = Some c -> accepts R ctx c (fieldwise eqb c i) -> fields_callable c ->
  comparable R D eqb hf c i -> (forall k, In k (keys (c_fields c)) -> exists v, dget k (i_dict i) = Some v) ->
  dict_ok d -> (forall k, In k (keys (exported eqb no_args [] c i)) -> In k (keys d)) -> (forall k, In k (keys d) -> In k (keys (c_fields c))) ->
  restores R D eqb hf c i d ->
  exists y w' j, construct R (S n) c None d w = (Ok y, w') /\ new R (S n) c None d w = (Ok y, w') /\ fresh_instance R ctx c w w' y j /\ all_kept R w w' /\
    fieldwise eqb c i j /\ values_in D c j /\ (c_frozen c = true -> hashable R hf c j).
Proof.
  intros n c i d w HN HX HP HFC (HE & (E1 & E2 & E3) & HD & HV & HH) HF OD KD1 KD2 HR. pose proof HN as [HO _].
  set (Q := fun (k : string) (u y : obj) => forall v, dget k (i_dict i) = Some v ->
     D y /\ eqb v y = true /\ (c_frozen c = true -> forall w, v_hash R y w = (Ok (hf y), w))).
  assert (KE : forall k, In k (keys d) -> exists f v, dget k (c_fields c) = Some f /\ dget k (i_dict i) = Some v).
  { intros k HI. apply KD2 in HI. destruct (HF k HI) as [v EV]. apply in_keys_get in HI. destruct HI as [f EF]. eauto. }
  assert (SP : forall k f v, dget k (c_fields c) = Some f -> dget k (i_dict i) = Some v ->
     In k (keys d) \/ ~ In k (keys d) /\ exists d, f_default f = DefVal d /\ eqb d v = true).
  { intros k f v EF EV. destruct (in_dec string_dec k (keys d)) as [HI|NI]; [left; assumption|right].
    destruct (exported_or_default eqb c i k f v HO EF EV) as [H|[_ H]]; [|split; assumption].
    destruct NI. apply KD1. eapply dget_some_key. exact H. }
  assert (ALL : forall j : inst, (forall k v, dget k d = Some v -> exists u, dget k (i_dict j) = Some u /\ Q k v u) ->
     (forall k f v, dget k (c_fields c) = Some f -> ~ In k (keys d) -> f_default f = DefVal v -> dget k (i_dict j) = Some v) ->
     forall k v b, In k (keys (c_fields c)) -> dget k (i_dict i) = Some v -> dget k (i_dict j) = Some b ->
       D b /\ eqb v b = true /\ (c_frozen c = true -> forall w, v_hash R b w = (Ok (hf b), w))).
  { intros j H1 H2 k v b KI EV EB. apply in_keys_get in KI as KI'. destruct KI' as [f EF]. destruct (SP k f v EF EV) as [HI|[NI (d0 & ED & EQ)]].
    - apply in_keys_get in HI. destruct HI as [u EU]. destruct (H1 k u EU) as (b' & EB' & HQ). assert (b' = b) by congruence. subst. apply HQ. assumption.
    - rewrite (H2 k f d0 EF NI ED) in EB. injection EB as <-. pose proof (HD k f d0 EF ED) as DD. split; [assumption|]. split.
      + apply E2; try assumption. eapply HV; eassumption.
      + intros EFz w1. destruct (HH EFz) as (_ & _ & _ & HDH). eapply HDH; eassumption. }
  destruct (construct_filled n c Q d w) as (y & w' & j & HC & HNW & HFr & HK & H1 & H2); try assumption.
  - eapply accepts_less; [|exact HP]. intros j [H1 H2] k a b KI EA EB. eapply (ALL j H1 H2); eassumption.
  - intros k u HI. assert (KI : In k (keys d)) by (apply in_map_iff; exists (k, u); auto).
    destruct (KE k KI) as (f & v & EF & EV). destruct (HR k f u v EF (dget_In _ _ _ OD HI) EV) as (y & HC & HQ).
    exists f, y. split; [assumption|]. split; [assumption|]. intros v' EV'. assert (v' = v) by congruence. subst. assumption.
  - intros k f EF NI. destruct (HF k) as [v EV]; [eapply dget_some_key; exact EF|].
    destruct (SP k f v EF EV) as [H|[_ (d0 & ED & _)]]; [contradiction|]. eauto.
  - specialize (ALL j H1 H2). exists y, w', j. split; [assumption|]. split; [assumption|]. split; [assumption|]. split; [assumption|]. split; [|split].
    + intros k a b KI EA EB. eapply ALL; eassumption.
    + intros k b KI EB. destruct (HF k KI) as [v EV]. eapply ALL; eassumption.
    + intros EFz k b KI EB w1. destruct (HF k KI) as [v EV]. eapply ALL; eassumption.
Qed.

Lemma construct_restored : forall n c i d w, well_named c -> ctx (c_ty c) = Some c -> accepts R ctx c (fieldwise eqb c i) -> fields_callable c ->
  comparable R D eqb hf c i -> (forall k, In k (keys (c_fields c)) -> exists v, dget k (i_dict i) = Some v) ->
  keys d = keys (exported eqb no_args [] c i) -> restores R D eqb hf c i d ->
  exists y w' j, construct R (S n) c None d w = (Ok y, w') /\ new R (S n) c None d w = (Ok y, w') /\ fresh_instance R ctx c w w' y j /\ all_kept R w w' /\
    fieldwise eqb c i j /\ values_in D c j /\ (c_frozen c = true -> hashable R hf c j).
Proof.
  intros n c i d w HN HX HP HFC HCo HF KD HR. pose proof HN as [HO _]. apply construct_covering; try assumption.
  - unfold dict_ok. rewrite KD. apply exported_ok. assumption.
  - intros k HI. rewrite KD. assumption.
  - intros k HI. rewrite KD in HI. apply in_keys_get in HI. destruct HI as [v E]. apply dget_exported in E; [|assumption].
    destruct E as (f & EF & _). eapply dget_some_key. exact EF.
Qed.

Lemma kept_instance : forall c w w' x i, all_kept R w w' -> instance_of R ctx c w x i -> instance_of R ctx c w' x i.
Proof. intros c w w' x i HK (A & B & C). split; [assumption|]. split; [apply HK; assumption|assumption]. Qed.

(** two instances of a class that are equal field by field compare equal *)
Lemma fieldwise_equal : forall c w x i y j, well_named c -> comparable R D eqb hf c i ->
  instance_of R ctx c w x i -> instance_of R ctx c w y j -> values_in D c j ->
  (c_frozen c = true -> hashable R hf c j /\ cache_ok R eqb hf c j) -> fieldwise eqb c i j ->
  exists w'', record_eq R ctx x y w = (Ok true, w'') /\ fields_kept R w w''.
Proof.
  intros c w x i y j HN (HE & HQ & HD & HV & HH) HI HJ VJ HHJ FW.
  destruct (record_eq_char R ctx D eqb HE hf c w x i y j) as (b & w' & H1 & H2 & H3 & _); try assumption.
  - intro EF. destruct (HH EF) as (A & B & C & _). auto.
  - intro EF. destruct (HH EF) as (A & _). destruct (HHJ EF) as (B & C). auto.
  - exists w'. apply H2 in FW. subst b. auto.
Qed.

Lemma restored_copy : forall n c x i d w, well_named c -> accepts R ctx c (fieldwise eqb c i) -> fields_callable c ->
  comparable R D eqb hf c i -> instance_of R ctx c w x i ->
  keys d = keys (exported eqb no_args [] c i) -> restores R D eqb hf c i d ->
  exists y w', construct R (S n) c None d w = (Ok y, w') /\ equal_copy R ctx c w w' x y.
Proof.
  intros n c x i d w HN HP HFC HCo HI KD HR. pose proof HI as (HX & HL & HT & TX & HF).
  destruct (construct_restored n c i d w) as (y & w' & j & HC & _ & HFr & HK & FW & VJ & HJ); try assumption.
  exists y, w'. split; [assumption|]. split; [exists j; assumption|]. split; [assumption|].
  pose proof HFr as (IJ & _ & _ & HS).
  apply (fieldwise_equal c w' x i y j); try assumption.
  - eapply kept_instance; eassumption.
  - intro EF. split; [auto|]. left. rewrite HS, EF. reflexivity.
Qed.

Lemma covering_copy : forall n c x i d w, well_named c -> accepts R ctx c (fieldwise eqb c i) -> fields_callable c ->
  comparable R D eqb hf c i -> instance_of R ctx c w x i ->
  dict_ok d -> (forall k, In k (keys (exported eqb no_args [] c i)) -> In k (keys d)) -> (forall k, In k (keys d) -> In k (keys (c_fields c))) ->
  restores R D eqb hf c i d ->
  exists y w', construct R (S n) c None d w = (Ok y, w') /\ equal_copy R ctx c w w' x y.
Proof.
  intros n c x i d w HN HP HFC HCo HI OD KD1 KD2 HR. pose proof HI as (HX & HL & HT & TX & HF).
  destruct (construct_covering n c i d w) as (y & w' & j & HC & _ & HFr & HK & FW & VJ & HJ); try assumption.
  exists y, w'. split; [assumption|]. split; [exists j; assumption|]. split; [assumption|].
  pose proof HFr as (IJ & _ & _ & HS).
  apply (fieldwise_equal c w' x i y j); try assumption.
  - eapply kept_instance; eassumption.
  - intro EF. split; [auto|]. left. rewrite HS, EF. reflexivity.
Qed.

(** values that the fillers keep restore themselves *)
Lemma fixed_restores : forall c i, dict_ok (c_fields c) -> comparable R D eqb hf c i -> stored_fixed R c i ->
  restores R D eqb hf c i (exported eqb no_args [] c i).
Proof.
  intros c i HO (HE & (E1 & _) & HD & HV & HH) HS k f u v EF EU EV. apply dget_exported in EU; [|assumption].
  destruct EU as (f' & _ & EV' & _). assert (u = v) by congruence. subst u.
  assert (KI : In k (keys (c_fields c))) by (eapply dget_some_key; exact EF).
  assert (DV : D v) by (eapply HV; eassumption).
  exists v. split; [eapply HS; eassumption|]. split; [assumption|]. split; [auto|].
  intros EFz w. destruct (HH EFz) as (_ & HHa & _). eapply HHa; eassumption.
Qed.

Lemma to_dict_plain : forall c w x i, well_named c -> comparable R D eqb hf c i -> instance_of R ctx c w x i ->
  to_dict R ctx x no_args sel_empty w = (Ok (exported eqb no_args [] c i), w).
Proof.
  intros c w x i HN (HE & HQ & HD & HV & HH) HI. rewrite (to_dict_exported R ctx D eqb HE c no_args [] w x i) by (auto; reflexivity). reflexivity.
Qed.

End Eq.
End Copy.
