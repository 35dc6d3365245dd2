(** Json_main.v -- proofs of the properties stated in Props_Json.v: JSON of records that hold records (records/record.py:431-505, 607-626) *)

From Verif Require Import Base Py Select Filler Spec_Filler Classes Spec_Classes Runtime Record Spec_Record Spec_Inst Spec_Copy Json Spec_Json Demo DemoRt DemoCls.
From Verif Require Dict_proofs Filler_proofs Classes_proofs Record_proofs Classes_main Filler_main Inst_proofs Inst_main Copy_proofs Copy_main Export_main.
Open Scope string_scope.
Open Scope list_scope.

Import Dict_proofs Filler_proofs Classes_proofs Record_proofs Classes_main Inst_proofs Inst_main Copy_proofs Copy_main Export_main.

Section J.
Context {obj ty W : Type} (R : Rt obj ty W) (ctx : ty -> option (@cls obj ty W)) (J : JsonRt obj) (t_list : ty).
Notation P := (rt_py R).
Notation cls := (@cls obj ty W).

(** all attributes of an instance that are fields *)
Definition attributes (c : cls) (i : inst obj ty) : dict obj :=
  flat_map (fun kf => match dget (fst kf) (i_dict i) with Some v => [(fst kf, v)] | None => [] end) (c_fields c).

Lemma attributes_keys : forall c w x i, instance_of R ctx c w x i -> keys (attributes c i) = keys (c_fields c).
Proof.
  intros c w x i (_ & _ & _ & _ & FI). unfold attributes. induction (c_fields c) as [|[k f] r IH]; [reflexivity|]. cbn [flat_map fst].
  destruct (FI k) as [v E]; [left; reflexivity|]. rewrite E. cbn. f_equal. apply IH. intros k' H. apply FI. right. assumption.
Qed.
Lemma attributes_get : forall c i k v, In (k, v) (attributes c i) -> In k (keys (c_fields c)) /\ dget k (i_dict i) = Some v.
Proof.
  intros c i k v H. unfold attributes in H. apply in_flat_map in H. destruct H as ([k' f] & HI & H). cbn [fst] in H.
  destruct (dget k' (i_dict i)) as [u|] eqn:E; [|contradiction]. destruct H as [H|[]]. injection H as -> ->.
  split; [apply in_map_iff; exists (k, f); auto|assumption].
Qed.
Lemma to_dict_all : forall c w x i, well_named c -> instance_of R ctx c w x i ->
  to_dict R ctx x all_fields sel_empty w = (Ok (attributes c i), w).
Proof.
  intros c w x i [HO HN] HI. unfold to_dict, with_class. rewrite (class_of_instance R ctx c w x i HI).
  pose proof HI as (_ & HL & _ & _ & FI).
  assert (E : forall ok (fs : dict (@field obj ty W)), (forall k f, In (k, f) fs -> f_name f = k /\ exists v, dget k (i_dict i) = Some v) ->
    extract R ok x all_fields (map snd (map (fun kf => (fst kf, real_field (snd kf))) fs)) w =
    (Ok (flat_map (fun kf => match dget (fst kf) (i_dict i) with Some v => [(fst kf, v)] | None => [] end) fs), w)).
  { intros ok fs. induction fs as [|[k f] r IH]; intro H; [reflexivity|]. cbn [map extract snd fst]. unfold bind at 1.
    destruct (H k f (or_introl eq_refl)) as (EN & v & EV).
    assert (E1 : extract_one R ok x all_fields (real_field f) w = (Ok [(k, v)], w)).
    { unfold extract_one. cbn [export_field all_fields e_white e_black smem existsb]. cbn [real_field x_tags x_name].
      replace (existsb (fun _ : nat => false) (f_tags f)) with false by (symmetry; induction (f_tags f); auto).
      cbn [negb]. unfold getattr. rewrite HL, EN, EV. reflexivity. }
    rewrite E1. unfold bind. rewrite IH by (intros; apply H; right; assumption). cbn [flat_map fst]. rewrite EV. reflexivity. }
  unfold bind at 1, to_dict_of. unfold extraction. change (fst (sel_truth (@sel_empty obj))) with false. cbv iota.
  unfold bind. rewrite E; [reflexivity|].
  intros k f H. split; [apply HN; apply dget_In; assumption|]. apply FI. apply in_map_iff. exists (k, f). auto.
Qed.

Lemma same_later : forall w w1 w2 x y, all_kept R w1 w2 -> same_content R ctx J w w1 x y -> same_content R ctx J w w2 x y.
Proof.
  intros w w1 w2 x y HK H. induction H.
  - apply same_scalar. assumption.
  - eapply same_list; eassumption.
  - eapply same_record; [eassumption|eapply kept_instance; eassumption|assumption].
Qed.
Lemma kept_trans : forall w w1 w2, all_kept R w w1 -> all_kept R w1 w2 -> all_kept R w w2.
Proof. intros w w1 w2 H1 H2 x i H. auto. Qed.

Notation enc n := (encode J n (Some (with_to_dict R ctx J all_fields))).

(** [g] reads back what json makes of [x] *)
Definition reads_as (S : W -> obj -> obj -> Prop) (w : W) (g : obj -> M W obj) (x : obj) : Prop :=
  exists j N, (forall n, N <= n -> enc n x w = (Ok j, w)) /\
  forall w1, all_kept R w w1 -> exists y w2, g (of_json J j) w1 = (Ok y, w2) /\ all_kept R w1 w2 /\ S w2 x y.
Definition reads (w : W) := reads_as (same_content R ctx J w) w.
Definition stable (S : W -> obj -> obj -> Prop) : Prop := forall w1 w2 x y, all_kept R w1 w2 -> S w1 x y -> S w2 x y.

Lemma items_read : forall (S : string -> W -> obj -> obj -> Prop) c w d, (forall k, stable (S k)) -> dict_ok d ->
  (forall k v, In (k, v) d -> exists f, dget k (c_fields c) = Some f /\ reads_as (S k) w (call P (f_filler f)) v) ->
  exists js N, keys js = keys d /\ (forall n, N <= n -> encode_items (enc n) d w = (Ok js, w)) /\
  forall w1, all_kept R w w1 ->
  exists ys w2, filled R c (map (fun kj => (fst kj, of_json J (snd kj))) js) w1 ys w2 /\ all_kept R w1 w2 /\
    keys ys = keys d /\ forall k v y, dget k d = Some v -> dget k ys = Some y -> S k w2 v y.
Proof.
  intros S c w d ST. induction d as [|[k v] r IH]; intros OD H.
  - exists [], 0. split; [reflexivity|]. split; [intros; reflexivity|]. intros w1 HK. exists [], w1. split; [constructor|].
    split; [intros ? ? E; exact E|]. split; [reflexivity|]. intros k v y E. discriminate.
  - destruct (H k v (or_introl eq_refl)) as (f & EF & j & N1 & E1 & HR1).
    unfold dict_ok in OD. cbn in OD. inversion OD as [|? ? NI OR]; subst.
    destruct IH as (js & N2 & KJ & E2 & HR2); [exact OR|intros; apply H; right; assumption|].
    exists ((k, j) :: js), (max N1 N2). split; [cbn; f_equal; exact KJ|]. split.
    + intros n HN. specialize (E2 n ltac:(lia)). specialize (E1 n ltac:(lia)). unfold encode_items in *. cbn [mapM snd fst].
      apply bind_ok. exists (k, j), w. split; [apply bind_ok; exists j, w; split; [exact E1|reflexivity]|].
      apply bind_ok. exists js, w. split; [exact E2|reflexivity].
    + intros w1 HK. destruct (HR1 w1 HK) as (y & w2 & EC & HK2 & HS).
      destruct (HR2 w2 (kept_trans _ _ _ HK HK2)) as (ys & w3 & EFi & HK3 & KY & HSS).
      exists ((k, y) :: ys), w3. split; [cbn [map fst snd]; econstructor; eassumption|]. split; [eapply kept_trans; eassumption|].
      split; [cbn; f_equal; exact KY|]. intros k' v' y' ED EY. cbn in ED, EY. destruct (String.eqb k' k) eqn:EK.
      * injection ED as <-. injection EY as <-. apply String.eqb_eq in EK. subst k'. eapply ST; eassumption.
      * eapply HSS; eassumption.
Qed.

Lemma record_read_as : forall (S : string -> W -> obj -> obj -> Prop) c w x i, (forall k, stable (S k)) -> readable_class R ctx c -> instance_of R ctx c w x i ->
  (forall k f v, dget k (c_fields c) = Some f -> dget k (i_dict i) = Some v -> reads_as (S k) w (call P (f_filler f)) v) ->
  exists js N, (forall n, N <= n -> encode_items (enc n) (attributes c i) w = (Ok js, w)) /\ dict_ok js /\
  forall n w1, all_kept R w w1 ->
  exists y w2, construct R (Datatypes.S n) c None (map (fun kj => (fst kj, of_json J (snd kj))) js) w1 = (Ok y, w2) /\
    lookup R w1 y = None /\ type_of P y = c_ty c /\ all_kept R w1 w2 /\
    exists j, instance_of R ctx c w2 y j /\ forall k a b, In k (keys (c_fields c)) -> dget k (i_dict i) = Some a -> dget k (i_dict j) = Some b -> S k w2 a b.
Proof.
  intros S c w x i ST (HM & HFC & HA & HPl) HI HF. pose proof (made_named R c HM) as HN. pose proof HN as [HO _].
  pose proof (attributes_keys c w x i HI) as KA. pose proof HI as (HX & HL & HT & HTy & FI).
  assert (OA : dict_ok (attributes c i)) by (unfold dict_ok; rewrite KA; exact HO).
  destruct (items_read S c w (attributes c i) ST OA) as (js & N & KJ & EJ & HR).
  { intros k v H. apply attributes_get in H. destruct H as [HK HV]. apply in_keys_get in HK as HK'. destruct HK' as [f EF].
    exists f. split; [assumption|]. eapply HF; eassumption. }
  exists js, N. split; [exact EJ|]. split; [unfold dict_ok; rewrite KJ; exact OA|]. intros n w1 HK.
  destruct (HR w1 HK) as (ys & w2 & HFi & HK2 & KY & HS).
  set (kw := map (fun kj => (fst kj, of_json J (snd kj))) js).
  assert (KW : keys kw = keys (c_fields c)).
  { unfold kw, keys. rewrite map_map. cbn [fst]. change (keys js = keys (c_fields c)). congruence. }
  assert (NR : no_reserved kw) by (intros k H; apply HFC; rewrite <- KW; exact H).
  assert (OM : omitted c kw = []).
  { unfold omitted. destruct (filter (fun k => negb (dmem k kw)) (keys (c_fields c))) as [|k r] eqn:E; [reflexivity|].
    assert (HIn : In k (k :: r)) by (left; reflexivity). rewrite <- E in HIn. apply filter_In in HIn. destruct HIn as [H1 H2].
    rewrite <- KW in H1. apply dmem_In in H1. rewrite H1 in H2. discriminate. }
  set (y := ref R (c_ty c) (List.length (heap R w2))).
  assert (HY : instance_of R ctx c (snd (alloc R c (ys ++ []) w2)) y (Inst (c_ty c) (ys ++ []) (if c_frozen c then SNone else SUnset))).
  { split; [assumption|]. split; [apply lookup_alloc|]. split; [reflexivity|]. split; [apply type_ref|].
    intros k H. cbn [i_dict]. apply in_keys_get. rewrite app_nil_r, KY, KA. exact H. }
  exists y, (snd (alloc R c (ys ++ []) w2)). split.
  - rewrite construct_plain by exact NR. apply build_ok. split; [intros k H; rewrite <- KW; exact H|].
    split; [intros k H; rewrite KW; unfold required_keys, keys in H; apply in_map_iff in H; destruct H as (kf & <- & H); apply filter_In in H; apply in_map; apply H|].
    exists ys, w2, [], w2. split; [exact HFi|]. split.
    + rewrite OM. replace (set_order R w2 []) with (@nil string) by (symmetry; apply Permutation_nil; apply set_order_perm). constructor.
    + apply (HA y _ _ HY I).
  - split; [|split; [apply type_ref|split]].
    + destruct (lookup R w1 y) as [j|] eqn:E; [|reflexivity]. apply HK2 in E. unfold lookup, y in E. rewrite deref_ref in E.
      replace (nth_error (heap R w2) (List.length (heap R w2))) with (@None (inst obj ty)) in E by (symmetry; apply nth_error_None; lia). discriminate.
    + eapply kept_trans; [exact HK2|]. apply lookup_alloc_kept.
    + eexists. split; [exact HY|]. intros k a b HKf EA EB. cbn [i_dict] in EB. rewrite app_nil_r in EB.
      eapply ST; [apply lookup_alloc_kept|]. eapply HS; [|exact EB].
      apply dget_In; [exact OA|]. unfold attributes. apply in_flat_map. apply in_keys_get in HKf. destruct HKf as [f EF].
      exists (k, f). split; [apply dget_Some_In; exact EF|]. cbn [fst]. rewrite EA. left. reflexivity.
Qed.

Lemma record_read : forall c w x i, readable_class R ctx c -> instance_of R ctx c w x i ->
  (forall k f v, dget k (c_fields c) = Some f -> dget k (i_dict i) = Some v -> reads w (call P (f_filler f)) v) ->
  exists js N, (forall n, N <= n -> encode_items (enc n) (attributes c i) w = (Ok js, w)) /\ dict_ok js /\
  forall n w1, all_kept R w w1 ->
  exists y w2, construct R (S n) c None (map (fun kj => (fst kj, of_json J (snd kj))) js) w1 = (Ok y, w2) /\
    lookup R w1 y = None /\ type_of P y = c_ty c /\ all_kept R w1 w2 /\ same_content R ctx J w w2 x y.
Proof.
  intros c w x i HRC HI HF. destruct (record_read_as (fun _ => same_content R ctx J w) c w x i) as (js & N & EJ & OJ & HR); try assumption.
  { intros k w1 w2 a b. apply same_later. }
  exists js, N. split; [exact EJ|]. split; [exact OJ|]. intros n w1 HK. destruct (HR n w1 HK) as (y & w2 & EC & HN & HT & HK2 & j & HY & HS).
  exists y, w2. split; [exact EC|]. split; [exact HN|]. split; [exact HT|]. split; [exact HK2|]. eapply same_record; eassumption.
Qed.

Lemma record_written : forall c w x i js N, json_contract R ctx J t_list -> made P c -> instance_of R ctx c w x i ->
  (forall n, N <= n -> encode_items (enc n) (attributes c i) w = (Ok js, w)) -> forall m, S (S N) <= m -> enc m x w = (Ok (JObj js), w).
Proof.
  intros c w x i js N HJ HM HI EJ m Hm. pose proof HI as (_ & HL & _).
  destruct m as [|[|m]]; [lia|lia|]. cbn [encode]. rewrite (jc_record _ _ _ _ HJ w x i HL).
  apply bind_ok. exists (js_object J (attributes c i)), w. split.
  - apply bind_ok. exists (attributes c i), w. split; [apply to_dict_all; [exact (made_named R c HM)|exact HI]|reflexivity].
  - assert (OA : dict_ok (attributes c i)) by (unfold dict_ok; rewrite (attributes_keys c w x i HI); apply (made_named R c HM)).
    cbn [encode]. destruct (jc_object _ _ _ _ HJ _ OA) as (-> & _ & _). apply bind_ok. exists js, w. split; [apply EJ; lia|reflexivity].
Qed.

Lemma record_value_read : forall f s n c w x i, json_contract R ctx J t_list -> checked s -> readable_class R ctx c -> instance_of R ctx c w x i ->
  make_filler P s (HAnn (HTy (c_ty c)) [TCoerce (CGlobal (fun _ => Ok (fun v => from_mapping R (S n) c sel_empty [v] [])))]) [] = Ok f ->
  (forall k f v, dget k (c_fields c) = Some f -> dget k (i_dict i) = Some v -> reads w (call P (f_filler f)) v) ->
  reads w (call P f) x.
Proof.
  intros f s n c w x i HJ HS HRC HI MF HF. destruct (record_read c w x i HRC HI HF) as (js & N & EJ & OJ & HR).
  pose proof HRC as (HM & _ & _ & (_ & N1 & N2)). pose proof HI as (HX & HL & _).
  exists (JObj js), (S (S N)). split.
  - apply (record_written c w x i js N HJ HM HI EJ).
  - intros w1 HK. destruct (HR n w1 HK) as (y & w2 & EC & _ & HTY & HK2 & HSC). exists y, w2. split; [|split; assumption].
    cbn [of_json]. set (kw := map (fun kj => (fst kj, of_json J (snd kj))) js) in *.
    assert (OK : dict_ok kw) by (unfold dict_ok, kw, keys; rewrite map_map; exact OJ).
    destruct (jc_object _ _ _ _ HJ _ OK) as (_ & HMp & _). destruct (jc_dict _ _ _ _ HJ kw _ _ HX) as [ND NI].
    match type of MF with make_filler _ _ (HAnn _ ?ts) _ = _ => set (toks := ts) in * end.
    destruct (Filler_main.c05_first_coercer_wins_proof P s (c_ty c) toks [] f N1 N2 MF) as (cs & vs & DC & DV & H).
    { destruct HS as [-> | ->]; [left|right]; reflexivity. }
    change (eff_style s (own_ops [] ++ toks)) with s in H.
    unfold declared_coercers in DC. unfold declared_validators in DV. cbn in DC, DV.
    inversion DV; subst vs. inversion DC as [|? c0 ? r Y DR]; subst. inversion DR; subst. inversion Y as [g c' HY| |]; subst. cbn in HY. injection HY as <-.
    assert (NC : ~ class_ok P s (c_ty c) (js_object J kw)).
    { destruct HS as [-> | ->]; cbn; [intros [E|E]; congruence|assumption]. }
    destruct (H (js_object J kw) w1 NC) as [_ H']. destruct (H' [] _ [] _ w1 eq_refl (tried_nil _ _ _)) as (A1 & _). cbn [in_order] in A1.
    rewrite (A1 y w2); [reflexivity| |].
    + rewrite (from_mapping_selected R (S n) c sel_empty _ kw kw w1 HMp); [exact EC|reflexivity].
    + destruct HS as [-> | ->]; cbn; [left|]; exact HTY.
Qed.

Lemma elements_read : forall w g l, (forall v, In v l -> reads w (call P g) v) ->
  exists js N, (forall n, N <= n -> mapM (enc n) l w = (Ok js, w)) /\
  forall w1, all_kept R w w1 ->
  exists ys w2, mapM (call P g) (map (of_json J) js) w1 = (Ok ys, w2) /\ all_kept R w1 w2 /\ List.length l = List.length ys /\
    forall n a b, nth_error l n = Some a -> nth_error ys n = Some b -> same_content R ctx J w w2 a b.
Proof.
  intros w g l. induction l as [|v r IH]; intro H.
  - exists [], 0. split; [reflexivity|]. intros w1 HK. exists [], w1. split; [reflexivity|]. split; [intros ? ? E; exact E|].
    split; [reflexivity|]. intros [|n] a b E; discriminate.
  - destruct (H v (or_introl eq_refl)) as (j & N1 & E1 & HR1).
    destruct IH as (js & N2 & E2 & HR2); [intros; apply H; right; assumption|].
    exists (j :: js), (max N1 N2). split.
    + intros n HN. specialize (E2 n ltac:(lia)). specialize (E1 n ltac:(lia)). cbn [mapM]. apply bind_ok. exists j, w. split; [exact E1|].
      apply bind_ok. exists js, w. split; [exact E2|reflexivity].
    + intros w1 HK. destruct (HR1 w1 HK) as (y & w2 & EC & HK2 & HS).
      destruct (HR2 w2 (kept_trans _ _ _ HK HK2)) as (ys & w3 & EM & HK3 & LY & HSS).
      exists (y :: ys), w3. split; [|split; [eapply kept_trans; eassumption|split; [cbn; f_equal; exact LY|]]].
      * cbn [map mapM]. apply bind_ok. exists y, w2. split; [exact EC|]. apply bind_ok. exists ys, w3. split; [exact EM|reflexivity].
      * intros [|n] a b EA EB; [injection EA as <-; injection EB as <-; eapply same_later; eassumption|]. eapply HSS; eassumption.
Qed.

Lemma list_value_read : forall f s h g w x l, json_contract R ctx J t_list -> checked s ->
  make_filler P s (HIter RkPlain t_list h) [] = Ok f -> make_filler P s h [] = Ok g ->
  hollow_hint s no_sub_tokens [] [] h = false ->
  js_shape J x = Array l -> type_of P x = t_list -> (forall v, In v l -> reads w (call P g) v) -> reads w (call P f) x.
Proof.
  intros f s h g w x l HJ HS MF MG HH HX HT HL. destruct (elements_read w g l HL) as (js & N & EJ & HR).
  exists (JArr js), (S N). split.
  - intros m Hm. destruct m as [|m]; [lia|]. cbn [encode]. rewrite HX. apply bind_ok. exists js, w. split; [apply EJ; lia|reflexivity].
  - intros w1 HK. destruct (HR w1 HK) as (ys & w2 & EM & HK2 & LY & HSS). exists (js_array J ys), w2.
    destruct (jc_array _ _ _ _ HJ ys) as (SY & _ & TY & _).
    split; [|split; [exact HK2|eapply same_list; [exact HX|exact SY|congruence|exact LY|exact HSS]]].
    cbn [of_json]. set (vs := map (of_json J) js) in *. destruct (jc_array _ _ _ _ HJ vs) as (_ & EV & TV & _).
    change (make_filler P s (HAnn (HIter RkPlain t_list h) []) [] = Ok f) in MF.
    destruct (Filler_main.c10_elements_proof P s RkPlain t_list h [] [] f (jc_plain _ _ _ _ HJ) MF) as (f0 & g0 & MF0 & MG0 & HC).
    change (make_filler P s h [] = Ok g0) in MG0. assert (g0 = g) by congruence. subst g0.
    rewrite HC. destruct (jc_plain _ _ _ _ HJ) as (_ & N1 & N2).
    destruct (Filler_main.c04_matching_not_coerced_proof P s t_list [] _ f0 N1 N2 MF0) as (vd & _ & HV).
    { destruct HS as [-> | ->]; [left|right]; reflexivity. }
    destruct (HV (js_array J vs)) with (w := w1) as [_ HV'].
    { destruct HS as [-> | ->]; cbn; [left|]; exact TV. }
    apply bind_ok. exists (js_array J vs), w1. split; [apply HV'; reflexivity|].
    change (sub_ops (@nil (option nat * @token obj ty W)) 0) with (@nil (@token obj ty W)). rewrite HH. unfold fill_elements. rewrite EV. apply bind_ok. exists ys, w2. split; [exact EM|].
    destruct (same_objects P vs ys) eqn:ES; [|apply (jc_list _ _ _ _ HJ)].
    apply Filler_eqs.same_objects_eq in ES. subst ys. reflexivity.
Qed.

Lemma make_none : forall s (g : filler), checked s -> make_filler P s HNone [] = Ok g ->
  g = FAnn {| a_kind := KNone; a_args := []; a_style := s; a_coercers := []; a_validators := []; a_bound := true |}.
Proof.
  intros s g HS HM. destruct (isabstract P (t_none P)) eqn:HA.
  - destruct HS as [-> | ->].
    + assert (E : make_filler P SCheck HNone [] =
        Ok (FAnn {| a_kind := KNone; a_args := []; a_style := SCheck; a_coercers := []; a_validators := []; a_bound := true |})) by reflexivity.
      rewrite E in HM. congruence.
    + exfalso. cbv -[isabstract t_none rt_py] in HM. rewrite HA in HM. discriminate.
  - assert (E : make_filler P s HNone [] =
      Ok (FAnn {| a_kind := KNone; a_args := []; a_style := s; a_coercers := []; a_validators := []; a_bound := true |}))
      by (destruct HS as [-> | ->]; cbv -[isabstract t_none rt_py]; rewrite ?HA; reflexivity).
    rewrite E in HM. congruence.
Qed.
Lemma none_refuses : forall s g v w, checked s -> make_filler P s HNone [] = Ok g -> v <> o_none P ->
  exists e, fill P g v w = (Raise e, w) /\ is_Exception e = true.
Proof.
  intros s g v w HS HM HV. assert (HN : py_is P v (o_none P) = false).
  { destruct (py_isP P v (o_none P)) as [E|E]; [contradiction|reflexivity]. }
  apply make_none in HM; [|exact HS]. subst g. destruct HS as [-> | ->]; cbn; unfold afill, bind; cbn; rewrite HN; cbn; eexists; split; reflexivity.
Qed.
Lemma none_accepts : forall s g w, checked s -> make_filler P s HNone [] = Ok g -> fill P g (o_none P) w = (Ok (o_none P, PStrict), w).
Proof.
  intros s g w HS HM. assert (HN : py_is P (o_none P) (o_none P) = true) by (destruct (py_isP P (o_none P) (o_none P)) as [_|E]; [reflexivity|destruct (E eq_refl)]).
  apply make_none in HM; [|exact HS]. subst g. destruct HS as [-> | ->]; cbn; unfold afill, bind; cbn; rewrite HN; cbn; reflexivity.
Qed.
Lemma optional_fills : forall s (h : @hint obj ty W) f g, checked s -> make_filler P s (HUnion [h; HNone]) [] = Ok f -> make_filler P s h [] = Ok g ->
  exists gn, make_filler P s HNone [] = Ok gn /\
  forall x w, hollow_hint s no_sub_tokens [] [] h && hollow_hint s no_sub_tokens [] [] (@HNone obj ty W) = false ->
    call P f x w = (let* os := attempts [fill P g; fill P gn] x in lift (verdict P os)) w.
Proof.
  intros s h f g HS HM HG. change (make_filler P s (HAnn (HUnion [h; HNone]) []) [] = Ok f) in HM.
  destruct (Filler_main.c09_union_proof P s [h; HNone] [] [] f ltac:(discriminate) HM) as (gs & HL & HN & HC).
  destruct (HN 0 h eq_refl) as (g0 & E0 & M0). destruct (HN 1 HNone eq_refl) as (g1 & E1 & M1).
  destruct gs as [|a [|b [|]]]; try discriminate. cbn in E0, E1. injection E0 as ->. injection E1 as ->.
  change (make_filler P s h [] = Ok g0) in M0. assert (g0 = g) by congruence. subst g0.
  exists g1. split; [exact M1|]. intros x w HH. rewrite HC. change (sub_ops (@nil (option nat * @token obj ty W)) ?n) with (@nil (@token obj ty W)).
  cbn [all_i]. rewrite andb_true_r.
  change (hollow_hint s no_sub_tokens (sub_ops [] 0 ++ [] ++ own_ops []) [] h) with (hollow_hint s no_sub_tokens [] [] h).
  change (hollow_hint s no_sub_tokens (sub_ops [] 1 ++ [] ++ own_ops []) [] HNone) with (hollow_hint s no_sub_tokens [] [] (@HNone obj ty W)).
  change (@own_ops obj ty W []) with (@nil (@token obj ty W)). cbn [app]. rewrite HH. reflexivity.
Qed.
Lemma enc_none : forall n x w j w', json_contract R ctx J t_list -> enc n x w = (Ok j, w') -> of_json J j = o_none P -> x = o_none P.
Proof.
  intros n x w j w' HJ. revert x w j w'. induction n as [|n IH]; intros x w j w' HE HO; [discriminate|]. cbn [encode] in HE.
  destruct (jc_some _ _ _ _ HJ) as [HA HB]. destruct (js_shape J x) as [|l|d|].
  - injection HE as <- _. exact HO.
  - apply bind_ok in HE. destruct HE as (js & w1 & _ & HE). injection HE as <- _. cbn in HO. destruct (HA _ HO).
  - apply bind_ok in HE. destruct HE as (js & w1 & _ & HE). injection HE as <- _. cbn in HO. destruct (HB _ HO).
  - apply bind_ok in HE. destruct HE as (y & w1 & E1 & HE). apply IH in HE; [|exact HO]. subst y.
    unfold with_to_dict in E1. apply bind_ok in E1. destruct E1 as (d & w2 & _ & E1). injection E1 as E1 _. destruct (HB _ E1).
Qed.
Lemma hollow_none : forall s, checked s -> hollow_hint s no_sub_tokens [] [] (@HNone obj ty W) = false.
Proof. intros s [-> | ->]; reflexivity. Qed.

Lemma tree_reads : forall w f x, json_contract R ctx J t_list -> json_tree R ctx J t_list w f x -> reads w (call P f) x.
Proof.
  intros w f x HJ H. induction H as [f x HX HC|f s n c x i HS HRC HI MF _ IH|f s h g x l HS MF MG HH HX HT _ IH|f s h g x HS MF MG HNN _ IH|f s h g HS MF MG HNS HRef].
  - exists (JLeaf x), 1. split.
    + intros m Hm. destruct m as [|m]; [lia|]. cbn [encode]. rewrite HX. reflexivity.
    + intros w1 HK. exists x, w1. split; [apply HC|]. split; [intros ? ? E; exact E|apply same_scalar; assumption].
  - eapply record_value_read; eassumption.
  - eapply list_value_read; eassumption.
  - destruct (optional_fills s h f g HS MF MG) as (gn & MN & HC). destruct IH as (j & N & EJ & HR). exists j, N. split; [exact EJ|].
    intros w1 HK. destruct (HR w1 HK) as (y & w2 & EC & HK2 & HSC). exists y, w2. split; [|split; assumption].
    rewrite HC by (rewrite (hollow_none s HS); apply andb_false_r).
    assert (HV : of_json J j <> o_none P) by (intro HV; apply HNN; eapply (enc_none N x w j w HJ); [apply EJ; lia|exact HV]).
    apply Filler_proofs.call_fill in EC. destruct EC as [p EC].
    destruct (none_refuses s gn (of_json J j) w2 HS MN HV) as (e & EN & EX).
    cbn [attempts]. unfold bind at 1. rewrite EC. unfold bind at 1. rewrite EN, EX. cbn. destruct p; reflexivity.
  - destruct (optional_fills s h f g HS MF MG) as (gn & MN & HC). exists (JLeaf (o_none P)), 1. split.
    + intros m Hm. destruct m as [|m]; [lia|]. cbn [encode]. rewrite HNS. reflexivity.
    + intros w1 HK. exists (o_none P), w1. split; [|split; [intros ? ? E; exact E|apply same_scalar; assumption]].
      rewrite HC by (rewrite (hollow_none s HS); apply andb_false_r). cbn [of_json].
      destruct (HRef w1) as (e & EN & EX). cbn [attempts]. unfold bind at 1. rewrite EN, EX. unfold bind at 1. rewrite (none_accepts s gn w1 HS MN). cbn. reflexivity.
Qed.

Lemma encode_ok_all : forall (default : option (obj -> M W obj)) n (d : dict obj) w js w', encode_items (encode J n default) d w = (Ok js, w') ->
  forall k v, In (k, v) d -> exists j wa wb, encode J n default v wa = (Ok j, wb).
Proof.
  intros default n d. induction d as [|[k v] r IH]; intros w js w' H k' v' HI; [destruct HI|].
  unfold encode_items in H. cbn [mapM fst snd] in H. apply bind_ok in H. destruct H as (p & w1 & H1 & H2).
  apply bind_ok in H1. destruct H1 as (j & w2 & E1 & _). apply bind_ok in H2. destruct H2 as (js' & w3 & E2 & _).
  destruct HI as [HI|HI]; [injection HI as <- <-; eauto|]. eapply IH; [exact E2|exact HI].
Qed.

Lemma items_plain : forall (en : obj -> M W (json obj)) (d : dict obj) (w : W),
  (forall x w, (exists j, en x w = (Ok j, w)) \/ (exists e, en x w = (Raise e, w) /\ (exc_cls e = TypeError \/ exc_cls e = RecursionError))) ->
  (exists js, encode_items en d w = (Ok js, w)) \/
  (exists e, encode_items en d w = (Raise e, w) /\ (exc_cls e = TypeError \/ exc_cls e = RecursionError)).
Proof.
  intros en d w H. unfold encode_items. induction d as [|[k v] r IH]; [left; eexists; reflexivity|].
  destruct (H v w) as [[j E]|(e & E & HE)].
  - destruct IH as [[js E']|(e & E' & HE)].
    + left. exists ((k, j) :: js). cbn [mapM fst snd]. apply bind_ok. exists (k, j), w. split; [apply bind_ok; exists j, w; split; [exact E|reflexivity]|].
      apply bind_ok. exists js, w. split; [exact E'|reflexivity].
    + right. exists e. split; [|exact HE]. cbn [mapM fst snd]. apply bind_raise. right. exists (k, j), w. split; [apply bind_ok; exists j, w; split; [exact E|reflexivity]|].
      apply bind_raise. left. exact E'.
  - right. exists e. split; [|exact HE]. cbn [mapM fst snd]. apply bind_raise. left. apply bind_raise. left. exact E.
Qed.
Lemma encode_plain : forall n x (w : W), (exists j, encode J n None x w = (Ok j, w)) \/
  (exists e, encode J n None x w = (Raise e, w) /\ (exc_cls e = TypeError \/ exc_cls e = RecursionError)).
Proof.
  induction n as [|n IH]; intros x w; [right; eexists; split; [reflexivity|right; reflexivity]|].
  cbn [encode]. destruct (js_shape J x) as [|l|d|].
  - left. eexists. reflexivity.
  - assert (H : (exists js, mapM (encode J n None) l w = (Ok js, w)) \/
      (exists e, mapM (encode J n None) l w = (Raise e, w) /\ (exc_cls e = TypeError \/ exc_cls e = RecursionError))).
    { induction l as [|a r IHl]; [left; eexists; reflexivity|]. cbn [mapM].
      destruct (IH a w) as [[j E]|(e & E & HE)]; [|right; exists e; split; [unfold bind at 1; rewrite E; reflexivity|assumption]].
      destruct IHl as [[js E']|(e & E' & HE)]; [left; exists (j :: js); unfold bind at 1; rewrite E; unfold bind; rewrite E'; reflexivity|right; exists e; split; [unfold bind at 1; rewrite E; unfold bind; rewrite E'; reflexivity|exact HE]]. }
    destruct H as [[js E]|(e & E & HE)]; [left; eexists; unfold bind; rewrite E; reflexivity|right; exists e; split; [unfold bind; rewrite E; reflexivity|exact HE]].
  - assert (H : (exists js, encode_items (encode J n None) d w = (Ok js, w)) \/
      (exists e, encode_items (encode J n None) d w = (Raise e, w) /\ (exc_cls e = TypeError \/ exc_cls e = RecursionError))).
    { apply items_plain. exact IH. }
    destruct H as [[js E]|(e & E & HE)]; [left; eexists; unfold bind; rewrite E; reflexivity|right; exists e; split; [unfold bind; rewrite E; reflexivity|exact HE]].
  - right. eexists. split; [reflexivity|left; reflexivity].
Qed.
End J.

Lemma c147_nested_partial_proof : forall {obj ty W} (R : Rt obj ty W) ctx J t_list n c w x i,
  json_contract R ctx J t_list -> readable_class R ctx c -> instance_of R ctx c w x i ->
  (forall k f v, dget k (c_fields c) = Some f -> dget k (i_dict i) = Some v -> json_tree R ctx J t_list w (f_filler f) v) ->
  exists j N, (forall m, N <= m -> to_json_default R ctx J m (Some (with_to_dict R ctx J all_fields)) all_fields x w = (Ok j, w)) /\
  forall t w1, all_kept R w w1 -> json_loads R t w1 = (Ok (of_json J j), w1) ->
  exists y w2, from_json R (S n) c sel_empty t w1 = (Ok y, w2) /\ lookup R w1 y = None /\ all_kept R w1 w2 /\
    same_content R ctx J w w2 x y.
Proof.
  intros obj ty W R ctx J t_list n c w x i HJ HRC HI HF. pose proof HRC as (HM & _).
  destruct (record_read R ctx J c w x i HRC HI) as (js & N & EJ & OJ & HR).
  { intros k f v EF EV. eapply tree_reads; [exact HJ|]. eapply HF; eassumption. }
  exists (JObj js), N. split.
  - intros m Hm. apply bind_ok. exists (attributes c i), w. split; [apply to_dict_all; [exact (made_named R c HM)|exact HI]|].
    apply bind_ok. exists js, w. split; [apply EJ; exact Hm|reflexivity].
  - intros t w1 HK HLo. destruct (HR n w1 HK) as (y & w2 & EC & HN & _ & HK2 & HSC). exists y, w2. split; [|auto].
    unfold from_json. cbn [of_json] in HLo. set (kw := map (fun kj => (fst kj, of_json J (snd kj))) js) in *.
    assert (OK : dict_ok kw) by (unfold dict_ok, kw, keys; rewrite map_map; exact OJ).
    destruct (jc_object _ _ _ _ HJ _ OK) as (_ & _ & HUn).
    apply bind_ok. exists (js_object J kw), w1. split; [exact HLo|].
    apply bind_ok. exists kw, w1. split; [apply HUn|]. apply bind_ok. exists kw, w1. split; [reflexivity|exact EC].
Qed.

Lemma c147_default_refuted_proof : forall {obj ty W} (R : Rt obj ty W) ctx J t_list m c w x i k v iv,
  json_contract R ctx J t_list -> made (rt_py R) c -> instance_of R ctx c w x i ->
  In k (keys (c_fields c)) -> dget k (i_dict i) = Some v -> lookup R w v = Some iv ->
  exists e, to_json_default R ctx J m None all_fields x w = (Raise e, w) /\ (exc_cls e = TypeError \/ exc_cls e = RecursionError).
Proof.
  intros obj ty W R ctx J t_list m c w x i k v iv HJ HM HI HK EV HL. unfold to_json_default.
  pose proof (to_dict_all R ctx c w x i (made_named R c HM) HI) as ED. unfold bind at 1. rewrite ED.
  destruct (items_plain (encode J m None) (attributes c i) w (fun x w => encode_plain J m x w)) as [[js E]|(e & E & HE)].
  - exfalso. assert (HIn : In (k, v) (attributes c i)).
    { unfold attributes. apply in_flat_map. apply in_keys_get in HK. destruct HK as [f EF]. exists (k, f). split; [apply dget_Some_In; exact EF|]. cbn [fst]. rewrite EV. left. reflexivity. }
    destruct (encode_ok_all J None m _ _ _ _ E k v HIn) as (j & wa & wb & EE).
    destruct m as [|m]; [discriminate|]. cbn [encode] in EE. rewrite (jc_record _ _ _ _ HJ w v iv HL) in EE. discriminate.
  - exists e. split; [unfold bind; rewrite E; reflexivity|exact HE].
Qed.

Lemma c147_hollow_refuted_proof : forall {obj ty W} (R : Rt obj ty W) ctx J t_list n c w x i k f b v iv,
  json_contract R ctx J t_list -> readable_class R ctx c -> instance_of R ctx c w x i ->
  dget k (c_fields c) = Some f -> (forall u w', call (rt_py R) (f_filler f) u w' = (Ok u, w')) ->
  dget k (i_dict i) = Some v -> readable_class R ctx b -> instance_of R ctx b w v iv ->
  (forall k' f' v', dget k' (c_fields b) = Some f' -> dget k' (i_dict iv) = Some v' -> json_tree R ctx J t_list w (f_filler f') v') ->
  (forall k' f' v', k' <> k -> dget k' (c_fields c) = Some f' -> dget k' (i_dict i) = Some v' -> json_tree R ctx J t_list w (f_filler f') v') ->
  exists j N, (forall m, N <= m -> to_json_default R ctx J m (Some (with_to_dict R ctx J all_fields)) all_fields x w = (Ok j, w)) /\
  forall t w1, all_kept R w w1 -> json_loads R t w1 = (Ok (of_json J j), w1) ->
  exists y w2 d, from_json R (S n) c sel_empty t w1 = (Ok y, w2) /\ getattr R y k w2 = (Ok (js_object J d), w2) /\
    ~ same_content R ctx J w w2 x y.
Proof.
  intros obj ty W R ctx J t_list n c w x i k f b v iv HJ HRC HI EF HF EV HB HV HBF HCF. pose proof HRC as (HM & _). pose proof HB as (HMB & _).
  destruct (record_read R ctx J b w v iv HB HV) as (jb & Nb & EJb & OJb & _).
  { intros k' f' v' EF' EV'. eapply tree_reads; [exact HJ|]. eapply HBF; eassumption. }
  set (Q := fun k' (w' : W) (a y : obj) => k' = k -> exists d, y = js_object J d).
  destruct (record_read_as R ctx J Q c w x i) as (js & N & EJ & OJ & HR); try assumption.
  { intros k' wa wb a y _ H. exact H. }
  { intros k' f' v' EF' EV'. destruct (string_dec k' k) as [->|NE].
    - assert (f' = f) by congruence. assert (v' = v) by congruence. subst f' v'. exists (JObj jb), (S (S Nb)).
      split; [apply (record_written R ctx J t_list b w v iv jb Nb HJ HMB HV EJb)|]. intros w1 HK. eexists; exists w1. split; [apply HF|].
      split; [intros ? ? E; exact E|]. intros _. cbn [of_json]. eexists. reflexivity.
    - destruct (tree_reads R ctx J t_list w (f_filler f') v' HJ (HCF _ _ _ NE EF' EV')) as (j' & N' & E' & HR'). exists j', N'. split; [exact E'|].
      intros w1 HK. destruct (HR' w1 HK) as (y & w2 & EC & HK2 & _). exists y, w2. split; [exact EC|]. split; [exact HK2|]. intro. contradiction. }
  exists (JObj js), N. split.
  - intros m Hm. apply bind_ok. exists (attributes c i), w. split; [apply to_dict_all; [exact (made_named R c HM)|exact HI]|].
    apply bind_ok. exists js, w. split; [apply EJ; exact Hm|reflexivity].
  - intros t w1 HK HLo. destruct (HR n w1 HK) as (y & w2 & EC & HN & _ & HK2 & j & HY & HQ).
    pose proof HY as (_ & HLy & _ & _ & FY). destruct (FY k) as [u EU]; [eapply dget_some_key; exact EF|].
    destruct (HQ k v u) as [d ->]; [eapply dget_some_key; exact EF|exact EV|exact EU|reflexivity|].
    exists y, w2, d. split; [|split].
    + unfold from_json. cbn [of_json] in HLo. set (kw := map (fun kj => (fst kj, of_json J (snd kj))) js) in *.
      assert (OK : dict_ok kw) by (unfold dict_ok, kw, keys; rewrite map_map; exact OJ).
      destruct (jc_object _ _ _ _ HJ _ OK) as (_ & _ & HUn).
      apply bind_ok. exists (js_object J kw), w1. split; [exact HLo|].
      apply bind_ok. exists kw, w1. split; [apply HUn|]. apply bind_ok. exists kw, w1. split; [reflexivity|exact EC].
    + unfold getattr. rewrite HLy, EU. reflexivity.
    + pose proof HI as (_ & HLx & HTx & _). pose proof HV as (_ & HLv & _). intro HS. inversion HS as [x' HX|x' y' l m HX _ _ _ _|c' x' i' y' j' HI' HY' HH]; subst.
      * rewrite (jc_record _ _ _ _ HJ w y i HLx) in HX. discriminate.
      * rewrite (jc_record _ _ _ _ HJ w x i HLx) in HX. discriminate.
      * pose proof HI' as (HX' & HLx' & HTx' & _). pose proof HI as (HX0 & _). assert (i' = i) by congruence. subst i'. assert (c' = c) by congruence. subst c'.
        pose proof HY' as (_ & HLy' & _). assert (j' = j) by congruence. subst j'.
        specialize (HH k v (js_object J d) ltac:(eapply dget_some_key; exact EF) EV EU).
        inversion HH as [x' HX|x' y' l m HX _ _ _ _|c' x' i' y' j' HI2 HY2 _]; subst.
        -- match goal with HL : lookup R w ?z = Some iv, HX : js_shape J ?z = Scalar |- _ => rewrite (jc_record _ _ _ _ HJ w z iv HL) in HX; discriminate end.
        -- rewrite (jc_record _ _ _ _ HJ w v iv HLv) in HX. discriminate.
        -- destruct HY2 as (HX2 & _ & _ & HT2 & _). destruct (jc_dict _ _ _ _ HJ d _ _ HX2) as [ND _]. congruence.
Qed.

(** json on the small run time *)
Definition demo_json : JsonRt dobj := {|
  js_shape := fun x => match x with
    | DNone | DBool _ | DInt _ | DSub _ | DStr _ => Scalar
    | DList l | DTuple l => Array (unchain l)
    | DDict _ => match dict_of x with Some d => Object d | None => Opaque end
    | _ => Opaque
    end;
  js_array := dlist;
  js_object := mapping
|}.

(** class Point(RecordBase): x: int; and class Line(RecordBase) with p:
    Annotated[Point, CallCoercion(Point.from_mapping)], more: List[Annotated[...]], n: int and,
    declared hollow, q: Point *)
Definition point_decl := rdecl 0 false false (Some false) SCheck [("x", (an TInt, NoDefault))] [] no_post.
Definition point := made_of point_decl.
Definition point_hint : @hint dobj dty rstate :=
  HAnn (HTy (TRec 0)) [TCoerce (CGlobal (fun _ => Ok (fun v => from_mapping (demo_rt 0) 1 point sel_empty [v] [])))].
Definition line_decl := rdecl 1 false false (Some false) SCheck
  [("p", (AHint point_hint [], NoDefault)); ("more", (AHint (HIter RkPlain TList point_hint) [], NoDefault)); ("n", (an TInt, DefVal (DInt 7)))] [] no_post.
Definition line := made_of line_decl.
Definition loose_decl := rdecl 2 false false (Some false) SHollow [("q", (an (TRec 0), NoDefault))] [] no_post.
Definition loose_line := made_of loose_decl.
Definition line_ctx (t : dty) : option (@cls dobj dty rstate) :=
  match t with TRec 0 => Some point | TRec 1 => Some line | TRec 2 => Some loose_line | _ => None end.

(** two points, and a line and an unchecked line that hold them *)
Definition line_state (a b : Z) : rstate := RState []
  [Inst (TRec 0) [("x", DInt a)] SUnset; Inst (TRec 0) [("x", DInt b)] SUnset;
   Inst (TRec 1) [("p", DRef (TRec 0) 0); ("more", dlist [DRef (TRec 0) 1; DRef (TRec 0) 0]); ("n", DInt 7)] SUnset;
   Inst (TRec 2) [("q", DRef (TRec 0) 1)] SUnset] [].
Definition point_inst (a : Z) : inst dobj dty := Inst (TRec 0) [("x", DInt a)] SUnset.
