(** Inst_main.v -- proofs of the properties stated in Props_Inst.v: exporting, comparing, hashing and ordering record instances (RecordBase._to_dict, __eq__, __hash__, __lt__ ...) *)

From Verif Require Import Base Py Select Filler Classes Spec_Classes Runtime Record Spec_Record Spec_Inst Demo DemoRt DemoCls.
From Verif Require Dict_proofs Filler_proofs Classes_proofs Record_proofs Classes_main Inst_proofs.
Open Scope string_scope.
Open Scope list_scope.

Import Dict_proofs Filler_proofs Classes_proofs Record_proofs Classes_main Inst_proofs.
Lemma made_named : forall {obj ty W} (R : Rt obj ty W) c, made (rt_py R) c -> well_named c.
Proof. intros obj ty W R c H. destruct (made_inv (rt_py R) c H) as [HO HN]. split; [assumption|]. intros k f E. apply (HN k f E). Qed.

Lemma c32_to_dict_proof : forall {obj ty W} (R : Rt obj ty W) ctx D eqb c a black w x i,
  made (rt_py R) c -> has_eq R D eqb -> defaults_in D c -> instance_of R ctx c w x i -> values_in D c i ->
  e_black a = BlackSet black -> e_sort a = SortNone ->
  exists d, to_dict R ctx x a sel_empty w = (Ok d, w) /\ NoDup (keys d) /\
    keys d = filter (fun k => smem k (keys d)) (keys (c_fields c)) /\
    forall k v, In (k, v) d <->
      exists f, dget k (c_fields c) = Some f /\ dget k (i_dict i) = Some v /\ to_export eqb a black k f v.
Proof.
  intros obj ty W R ctx D eqb c a black w x i HM HE HD HI HV EB ES. apply (made_named R) in HM. pose proof HM as [HO _].
  exists (exported eqb a black c i). rewrite (to_dict_exported R ctx D eqb HE c a black w x i) by assumption. rewrite ES. cbn [sort_items].
  split; [reflexivity|]. split; [apply exported_ok; assumption|]. split.
  - rewrite (exported_order eqb a black c i HO) at 1. apply filter_ext_in. intros k HK.
    destruct (smem k (keys (exported eqb a black c i))) eqn:E.
    + apply dmem_In. apply smem_In. assumption.
    + apply dmem_false. apply smem_false. assumption.
  - intros k v. apply in_exported. assumption.
Qed.

Lemma c33_sorted_proof : forall {obj ty W} (R : Rt obj ty W) ctx (incl : bool) s black white x w d w' le,
  order_of s = Some le -> (forall le', s = SortKey le' -> total_preorder le') ->
  to_dict R ctx x (ExportArgs incl SortNone black white) sel_empty w = (Ok d, w') ->
  exists d', to_dict R ctx x (ExportArgs incl s black white) sel_empty w = (Ok d', w') /\
    Permutation d d' /\ sorted_by le d' /\
    forall k, filter (fun kv => le k (fst kv) && le (fst kv) k) d' = filter (fun kv => le k (fst kv) && le (fst kv) k) d.
Proof.
  intros obj ty W R ctx incl s black white x w d w' le EO HK H.
  pose proof (order_of_preorder s le EO HK) as TP.
  assert (EX : forall ok fs w, extract R ok x (ExportArgs incl s black white) fs w = extract R ok x (ExportArgs incl SortNone black white) fs w).
  { intros ok. induction fs as [|f r IH]; intro w1; [reflexivity|]. cbn [extract]. unfold bind.
    change (extract_one R ok x (ExportArgs incl s black white) f w1) with (extract_one R ok x (ExportArgs incl SortNone black white) f w1).
    destruct (extract_one R ok x (ExportArgs incl SortNone black white) f w1) as [[h|e] w2]; [|reflexivity]. rewrite IH. reflexivity. }
  unfold to_dict, with_class in *. destruct (class_of R ctx x w) as [c|]; [|discriminate].
  apply bind_ok in H. destruct H as (d1 & w1 & H1 & H2). unfold lift in H2. cbn in H2. injection H2 as -> ->.
  unfold to_dict_of in H1. apply bind_ok in H1. destruct H1 as (l & w1 & H1 & H2). cbn in H2. injection H2 as <- <-.
  exists (sort_items s l). split.
  - apply bind_ok. exists (sort_items s l), w1. split; [|reflexivity]. unfold to_dict_of. apply bind_ok. exists l, w1. rewrite EX. auto.
  - assert (ES : sort_items s l = sort_by le l) by (destruct s; cbn in EO; try discriminate; injection EO as <-; reflexivity).
    rewrite ES. split; [apply sort_perm|]. split; [apply sort_sorted; assumption|]. intro k.
    apply (sort_stable le l (fun k0 => le k k0 && le k0 k)); [assumption|].
    destruct TP as [_ TR]. intros a b HA HB. apply andb_true_iff in HA, HB. destruct HA, HB. eapply TR; eassumption.
Qed.

Section Equality.
Context {obj ty W : Type} (R : Rt obj ty W) (ctx : ty -> option (@cls obj ty W)).
Variables (D : obj -> Prop) (eqb : obj -> obj -> bool).
Hypothesis HE : has_eq R D eqb.

Lemma fields_equal_pure : forall (c : @cls obj ty W) x y (i j : inst obj ty) w, 
  (forall k, In k (keys (c_fields c)) -> exists v, dget k (i_dict i) = Some v) ->
  (forall k, In k (keys (c_fields c)) -> exists v, dget k (i_dict j) = Some v) ->
  values_in D c i -> values_in D c j ->
  (exists i', lookup R w x = Some i' /\ i_dict i' = i_dict i) -> (exists j', lookup R w y = Some j' /\ i_dict j' = i_dict j) ->
  exists b, fields_equal R (keys (c_fields c)) x y w = (Ok b, w) /\ (b = true <-> fieldwise eqb c i j).
Proof.
  intros c x y i j w FI FJ VI VJ (i' & HI & EI) (j' & HJ & EJ). unfold fieldwise.
  assert (G : forall ks, (forall k, In k ks -> In k (keys (c_fields c))) ->
    exists b, fields_equal R ks x y w = (Ok b, w) /\
      (b = true <-> forall k a b, In k ks -> dget k (i_dict i) = Some a -> dget k (i_dict j) = Some b -> eqb a b = true)).
  { induction ks as [|k r IH]; intro HS.
    - exists true. split; [reflexivity|]. split; [intros _ ? ? ? []|reflexivity].
    - assert (KI : In k (keys (c_fields c))) by (apply HS; left; reflexivity).
      destruct (FI k KI) as [a EA]. destruct (FJ k KI) as [b EB]. destruct IH as (b0 & EQ & HB); [intros; apply HS; right; assumption|].
      cbn [fields_equal]. unfold bind, getattr. rewrite HI, EI, EA, HJ, EJ, EB.
      rewrite (proj2 (HE a b w (VI k a KI EA) (VJ k b KI EB))). destruct (eqb a b) eqn:EE; cbn [negb].
      + exists b0. split; [exact EQ|]. rewrite HB. split; intro H.
        * intros k' a' b' [<-|HIn] HA' HB'; [congruence|]. exact (H k' a' b' HIn HA' HB').
        * intros k' a' b' HIn. apply H. right; assumption.
      + exists false. split; [reflexivity|]. split; [discriminate|]. intro H. rewrite (H k a b (or_introl eq_refl) EA EB) in EE. discriminate. }
  apply G. auto.
Qed.

Lemma fieldwise_exported : forall hf (c : @cls obj ty W) (i j : inst obj ty), dict_ok (c_fields c) -> equivalence D eqb -> defaults_in D c -> hash_contract D eqb hf ->
  (forall k, In k (keys (c_fields c)) -> exists v, dget k (i_dict i) = Some v) ->
  (forall k, In k (keys (c_fields c)) -> exists v, dget k (i_dict j) = Some v) ->
  values_in D c i -> values_in D c j -> fieldwise eqb c i j ->
  content_hash R eqb hf c i = content_hash R eqb hf c j.
Proof.
  intros hf c i j HO (E1 & E2 & E3) HD HC FI FJ VI VJ HF. unfold content_hash, exported. f_equal.
  assert (G : forall fs : dict (@field obj ty W), (forall k f, In (k, f) fs -> dget k (c_fields c) = Some f) ->
    map hf (dvalues (exported_from eqb no_args [] fs i)) = map hf (dvalues (exported_from eqb no_args [] fs j))).
  { induction fs as [|[k f] r IH]; intro HS; [reflexivity|].
    assert (EF : dget k (c_fields c) = Some f) by (apply HS; left; reflexivity).
    assert (KI : In k (keys (c_fields c))) by (eapply dget_some_key; exact EF).
    destruct (FI k KI) as [a EA]. destruct (FJ k KI) as [b EB].
    pose proof (VI k a KI EA) as DA. pose proof (VJ k b KI EB) as DB. pose proof (HF k a b KI EA EB) as AB.
    unfold exported_from. cbn [flat_map fst snd]. rewrite EA, EB. unfold dvalues. rewrite !map_app.
    specialize (IH (fun k f H => HS k f (or_intror H))). unfold dvalues, exported_from in IH. rewrite IH. f_equal.
    assert (ET : to_exportb eqb no_args [] k f a = to_exportb eqb no_args [] k f b).
    { unfold to_exportb. destruct (f_default f) as [|d|g] eqn:ED; try reflexivity.
      assert (EE : eqb d a = eqb d b); [|rewrite EE; reflexivity].
      pose proof (HD k f d EF ED) as DD. destruct (eqb d a) eqn:X, (eqb d b) eqn:Y; try reflexivity.
      - rewrite (E3 d a b) in Y by assumption. discriminate.
      - rewrite (E3 d b a) in X; auto. }
    rewrite ET. destruct (to_exportb eqb no_args [] k f b); [|reflexivity]. cbn. f_equal. apply HC; assumption. }
  apply G. intros k f HI. apply dget_In; assumption.
Qed.

Definition hash_ready (hf : obj -> Z) (c : @cls obj ty W) (i : inst obj ty) : Prop :=
  c_frozen c = true -> hash_contract D eqb hf /\ hashable R hf c i /\ cache_ok R eqb hf c i.

Lemma record_eq_char : forall hf c w x i y j, well_named c -> equivalence D eqb -> defaults_in D c ->
  instance_of R ctx c w x i -> instance_of R ctx c w y j -> values_in D c i -> values_in D c j ->
  hash_ready hf c i -> hash_ready hf c j ->
  exists b w', record_eq R ctx x y w = (Ok b, w') /\ (b = true <-> fieldwise eqb c i j) /\ fields_kept R w w' /\
    (c_frozen c = false -> w' = w) /\
    (c_frozen c = true -> b = true ->
       record_hash R ctx x w' = (Ok (content_hash R eqb hf c i), w') /\ record_hash R ctx y w' = (Ok (content_hash R eqb hf c i), w')).
Proof.
  intros hf c w x i y j HN HQ HD HI HJ VI VJ RI RJ. pose proof HI as (HX & HL & HT & TX & FI). pose proof HJ as (_ & HLJ & HTJ & TY & FJ).
  unfold record_eq, with_class. rewrite (class_of_instance R ctx c w x i HI), TX, TY.
  replace (ty_eqb (rt_py R) (c_ty c) (c_ty c)) with true by (destruct (ty_eqP (rt_py R) (c_ty c) (c_ty c)); congruence).
  cbn [negb]. destruct (c_frozen c) eqn:EF.
  - destruct (RI EF) as (HC & HH & CI). destruct (RJ EF) as (_ & HHJ & CJ).
    destruct (record_hash_content R ctx D eqb hf HE c w x i) as (w1 & H1 & K1); try assumption.
    assert (HJ1 : exists j1, lookup R w1 y = Some j1 /\ i_cls j1 = i_cls j /\ i_dict j1 = i_dict j /\ cache_ok R eqb hf c j1).
    { destruct (K1 y j HLJ) as (j1 & L1 & C1 & D1 & S1). exists j1. repeat (split; [assumption|]).
      destruct S1 as [S1|[S0 S1]].
      - destruct CJ as [CJ|(d & CJ1 & CJ2 & CJ3 & CJ4)]; [left; congruence|right]. exists d. rewrite D1, S1. auto.
      - subst j. apply content_cache_ok; [apply HN|]. rewrite S1. unfold content_hash, exported, exported_from. rewrite D1. reflexivity. }
    destruct HJ1 as (j1 & L1 & C1 & D1 & S1).
    assert (HJ1 : instance_of R ctx c w1 y j1).
    { split; [assumption|]. split; [assumption|]. split; [congruence|]. split; [assumption|]. intros k HK. rewrite D1. auto. }
    assert (VJ1 : values_in D c j1) by (intros k v HK E; rewrite D1 in E; eapply VJ; eassumption).
    assert (HHJ1 : hashable R hf c j1) by (intros k v HK E; rewrite D1 in E; eapply HHJ; eassumption).
    assert (CHJ : content_hash R eqb hf c j1 = content_hash R eqb hf c j) by (unfold content_hash, exported, exported_from; rewrite D1; reflexivity).
    destruct (record_hash_content R ctx D eqb hf HE c w1 y j1) as (w2 & H2 & K2); try assumption.
    assert (LX : exists i2, lookup R w2 x = Some i2 /\ i_dict i2 = i_dict i).
    { destruct (K1 x i HL) as (i1 & A1 & A2 & A3 & _). destruct (K2 x i1 A1) as (i2 & B1 & B2 & B3 & _). exists i2. split; [assumption|congruence]. }
    assert (LY : exists j2, lookup R w2 y = Some j2 /\ i_dict j2 = i_dict j).
    { destruct (K2 y j1 L1) as (j2 & B1 & B2 & B3 & _). exists j2. split; [assumption|congruence]. }
    assert (FK : fields_kept R w w2).
    { intros y0 j0 HL0. destruct (K1 y0 j0 HL0) as (j3 & A1 & A2 & A3 & _). destruct (K2 y0 j3 A1) as (j4 & B1 & B2 & B3 & _).
      exists j4. split; [assumption|]. split; congruence. }
    unfold bind at 1 2. rewrite H1. unfold bind at 1. rewrite H2. cbn [ret]. rewrite CHJ.
    destruct (Z.eqb_spec (content_hash R eqb hf c i) (content_hash R eqb hf c j)) as [EH|NH]; cbn [negb].
    + destruct (fields_equal_pure c x y i j w2) as (b & EB & HB); try assumption. exists b, w2. split; [unfold ret; exact EB|].
      split; [assumption|]. split; [assumption|]. split; [discriminate|]. intros _ _.
      destruct (K1 x i HL) as (i1 & A1 & A2 & A3 & A4). destruct (K2 x i1 A1) as (i2 & B1 & B2 & B3 & B4). destruct (K2 y j1 L1) as (j2 & Y1 & Y2 & Y3 & Y4).
      assert (SX : i_hash i2 = SHash (content_hash R eqb hf c i)).
      { destruct B4 as [B4|[B4 B5]]; [rewrite B4|rewrite B5, CHJ; congruence].
        unfold record_hash in H1. rewrite HL, HT, HX, EF in H1. cbn [negb] in H1.
        destruct A4 as [A4|[_ A4]]; [|exact A4]. rewrite A4. destruct (cache_ok_content R eqb hf c i (proj1 HN) CI) as [E|E]; [|exact E].
        exfalso. rewrite E in H1. unfold bind in H1. rewrite (to_dict_exported R ctx D eqb HE c no_args [] w x i) in H1 by (auto; reflexivity).
        cbn [sort_items e_sort no_args] in H1. rewrite (mapM_pure (v_hash R) hf) in H1.
        - rewrite HL in H1. injection H1 as <-. rewrite (lookup_store_same R x _ i w HL) in A1. injection A1 as <-. cbn in A4. rewrite E in A4. discriminate.
        - intros v HVI. unfold dvalues in HVI. apply in_map_iff in HVI. destruct HVI as ([k v'] & <- & HVI).
          apply (in_exported _ _ _ _ _ _ _ (proj1 HN)) in HVI. destruct HVI as (f & EFF & EV & _). apply (HH k); [|assumption].
          eapply dget_some_key. exact EFF. }
      assert (SY : i_hash j2 = SHash (content_hash R eqb hf c i)).
      { rewrite EH, <- CHJ. destruct Y4 as [Y4|[_ Y4]]; [rewrite Y4|exact Y4].
        destruct (cache_ok_content R eqb hf c j1 (proj1 HN) S1) as [E|E]; [|exact E].
        exfalso. unfold record_hash in H2. rewrite L1, C1, HTJ, HX, EF in H2. cbn [negb] in H2. rewrite E in H2. unfold bind in H2.
        rewrite (to_dict_exported R ctx D eqb HE c no_args [] w1 y j1) in H2 by (auto; reflexivity).
        cbn [sort_items e_sort no_args] in H2. rewrite (mapM_pure (v_hash R) hf) in H2.
        - rewrite L1 in H2. injection H2 as <-. rewrite (lookup_store_same R y _ j1 w1 L1) in Y1. injection Y1 as <-. cbn in Y4. rewrite E in Y4. discriminate.
        - intros v HVI. unfold dvalues in HVI. apply in_map_iff in HVI. destruct HVI as ([k v'] & <- & HVI).
          apply (in_exported _ _ _ _ _ _ _ (proj1 HN)) in HVI. destruct HVI as (f & EFF & EV & _). apply (HHJ1 k); [|assumption].
          eapply dget_some_key. exact EFF. }
      split; unfold record_hash.
      * rewrite B1, B2, A2, HT, HX, EF. cbn [negb]. rewrite SX. reflexivity.
      * rewrite Y1, Y2, C1, HTJ, HX, EF. cbn [negb]. rewrite SY. reflexivity.
    + exists false, w2. split; [reflexivity|]. split; [|split; [assumption|split; discriminate]]. split; [discriminate|].
      intro HFW. exfalso. apply NH. apply fieldwise_exported; auto. apply HN.
  - unfold bind at 1. cbn [ret negb]. destruct (fields_equal_pure c x y i j w) as (b & EB & HB); eauto.
    exists b, w. split; [unfold ret; exact EB|]. split; [assumption|]. split; [|split; [auto|discriminate]].
    intros y0 j0 HL0. exists j0. auto.
Qed.
End Equality.

Lemma c53_fieldwise_proof : forall {obj ty W} (R : Rt obj ty W) ctx D eqb hf c w x i y j,
  made (rt_py R) c -> has_eq R D eqb -> equivalence D eqb -> defaults_in D c ->
  instance_of R ctx c w x i -> instance_of R ctx c w y j -> values_in D c i -> values_in D c j ->
  (c_frozen c = true -> hash_contract D eqb hf /\ hashable R hf c i /\ hashable R hf c j /\
                        cache_ok R eqb hf c i /\ cache_ok R eqb hf c j) ->
  exists b w', record_eq R ctx x y w = (Ok b, w') /\ (b = true <-> fieldwise eqb c i j) /\ fields_kept R w w'.
Proof.
  intros obj ty W R ctx D eqb hf c w x i y j HM HE HQ HD HI HJ VI VJ HH. apply (made_named R) in HM.
  destruct (record_eq_char R ctx D eqb HE hf c w x i y j) as (b & w' & H1 & H2 & H3 & _); try assumption.
  - intro EF. destruct (HH EF) as (A & B & _ & C & _). auto.
  - intro EF. destruct (HH EF) as (A & _ & B & _ & C). auto.
  - exists b, w'. auto.
Qed.

Lemma c53_other_class_proof : forall {obj ty W} (R : Rt obj ty W) ctx c w x i y,
  instance_of R ctx c w x i -> type_of (rt_py R) y <> type_of (rt_py R) x ->
  record_eq R ctx x y w = (Ok false, w).
Proof.
  intros obj ty W R ctx c w x i y HI NE. unfold record_eq, with_class. rewrite (class_of_instance R ctx c w x i HI).
  destruct (ty_eqP (rt_py R) (type_of (rt_py R) x) (type_of (rt_py R) y)); [congruence|reflexivity].
Qed.

Lemma c53_equivalence_proof : forall {obj ty W} (R : Rt obj ty W) ctx D eqb hf c w,
  made (rt_py R) c -> has_eq R D eqb -> equivalence D eqb -> defaults_in D c ->
  let good x := exists i, instance_of R ctx c w x i /\ values_in D c i /\
     (c_frozen c = true -> hash_contract D eqb hf /\ hashable R hf c i /\ cache_ok R eqb hf c i) in
  let equal x y := exists w', record_eq R ctx x y w = (Ok true, w') in
  (forall x, good x -> equal x x) /\
  (forall x y, good x -> good y -> equal x y -> equal y x) /\
  (forall x y z, good x -> good y -> good z -> equal x y -> equal y z -> equal x z).
Proof.
  intros obj ty W R ctx D eqb hf c w HM HE HQ HD good equal. apply (made_named R) in HM.
  assert (CH : forall x y, good x -> good y -> forall i j, lookup R w x = Some i -> lookup R w y = Some j -> (equal x y <-> fieldwise eqb c i j)).
  { intros x y (i & HI & VI & RI) (j & HJ & VJ & RJ) i0 j0 Li Lj.
    assert (i0 = i) by (destruct HI as (_ & L & _); congruence). assert (j0 = j) by (destruct HJ as (_ & L & _); congruence). subst.
    destruct (record_eq_char R ctx D eqb HE hf c w x i y j) as (b & w' & H1 & H2 & _); try assumption.
    rewrite <- H2. unfold equal. rewrite H1. split; [intros [w2 E]; congruence|intros ->; eexists; reflexivity]. }
  assert (GI : forall x, good x -> exists i, lookup R w x = Some i /\ values_in D c i /\ forall k, In k (keys (c_fields c)) -> exists v, dget k (i_dict i) = Some v).
  { intros x (i & (_ & L & _ & _ & F) & VI & _). exists i. auto. }
  destruct HQ as (E1 & E2 & E3). split; [|split].
  - intros x GX. destruct (GI x GX) as (i & L & V & F). apply (CH x x GX GX i i L L). intros k a b HK HA HB.
    assert (a = b) by congruence. subst. apply E1. eapply V; eassumption.
  - intros x y GX GY H. destruct (GI x GX) as (i & L & V & F). destruct (GI y GY) as (j & LJ & VJ & FJ).
    apply (CH y x GY GX j i LJ L). pose proof (proj1 (CH x y GX GY i j L LJ) H) as HF.
    intros k a b HK HA HB. apply E2; [eapply V; eassumption|eapply VJ; eassumption|]. eapply HF; eassumption.
  - intros x y z GX GY GZ H H'. destruct (GI x GX) as (i & L & V & F). destruct (GI y GY) as (j & LJ & VJ & FJ). destruct (GI z GZ) as (l & LL & VL & FL).
    apply (CH x z GX GZ i l L LL). pose proof (proj1 (CH x y GX GY i j L LJ) H) as HF. pose proof (proj1 (CH y z GY GZ j l LJ LL) H') as HF'.
    intros k a b HK HA HB. destruct (FJ k HK) as [m HMm]. apply (E3 a m b); [eapply V; eassumption|eapply VJ; eassumption|eapply VL; eassumption| |].
    + eapply HF; eassumption.
    + eapply HF'; eassumption.
Qed.

Lemma c52_equal_hash_proof : forall {obj ty W} (R : Rt obj ty W) ctx D eqb hf c w x i y j w',
  made (rt_py R) c -> has_eq R D eqb -> equivalence D eqb -> defaults_in D c -> c_frozen c = true -> hash_contract D eqb hf ->
  instance_of R ctx c w x i -> instance_of R ctx c w y j -> values_in D c i -> values_in D c j ->
  hashable R hf c i -> hashable R hf c j -> cache_ok R eqb hf c i -> cache_ok R eqb hf c j ->
  record_eq R ctx x y w = (Ok true, w') ->
  exists z, fst (record_hash R ctx x w) = Ok z /\ fst (record_hash R ctx y w) = Ok z /\
            record_hash R ctx x w' = (Ok z, w') /\ record_hash R ctx y w' = (Ok z, w').
Proof.
  intros obj ty W R ctx D eqb hf c w x i y j w' HM HE HQ HD EF HC HI HJ VI VJ HH HHJ CI CJ H. apply (made_named R) in HM.
  destruct (record_eq_char R ctx D eqb HE hf c w x i y j) as (b & w1 & H1 & H2 & _ & _ & H3); try assumption; try (intros _; auto).
  rewrite H in H1. injection H1 as <- <-. destruct (H3 EF eq_refl) as (Z1 & Z2).
  assert (FW : fieldwise eqb c i j) by (apply H2; reflexivity).
  destruct (record_hash_content R ctx D eqb hf HE c w x i) as (wa & A1 & KA); try assumption.
  destruct (record_hash_content R ctx D eqb hf HE c w y j) as (wb & B1 & KB); try assumption.
  assert (CE : content_hash R eqb hf c i = content_hash R eqb hf c j).
  { apply (fieldwise_exported R D eqb); auto; [apply HM|destruct HI as (_ & _ & _ & _ & F); exact F|destruct HJ as (_ & _ & _ & _ & F); exact F]. }
  exists (content_hash R eqb hf c i). rewrite A1, B1. cbn [fst]. rewrite <- CE. auto.
Qed.

Lemma c54_not_frozen_partial_proof : forall {obj ty W} (R : Rt obj ty W) ctx D eqb c w x i y j,
  made (rt_py R) c -> has_eq R D eqb -> c_frozen c = false ->
  instance_of R ctx c w x i -> instance_of R ctx c w y j -> values_in D c i -> values_in D c j ->
  exists b, record_eq R ctx x y w = (Ok b, w) /\ (b = true <-> fieldwise eqb c i j).
Proof.
  intros obj ty W R ctx D eqb c w x i y j HM HE EF HI HJ VI VJ. pose proof HI as (HX & HL & HT & TX & FI). pose proof HJ as (_ & HLJ & HTJ & TY & FJ).
  unfold record_eq, with_class. rewrite (class_of_instance R ctx c w x i HI), TX, TY, EF.
  replace (ty_eqb (rt_py R) (c_ty c) (c_ty c)) with true by (destruct (ty_eqP (rt_py R) (c_ty c) (c_ty c)); congruence).
  cbn [negb]. unfold bind at 1. cbn [ret negb]. destruct (fields_equal_pure R D eqb HE c x y i j w) as (b & EB & HB); eauto.
Qed.

Section Unhashable.
Context {obj ty W : Type} (R : Rt obj ty W).
Lemma mapM_hash_fails (w : W) : forall l, (forall v, In v l -> exists o, v_hash R v w = (o, w)) ->
  (exists v e, In v l /\ v_hash R v w = (Raise e, w)) ->
  exists v e, In v l /\ v_hash R v w = (Raise e, w) /\ mapM (v_hash R) l w = (Raise e, w).
Proof.
  induction l as [|v r IH]; intros HA (u & e & HI & HE); [destruct HI|].
  destruct (HA v (or_introl eq_refl)) as ([z|e'] & EV).
  - destruct IH as (v' & e' & I' & E' & M'); [intros; apply HA; now right| |].
    + destruct HI as [<-|HI]; [congruence|]. eauto.
    + exists v', e'. split; [now right|]. split; auto. cbn. unfold bind. rewrite EV. now rewrite M'.
  - exists v, e'. split; [now left|]. split; auto. cbn. unfold bind. now rewrite EV.
Qed.
End Unhashable.

Lemma c54_frozen_refuted_proof : forall {obj ty W} (R : Rt obj ty W) ctx D eqb c w x i y k f v e,
  made (rt_py R) c -> has_eq R D eqb -> defaults_in D c -> c_frozen c = true ->
  instance_of R ctx c w x i -> values_in D c i -> i_hash i = SNone -> type_of (rt_py R) y = type_of (rt_py R) x ->
  (forall k u, dget k (i_dict i) = Some u -> exists o, v_hash R u w = (o, w)) ->
  dget k (c_fields c) = Some f -> dget k (i_dict i) = Some v -> v_hash R v w = (Raise e, w) ->
  (forall d, f_default f = DefVal d -> eqb d v = false) ->
  exists k' u e', dget k' (i_dict i) = Some u /\ v_hash R u w = (Raise e', w) /\
    record_eq R ctx x y w = (Raise e', w) /\ record_hash R ctx x w = (Raise e', w).
Proof.
  intros obj ty W R ctx D eqb c w x i y k f v e HM HE HD EF HI HV EH ET HA EK EV EE ND.
  apply (made_named R) in HM. pose proof HM as [HO _].
  pose proof (to_dict_exported R ctx D eqb HE c no_args [] w x i HM HD HI HV eq_refl) as TD. cbn [sort_items e_sort no_args] in TD.
  set (d := exported eqb no_args [] c i) in *.
  destruct (mapM_hash_fails R w (dvalues d)) as (u & e' & IU & EU & EM).
  - intros u IU. apply in_map_iff in IU as ([k' u'] & <- & IU). apply (in_exported eqb no_args [] c i k' u' HO) in IU as (f' & _ & EU & _).
    eapply HA; eassumption.
  - exists v, e. split; auto. change v with (snd (k, v)). apply in_map. apply (in_exported eqb no_args [] c i k v HO).
    exists f. split; auto. split; auto. right. split; [intros n _ []|]. right. assumption.
  - apply in_map_iff in IU as ([k' u'] & EQ & IU). cbn in EQ. subst u'.
    apply (in_exported eqb no_args [] c i k' u HO) in IU as (f' & _ & EU' & _).
    exists k', u, e'. split; auto. split; auto. pose proof HI as (HX & HL & HC & HT & _).
    assert (RH : record_hash R ctx x w = (Raise e', w)).
    { unfold record_hash. rewrite HL, HC, HX, EF, EH. cbn [negb]. unfold bind. rewrite TD. rewrite EM. reflexivity. }
    split; auto. unfold record_eq, with_class. rewrite (class_of_instance R ctx c w x i HI). rewrite ET.
    destruct (ty_eqP (rt_py R) (type_of (rt_py R) x) (type_of (rt_py R) x)) as [_|N]; [|congruence]. cbn [negb]. rewrite EF.
    unfold bind. now rewrite RH.
Qed.

Section Order.
Context {obj ty W : Type} (R : Rt obj ty W).
Variables (eqb ltb : obj -> obj -> bool) (D : string -> obj -> Prop).
Variables (i j : inst obj ty).

Lemma lex_less_cons : forall k r (i j : inst obj ty) a b, dget k (i_dict i) = Some a -> dget k (i_dict j) = Some b ->
  (lex_less eqb ltb (k :: r) i j <-> ltb a b = true \/ (eqb a b = true /\ lex_less eqb ltb r i j)).
Proof.
  intros k r i0 j0 a b EA EB. split.
  - intros ([|k0 before] & k1 & after & a1 & b1 & E & HB & HA & HB1 & HL); cbn in E; injection E as <- ->.
    + left. congruence.
    + right. split; [eapply HB; [left; reflexivity|assumption|assumption]|].
      exists before, k1, after, a1, b1. split; [reflexivity|]. split; [|auto]. intros k' a' b' HI. apply HB. right; assumption.
  - intros [HL|[HQ (before & k1 & after & a1 & b1 & -> & HB & HA & HB1 & HL)]].
    + exists [], k, r, a, b. split; [reflexivity|]. split; [intros ? ? ? []|auto].
    + exists (k :: before), k1, after, a1, b1. split; [reflexivity|]. split; [|auto].
      intros k' a' b' [<-|HI] HA' HB'; [congruence|]. eapply HB; eassumption.
Qed.
Lemma lex_less_nil : forall (i j : inst obj ty), ~ lex_less eqb ltb [] i j.
Proof. intros i0 j0 (before & k & after & a & b & E & _). destruct before; discriminate. Qed.
Lemma lex_equal_cons : forall k r (i j : inst obj ty) a b, dget k (i_dict i) = Some a -> dget k (i_dict j) = Some b ->
  (lex_equal eqb (k :: r) i j <-> eqb a b = true /\ lex_equal eqb r i j).
Proof.
  intros k r i0 j0 a b EA EB. unfold lex_equal. split.
  - intro H. split; [eapply H; [left; reflexivity|assumption|assumption]|]. intros k' a' b' HI. apply H. right; assumption.
  - intros [H1 H2] k' a' b' [<-|HI] HA HB; [congruence|]. eapply H2; eassumption.
Qed.

Definition in_domain (ks : list string) (i : inst obj ty) : Prop :=
  forall k, In k ks -> exists v, dget k (i_dict i) = Some v /\ D k v.

Lemma in_domain_cons : forall k r i, in_domain (k :: r) i -> (exists v, dget k (i_dict i) = Some v /\ D k v) /\ in_domain r i.
Proof. intros k r i0 H. split; [apply H; left; reflexivity|]. intros k' HI. apply H. right; assumption. Qed.

Lemma lex_tri : forall ks i j, (forall k, In k ks -> ordered_domain R eqb ltb (D k)) -> in_domain ks i -> in_domain ks j ->
  (lex_less eqb ltb ks i j /\ ~ lex_equal eqb ks i j /\ ~ lex_less eqb ltb ks j i) \/
  (lex_equal eqb ks i j /\ ~ lex_less eqb ltb ks i j /\ ~ lex_less eqb ltb ks j i) \/
  (lex_less eqb ltb ks j i /\ ~ lex_equal eqb ks i j /\ ~ lex_less eqb ltb ks i j).
Proof.
  induction ks as [|k r IH]; intros i0 j0 HO HI HJ.
  - right. left. split; [intros ? ? ? []|]. split; apply lex_less_nil.
  - apply in_domain_cons in HI, HJ. destruct HI as [(a & EA & DA) HI]. destruct HJ as [(b & EB & DB) HJ].
    destruct (HO k (or_introl eq_refl)) as (_ & O1 & O2 & O3 & O4 & O5 & O6).
    rewrite (lex_less_cons k r i0 j0 a b EA EB), (lex_less_cons k r j0 i0 b a EB EA), (lex_equal_cons k r i0 j0 a b EA EB).
    specialize (IH i0 j0 (fun k H => HO k (or_intror H)) HI HJ).
    destruct (O5 a b DA DB) as [L|[E|L]].
    + left. destruct (O6 a b DA DB L) as [N1 N2]. split; [left; assumption|]. split; [intros [H _]; congruence|].
      intros [H|[H _]]; [congruence|]. apply O2 in H; try assumption. congruence.
    + assert (E' : eqb b a = true) by (apply O2; assumption).
      assert (N1 : ltb a b = false) by (destruct (ltb a b) eqn:X; [destruct (O6 a b DA DB X); congruence|reflexivity]).
      assert (N2 : ltb b a = false) by (destruct (ltb b a) eqn:X; [destruct (O6 b a DB DA X); congruence|reflexivity]).
      destruct IH as [(H1 & H2 & H3)|[(H1 & H2 & H3)|(H1 & H2 & H3)]].
      * left. split; [right; auto|]. split; [intros [_ H]; contradiction|]. intros [H|[_ H]]; [congruence|contradiction].
      * right. left. split; [auto|]. split; intros [H|[_ H]]; try congruence; contradiction.
      * right. right. split; [right; auto|]. split; [intros [_ H]; contradiction|]. intros [H|[_ H]]; [congruence|contradiction].
    + right. right. destruct (O6 b a DB DA L) as [N1 N2]. split; [left; assumption|]. split.
      * intros [H _]. apply O2 in H; try assumption. congruence.
      * intros [H|[H _]]; [congruence|]. apply O2 in H; try assumption. congruence.
Qed.

Lemma lex_trans : forall ks i j l, (forall k, In k ks -> ordered_domain R eqb ltb (D k)) -> in_domain ks i -> in_domain ks j -> in_domain ks l ->
  lex_less eqb ltb ks i j -> lex_less eqb ltb ks j l -> lex_less eqb ltb ks i l.
Proof.
  induction ks as [|k r IH]; intros i0 j0 l HO HI HJ HL H1 H2; [destruct (lex_less_nil _ _ H1)|].
  apply in_domain_cons in HI, HJ, HL. destruct HI as [(a & EA & DA) HI]. destruct HJ as [(b & EB & DB) HJ]. destruct HL as [(c & EC & DC) HL].
  destruct (HO k (or_introl eq_refl)) as (_ & O1 & O2 & O3 & O4 & O5 & O6).
  rewrite (lex_less_cons k r i0 j0 a b EA EB) in H1. rewrite (lex_less_cons k r j0 l b c EB EC) in H2. rewrite (lex_less_cons k r i0 l a c EA EC).
  assert (LE : forall a b c, D k a -> D k b -> D k c -> ltb a b = true -> eqb b c = true -> ltb a c = true).
  { intros x y z DX DY DZ L E. destruct (O5 x z DX DZ) as [L'|[E'|L']]; [assumption| |].
    - exfalso. destruct (O6 x y DX DY L) as [N _]. rewrite (O3 x z y) in N; auto. discriminate.
    - exfalso. assert (L2 : ltb z y = true) by (eapply (O4 z x y); assumption). destruct (O6 z y DZ DY L2) as [N _]. apply O2 in E; try assumption. congruence. }
  assert (EL : forall a b c, D k a -> D k b -> D k c -> eqb a b = true -> ltb b c = true -> ltb a c = true).
  { intros x y z DX DY DZ E L. destruct (O5 x z DX DZ) as [L'|[E'|L']]; [assumption| |].
    - exfalso. destruct (O6 y z DY DZ L) as [N _]. rewrite (O3 y x z) in N; auto. discriminate.
    - exfalso. assert (L2 : ltb y x = true) by (eapply (O4 y z x); assumption). destruct (O6 y x DY DX L2) as [N _]. apply O2 in E; try assumption. congruence. }
  destruct H1 as [H1|[H1 H1']], H2 as [H2|[H2 H2']].
  - left. eapply O4; [exact DA|exact DB|exact DC|assumption|assumption].
  - left. eapply LE; [exact DA|exact DB|exact DC|assumption|assumption].
  - left. eapply EL; [exact DA|exact DB|exact DC|assumption|assumption].
  - right. split; [eapply O3; [exact DA|exact DB|exact DC|assumption|assumption]|]. apply (IH i0 j0 l); try assumption. intros; apply HO; right; assumption.
Qed.

Lemma list_cmp_lex : forall w x y ks, lookup R w x = Some i -> lookup R w y = Some j ->
  (forall k, In k ks -> ordered_domain R eqb ltb (D k)) -> in_domain ks i -> in_domain ks j ->
  exists xs ys, mapM (getattr R x) ks w = (Ok xs, w) /\ mapM (getattr R y) ks w = (Ok ys, w) /\
  forall op, exists b, list_cmp R op xs ys w = (Ok b, w) /\
    (b = true <-> match op with
                  | CLt => lex_less eqb ltb ks i j
                  | CLe => lex_less eqb ltb ks i j \/ lex_equal eqb ks i j
                  | CGt => lex_less eqb ltb ks j i
                  | CGe => lex_less eqb ltb ks j i \/ lex_equal eqb ks i j
                  end).
Proof.
  intros w x y ks HX HY. induction ks as [|k r IH]; intros HO HI HJ.
  - exists [], []. split; [reflexivity|]. split; [reflexivity|]. intro op.
    pose proof (lex_less_nil i j) as N1. pose proof (lex_less_nil j i) as N2.
    assert (E : lex_equal eqb [] i j) by (intros ? ? ? []).
    destruct op; eexists; (split; [reflexivity|]); split; try discriminate; try tauto.
  - pose proof (lex_tri (k :: r) i j HO HI HJ) as TRI.
    apply in_domain_cons in HI, HJ. destruct HI as [(a & EA & DA) HI]. destruct HJ as [(b & EB & DB) HJ].
    destruct (HO k (or_introl eq_refl)) as (OP & O1 & O2 & O3 & O4 & O5 & O6).
    destruct IH as (xs & ys & EX & EY & HC); [intros; apply HO; right; assumption|assumption|assumption|].
    exists (a :: xs), (b :: ys).
    split; [cbn [mapM]; unfold bind, getattr at 1; rewrite HX, EA, EX; reflexivity|].
    split; [cbn [mapM]; unfold bind, getattr at 1; rewrite HY, EB, EY; reflexivity|].
    pose proof (lex_less_cons k r i j a b EA EB) as L1. pose proof (lex_less_cons k r j i b a EB EA) as L2. pose proof (lex_equal_cons k r i j a b EA EB) as L3.
    destruct (OP a b w DA DB) as (P1 & P2 & P3 & P4 & P5).
    assert (SAME : (if py_is (rt_py R) a b then ret true else v_eq R a b) w = (Ok (eqb a b), w)).
    { destruct (py_isP (rt_py R) a b) as [->|N]; [|exact P1]. rewrite O1 by assumption. reflexivity. }
    intro op. cbn [list_cmp]. unfold bind. rewrite SAME. destruct (eqb a b) eqn:EE.
    + assert (E' : eqb b a = true) by (apply O2; assumption).
      assert (N1 : ltb a b = false) by (destruct (ltb a b) eqn:X; [destruct (O6 a b DA DB X); congruence|reflexivity]).
      assert (N2 : ltb b a = false) by (destruct (ltb b a) eqn:X; [destruct (O6 b a DB DA X); congruence|reflexivity]).
      destruct (HC op) as (bb & H1 & H2). exists bb. split; [exact H1|]. rewrite H2.
      rewrite N1 in L1. rewrite N2, E' in L2. destruct op; rewrite ?L1, ?L2, ?L3; intuition congruence.
    + assert (E' : eqb b a = false) by (destruct (eqb b a) eqn:X; [apply O2 in X; congruence|reflexivity]).
      destruct op; [rewrite P2|rewrite P3|rewrite P4|rewrite P5]; eexists; (split; [reflexivity|]);
        rewrite ?L1, ?L2, ?L3, ?E', ?orb_false_r; intuition congruence.
Qed.
End Order.

Lemma compare_same_class : forall {obj ty W} (R : Rt obj ty W) ctx eqb ltb D c w x i y j,
  c_ordered c = true -> instance_of R ctx c w x i -> instance_of R ctx c w y j ->
  (forall k, In k (ordering_fields c) -> ordered_domain R eqb ltb (D k)) ->
  (forall k v, In k (ordering_fields c) -> dget k (i_dict i) = Some v -> D k v) ->
  (forall k v, In k (ordering_fields c) -> dget k (i_dict j) = Some v -> D k v) ->
  in_domain D (ordering_fields c) i /\ in_domain D (ordering_fields c) j /\
  forall op, exists b, compare R ctx op x y w = (Ok b, w) /\
    (b = true <-> match op with
                  | CLt => lex_less eqb ltb (ordering_fields c) i j
                  | CLe => lex_less eqb ltb (ordering_fields c) i j \/ lex_equal eqb (ordering_fields c) i j
                  | CGt => lex_less eqb ltb (ordering_fields c) j i
                  | CGe => lex_less eqb ltb (ordering_fields c) j i \/ lex_equal eqb (ordering_fields c) i j
                  end).
Proof.
  intros obj ty W R ctx eqb ltb D c w x i y j HOR HI HJ HO VI VJ.
  pose proof HI as (HX & HL & HT & TX & FI). pose proof HJ as (_ & HLJ & HTJ & TY & FJ).
  assert (SUB : forall k, In k (ordering_fields c) -> In k (keys (c_fields c))).
  { intros k HK. unfold ordering_fields, keys in *. apply in_map_iff in HK. destruct HK as (kf & <- & HK). apply filter_In in HK. apply in_map. tauto. }
  assert (DI : in_domain D (ordering_fields c) i) by (intros k HK; destruct (FI k (SUB k HK)) as [v E]; exists v; eauto).
  assert (DJ : in_domain D (ordering_fields c) j) by (intros k HK; destruct (FJ k (SUB k HK)) as [v E]; exists v; eauto).
  split; [assumption|]. split; [assumption|]. intro op.
  destruct (list_cmp_lex R eqb ltb D i j w x y (ordering_fields c) HL HLJ HO DI DJ) as (xs & ys & EX & EY & HC).
  destruct (HC op) as (b & EB & HB). exists b. split; [|exact HB].
  assert (CM : cmp_method R ctx op x y w = (Ok (Some b), w)).
  { unfold cmp_method. rewrite (class_of_instance R ctx c w x i HI), HOR. cbn [negb].
    replace (isinstance (rt_py R) y (type_of (rt_py R) x)) with true by (rewrite TX, <- TY; symmetry; apply isinstance_type). cbn [negb].
    apply bind_ok. exists xs, w. split; [unfold ordering_key, with_class; rewrite (class_of_instance R ctx c w x i HI); exact EX|].
    apply bind_ok. exists ys, w. split; [unfold ordering_key, with_class; rewrite (class_of_instance R ctx c w y j HJ); exact EY|].
    apply bind_ok. exists b, w. split; [exact EB|reflexivity]. }
  unfold compare. rewrite TX, TY. replace (ty_eqb (rt_py R) (c_ty c) (c_ty c)) with true by (destruct (ty_eqP (rt_py R) (c_ty c) (c_ty c)); congruence).
  cbn [negb]. rewrite andb_false_r. unfold bind. rewrite CM. reflexivity.
Qed.

Lemma c57_lexicographic_proof : forall {obj ty W} (R : Rt obj ty W) ctx eqb ltb D c w x i y j,
  c_ordered c = true -> instance_of R ctx c w x i -> instance_of R ctx c w y j ->
  (forall k, In k (ordering_fields c) -> ordered_domain R eqb ltb (D k)) ->
  (forall k v, In k (ordering_fields c) -> dget k (i_dict i) = Some v -> D k v) ->
  (forall k v, In k (ordering_fields c) -> dget k (i_dict j) = Some v -> D k v) ->
  exists lt le gt ge,
    compare R ctx CLt x y w = (Ok lt, w) /\ compare R ctx CLe x y w = (Ok le, w) /\
    compare R ctx CGt x y w = (Ok gt, w) /\ compare R ctx CGe x y w = (Ok ge, w) /\
    (lt = true <-> lex_less eqb ltb (ordering_fields c) i j) /\
    (le = true <-> lex_less eqb ltb (ordering_fields c) i j \/ lex_equal eqb (ordering_fields c) i j) /\
    (gt = true <-> lex_less eqb ltb (ordering_fields c) j i) /\
    (ge = true <-> lex_less eqb ltb (ordering_fields c) j i \/ lex_equal eqb (ordering_fields c) i j).
Proof.
  intros obj ty W R ctx eqb ltb D c w x i y j HOR HI HJ HO VI VJ.
  destruct (compare_same_class R ctx eqb ltb D c w x i y j HOR HI HJ HO VI VJ) as (_ & _ & HC).
  destruct (HC CLt) as (b1 & E1 & H1). destruct (HC CLe) as (b2 & E2 & H2). destruct (HC CGt) as (b3 & E3 & H3). destruct (HC CGe) as (b4 & E4 & H4).
  exists b1, b2, b3, b4. repeat (split; [assumption|]). assumption.
Qed.

Lemma c57_order_proof : forall {obj ty W} (R : Rt obj ty W) ctx eqb ltb D c w,
  c_ordered c = true ->
  (forall k, In k (ordering_fields c) -> ordered_domain R eqb ltb (D k)) ->
  let good x i := instance_of R ctx c w x i /\ forall k v, In k (ordering_fields c) -> dget k (i_dict i) = Some v -> D k v in
  let holds op x y := fst (compare R ctx op x y w) = Ok true in
  (forall x i, good x i -> ~ holds CLt x x) /\
  (forall x i y j z l, good x i -> good y j -> good z l -> holds CLt x y -> holds CLt y z -> holds CLt x z) /\
  (forall x i y j, good x i -> good y j ->
     (holds CLt x y \/ lex_equal eqb (ordering_fields c) i j \/ holds CLt y x) /\
     (holds CLt x y -> ~ lex_equal eqb (ordering_fields c) i j /\ ~ holds CLt y x) /\
     (holds CLe x y <-> holds CLt x y \/ lex_equal eqb (ordering_fields c) i j) /\
     (holds CGt x y <-> holds CLt y x) /\ (holds CGe x y <-> holds CLe y x) /\
     (holds CLe x y <-> ~ holds CGt x y)).
Proof.
  intros obj ty W R ctx eqb ltb D c w HOR HO good holds.
  assert (CH : forall x i y j, good x i -> good y j -> in_domain D (ordering_fields c) i /\ in_domain D (ordering_fields c) j /\
     forall op, holds op x y <-> match op with
                  | CLt => lex_less eqb ltb (ordering_fields c) i j
                  | CLe => lex_less eqb ltb (ordering_fields c) i j \/ lex_equal eqb (ordering_fields c) i j
                  | CGt => lex_less eqb ltb (ordering_fields c) j i
                  | CGe => lex_less eqb ltb (ordering_fields c) j i \/ lex_equal eqb (ordering_fields c) i j
                  end).
  { intros x i y j [HI VI] [HJ VJ]. destruct (compare_same_class R ctx eqb ltb D c w x i y j HOR HI HJ HO VI VJ) as (D1 & D2 & HC).
    split; [assumption|]. split; [assumption|]. intro op. destruct (HC op) as (b & E & H). unfold holds. rewrite E. cbn [fst]. rewrite <- H. split; congruence. }
  assert (SYM : forall i j : inst obj ty, in_domain D (ordering_fields c) i -> in_domain D (ordering_fields c) j ->
            lex_equal eqb (ordering_fields c) i j -> lex_equal eqb (ordering_fields c) j i).
  { intros i j DI DJ H k a b HK HA HB. destruct (HO k HK) as (_ & _ & O2 & _). destruct (DI k HK) as (a' & E1 & D1). destruct (DJ k HK) as (b' & E2 & D2).
    assert (a' = b) by congruence. assert (b' = a) by congruence. subst. apply O2; [assumption|assumption|]. eapply H; eassumption. }
  split; [|split].
  - intros x i G. destruct (CH x i x i G G) as (D1 & _ & H). rewrite (H CLt).
    destruct (lex_tri R eqb ltb D (ordering_fields c) i i HO D1 D1) as [(A & B & C)|[(A & B & C)|(A & B & C)]]; [contradiction|assumption|assumption].
  - intros x i y j z l G1 G2 G3 H1 H2. destruct (CH x i y j G1 G2) as (D1 & D2 & C1). destruct (CH y j z l G2 G3) as (_ & D3 & C2). destruct (CH x i z l G1 G3) as (_ & _ & C3).
    apply (C1 CLt) in H1. apply (C2 CLt) in H2. apply (C3 CLt). eapply (lex_trans R eqb ltb D); [exact HO|exact D1|exact D2|exact D3|exact H1|exact H2].
  - intros x i y j G1 G2. destruct (CH x i y j G1 G2) as (D1 & D2 & C1). destruct (CH y j x i G2 G1) as (_ & _ & C2).
    rewrite (C1 CLt), (C1 CLe), (C1 CGt), (C1 CGe), (C2 CLt), (C2 CLe).
    pose proof (SYM i j D1 D2) as S1. pose proof (SYM j i D2 D1) as S2.
    pose proof (lex_tri R eqb ltb D (ordering_fields c) i j HO D1 D2) as TRI. intuition.
Qed.

Lemma c58_not_ordered_proof : forall {obj ty W} (R : Rt obj ty W) ctx op c w x i y,
  c_ordered c = false -> instance_of R ctx c w x i ->
  isinstance (rt_py R) y (type_of (rt_py R) x) = false \/ type_of (rt_py R) y = type_of (rt_py R) x ->
  exists m, compare R ctx op x y w = (Raise (mkexc TypeError m), w).
Proof.
  intros obj ty W R ctx op c w x i y HOR HI HY. exists "cannot compare with non-ordered type".
  assert (CM : cmp_method R ctx op x y w = (Raise (mkexc TypeError "cannot compare with non-ordered type"), w)).
  { unfold cmp_method. rewrite (class_of_instance R ctx c w x i HI), HOR. reflexivity. }
  unfold compare. destruct HY as [HY|HY].
  - rewrite HY. cbn [andb]. unfold bind. rewrite CM. reflexivity.
  - rewrite HY. replace (ty_eqb (rt_py R) (type_of (rt_py R) x) (type_of (rt_py R) x)) with true
      by (destruct (ty_eqP (rt_py R) (type_of (rt_py R) x) (type_of (rt_py R) x)); congruence).
    cbn [negb]. rewrite andb_false_r. unfold bind. rewrite CM. reflexivity.
Qed.

Lemma c58_not_ordered_subclass_proof : forall {obj ty W} (R : Rt obj ty W) ctx op c w x i c' y j,
  c_ordered c = false -> instance_of R ctx c w x i -> instance_of R ctx c' w y j ->
  isinstance (rt_py R) y (type_of (rt_py R) x) = true -> type_of (rt_py R) y <> type_of (rt_py R) x ->
  isinstance (rt_py R) x (type_of (rt_py R) y) = false ->
  exists m, compare R ctx op x y w = (Raise (mkexc TypeError m), w).
Proof.
  intros obj ty W R ctx op c w x i c' y j HOR HI HJ HY NE HNI. exists "cannot compare with non-ordered type".
  unfold compare. rewrite HY. destruct (ty_eqP (rt_py R) (type_of (rt_py R) y) (type_of (rt_py R) x)); [congruence|]. cbn [negb andb].
  assert (CM : cmp_method R ctx op x y w = (Raise (mkexc TypeError "cannot compare with non-ordered type"), w)).
  { unfold cmp_method. rewrite (class_of_instance R ctx c w x i HI), HOR. reflexivity. }
  unfold bind. unfold cmp_method at 1. rewrite (class_of_instance R ctx c' w y j HJ). destruct (c_ordered c'); cbn [negb]; [|reflexivity].
  rewrite HNI. cbn [negb]. rewrite CM. reflexivity.
Qed.

Lemma c58_other_object_proof : forall {obj ty W} (R : Rt obj ty W) ctx op c w x i y,
  instance_of R ctx c w x i -> isinstance (rt_py R) y (type_of (rt_py R) x) = false ->
  lookup R w y = None -> (forall op, ext_cmp R op y x w = (Ok None, w)) ->
  exists m, compare R ctx op x y w = (Raise (mkexc TypeError m), w).
Proof.
  intros obj ty W R ctx op c w x i y HI HY HL HX. unfold compare. rewrite HY. cbn [andb]. unfold bind. unfold cmp_method at 1.
  rewrite (class_of_instance R ctx c w x i HI). destruct (c_ordered c); cbn [negb]; [|eexists; reflexivity].
  rewrite HY. cbn [negb]. unfold cmp_method, class_of. rewrite HL, HX. eexists. reflexivity.
Qed.

Lemma c58_other_record_proof : forall {obj ty W} (R : Rt obj ty W) ctx op c w x i c' y j,
  instance_of R ctx c w x i -> instance_of R ctx c' w y j ->
  isinstance (rt_py R) y (type_of (rt_py R) x) = false -> isinstance (rt_py R) x (type_of (rt_py R) y) = false ->
  exists m, compare R ctx op x y w = (Raise (mkexc TypeError m), w).
Proof.
  intros obj ty W R ctx op c w x i c' y j HI HJ HY HX. unfold compare. rewrite HY. cbn [andb]. unfold bind. unfold cmp_method at 1.
  rewrite (class_of_instance R ctx c w x i HI). destruct (c_ordered c); cbn [negb]; [|eexists; reflexivity].
  rewrite HY. cbn [negb]. unfold cmp_method. rewrite (class_of_instance R ctx c' w y j HJ).
  destruct (c_ordered c'); cbn [negb]; [|eexists; reflexivity]. rewrite HX. eexists. reflexivity.
Qed.
