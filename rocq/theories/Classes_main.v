(** Classes_main.v -- proofs of the properties stated in Props_Classes.v: record classes (records/field.py, RecordBase.__init_subclass__) *)

From Verif Require Import Base Py Filler Spec_Filler Classes Spec_Classes Demo.
From Verif Require Dict_proofs Filler_proofs Filler_sound Filler_shape Filler_seal Filler_decl Classes_proofs.
Open Scope string_scope.
Open Scope list_scope.

Import Dict_proofs Filler_proofs Filler_sound Filler_shape Filler_seal Filler_decl Classes_proofs.

(** the fillers of a class's fields are made once and for all by the class that declares
    the field *)
Lemma sealed_ops : forall {obj ty W} (P : Py obj ty W) f ops fl, is_sealed f -> apply_ops P f ops = Ok fl -> ops = [] /\ fl = f.
Proof.
  intros obj ty W P f [|[k t] r] fl HS H; cbn in H; [injection H as <-; auto|].
  destruct (apply_at_sealed P f k t HS) as [e E]. rewrite E in H. discriminate.
Qed.

Lemma base_fields_names : forall {obj ty W} (l : list (@base obj ty W)),
  keys (flat_map base_fields l) = flat_map (fun b => match b with BRecord c => keys (c_fields c) | BOther => [] end) l.
Proof. intros obj ty W. induction l as [|[c|] r IH]; [reflexivity| |exact IH]. cbn [flat_map base_fields]. rewrite keys_app, IH. reflexivity. Qed.

Lemma made_inv : forall {obj ty W} (P : Py obj ty W) c, made P c ->
  dict_ok (c_fields c) /\
  forall k f, dget k (c_fields c) = Some f -> f_name f = k /\ exists s h ops, make_filler P s h ops = Ok (f_filler f).
Proof.
  intros obj ty W P c H. induction H as [d c H HO HB IH].
  destruct (make_class_parts P d c H) as (own & parents & MP). destruct MP.
  assert (OWN : keys own = own_field_names d) by (apply (own_fields_names P); assumption).
  assert (ND : NoDup (keys (parents ++ own))).
  { rewrite keys_app. assert (ND : forall {A} (l m : list A), NoDup l -> NoDup m -> (forall x, In x l -> ~ In x m) -> NoDup (l ++ m)).
    { intros A l m HL HM HD. induction HL as [|x l HX HL IHl]; cbn; [assumption|]. constructor.
      - rewrite in_app_iff. intros [HH|HH]; [contradiction|]. exact (HD x (or_introl eq_refl) HH).
      - apply IHl. intros y HY. apply HD. right; assumption. }
    apply ND; [assumption|rewrite OWN; apply own_field_names_NoDup; assumption|assumption]. }
  split; [unfold dict_ok; rewrite mp_keys, <- keys_app; assumption|].
  intros k g Eg.
  assert (EK : In k (keys (parents ++ own))) by (rewrite keys_app, <- mp_keys; eapply dget_some_key; eassumption).
  apply in_keys_get in EK. destruct EK as [f Ef].
  destruct (mp_field k f Ef) as (g' & fl & Eg' & (S1 & S2 & S3 & S4) & A & B1 & B2).
  rewrite Eg in Eg'. injection Eg' as <-.
  rewrite dget_app in Ef. destruct (dget k parents) as [f0|] eqn:EP.
  - injection Ef as ->. rewrite mp_parents in EP.
    assert (BASE : exists b, In (BRecord b) (d_bases d) /\ In (k, f) (c_fields b)).
    { apply dget_Some_In in EP. apply in_flat_map in EP. destruct EP as ([b|] & HI & HF); cbn in HF; [eauto|contradiction]. }
    destruct BASE as (b & HI & HF). destruct (IH b HI) as [OK FF].
    apply dget_In in HF; [|assumption]. destruct (FF k f HF) as (NM & s & h & ops & M).
    split; [congruence|]. exists s, h, ops.
    destruct (sealed_ops P _ _ _ (make_seals P _ _ _ _ M) A) as [_ ->].
    destruct (ty_eqP P (f_owner f) (d_ty d)) as [E|N].
    + destruct (bind_sealed P _ (d_style d) (make_seals P _ _ _ _ M)) as [e Ee]. rewrite (B1 E) in Ee. discriminate.
    + rewrite (B2 N). assumption.
  - destruct (own_fields_get P _ _ _ _ _ mp_own Ef) as (a & HI & HF & NM & DF & OW & GF & TG).
    split; [congruence|]. exists (d_style d), (declared_hint a), (ops_for k (d_prebind d)).
    unfold make_filler. rewrite GF. cbn. rewrite A. cbn. apply B1. assumption.
Qed.

Lemma c59_names_proof : forall {obj ty W} (P : Py obj ty W) d c,
  make_class P d = Ok c -> dict_ok (d_anns d) ->
  keys (c_fields c) = inherited_names d ++ own_field_names d.
Proof.
  intros obj ty W P d c H HO. destruct (make_class_parts P d c H) as (own & parents & []).
  rewrite mp_keys, mp_parents, base_fields_names. f_equal. apply (own_fields_names P); assumption.
Qed.

Lemma c59_declaration_order_proof : forall {obj ty W} (d : @decl obj ty W),
  (forall k, In k (keys (d_anns d)) -> ~ In k (d_inherited_anns d)) -> dict_ok (d_anns d) ->
  own_field_names d = keys (filter (fun ka => is_field (snd ka)) (d_anns d)).
Proof.
  intros obj ty W d HD HO. unfold own_field_names.
  assert (E1 : forall l, (forall k, In k l -> In k (d_inherited_anns d)) ->
    filter (fun k => match dget k (d_anns d) with Some a => is_field a | None => false end) l = []).
  { induction l as [|k r IH]; intro HL; cbn; [reflexivity|].
    destruct (dget k (d_anns d)) as [a|] eqn:E; [|apply IH; intros; apply HL; right; assumption].
    destruct (HD k (dget_some_key _ _ _ E)). apply HL. left; reflexivity. }
  rewrite E1 by (intros k HI; apply in_rev, nodup_In, in_rev in HI; assumption). cbn [app].
  assert (G : forall l : dict ann, (forall k a, In (k, a) l -> dget k (d_anns d) = Some a /\ ~ In k (d_inherited_anns d)) ->
    filter (fun k => match dget k (d_anns d) with Some a => is_field a | None => false end && negb (smem k (d_inherited_anns d))) (keys l)
    = keys (filter (fun ka => is_field (snd ka)) l)).
  { induction l as [|[k a] r IH]; intro HL; cbn; [reflexivity|]. destruct (HL k a (or_introl eq_refl)) as [E N].
    apply smem_false in N. rewrite E, N. cbn. rewrite andb_true_r. specialize (IH (fun k a H => HL k a (or_intror H))).
    destruct (is_field a); cbn; [f_equal|]; exact IH. }
  apply G. intros k a HI. split; [apply dget_In; assumption|]. apply HD. change k with (fst (k, a)). apply in_map. assumption.
Qed.

Lemma c59_distinct_proof : forall {obj ty W} (P : Py obj ty W) c,
  made P c -> NoDup (keys (c_fields c)) /\ c_fields c <> [].
Proof.
  intros obj ty W P c H. split; [apply (made_inv P c H)|].
  destruct H as [d c H HO _]. destruct (make_class_parts P d c H) as (own & parents & []).
  intro E. rewrite E in mp_keys. symmetry in mp_keys. apply app_eq_nil in mp_keys. destruct mp_keys as [E1 E2].
  apply mp_nonempty. apply map_eq_nil in E1. apply map_eq_nil in E2. rewrite E1, E2. reflexivity.
Qed.

Lemma c59_duplicate_proof : forall {obj ty W} (P : Py obj ty W) d,
  dict_ok (d_anns d) ->
  (forall k a, dget k (d_anns d) = Some a -> exists r, from_type_hint P (d_frozen d) (d_ty d) k (d_static d k) a = Ok r) ->
  ~ NoDup (inherited_names d ++ own_field_names d) ->
  exists m, make_class P d = Raise (mkexc ValueError m).
Proof.
  intros obj ty W P d HO HA HN.
  destruct (own_fields_all P d (own_hints (d_anns d) (d_inherited_anns d))) as [own E].
  { intros k a HI. apply HA. eapply own_hints_In; eassumption. }
  unfold make_class. rewrite E. cbn.
  assert (OWN : keys own = own_field_names d) by (apply (own_fields_names P); assumption).
  rewrite <- OWN in HN. unfold inherited_names in HN. rewrite <- base_fields_names in HN.
  destruct (inherit_fields_dup own (flat_map base_fields (d_bases d)) []) as [m M]; [|rewrite M; cbn; eauto].
  destruct (ListDec.NoDup_dec string_dec (keys (flat_map (@base_fields obj ty W) (d_bases d)))) as [ND|ND]; [|auto].
  left. destruct (Exists_dec (fun k => In k (keys own)) (keys (flat_map (@base_fields obj ty W) (d_bases d)))) as [EX|NE].
  { intro k. apply (in_dec string_dec). }
  - apply Exists_exists in EX. exact EX.
  - exfalso. apply HN. clear HN. assert (NO : NoDup (keys own)) by (rewrite OWN; apply own_field_names_NoDup; assumption).
    assert (D : forall k, In k (keys (flat_map (@base_fields obj ty W) (d_bases d))) -> ~ In k (keys own)).
    { intros k HI HK. apply NE. apply Exists_exists. eauto. }
    clear - ND NO D. induction ND as [|x l HX HL IHl]; cbn; [assumption|]. constructor.
    + rewrite in_app_iff. intros [HH|HH]; [contradiction|]. exact (D x (or_introl eq_refl) HH).
    + apply IHl. intros y HY. apply D. right; assumption.
Qed.

Lemma c59_empty_proof : forall {obj ty W} (P : Py obj ty W) d,
  dict_ok (d_anns d) ->
  (forall k a, dget k (d_anns d) = Some a -> exists r, from_type_hint P (d_frozen d) (d_ty d) k (d_static d k) a = Ok r) ->
  inherited_names d ++ own_field_names d = [] ->
  exists m, make_class P d = Raise (mkexc ValueError m).
Proof.
  intros obj ty W P d HO HA HN. apply app_eq_nil in HN. destruct HN as [H1 H2].
  destruct (own_fields_all P d (own_hints (d_anns d) (d_inherited_anns d))) as [own E].
  { intros k a HI. apply HA. eapply own_hints_In; eassumption. }
  unfold make_class. rewrite E. cbn.
  assert (OWN : keys own = own_field_names d) by (apply (own_fields_names P); assumption).
  rewrite H2 in OWN. apply map_eq_nil in OWN. subst own.
  unfold inherited_names in H1. rewrite <- base_fields_names in H1. apply map_eq_nil in H1. rewrite H1. cbn. eauto.
Qed.

Lemma c59_partition_proof : forall {obj ty W} (P : Py obj ty W) c,
  made P c ->
  Permutation (required_keys (c_fields c) ++ optional_keys (c_fields c)) (keys (c_fields c)) /\
  (forall k f, dget k (c_fields c) = Some f -> (In k (required_keys (c_fields c)) <-> f_default f = NoDefault)) /\
  (forall k f, dget k (c_fields c) = Some f -> (In k (optional_keys (c_fields c)) <-> f_default f <> NoDefault)).
Proof.
  intros obj ty W P c H. destruct (made_inv P c H) as [OK _]. set (fs := c_fields c) in *. clearbody fs. clear H.
  assert (REQ : forall k f, dget k fs = Some f -> (In k (required_keys fs) <-> f_default f = NoDefault)).
  { intros k f E. unfold required_keys, keys. rewrite in_map_iff. split.
    - intros ([k' f'] & E1 & HI). cbn in E1. subst k'. apply filter_In in HI. destruct HI as [HI HD].
      apply dget_In in HI; [|assumption]. rewrite E in HI. injection HI as <-. unfold has_default in HD. cbn in HD.
      destruct (f_default f); [reflexivity|discriminate|discriminate].
    - intro D. exists (k, f). split; [reflexivity|]. apply filter_In. split; [apply dget_Some_In; assumption|].
      unfold has_default. cbn. rewrite D. reflexivity. }
  split; [|split].
  - apply NoDup_Permutation.
    + assert (ND : forall {A} (l m : list A), NoDup l -> NoDup m -> (forall x, In x l -> ~ In x m) -> NoDup (l ++ m)).
      { intros A l m HL HM HD. induction HL as [|x l HX HL IHl]; cbn; [assumption|]. constructor.
        - rewrite in_app_iff. intros [HH|HH]; [contradiction|]. exact (HD x (or_introl eq_refl) HH).
        - apply IHl. intros y HY. apply HD. right; assumption. }
      apply ND.
      * unfold required_keys. clear - OK. unfold dict_ok in OK. induction fs as [|[k f] r IH]; cbn in *; [constructor|].
        inversion OK as [|? ? HX HR]; subst. destruct (negb (has_default f)); cbn; [|apply IH; assumption].
        constructor; [|apply IH; assumption]. intro HI. apply HX. unfold keys in *. apply in_map_iff in HI.
        destruct HI as (x & E & HI). apply filter_In in HI. apply in_map_iff. exists x. tauto.
      * apply NoDup_filter. assumption.
      * intros k HR HP. apply filter_In in HP. destruct HP as [_ HP]. apply negb_true_iff in HP. apply smem_false in HP. contradiction.
    + assumption.
    + intro k. rewrite in_app_iff. unfold optional_keys. rewrite filter_In. split.
      * intros [HI|[HI _]]; [|assumption]. unfold required_keys, keys in *. apply in_map_iff in HI. destruct HI as (x & E & HI).
        apply filter_In in HI. apply in_map_iff. exists x. tauto.
      * intro HI. destruct (in_dec string_dec k (required_keys fs)) as [HR|HR]; [left; assumption|right].
        split; [assumption|]. apply negb_true_iff. apply smem_false. assumption.
  - assumption.
  - intros k f E. unfold optional_keys. rewrite filter_In, negb_true_iff, smem_false, (REQ k f E). split; [tauto|].
    intro N. split; [eapply dget_some_key; eassumption|assumption].
Qed.

Lemma c59_fields_proof : forall {obj ty W} (P : Py obj ty W) d c,
  make_class P d = Ok c -> dict_ok (d_anns d) ->
  (forall b, In (BRecord b) (d_bases d) -> made P b) ->
  (forall b k f, In (BRecord b) (d_bases d) -> dget k (c_fields b) = Some f -> dget k (c_fields c) = Some f) /\
  (forall k a, dget k (d_anns d) = Some a -> is_field a = true -> exists f,
     dget k (c_fields c) = Some f /\ f_name f = k /\ f_owner f = d_ty d /\ f_default f = d_static d k /\
     (forall n, In n (f_tags f) <-> In n (declared_tags a)) /\
     make_filler P (d_style d) (declared_hint a) (ops_for k (d_prebind d)) = Ok (f_filler f)).
Proof.
  intros obj ty W P d c H HO HB. destruct (make_class_parts P d c H) as (own & parents & []). split.
  - intros b k f HI E.
    assert (EP : dget k parents = Some f).
    { apply dget_In; [exact mp_nodup|]. rewrite mp_parents. apply in_flat_map. exists (BRecord b). split; [assumption|].
      apply dget_Some_In. assumption. }
    assert (EA : dget k (parents ++ own) = Some f) by (rewrite dget_app, EP; reflexivity).
    destruct (mp_field k f EA) as (g & fl & Eg & (S1 & S2 & S3 & S4) & A & B1 & B2). rewrite Eg. f_equal.
    destruct (made_inv P b (HB b HI)) as [_ FF]. destruct (FF k f E) as (NM & s & h & ops & M).
    destruct (sealed_ops P _ _ _ (make_seals P _ _ _ _ M) A) as [_ ->].
    assert (N : f_owner f <> d_ty d).
    { intro EE. destruct (bind_sealed P _ (d_style d) (make_seals P _ _ _ _ M)) as [e Ee]. rewrite (B1 EE) in Ee. discriminate. }
    specialize (B2 N). destruct f, g; cbn in *. congruence.
  - intros k a E HF.
    assert (OK : In k (keys own)).
    { rewrite (own_fields_names P d own HO mp_own). unfold own_field_names. rewrite in_app_iff.
      destruct (in_dec string_dec k (d_inherited_anns d)) as [HI|HI]; [left|right]; apply filter_In.
      - split; [apply -> in_rev; apply nodup_In; apply -> in_rev; assumption|]. rewrite E. assumption.
      - split; [eapply dget_some_key; eassumption|]. rewrite E, HF. apply negb_true_iff. apply smem_false. assumption. }
    destruct (in_keys_get _ _ OK) as [f Ef].
    destruct (own_fields_get P _ _ _ _ _ mp_own Ef) as (a' & HI & _ & NM & DF & OW & GF & TG).
    apply own_hints_In in HI; [|assumption]. rewrite E in HI. injection HI as <-.
    assert (NP : dget k parents = None).
    { apply dget_None. intro HK. exact (mp_disjoint k HK OK). }
    assert (EA : dget k (parents ++ own) = Some f) by (rewrite dget_app, NP; assumption).
    destruct (mp_field k f EA) as (g & fl & Eg & (S1 & S2 & S3 & S4) & A & B1 & B2).
    exists g. split; [assumption|]. rewrite S1, S2, S3, S4. repeat (split; [assumption|]).
    unfold make_filler. rewrite GF. cbn. rewrite A. cbn. apply B1. assumption.
Qed.

Lemma c60_diamond_refuted_proof : forall {obj ty W} (P : Py obj ty W) d b1 b2 l1 l2 l3 k c,
  d_bases d = l1 ++ BRecord b1 :: l2 ++ BRecord b2 :: l3 ->
  In k (keys (c_fields b1)) -> In k (keys (c_fields b2)) ->
  make_class P d <> Ok c.
Proof.
  intros obj ty W P d b1 b2 l1 l2 l3 k c HB H1 H2 H.
  destruct (make_class_parts P d c H) as (own & parents & []).
  rewrite mp_parents, HB, base_fields_names, flat_map_app in mp_nodup. cbn in mp_nodup. rewrite flat_map_app in mp_nodup. cbn in mp_nodup.
  apply in_split in H1. destruct H1 as (u1 & v1 & E1). rewrite E1 in mp_nodup. rewrite <- !app_assoc in mp_nodup. cbn in mp_nodup.
  rewrite app_assoc in mp_nodup. apply NoDup_remove_2 in mp_nodup. apply mp_nodup.
  rewrite !in_app_iff. tauto.
Qed.

Lemma c60_bases_partial_proof : forall {obj ty W} (P : Py obj ty W) d,
  dict_ok (d_anns d) ->
  (forall b, In (BRecord b) (d_bases d) -> made P b) ->
  (forall b k f, In (BRecord b) (d_bases d) -> dget k (c_fields b) = Some f -> f_owner f <> d_ty d) ->
  (forall o, In o (d_prebind d) -> In (fst o) (own_field_names d)) ->
  (forall k a, dget k (d_anns d) = Some a ->
     (exists r, from_type_hint P (d_frozen d) (d_ty d) k (d_static d k) a = Ok r) /\
     (is_field a = true -> exists fl, make_filler P (d_style d) (declared_hint a) (ops_for k (d_prebind d)) = Ok fl)) ->
  NoDup (inherited_names d ++ own_field_names d) -> inherited_names d ++ own_field_names d <> [] ->
  exists c, make_class P d = Ok c.
Proof.
  intros obj ty W P d HO HB HOW HP HA HN HE.
  destruct (own_fields_all P d (own_hints (d_anns d) (d_inherited_anns d))) as [own E].
  { intros k a HI. apply HA. eapply own_hints_In; eassumption. }
  assert (OWN : keys own = own_field_names d) by (apply (own_fields_names P); assumption).
  rewrite <- OWN in HN, HE, HP. unfold inherited_names in HN, HE. rewrite <- base_fields_names in HN, HE.
  set (par := flat_map (@base_fields obj ty W) (d_bases d)) in *.
  assert (DIS : forall k, In k (keys par) -> ~ In k (keys own)).
  { intros k H1 H2. apply in_split in H1. destruct H1 as (u & v & EE). rewrite EE in HN. rewrite <- app_assoc in HN. cbn in HN.
    apply NoDup_remove_2 in HN. apply HN. rewrite !in_app_iff. tauto. }
  assert (OKA : dict_ok (par ++ own)) by (unfold dict_ok; rewrite keys_app; assumption).
  unfold make_class. rewrite E. cbn. fold par. rewrite (inherit_fields_forward own par []); [|cbn [app]; clear - HN; induction (keys (par)) as [|x l IH]; [constructor|]; cbn in HN; inversion HN; subst; constructor; [rewrite in_app_iff in *; tauto|apply IH; assumption]|assumption].
  cbn [obind app]. destruct (par ++ own) as [|x r] eqn:EF.
  { exfalso. apply HE. rewrite <- keys_app, EF. reflexivity. }
  rewrite <- EF in *. clear x r EF.
  (* an inherited field is not touched, an own one is what make_filler makes *)
  assert (FLD : forall k f, dget k (par ++ own) = Some f ->
    (f_owner f <> d_ty d /\ ops_for k (d_prebind d) = []) \/
    (f_owner f = d_ty d /\ exists fl0 fl, apply_ops P (f_filler f) (ops_for k (d_prebind d)) = Ok fl0 /\ bind_filler P (d_style d) fl0 = Ok fl)).
  { intros k f Ef. rewrite dget_app in Ef. destruct (dget k par) as [f0|] eqn:EP.
    - injection Ef as ->. left. split.
      + apply dget_Some_In in EP. apply in_flat_map in EP. destruct EP as ([b|] & HI & HF); cbn in HF; [|contradiction].
        eapply HOW; [exact HI|]. apply dget_In; [apply (made_inv P b (HB b HI))|exact HF].
      + unfold ops_for. replace (filter (fun o => String.eqb k (fst o)) (d_prebind d)) with (@nil (string * (option nat * @token obj ty W))); [reflexivity|].
        symmetry. assert (NK : ~ In k (keys own)) by (apply DIS; eapply dget_some_key; eassumption).
        clear - HP NK. induction (d_prebind d) as [|o r IH]; cbn; [reflexivity|].
        destruct (String.eqb_spec k (fst o)) as [EE|N]; [|apply IH; intros; apply HP; right; assumption].
        exfalso. apply NK. rewrite EE. apply HP. left; reflexivity.
    - right. destruct (own_fields_get P _ _ _ _ _ E Ef) as (a & HI & HF & NM & DF & OW & GF & TG). split; [assumption|].
      apply own_hints_In in HI; [|assumption]. destruct (HA k a HI) as [_ HM]. destruct (HM HF) as [fl M].
      unfold make_filler in M. rewrite GF in M. cbn in M.
      destruct (apply_ops P (f_filler f) (ops_for k (d_prebind d))) as [fl0|e]; [|discriminate]. cbn in M. eauto. }
  destruct (apply_prebind_forward P (d_prebind d) (par ++ own)) as [fs1 E1].
  { intros o HI. rewrite keys_app, in_app_iff. right. apply HP. assumption. }
  { intros k f Ef. destruct (FLD k f Ef) as [[_ ->]|(_ & fl0 & fl & A & _)]; [cbn; eauto|eauto]. }
  rewrite E1. cbn [obind]. destruct (apply_prebind_ok P _ _ _ E1) as [K1 G1].
  destruct (bind_fields_forward P (d_ty d) (d_style d) fs1) as [fs2 E2]; [|rewrite E2; cbn; eauto].
  intros k f1 HI OW. apply dget_In in HI; [|unfold dict_ok; rewrite K1; assumption].
  assert (IK : In k (keys (par ++ own))) by (rewrite <- K1; eapply dget_some_key; eassumption).
  destruct (in_keys_get _ _ IK) as [f Ef]. destruct (G1 k f Ef) as (f1' & Ef1 & (S1 & S2 & S3 & S4) & A1).
  rewrite HI in Ef1. injection Ef1 as <-. destruct (FLD k f Ef) as [[N _]|(_ & fl0 & fl & A & B)]; [congruence|].
  rewrite A in A1. injection A1 as <-. eauto.
Qed.

Lemma c61_unary_default_proof : forall {obj ty W} (P : Py obj ty W) d c,
  make_class P d = Ok c -> dict_ok (d_anns d) ->
  (forall b, d_unary d = Some b -> c_unary c = b) /\
  (d_unary d = None -> (c_unary c = true <-> List.length (required_keys (c_fields c)) <> 1)).
Proof.
  intros obj ty W P d c H HO. destruct (make_class_parts P d c H) as (own & parents & []).
  rewrite mp_rest. cbn [c_unary c_fields]. split; [intros b ->; reflexivity|]. intros ->.
  assert (KS : keys (c_fields c) = keys (parents ++ own)) by (rewrite keys_app; assumption).
  assert (OK : dict_ok (parents ++ own)).
  { unfold dict_ok. rewrite keys_app. apply NoDup_join; [assumption| |assumption].
    rewrite (own_fields_names P d own HO mp_own). apply own_field_names_NoDup. assumption. }
  assert (E : required_keys (c_fields c) = required_keys (parents ++ own)).
  { rewrite !required_keys_filter by (try assumption; unfold dict_ok in *; congruence). rewrite KS.
    apply filter_ext_in. intros k HI. destruct (in_keys_get _ _ HI) as [f Ef].
    destruct (mp_field k f Ef) as (g & fl & Eg & (S1 & S2 & S3 & S4) & _). rewrite Ef, Eg. unfold has_default. rewrite S2. reflexivity. }
  rewrite E. rewrite negb_true_iff, Nat.eqb_neq. reflexivity.
Qed.

Lemma c62_filter_partial_proof : forall {obj ty W} (P : Py obj ty W) d c t,
  make_class P d = Ok c -> dict_ok (d_anns d) -> inherited_names d = [] ->
  exists fs, filter_by_tag c t = Ok fs /\
    keys fs = filter (fun k => match dget k (d_anns d) with Some a => existsb (Nat.eqb t) (declared_tags a) | None => false end) (keys (c_fields c)) /\
    forall k f, In (k, f) fs -> In (k, f) (c_fields c).
Proof.
  intros obj ty W P d c t H HO HI.
  destruct (make_class_parts P d c H) as (own & parents & MP). destruct MP.
  assert (EP : parents = []).
  { unfold inherited_names in HI. rewrite <- base_fields_names, <- mp_parents in HI. apply map_eq_nil in HI. assumption. }
  subst parents. rewrite EP in *. unfold filter_by_tag. rewrite mp_rest. cbn [c_field_dict c_fields]. eexists. split; [reflexivity|].
  split; [|intros k f HF; apply filter_In in HF; tauto].
  cbn in mp_keys. assert (OWN : keys own = own_field_names d) by (apply (own_fields_names P); assumption).
  assert (OK : dict_ok (c_fields c)) by (unfold dict_ok; rewrite mp_keys, OWN; apply own_field_names_NoDup; assumption).
  assert (G : forall l : dict field, (forall k f, In (k, f) l -> dget k (c_fields c) = Some f) ->
    keys (filter (fun kf => existsb (Nat.eqb t) (f_tags (snd kf))) l) =
    filter (fun k => match dget k (d_anns d) with Some a => existsb (Nat.eqb t) (declared_tags a) | None => false end) (keys l)).
  { induction l as [|[k g] r IH]; intro HG; cbn; [reflexivity|].
    specialize (IH (fun k f HI => HG k f (or_intror HI))). pose proof (HG k g (or_introl eq_refl)) as Eg.
    assert (IK : In k (keys own)) by (rewrite <- mp_keys; eapply dget_some_key; eassumption).
    destruct (in_keys_get _ _ IK) as [f Ef]. destruct (mp_field k f Ef) as (g' & fl & Eg' & (S1 & S2 & S3 & S4) & _).
    rewrite Eg in Eg'. injection Eg' as <-.
    destruct (own_fields_get P _ _ _ _ _ mp_own Ef) as (a & HA & HF & _ & _ & _ & _ & TG).
    apply own_hints_In in HA; [|assumption]. rewrite HA.
    replace (existsb (Nat.eqb t) (f_tags g)) with (existsb (Nat.eqb t) (declared_tags a)).
    - destruct (existsb (Nat.eqb t) (declared_tags a)); cbn; [f_equal|]; exact IH.
    - apply eq_true_iff_eq. rewrite !existsb_exists. rewrite S4. split; intros (x & HX & HE); exists x; (split; [apply TG|]; assumption). }
  apply G. intros; apply dget_In; assumption.
Qed.

Lemma c62_inherited_refuted_proof : forall {obj ty W} (P : Py obj ty W) d c t,
  make_class P d = Ok c -> inherited_names d <> [] -> exists m, filter_by_tag c t = Raise (mkexc AttributeError m).
Proof.
  intros obj ty W P d c t H HI. destruct (make_class_parts P d c H) as (own & parents & []).
  unfold filter_by_tag. rewrite mp_rest. cbn [c_field_dict]. destruct parents as [|x r]; [|eauto].
  exfalso. apply HI. unfold inherited_names. rewrite <- base_fields_names, <- mp_parents. reflexivity.
Qed.

Lemma c75_prebind_inherited_refuted_proof : forall {obj ty W} (P : Py obj ty W) d b o c,
  In (BRecord b) (d_bases d) -> made P b -> In o (d_prebind d) -> In (fst o) (keys (c_fields b)) ->
  make_class P d <> Ok c.
Proof.
  intros obj ty W P d b o c HB HM HO HK H.
  destruct (make_class_parts P d c H) as (own & parents & []).
  destruct (in_keys_get _ _ HK) as [f E].
  assert (EP : dget (fst o) parents = Some f).
  { apply dget_In; [exact mp_nodup|]. rewrite mp_parents. apply in_flat_map. exists (BRecord b). split; [assumption|].
    apply dget_Some_In. assumption. }
  assert (EA : dget (fst o) (parents ++ own) = Some f) by (rewrite dget_app, EP; reflexivity).
  destruct (mp_field _ f EA) as (g & fl & _ & _ & A & _).
  destruct (made_inv P b HM) as [_ FF]. destruct (FF _ f E) as (_ & s & h & ops & M).
  destruct (sealed_ops P _ _ _ (make_seals P _ _ _ _ M) A) as [EN _].
  assert (HI : In (snd o) (ops_for (fst o) (d_prebind d))).
  { unfold ops_for. apply in_map. apply filter_In. split; [assumption|apply String.eqb_refl]. }
  rewrite EN in HI. exact HI.
Qed.

Lemma c18_class_fields_proof : forall {obj ty W} (P : Py obj ty W) c k f,
  made P c -> dget k (c_fields c) = Some f ->
  f_name f = k /\
  (exists s h ops, make_filler P s h ops = Ok (f_filler f)) /\
  (forall key t, exists e, apply_at P key t (f_filler f) = Raise e) /\
  (forall s, exists e, bind_filler P s (f_filler f) = Raise e).
Proof.
  intros obj ty W P c k f HM E. destruct (made_inv P c HM) as [_ FF]. destruct (FF k f E) as (N & s & h & ops & M).
  split; [assumption|]. split; [eauto|]. pose proof (make_seals P _ _ _ _ M) as S. split.
  - intros key t. apply apply_at_sealed. assumption.
  - intro s'. apply bind_sealed. assumption.
Qed.
