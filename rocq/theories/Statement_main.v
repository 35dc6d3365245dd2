(** Statement_main.v -- proofs of the properties stated in Props_Statement.v: class statements whose fields have names that the class statement uses (RecordBase.__init_subclass__) *)

From Verif Require Import Base Py Filler Spec_Filler Classes Spec_Classes Bodies Spec_Bodies Statement Spec_Statement Demo.
From Verif Require Dict_proofs Filler_proofs Classes_proofs Bodies_proofs.
Open Scope string_scope.
Open Scope list_scope.

Import Dict_proofs Filler_proofs Classes_proofs Bodies_proofs.
Section Lemmas.
Context {obj ty W : Type} (P : Py obj ty W).
Notation body := (@body obj ty W).
Notation field := (@field obj ty W).
Notation ann := (@ann obj ty W).

Lemma type_hint_field : forall frozen owner k d (a : ann) f, from_type_hint P frozen owner k d a = Ok (Some f) -> is_field a = true.
Proof. intros frozen owner k d a f H. apply from_type_hint_some in H. tauto. Qed.

Lemma own_plain : forall d (l : dict ann), (forall a, In ("_fields", a) l -> is_field a = false) ->
  own_fields_n P d false l = (do fs <- own_fields P d l; Ok (fs, false)).
Proof.
  intros d. induction l as [|[k a] r IH]; intro H; cbn; [reflexivity|].
  assert (IHr := IH (fun a HI => H a (or_intror HI))).
  destruct (from_type_hint P (d_frozen d) (d_ty d) k (d_static d k) a) as [[f|]|e] eqn:E; cbn; [| |reflexivity].
  - destruct (String.eqb_spec k "_fields") as [->|N].
    + specialize (H a (or_introl eq_refl)). apply type_hint_field in E. congruence.
    + rewrite IHr. destruct (own_fields P d r) as [fs|e]; reflexivity.
  - rewrite IHr. destruct (own_fields P d r) as [fs|e]; reflexivity.
Qed.
Lemma own_hidden : forall d (l : dict ann) p, own_fields_n P d true l = Ok p -> p = ([], true).
Proof.
  intros d. induction l as [|[k a] r IH]; intros p H; cbn in H; [congruence|].
  destruct (from_type_hint P (d_frozen d) (d_ty d) k (d_static d k) a) as [[f|]|e]; cbn in H; [discriminate|auto|discriminate].
Qed.
(** with a field _fields, the loop fails or leaves _fields hidden *)
Lemma own_clash : forall d (l : dict ann) a p, In ("_fields", a) l -> is_field a = true ->
  own_fields_n P d false l = Ok p -> snd p = true.
Proof.
  intros d. induction l as [|[k a'] r IH]; intros a p HI HA H; [destruct HI|]. cbn in H.
  destruct (from_type_hint P (d_frozen d) (d_ty d) k (d_static d k) a') as [[f|]|e] eqn:E; cbn in H; [| |discriminate].
  - destruct (own_fields_n P d (String.eqb k "_fields") r) as [q|e] eqn:EQ; [|discriminate]. injection H as <-. cbn.
    destruct (String.eqb_spec k "_fields") as [->|N].
    + apply own_hidden in EQ. subst q. reflexivity.
    + destruct HI as [HI|HI]; [congruence|]. eapply IH; eassumption.
  - destruct HI as [HI|HI]; [injection HI as -> ->; apply from_type_hint_none in E; congruence|]. eapply IH; eassumption.
Qed.
Lemma own_error : forall d (l : dict ann) h fs e, own_fields P d l = Ok fs -> own_fields_n P d h l = Raise e -> exists m, e = mkexc TypeError m.
Proof.
  intros d. induction l as [|[k a'] r IH]; intros h fs e H HR; cbn in *; [discriminate|].
  destruct (from_type_hint P (d_frozen d) (d_ty d) k (d_static d k) a') as [[f|]|e'] eqn:E; cbn in *; [| |discriminate];
    (destruct (own_fields P d r) as [fs'|] eqn:EF; [|discriminate]).
  - destruct h; [injection HR as <-; eauto|].
    destruct (own_fields_n P d (String.eqb k "_fields") r) as [q|e'] eqn:EQ; [discriminate|]. injection HR as <-. eapply IH; [reflexivity|exact EQ].
  - eapply IH; [reflexivity|exact HR].
Qed.

Lemma bind_plain : forall t s (fs : dict field), bind_fields_n P false false t s fs = bind_fields P t s fs.
Proof.
  intros t s. induction fs as [|[k f] r IH]; cbn; [reflexivity|]. rewrite IH. reflexivity.
Qed.
Lemma prebind_keys : forall ops (fs fs1 : dict field), apply_prebind P ops fs = Ok fs1 -> keys fs1 = keys fs.
Proof. intros ops fs fs1 H. apply apply_prebind_ok in H. tauto. Qed.
Lemma bind_n_get : forall asking odd t s (fs fs2 : dict field) k f, bind_fields_n P asking odd t s fs = Ok fs2 ->
  dget k fs = Some f -> f_owner f = t -> exists fl g, bind_filler_n P asking odd s (f_filler f) = Ok fl /\ dget k fs2 = Some g /\ f_filler g = fl.
Proof.
  intros asking odd t s. induction fs as [|[k0 f0] r IH]; intros fs2 k f H E HO; cbn in *; [discriminate|].
  oinv H. oinv H. injection H as <-. cbn. destruct (String.eqb_spec k k0) as [->|N].
  - injection E as ->. destruct (ty_eqP P (f_owner f) t) as [_|NT]; [|contradiction]. oinv Ha. injection Ha as <-.
    eexists. eexists. split; [eassumption|]. split; reflexivity.
  - eapply IH; eassumption.
Qed.
Lemma dmem_false : forall {A} k (d : dict A), ~ In k (keys d) -> dmem k d = false.
Proof. intros A k d H. destruct (dmem k d) eqn:E; [|reflexivity]. apply dmem_In in E. contradiction. Qed.
Lemma base_key : forall k (bs : list (@base obj ty W)), In k (keys (flat_map base_fields bs)) -> exists c, In (BRecord c) bs /\ In k (keys (c_fields c)).
Proof.
  intros k bs H. unfold keys in H. apply in_map_iff in H. destruct H as ([k' f] & <- & H). apply in_flat_map in H. destruct H as (b & HB & H).
  destruct b as [c|]; [|destruct H]. exists c. split; [exact HB|]. apply in_map_iff. exists (k', f). auto.
Qed.
Lemma ops_for_none : forall k (ops : list (string * (option nat * @token obj ty W))), ~ In k (map fst ops) -> ops_for k ops = [].
Proof.
  intros k. induction ops as [|[k' o] r IH]; intro H; [reflexivity|]. unfold ops_for. cbn. destruct (String.eqb_spec k k') as [->|N].
  - destruct H. left. reflexivity.
  - apply IH. intro HI. apply H. right. exact HI.
Qed.

(** what is known of a plainly declared field when the fillers are bound *)
Lemma plain_before : forall (b : body) p parents fs1 k t, dict_ok (b_anns b) -> plainly_declared b k t ->
  own_fields_n P (decl_of b) false (own_hints (b_anns b) (b_inherited_anns b)) = Ok (p, false) ->
  inherit_fields p [] (flat_map base_fields (b_bases b)) = Ok parents ->
  apply_prebind P (b_prebind b) (parents ++ p) = Ok fs1 ->
  exists f, dget k fs1 = Some f /\ f_owner f = b_ty b /\ f_filler f = FAnn (mk_afiller (class_kind P t) []).
Proof.
  intros b p parents fs1 k t HO [HA HP] E1 E2 E3.
  assert (EP : own_fields P (decl_of b) (own_hints (b_anns b) (b_inherited_anns b)) = Ok p).
  { rewrite own_plain in E1; [oinv E1; injection E1 as <-; exact E1a|].
    intros a HI. destruct (is_field a) eqn:EA; [|reflexivity].
    pose proof (own_clash _ _ _ _ HI EA E1). discriminate. }
  pose proof (own_fields_keys P _ _ _ EP) as KP.
  assert (HK : In k (keys p)).
  { rewrite KP. apply in_map_iff. exists (k, AHint (HTy t) []). split; [reflexivity|]. apply filter_In. split; [apply in_own_hints; exact HA|reflexivity]. }
  apply in_keys_get in HK. destruct HK as [f EF].
  destruct (own_fields_get P _ _ _ _ _ EP EF) as (a & HI & _ & _ & _ & HOW & HG & _).
  apply own_hints_In in HI; [|exact HO]. rewrite HA in HI. injection HI as <-. cbn in HG. injection HG as HG.
  apply inherit_fields_ok in E2. destruct E2 as (E2 & HD & _). cbn in E2.
  assert (EK : dget k (parents ++ p) = Some f).
  { rewrite dget_app. destruct (dget k parents) as [f'|] eqn:EN; [|exact EF].
    exfalso. apply dget_some_key in EN. rewrite E2 in EN. apply (HD k EN). eapply dget_some_key. exact EF. }
  apply apply_prebind_ok in E3. destruct E3 as [_ E3]. destruct (E3 k f EK) as (f1 & F1 & (_ & _ & SO & _) & HF).
  rewrite (ops_for_none k _ HP) in HF. cbn in HF. injection HF as HF.
  exists f1. split; [exact F1|]. split; [rewrite SO; exact HOW|congruence].
Qed.
End Lemmas.

Lemma c139_statement_partial_proof : forall {obj ty W} (P : Py obj ty W) b,
  dict_ok (b_anns b) -> plain_statement b -> statement P b = create P b.
Proof.
  intros obj ty W P b HO HP. unfold statement, create, make_class.
  assert (HD : forall k, In k statement_names -> ~ declares b k) by (intros k HK; apply (HP k HK)).
  assert (HB : forall k, In k statement_names -> ~ In k (keys (flat_map base_fields (b_bases b)))).
  { intros k HK HI. apply base_key in HI. destruct HI as (c & HC & HI). destruct (HP k HK) as [_ HN]. exact (HN c HC HI). }
  rewrite own_plain.
  2: { intros a HI. apply own_hints_In in HI; [|exact HO]. destruct (is_field a) eqn:E; [|reflexivity].
       destruct (HD "_fields"); [left; reflexivity|]. exists a. auto. }
  cbn [decl_of d_anns d_inherited_anns d_bases d_unary d_prebind d_ty d_style d_frozen d_ordered d_parsers d_post_new].
  unfold own_names. destruct (own_fields P (decl_of b) (own_hints (b_anns b) (b_inherited_anns b))) as [own|e] eqn:EO; [|reflexivity].
  cbn [obind fst snd]. destruct (inherit_fields own [] (flat_map base_fields (b_bases b))) as [parents|e] eqn:EI; [|reflexivity]. cbn [obind].
  pose proof (inherit_fields_ok _ _ _ _ EI) as (EP & _). cbn in EP.
  assert (HK : forall k, In k statement_names -> ~ In k (keys own)).
  { intros k HK HI. apply (HD k HK). rewrite (own_fields_keys P _ _ _ EO) in HI. apply in_map_iff in HI.
    destruct HI as ([k' a] & <- & HI). apply filter_In in HI. destruct HI as [HI HF]. exists a. split; [eapply own_hints_In; eassumption|exact HF]. }
  assert (HA : forall k, In k statement_names -> dmem k (parents ++ own) = false).
  { intros k HKS. apply dmem_false. rewrite keys_app, in_app_iff. intros [HI|HI]; [|exact (HK k HKS HI)]. apply (HB k HKS). rewrite <- EP. exact HI. }
  rewrite (HA "pre_bind"), (HA "default_type_check_style"), (dmem_false "_default_type_check_style" own) by (try apply HK; cbn; tauto).
  destruct (parents ++ own) as [|kf r] eqn:EF; [reflexivity|].
  destruct (apply_prebind P (b_prebind b) (kf :: r)) as [fs1|e]; [|reflexivity]. cbn [obind].
  rewrite bind_plain. destruct (bind_fields P (b_ty b) (b_style b) fs1) as [fs2|e]; reflexivity.
Qed.

Lemma c139_fields_refuted_proof : forall {obj ty W} (P : Py obj ty W) b,
  dict_ok (b_anns b) -> declares b "_fields" ->
  (forall c, statement P b <> Ok c) /\
  (forall c, create P b = Ok c -> exists e m, statement P b = Raise (mkexc e m) /\ (e = TypeError \/ e = AttributeError)).
Proof.
  intros obj ty W P b HO (a & HA & HF).
  assert (HI : In ("_fields", a) (own_hints (b_anns b) (b_inherited_anns b))) by (apply in_own_hints; exact HA).
  split.
  - intros c H. unfold statement in H. oinv H. rewrite (own_clash P _ _ _ _ HI HF Ha) in H.
    destruct (flat_map base_fields (b_bases b)); discriminate.
  - intros c H. unfold create, make_class in H. oinv H. oinv Ha. cbn [decl_of d_anns d_inherited_anns] in Haa. unfold statement.
    destruct (own_fields_n P (decl_of b) false (own_hints (b_anns b) (b_inherited_anns b))) as [p|e] eqn:E; cbn [obind].
    + rewrite (own_clash P _ _ _ _ HI HF E). destruct (flat_map base_fields (b_bases b)); do 2 eexists; (split; [reflexivity|tauto]).
    + destruct (own_error P _ _ _ _ _ Haa E) as [m ->]. do 2 eexists. split; [reflexivity|tauto].
Qed.

Lemma c139_pre_bind_refuted_proof : forall {obj ty W} (P : Py obj ty W) b,
  dict_ok (b_anns b) -> declares b "pre_bind" ->
  (forall c, statement P b <> Ok c) /\
  (forall c, create P b = Ok c -> ~ declares b "_fields" -> exists m, statement P b = Raise (mkexc TypeError m)).
Proof.
  intros obj ty W P b HO (a & HA & HF).
  assert (HI : In ("pre_bind", a) (own_hints (b_anns b) (b_inherited_anns b))) by (apply in_own_hints; exact HA).
  assert (KEY : forall fs, own_fields P (decl_of b) (own_hints (b_anns b) (b_inherited_anns b)) = Ok fs -> forall l, dmem "pre_bind" (l ++ fs) = true).
  { intros fs E l. apply dmem_In. rewrite keys_app. apply in_or_app. right. rewrite (own_fields_keys P _ _ _ E).
    apply in_map_iff. exists ("pre_bind", a). split; [reflexivity|]. apply filter_In. auto. }
  assert (PL : ~ declares b "_fields" -> forall a, In ("_fields", a) (own_hints (b_anns b) (b_inherited_anns b)) -> is_field a = false).
  { intros N a' HI'. destruct (is_field a') eqn:EA; [|reflexivity]. destruct N. exists a'. split; [eapply own_hints_In; eassumption|exact EA]. }
  split.
  - intros c H. unfold statement in H.
    destruct (existsb (fun ka => String.eqb (fst ka) "_fields" && is_field (snd ka)) (own_hints (b_anns b) (b_inherited_anns b))) eqn:EX.
    + apply existsb_exists in EX. destruct EX as ([k' a'] & HI' & E). apply andb_prop in E. destruct E as [E EA]. cbn in E, EA. apply String.eqb_eq in E. subst k'.
      oinv H. rewrite (own_clash P _ _ _ _ HI' EA Ha) in H. destruct (flat_map base_fields (b_bases b)); discriminate.
    + rewrite own_plain in H.
      2: { intros a' HI'. destruct (is_field a') eqn:EA; [|reflexivity]. rewrite <- EX. symmetry. apply existsb_exists. exists ("_fields", a'). split; [exact HI'|]. cbn. exact EA. }
      oinv H. oinv Ha. injection Ha as <-. cbn [fst snd] in H. oinv H. rewrite (KEY _ Haa) in H. destruct (_ ++ _); discriminate.
  - intros c H N. unfold create, make_class in H. oinv H. oinv Ha. cbn [decl_of d_anns d_inherited_anns d_bases] in Haa, Ha. oinv Ha. unfold statement.
    rewrite (own_plain P _ _ (PL N)), Haa. cbn [obind fst snd]. rewrite Haa0. cbn [obind]. rewrite (KEY _ Haa).
    match type of Ha with match ?l with [] => _ | _ => _ end = _ => destruct l as [|kf r]; [discriminate|] end. eexists. reflexivity.
Qed.

Lemma c139_style_method_refuted_proof : forall {obj ty W} (P : Py obj ty W) b k t,
  dict_ok (b_anns b) -> declares b "default_type_check_style" -> plainly_declared b k t ->
  forall c, statement P b <> Ok c.
Proof.
  intros obj ty W P b k t HO (a & HA & HF) HP c H. unfold statement in H. oinv H. destruct a0 as [p h]. cbn [fst snd] in H.
  destruct h; [destruct (flat_map base_fields (b_bases b)); discriminate|]. oinv H.
  destruct (a0 ++ p) as [|kf r] eqn:EF; [discriminate|]. rewrite <- EF in H. destruct (dmem "pre_bind" (a0 ++ p)); [discriminate|]. oinv H. oinv H. clear H.
  destruct (plain_before P b p a0 a1 k t HO HP Ha Ha0 Ha1) as (f & EK & HW & HFL).
  assert (EM : dmem "default_type_check_style" (a0 ++ p) = true).
  { apply dmem_In. rewrite keys_app. apply in_or_app. right.
    assert (EP : own_fields P (decl_of b) (own_hints (b_anns b) (b_inherited_anns b)) = Ok p).
    { rewrite own_plain in Ha; [oinv Ha; injection Ha as <-; exact Haa|].
      intros a' HI. destruct (is_field a') eqn:EA; [|reflexivity]. pose proof (own_clash P _ _ _ _ HI EA Ha). discriminate. }
    rewrite (own_fields_keys P _ _ _ EP). apply in_map_iff. exists ("default_type_check_style", a). split; [reflexivity|]. apply filter_In.
    split; [apply in_own_hints; exact HA|exact HF]. }
  rewrite EM in Ha2. destruct (bind_n_get P _ _ _ _ _ _ _ _ Ha2 EK HW) as (fl & g & EB & _). rewrite HFL in EB. unfold bind_filler_n in EB.
  assert (EQ : exists f1, bind_filler P SDefault (FAnn (mk_afiller (class_kind P t) [])) = Ok f1 /\ unset_style f1 = true).
  { unfold class_kind. destruct (ty_eqb P t (t_bool P)), (ty_eqb P t (t_none P)), (ty_eqb P t (t_ellipsis P)); eexists; split; reflexivity. }
  destruct EQ as (f1 & EQ & EU). rewrite EQ in EB. cbn [obind] in EB. rewrite EU in EB. discriminate.
Qed.

Lemma c139_style_refuted_proof : forall {obj ty W} (P : Py obj ty W) b c k t,
  dict_ok (b_anns b) -> declares b "_default_type_check_style" -> plainly_declared b k t -> plain_class P t ->
  statement P b = Ok c ->
  exists f, dget k (c_fields c) = Some f /\
    forall x w, type_of P x <> t -> exists m, call P (f_filler f) x w = (Raise (mkexc TypeError m), w).
Proof.
  intros obj ty W P b c k t HO (a & HA & HF) HP (N1 & N2 & N3) H. unfold statement in H. oinv H. destruct a0 as [p h]. cbn [fst snd] in H.
  destruct h; [destruct (flat_map base_fields (b_bases b)); discriminate|]. oinv H.
  destruct (a0 ++ p) as [|kf r] eqn:EF; [discriminate|]. rewrite <- EF in H. destruct (dmem "pre_bind" (a0 ++ p)); [discriminate|]. oinv H. oinv H. injection H as <-.
  destruct (plain_before P b p a0 a1 k t HO HP Ha Ha0 Ha1) as (f & EK & HW & HFL).
  assert (EM : dmem "_default_type_check_style" p = true).
  { apply dmem_In.
    assert (EP : own_fields P (decl_of b) (own_hints (b_anns b) (b_inherited_anns b)) = Ok p).
    { rewrite own_plain in Ha; [oinv Ha; injection Ha as <-; exact Haa|].
      intros a' HI. destruct (is_field a') eqn:EA; [|reflexivity]. pose proof (own_clash P _ _ _ _ HI EA Ha). discriminate. }
    rewrite (own_fields_keys P _ _ _ EP). apply in_map_iff. exists ("_default_type_check_style", a). split; [reflexivity|]. apply filter_In.
    split; [apply in_own_hints; exact HA|exact HF]. }
  rewrite EM in Ha2. destruct (bind_n_get P _ _ _ _ _ _ _ _ Ha2 EK HW) as (fl & g & EB & EG & <-). exists g. split; [exact EG|].
  rewrite HFL in EB. unfold bind_filler_n in EB.
  assert (EC : class_kind P t = KSimple t).
  { unfold class_kind. destruct (ty_eqP P t (t_bool P)); [contradiction|]. destruct (ty_eqP P t (t_none P)); [contradiction|].
    destruct (ty_eqP P t (t_ellipsis P)); [contradiction|]. reflexivity. }
  rewrite EC in EB. destruct (dmem "default_type_check_style" (a0 ++ p)); [cbn in EB; discriminate|]. cbn in EB.
  unfold bind_filler in EB. cbn in EB. unfold kind_abstract in EB. cbn in EB. destruct (isabstract P t); cbn in EB; [discriminate|].
  injection EB as EB. rewrite <- EB. intros x w NX. cbn. unfold afill, bind. cbn. unfold simple_check.
  destruct (ty_eqP P (type_of P x) t) as [E|_]; [contradiction|]. destruct (isinstance P x t); eexists; reflexivity.
Qed.
