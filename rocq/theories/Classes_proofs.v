(** Classes_proofs.v -- lemmas about class creation. *)
From Verif Require Import Base Dict_proofs Py Filler Spec_Filler Filler_proofs Filler_sound Filler_shape Filler_seal Filler_decl Classes Spec_Classes.

Section Classes.
Context {obj ty W : Type} (P : Py obj ty W).
Notation token := (@token obj ty W).
Notation hint := (@hint obj ty W).
Notation filler := (@filler obj ty W).
Notation ann := (@ann obj ty W).
Notation decl := (@decl obj ty W).
Notation cls := (@cls obj ty W).
Notation field := (@field obj ty W).

(** ** Own fields *)

Lemma from_type_hint_some : forall frozen owner name d a f,
  from_type_hint P frozen owner name d a = Ok (Some f) ->
  is_field a = true /\ f_name f = name /\ f_default f = d /\ f_owner f = owner /\
  get_filler P (declared_hint a) = Ok (f_filler f) /\
  (forall n, In n (f_tags f) <-> In n (declared_tags a)).
Proof.
  intros frozen owner name d a. 
  assert (TAGS : forall args ts n, In n (add_tags args ts) <-> In n ts \/ In n (@arg_tags obj ty W args)).
  { induction args as [|[t|m] r IH]; intros ts n; [cbn; tauto|apply IH|].
    change (add_tags (ATag m :: r) ts) with (add_tags r (add_tag ts m)). rewrite IH. cbn. unfold add_tag. destruct (existsb (Nat.eqb m) ts) eqn:E.
    - apply existsb_exists in E. destruct E as (y & HI & HE). apply Nat.eqb_eq in HE. subst. split; [tauto|].
      intros [H|[->|H]]; auto.
    - rewrite in_app_iff. cbn. tauto. }
  induction a as [| |a IH args|h args]; intros f H; cbn in H; try discriminate.
  - destruct frozen; [|discriminate]. cbn in H. oinv H. destruct a0 as [g|].
    + injection H as <-. destruct (IH g Ha) as (H1 & H2 & H3 & H4 & H5 & H6).
      cbn. repeat (split; [assumption|]). intro n. rewrite TAGS, H6, in_app_iff. reflexivity.
    + destruct args; discriminate.
  - oinv H. injection H as <-. cbn. repeat (split; [reflexivity|]). split; [assumption|].
    intro n. rewrite TAGS. cbn. tauto.
Qed.

Lemma from_type_hint_none : forall frozen owner name d a,
  from_type_hint P frozen owner name d a = Ok None -> is_field a = false.
Proof.
  intros frozen owner name d. induction a as [| |a IH args|h args]; intros H; cbn in *; try discriminate; auto.
  - destruct frozen; [|discriminate]. cbn in H. oinv H. destruct a0; [discriminate|]. auto.
  - oinv H. discriminate.
Qed.

Lemma own_fields_keys : forall d l fs, own_fields P d l = Ok fs ->
  keys fs = keys (filter (fun ka => is_field (snd ka)) l).
Proof.
  intros d. induction l as [|[k a] r IH]; intros fs H; cbn in *; [injection H as <-; reflexivity|].
  oinv H. oinv H. injection H as <-. destruct a0 as [f|].
  - apply from_type_hint_some in Ha. destruct Ha as (-> & _). cbn. f_equal. apply IH. assumption.
  - apply from_type_hint_none in Ha. rewrite Ha. apply IH. assumption.
Qed.

Lemma own_fields_get : forall d l fs k f, own_fields P d l = Ok fs -> dget k fs = Some f ->
  exists a, In (k, a) l /\ is_field a = true /\ f_name f = k /\ f_default f = d_static d k /\ f_owner f = d_ty d /\
    get_filler P (declared_hint a) = Ok (f_filler f) /\ (forall n, In n (f_tags f) <-> In n (declared_tags a)).
Proof.
  intros d. induction l as [|[k' a] r IH]; intros fs k f H E; cbn in *; [injection H as <-; discriminate|].
  oinv H. oinv H. injection H as <-. destruct a0 as [f0|].
  - cbn in E. destruct (String.eqb_spec k k') as [->|N].
    + injection E as ->. apply from_type_hint_some in Ha. destruct Ha as (H1 & H2 & H3 & H4 & H5 & H6).
      exists a. split; [left; reflexivity|]. auto 10.
    + destruct (IH _ _ _ Ha0 E) as (a' & HI & HH). exists a'. auto.
  - destruct (IH _ _ _ Ha0 E) as (a' & HI & HH). exists a'. auto.
Qed.

(** [firsts] keeps first occurrences, [nodup] last ones *)
Lemma firsts_In : forall k l, In k (firsts l) <-> In k l.
Proof.
  intros k l. induction l as [|x r IH]; cbn; [tauto|]. rewrite filter_In, IH.
  destruct (String.eqb_spec x k); cbn; [tauto|]. intuition congruence.
Qed.
Lemma firsts_NoDup : forall l, NoDup (firsts l).
Proof.
  induction l as [|x r IH]; cbn; constructor; [|apply NoDup_filter; exact IH].
  intro H. apply filter_In in H. rewrite String.eqb_refl in H. destruct H as [_ H]. discriminate.
Qed.
Lemma nodup_snoc : forall l x, nodup string_dec (l ++ [x]) =
  filter (fun k => negb (String.eqb x k)) (nodup string_dec l) ++ [x].
Proof.
  induction l as [|y r IH]; intro x; cbn [app nodup]; [reflexivity|].
  destruct (in_dec string_dec y r) as [H|H], (in_dec string_dec y (r ++ [x])) as [H1|H1].
  - apply IH.
  - destruct H1. apply in_or_app. left. exact H.
  - apply in_app_or in H1. destruct H1 as [H1|[H1|[]]]; [contradiction|]. subst y. rewrite IH.
    cbn [filter]. rewrite String.eqb_refl. reflexivity.
  - cbn [filter]. destruct (String.eqb_spec x y) as [->|N]; [destruct H1; apply in_or_app; right; left; reflexivity|].
    cbn [negb app]. f_equal. apply IH.
Qed.
Lemma filter_rev : forall {A} (p : A -> bool) l, filter p (rev l) = rev (filter p l).
Proof.
  intros A p l. induction l as [|x r IH]; cbn; [reflexivity|]. rewrite filter_app, IH. cbn.
  destruct (p x); cbn; [reflexivity|apply app_nil_r].
Qed.
Lemma firsts_spec : forall l, firsts l = rev (nodup string_dec (rev l)).
Proof.
  induction l as [|x r IH]; cbn; [reflexivity|]. rewrite nodup_snoc, rev_app_distr. cbn. f_equal.
  rewrite <- filter_rev, IH. reflexivity.
Qed.

Lemma keys_filter_own : forall (anns : dict ann) (inh : list string),
  dict_ok anns ->
  keys (filter (fun ka => is_field (snd ka)) (own_hints anns inh)) =
  filter (fun k => match dget k anns with Some a => is_field a | None => false end) (firsts inh) ++
  filter (fun k => match dget k anns with Some a => is_field a | None => false end && negb (smem k inh)) (keys anns).
Proof.
  intros anns inh HO. unfold own_hints. rewrite filter_app, keys_app. f_equal.
  - induction (firsts inh) as [|k r IH]; cbn; [reflexivity|].
    destruct (dget k anns) as [a|]; cbn; [|exact IH]. destruct (is_field a); cbn; [f_equal|]; exact IH.
  - assert (G : forall l : dict ann, (forall k a, In (k, a) l -> dget k anns = Some a) ->
      keys (filter (fun ka => is_field (snd ka)) (filter (fun ka => negb (smem (fst ka) inh)) l)) =
      filter (fun k => match dget k anns with Some a => is_field a | None => false end && negb (smem k inh)) (keys l));
      [|apply G; intros; apply dget_In; assumption].
    induction l as [|[k a] r IH]; intro G; cbn; [reflexivity|].
    rewrite (G k a (or_introl eq_refl)). specialize (IH (fun k a H => G k a (or_intror H))).
    destruct (smem k inh); cbn.
    + rewrite andb_false_r. exact IH.
    + rewrite andb_true_r. destruct (is_field a); cbn; [f_equal|]; exact IH.
Qed.

Lemma own_fields_names : forall d fs,
  dict_ok (d_anns d) -> own_fields P d (own_hints (d_anns d) (d_inherited_anns d)) = Ok fs ->
  keys fs = own_field_names d.
Proof. intros d fs HO H. rewrite (own_fields_keys _ _ _ H). unfold own_field_names. cbv zeta. rewrite <- firsts_spec. apply keys_filter_own. assumption. Qed.

Lemma own_hints_In : forall (anns : dict ann) inh k a, dict_ok anns -> In (k, a) (own_hints anns inh) -> dget k anns = Some a.
Proof.
  intros anns inh k a HO H. unfold own_hints in H. apply in_app_or in H. destruct H as [H|H].
  - apply in_flat_map in H. destruct H as (k' & _ & H). destruct (dget k' anns) eqn:E; cbn in H; [|tauto].
    destruct H as [H|[]]. injection H as <- <-. assumption.
  - apply filter_In in H. apply dget_In; tauto.
Qed.

Lemma own_field_names_NoDup : forall (d : decl), dict_ok (d_anns d) -> NoDup (own_field_names d).
Proof.
  intros d HO. unfold own_field_names. cbv zeta. rewrite <- firsts_spec.
  assert (ND : forall {A} (l m : list A), NoDup l -> NoDup m -> (forall x, In x l -> ~ In x m) -> NoDup (l ++ m)).
  { intros A l m HL HM HD. induction HL as [|x l HX HL IH]; cbn; [assumption|]. constructor.
    - rewrite in_app_iff. intros [H|H]; [contradiction|]. exact (HD x (or_introl eq_refl) H).
    - apply IH. intros y HY. apply HD. right; assumption. }
  apply ND.
  - apply NoDup_filter. apply firsts_NoDup.
  - apply NoDup_filter. exact HO.
  - intros x HX HY. apply filter_In in HX. apply filter_In in HY. destruct HX as [HX _]. destruct HY as [_ HY].
    apply (proj1 (firsts_In _ _)) in HX. apply andb_true_iff in HY. destruct HY as [_ HY]. apply negb_true_iff in HY.
    apply smem_false in HY. contradiction.
Qed.

(** ** Inherited fields *)

Lemma inherit_fields_ok : forall (own l seen fs : dict field), inherit_fields own seen l = Ok fs ->
  fs = seen ++ l /\ (forall k, In k (keys l) -> ~ In k (keys own)) /\
  (NoDup (keys seen) -> NoDup (keys fs)).
Proof.
  intros own. induction l as [|[k f] r IH]; intros seen fs H; cbn in H.
  - injection H as <-. rewrite app_nil_r. cbn. tauto.
  - destruct (dmem k own) eqn:E1; [discriminate|]. cbn in H. destruct (dmem k seen) eqn:E2; [discriminate|].
    apply IH in H. destruct H as (-> & HD & HN). rewrite <- app_assoc. cbn. split; [reflexivity|].
    apply dmem_false in E1. apply dmem_false in E2. split.
    + intros k' [<-|HK]; [assumption|]. apply HD. assumption.
    + intro HS. rewrite <- app_assoc in HN. cbn in HN. apply HN. rewrite keys_app. cbn.
      apply NoDup_rev in HS. rewrite <- (rev_involutive (keys seen ++ [k])). apply NoDup_rev. rewrite rev_app_distr. cbn.
      constructor; [|assumption]. rewrite <- in_rev. assumption.
Qed.

Lemma inherit_fields_dup : forall own l seen : dict field,
  (exists k, In k (keys l) /\ In k (keys own)) \/ ~ NoDup (keys l) \/ (exists k, In k (keys l) /\ In k (keys seen)) ->
  exists m, inherit_fields own seen l = Raise (mkexc ValueError m).
Proof.
  intros own. induction l as [|[k f] r IH]; intros seen H; cbn.
  - destruct H as [(k & [] & _)|[H|(k & [] & _)]]. destruct H. constructor.
  - destruct (dmem k own || dmem k seen) eqn:E; [eauto|]. apply orb_false_iff in E. destruct E as [E1 E2].
    apply dmem_false in E1. apply dmem_false in E2. apply IH.
    destruct H as [(k' & [<-|HI] & HO)|[HN|(k' & [<-|HI] & HO)]]; try contradiction.
    + left. eauto.
    + destruct (in_dec string_dec k (keys r)) as [HI|HI].
      * right; right. exists k. split; [assumption|]. rewrite keys_app, in_app_iff. right; left; reflexivity.
      * right; left. intro HN'. apply HN. cbn. constructor; assumption.
    + right; right. exists k'. split; [assumption|]. rewrite keys_app, in_app_iff. left; assumption.
Qed.

(** ** pre_bind and binding *)

Lemma apply_op_ok : forall fs o fs1, apply_op P fs o = Ok fs1 ->
  exists f fl, dget (fst o) fs = Some f /\ apply_at P (fst (snd o)) (snd (snd o)) (f_filler f) = Ok fl /\
    fs1 = dset (fst o) (Field (f_name f) fl (f_default f) (f_owner f) (f_tags f)) fs.
Proof.
  intros fs [k [key t]] fs1 H. cbn in H. destruct (dget k fs) as [f|] eqn:E; [|discriminate]. oinv H. injection H as <-.
  exists f, a. auto.
Qed.

(** what survives of a field: everything but its filler *)
Definition same_field (f g : field) : Prop :=
  f_name g = f_name f /\ f_default g = f_default f /\ f_owner g = f_owner f /\ f_tags g = f_tags f.

Lemma same_field_refl : forall f, same_field f f.
Proof. intro f; repeat split. Qed.
Lemma same_field_trans : forall f g h, same_field f g -> same_field g h -> same_field f h.
Proof. unfold same_field. intros f g h (? & ? & ? & ?) (? & ? & ? & ?). repeat split; congruence. Qed.

Lemma apply_prebind_ok : forall ops fs fs1, apply_prebind P ops fs = Ok fs1 ->
  keys fs1 = keys fs /\
  forall k f, dget k fs = Some f -> exists f1, dget k fs1 = Some f1 /\ same_field f f1 /\
    apply_ops P (f_filler f) (ops_for k ops) = Ok (f_filler f1).
Proof.
  induction ops as [|o r IH]; intros fs fs1 H; cbn in H.
  - injection H as <-. split; [reflexivity|]. intros k f E. exists f. split; [assumption|]. split; [apply same_field_refl|reflexivity].
  - oinv H. apply apply_op_ok in Ha. destruct Ha as (g & fl & E & A & ->). apply IH in H. destruct H as [HK HG].
    split.
    + rewrite HK, keys_dset. replace (dmem (fst o) fs) with true; [reflexivity|]. symmetry. apply dmem_true_get. eauto.
    + intros k f Ek. unfold ops_for. cbn [filter]. destruct (String.eqb_spec k (fst o)) as [->|N].
      * rewrite E in Ek. injection Ek as <-.
        destruct (HG (fst o) _ (dget_dset_same _ _ _)) as (f1 & E1 & S1 & A1).
        exists f1. split; [assumption|]. split; [eapply same_field_trans; [|exact S1]; repeat split|].
        cbn [map apply_ops]. destruct o as [kk [key t]]. cbn in *. rewrite A. cbn. exact A1.
      * assert (E1 : dget k (dset (fst o) (Field (f_name g) fl (f_default g) (f_owner g) (f_tags g)) fs) = Some f)
          by (rewrite dget_dset_other by assumption; assumption).
        destruct (HG k f E1) as (f1 & E2 & S1 & A1). exists f1. auto.
Qed.

Lemma bind_fields_ok : forall t s fs fs1, bind_fields P t s fs = Ok fs1 ->
  keys fs1 = keys fs /\
  forall k f, dget k fs = Some f -> exists f1, dget k fs1 = Some f1 /\ same_field f f1 /\
    (f_owner f = t -> bind_filler P s (f_filler f) = Ok (f_filler f1)) /\
    (f_owner f <> t -> f1 = f).
Proof.
  intros t s. induction fs as [|[k0 f0] r IH]; intros fs1 H; cbn in H.
  - injection H as <-. split; [reflexivity|]. intros; discriminate.
  - oinv H. oinv H. injection H as <-. destruct (IH _ Ha0) as [HK HG]. split; [unfold keys in *; cbn; rewrite HK; reflexivity|].
    intros k f E. cbn in *. destruct (String.eqb_spec k k0) as [->|N]; [|apply HG; assumption].
    injection E as ->. exists a. split; [reflexivity|].
    destruct (ty_eqP P (f_owner f) t) as [ET|NT].
    + oinv Ha. injection Ha as <-. cbn. split; [repeat split|]. split; [intros _; assumption|contradiction].
    + injection Ha as <-. split; [apply same_field_refl|]. split; [contradiction|auto].
Qed.

(** ** The class *)

Record made_parts (d : decl) (c : cls) (own parents : dict field) : Prop := {
  mp_own : own_fields P d (own_hints (d_anns d) (d_inherited_anns d)) = Ok own;
  mp_parents : parents = flat_map base_fields (d_bases d);
  mp_disjoint : forall k, In k (keys parents) -> ~ In k (keys own);
  mp_nodup : NoDup (keys parents);
  mp_keys : keys (c_fields c) = keys parents ++ keys own;
  mp_nonempty : parents ++ own <> [];
  mp_field : forall k f, dget k (parents ++ own) = Some f -> exists g fl,
      dget k (c_fields c) = Some g /\ same_field f g /\
      apply_ops P (f_filler f) (ops_for k (d_prebind d)) = Ok fl /\
      (f_owner f = d_ty d -> bind_filler P (d_style d) fl = Ok (f_filler g)) /\
      (f_owner f <> d_ty d -> f_filler g = fl);
  mp_rest : c = Cls (d_ty d) (c_fields c) (match parents with [] => true | _ => false end) (d_frozen d) (d_ordered d)
      (match d_unary d with Some b => b | None => negb (Nat.eqb (List.length (required_keys (parents ++ own))) 1) end)
      (d_style d) (class_parsers (d_parsers d)) (d_post_new d)
}.

Lemma make_class_parts : forall d c, make_class P d = Ok c -> exists own parents, made_parts d c own parents.
Proof.
  intros d c H. unfold make_class in H. oinv H. oinv H. exists a, a0.
  apply inherit_fields_ok in Ha0. destruct Ha0 as (E & HD & HN). cbn in E.
  destruct (a0 ++ a) as [|kf rest] eqn:EF; [discriminate|]. rewrite <- EF in *.
  oinv H. oinv H. injection H as <-.
  apply apply_prebind_ok in Ha0. destruct Ha0 as [K1 G1].
  apply bind_fields_ok in Ha1. destruct Ha1 as [K2 G2].
  constructor; cbn [c_fields].
  - assumption.
  - assumption.
  - rewrite E. assumption.
  - apply HN. constructor.
  - rewrite K2, K1. apply keys_app.
  - rewrite EF. discriminate.
  - intros k f Ek. destruct (G1 k f Ek) as (f1 & E1 & S1 & A1). destruct (G2 k f1 E1) as (f2 & E2 & S2 & B1 & B2).
    exists f2, (f_filler f1). split; [assumption|]. split; [eapply same_field_trans; eassumption|].
    split; [assumption|]. destruct S1 as (_ & _ & SO & _). rewrite SO in *. split; [assumption|].
    intro N. rewrite (B2 N). reflexivity.
  - reflexivity.
Qed.

(** ** When class creation succeeds *)

Lemma NoDup_join : forall {A} (l m : list A), NoDup l -> NoDup m -> (forall x, In x l -> ~ In x m) -> NoDup (l ++ m).
Proof.
  intros A l m HL HM HD. induction HL as [|x l HX HL IHl]; cbn; [assumption|]. constructor.
  - rewrite in_app_iff. intros [HH|HH]; [contradiction|]. exact (HD x (or_introl eq_refl) HH).
  - apply IHl. intros y HY. apply HD. right; assumption.
Qed.

Lemma required_keys_filter : forall fs : dict field, dict_ok fs ->
  required_keys fs = filter (fun k => match dget k fs with Some f => negb (has_default f) | None => false end) (keys fs).
Proof.
  intros fs HO. unfold required_keys.
  assert (G : forall l : dict field, (forall k f, In (k, f) l -> dget k fs = Some f) ->
    keys (filter (fun kf => negb (has_default (snd kf))) l) =
    filter (fun k => match dget k fs with Some f => negb (has_default f) | None => false end) (keys l)).
  { induction l as [|[k f] r IH]; intro H; cbn; [reflexivity|]. rewrite (H k f (or_introl eq_refl)).
    specialize (IH (fun k f HI => H k f (or_intror HI))). destruct (has_default f); cbn; [|f_equal]; exact IH. }
  apply G. intros; apply dget_In; assumption.
Qed.

Lemma own_fields_all : forall d l,
  (forall k a, In (k, a) l -> exists r, from_type_hint P (d_frozen d) (d_ty d) k (d_static d k) a = Ok r) ->
  exists own, own_fields P d l = Ok own.
Proof.
  intros d. induction l as [|[k a] r IH]; intro H; cbn; [eauto|].
  destruct (H k a (or_introl eq_refl)) as [x ->]. cbn. destruct IH as [own ->]; [intros; apply H; right; assumption|]. cbn. eauto.
Qed.

Lemma inherit_fields_forward : forall (own l seen : dict field),
  NoDup (keys (seen ++ l)) -> (forall k, In k (keys l) -> ~ In k (keys own)) ->
  inherit_fields own seen l = Ok (seen ++ l).
Proof.
  intros own. induction l as [|[k f] r IH]; intros seen HN HD; cbn; [rewrite app_nil_r; reflexivity|].
  replace (dmem k own) with false by (symmetry; apply dmem_false; apply HD; left; reflexivity). cbn.
  replace (dmem k seen) with false.
  - rewrite IH, <- app_assoc; [reflexivity|rewrite <- app_assoc; assumption|]. intros; apply HD; right; assumption.
  - symmetry. apply dmem_false. rewrite keys_app in HN. cbn in HN. apply NoDup_remove_2 in HN. rewrite in_app_iff in HN. tauto.
Qed.

Lemma apply_prebind_forward : forall ops fs,
  (forall o, In o ops -> In (fst o) (keys fs)) ->
  (forall k f, dget k fs = Some f -> exists fl, apply_ops P (f_filler f) (ops_for k ops) = Ok fl) ->
  exists fs1, apply_prebind P ops fs = Ok fs1.
Proof.
  induction ops as [|o r IH]; intros fs HK HA; cbn; [eauto|].
  destruct (in_keys_get _ _ (HK o (or_introl eq_refl))) as [f E].
  destruct (HA _ f E) as [fl A]. unfold ops_for in A. cbn [filter] in A. rewrite String.eqb_refl in A. cbn [map] in A.
  destruct o as [k [key t]]. cbn in A, E. destruct (apply_at P key t (f_filler f)) as [fl1|e] eqn:E1; [|discriminate]. cbn in A.
  cbn. rewrite E, E1. cbn. apply IH.
  - intros o HI. apply in_keys_dset. right. apply HK. right; assumption.
  - intros k' f' E'. rewrite dget_dset in E'. destruct (String.eqb_spec k' k) as [->|N].
    + injection E' as <-. cbn. eauto.
    + destruct (HA k' f' E') as [fl' A']. unfold ops_for in A'. cbn [filter] in A'.
      destruct (String.eqb_spec k' (fst (k, (key, t)))) as [E2|N2]; [cbn in E2; contradiction|]. eauto.
Qed.

Lemma bind_fields_forward : forall t s fs,
  (forall k f, In (k, f) fs -> f_owner f = t -> exists fl, bind_filler P s (f_filler f) = Ok fl) ->
  exists fs1, bind_fields P t s fs = Ok fs1.
Proof.
  intros t s. induction fs as [|[k f] r IH]; intro H; cbn; [eauto|].
  destruct IH as [fs1 E]; [intros k' f' HI; apply (H k' f'); right; assumption|].
  destruct (ty_eqP P (f_owner f) t) as [ET|NT].
  - destruct (H k f (or_introl eq_refl) ET) as [fl ->]. cbn. rewrite E. cbn. eauto.
  - cbn. rewrite E. cbn. eauto.
Qed.

End Classes.
