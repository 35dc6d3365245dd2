(** Reorder_main.v -- proofs of the properties stated in Props_Reorder.v: the order of the fields of a class (records/record.py:77-158, 168-252, 269-395) *)

From Verif Require Import Base Py Select Filler Classes Spec_Classes Runtime Record Spec_Record Spec_Inst Spec_Seeds Spec_Reorder Demo DemoRt DemoCls.
From Verif Require Dict_proofs Filler_proofs Classes_proofs Record_proofs Classes_main Inst_proofs Inst_main Seeds_main Props_Seeds.
Open Scope string_scope.
Open Scope list_scope.

Import Dict_proofs Filler_proofs Classes_proofs Record_proofs Classes_main Inst_proofs Inst_main.

Lemma perm_get : forall {A} (l l' : dict A), Permutation l l' -> dict_ok l -> dict_ok l' /\ forall k, dget k l' = dget k l.
Proof.
  intros A l l' HP HO. assert (HO' : dict_ok l') by (unfold dict_ok in *; eapply Permutation_NoDup; [|exact HO]; apply Permutation_map; assumption).
  split; [assumption|]. intro k. destruct (dget k l) as [v|] eqn:E.
  - apply dget_In; [assumption|]. apply dget_Some_In in E. eapply Permutation_in; eassumption.
  - apply dget_None. apply dget_None in E. intro HI. apply E. unfold keys in *. eapply Permutation_in; [apply Permutation_map; apply Permutation_sym; exact HP|assumption].
Qed.

Lemma get_perm : forall {A} (l l' : dict A), dict_ok l -> dict_ok l' -> (forall k, dget k l' = dget k l) -> Permutation l l'.
Proof.
  intros A l l' HO HO' HG. apply NoDup_Permutation.
  - eapply NoDup_map_inv. exact HO.
  - eapply NoDup_map_inv. exact HO'.
  - intros [k v]. split; intro H; apply dget_Some_In; [rewrite HG|rewrite <- HG]; apply dget_In; assumption.
Qed.

Lemma perm_forallb : forall {A} (p : A -> bool) l l', Permutation l l' -> forallb p l' = forallb p l.
Proof.
  intros A p l l' H. induction H as [|x l l' H IH|x y l|l1 l2 l3 H1 IH1 H2 IH2]; cbn; [reflexivity|rewrite IH; reflexivity| |congruence].
  destruct (p x), (p y); reflexivity.
Qed.

Lemma perm_filter : forall {A} (p : A -> bool) l l', Permutation l l' -> Permutation (filter p l) (filter p l').
Proof.
  intros A p l l' H. induction H as [|x l l' H IH|x y l|l1 l2 l3 H1 IH1 H2 IH2]; cbn; [constructor| | |econstructor; eassumption].
  - destruct (p x); [constructor; assumption|assumption].
  - destruct (p x), (p y); try reflexivity. constructor.
Qed.

Lemma perm_required : forall {obj ty W} (fs fs' : dict (@field obj ty W)), Permutation fs fs' -> Permutation (required_keys fs) (required_keys fs').
Proof. intros. unfold required_keys, keys. apply Permutation_map. apply perm_filter. assumption. Qed.

Lemma perm_smem : forall k l l', Permutation l l' -> smem k l' = smem k l.
Proof.
  intros k l l' H. destruct (smem k l) eqn:E.
  - apply smem_In. apply smem_In in E. eapply Permutation_in; eassumption.
  - apply smem_false. apply smem_false in E. intro HI. apply E. eapply Permutation_in; [apply Permutation_sym; exact H|exact HI].
Qed.

Lemma perm_optional : forall {obj ty W} (fs fs' : dict (@field obj ty W)), Permutation fs fs' -> Permutation (optional_keys fs) (optional_keys fs').
Proof.
  intros obj ty W fs fs' H. unfold optional_keys.
  assert (E : forall l : list string, filter (fun k => negb (smem k (required_keys fs'))) l = filter (fun k => negb (smem k (required_keys fs))) l).
  { intro l. apply filter_ext. intro k. rewrite (perm_smem k _ _ (perm_required fs fs' H)). reflexivity. }
  rewrite E. apply perm_filter. unfold keys. apply Permutation_map. assumption.
Qed.

Lemma fill_kwargs_same : forall {obj ty W} (R : Rt obj ty W) c c' p kw w, (forall k, dget k (c_fields c') = dget k (c_fields c)) ->
  fill_kwargs R c' p kw w = fill_kwargs R c p kw w.
Proof.
  intros obj ty W R c c' p kw w HG. revert w. induction kw as [|[k v] r IH]; intro w; [reflexivity|]. cbn. rewrite HG.
  destruct (dget k (c_fields c)) as [f|]; [|reflexivity]. destruct (call (rt_py R) (f_filler f) v w) as [[y|e] w1]; [|reflexivity].
  unfold bind. rewrite IH. reflexivity.
Qed.

Lemma fill_defaults_same : forall {obj ty W} (c c' : @cls obj ty W) ks w, (forall k, dget k (c_fields c') = dget k (c_fields c)) ->
  fill_defaults c' ks w = fill_defaults c ks w.
Proof.
  intros obj ty W c c' ks w HG. revert w. induction ks as [|k r IH]; intro w; [reflexivity|]. cbn. rewrite HG. unfold bind.
  destruct ((match dget k (c_fields c) with Some f => make_default f | None => raise (mkexc KeyError k) end) w) as [[y|e] w1]; [|reflexivity].
  rewrite IH. reflexivity.
Qed.

Lemma build_reordered : forall {obj ty W} (R : Rt obj ty W) c c' kw w,
  dict_ok (c_fields c) -> reordered c c' -> independent c -> no_post_new R c ->
  match build R c (none R) kw w, build R c' (none R) kw w with
  | (Ok x, w1), (Ok y, w2) => y = x /\ same_but_order R x w1 w2
  | (Raise e, w1), (Raise e', w2) => e' = e /\ w2 = w1
  | _, _ => False
  end.
Proof.
  intros obj ty W R c c' kw w HD (fs & HPM & ->) HI HP. set (c' := Cls _ _ _ _ _ _ _ _ _).
  destruct (perm_get _ _ HPM HD) as (HD' & HG). change fs with (c_fields c') in HD', HG, HPM.
  assert (HP' : no_post_new R c') by exact HP.
  unfold build.
  assert (E1 : forallb (fun k => dmem k (c_fields c')) (keys kw) = forallb (fun k => dmem k (c_fields c)) (keys kw)).
  { induction (keys kw) as [|k r IH]; [reflexivity|]. cbn [forallb]. rewrite IH. unfold dmem. rewrite HG. reflexivity. }
  rewrite E1. destruct (forallb (fun k => dmem k (c_fields c)) (keys kw)); cbn [negb]; [|simpl; auto].
  unfold bind. rewrite (fill_kwargs_same R c c') by assumption.
  destruct (fill_kwargs R c (none R) kw w) as [[[vs|]|e] w1] eqn:EF; [|destruct (fill_kwargs_none _ _ _ _ _ EF)|simpl; auto].
  rewrite (perm_forallb (fun k => dmem k kw) _ _ (perm_required _ _ HPM)).
  destruct (forallb (fun k => dmem k kw) (required_keys (c_fields c))) eqn:EC; cbn [negb]; [|simpl; auto].
  set (ks := filter (fun k => negb (dmem k kw)) (optional_keys (c_fields c))).
  set (ks' := filter (fun k => negb (dmem k kw)) (optional_keys (c_fields c'))).
  assert (PK : Permutation ks ks') by (apply perm_filter; apply perm_optional; assumption).
  assert (HK : forall k, In k ks -> exists f, dget k (c_fields c) = Some f /\ f_default f <> NoDefault).
  { intros k HK. unfold ks in HK. apply filter_In in HK as [HK _]. unfold optional_keys in HK. apply filter_In in HK as [HK HQ].
    apply dmem_In, dmem_true_get in HK as (f & E). exists f. split; [assumption|]. intro HX. apply negb_true_iff in HQ.
    assert (smem k (required_keys (c_fields c)) = true); [|congruence]. apply smem_In. unfold required_keys.
    apply in_map_iff. exists (k, f). split; [reflexivity|]. apply filter_In. split; [apply dget_Some_In; assumption|].
    unfold has_default. cbn. rewrite HX. reflexivity. }
  assert (HN : NoDup ks) by (unfold ks, optional_keys; apply NoDup_filter, NoDup_filter; assumption).
  set (l1 := set_order R w1 ks). set (l2 := set_order R w1 ks').
  assert (P1 : Permutation ks l1) by apply set_order_perm.
  assert (P2 : Permutation ks l2) by (eapply Permutation_trans; [exact PK|apply set_order_perm]).
  rewrite (fill_defaults_same c c') by assumption.
  assert (HA : Seeds_main.alike (fill_defaults c l1 w1) (fill_defaults c l2 w1)).
  { apply Seeds_main.defaults_order; [eapply Permutation_trans; [apply Permutation_sym; eassumption|assumption]|eapply Permutation_NoDup; eassumption|].
    intros k k' H H'. apply (Seeds_main.made_commute c HI ks HK); eapply Permutation_in; try (apply Permutation_sym; exact P1); assumption. }
  destruct (fill_defaults c l1 w1) as [[d|e] w2], (fill_defaults c l2 w1) as [[d'|e'] w2']; simpl in HA; try contradiction; [|simpl; tauto].
  destruct HA as [HA ->]. rewrite !(finish_none R). unfold post_new_result, bind. rewrite !HP, !HP'. change (o_none (rt_py R)) with (none R). unfold none. rewrite !truth_none. cbn.
  split; [reflexivity|]. exists (Inst (c_ty c) (vs ++ d) (if c_frozen c then SNone else SUnset)), (vs ++ d').
  split; [exact (lookup_alloc R c (vs ++ d) w2)|]. split; [exact (lookup_alloc R c' (vs ++ d') w2)|]. split; [apply Permutation_app_head; assumption|].
  unfold store. rewrite deref_ref, heap_set, set_heap_twice. f_equal.
  generalize (heap R w2). intros h. induction h as [|i r IH]; cbn; [reflexivity|]. f_equal. exact IH.
Qed.

Lemma construct_positional : forall {obj ty W} (R : Rt obj ty W) n c a kw w, no_reserved kw -> c_unary c = false \/ kw <> [] ->
  construct R (S n) c (Some a) kw w =
  if Nat.eqb (List.length (required_keys (c_fields c))) 1
  then match required_keys (c_fields c) with
       | k :: _ => if dmem k kw then (Raise (mkexc TypeError ("duplicate " ++ k)%string), w) else build R c (none R) (kw ++ [(k, a)]) w
       | [] => (Raise (mkexc RuntimeError "StopIteration"), w)
       end
  else (Raise (mkexc TypeError "class accepts no positional arguments"), w).
Proof.
  intros obj ty W R n c a kw w HR HU. unfold construct, call_cls. unfold dmem at 1 2.
  rewrite (reserved_get kw "cls"), (reserved_get kw "arg"), (reserved_get kw "self") by (unfold reserved; auto).
  assert (E : new R (S n) c (Some a) kw w =
    if Nat.eqb (List.length (required_keys (c_fields c))) 1
    then match required_keys (c_fields c) with
         | k :: _ => if dmem k kw then (Raise (mkexc TypeError ("duplicate " ++ k)%string), w) else build R c (none R) (kw ++ [(k, a)]) w
         | [] => (Raise (mkexc RuntimeError "StopIteration"), w)
         end
    else (Raise (mkexc TypeError "class accepts no positional arguments"), w)).
  { cbn [new]. unfold bind. replace (match kw with [] => _ | _ :: _ => _ end) with (@ret W obj (none R)).
    2:{ destruct kw; [|reflexivity]. destruct HU as [-> | HU]; [reflexivity|congruence]. }
    unfold ret. destruct (Nat.eqb (List.length (required_keys (c_fields c))) 1); cbn [negb].
    - destruct (required_keys (c_fields c)) as [|k r]; [reflexivity|]. destruct (dmem k kw); reflexivity.
    - rewrite (is_none_none R). reflexivity. }
  unfold bind. rewrite E. match goal with |- (let (_, _) := ?m in _) = _ => destruct m as [[x|e] w1] end; [|reflexivity].
  rewrite andb_false_r. reflexivity.
Qed.

Lemma c164_construct_proof : forall {obj ty W} (R : Rt obj ty W) n c c' kw w,
  dict_ok (c_fields c) -> reordered c c' -> independent c -> no_post_new R c -> no_reserved kw ->
  match construct R (S n) c None kw w, construct R (S n) c' None kw w with
  | (Ok x, w1), (Ok y, w2) => y = x /\ same_but_order R x w1 w2
  | (Raise e, w1), (Raise e', w2) => e' = e /\ w2 = w1
  | _, _ => False
  end.
Proof.
  intros obj ty W R n c c' kw w HD HC HI HP HR. rewrite !(construct_plain R) by assumption. apply build_reordered; assumption.
Qed.

Lemma c164_positional_proof : forall {obj ty W} (R : Rt obj ty W) n c c' a kw w,
  dict_ok (c_fields c) -> reordered c c' -> independent c -> no_post_new R c -> no_reserved kw -> c_unary c = false \/ kw <> [] ->
  match construct R (S n) c (Some a) kw w, construct R (S n) c' (Some a) kw w with
  | (Ok x, w1), (Ok y, w2) => y = x /\ same_but_order R x w1 w2
  | (Raise e, w1), (Raise e', w2) => e' = e /\ w2 = w1
  | _, _ => False
  end.
Proof.
  intros obj ty W R n c c' a kw w HD HC HI HP HR HU. rewrite !construct_positional; try assumption.
  2:{ destruct HC as (fs & _ & ->). exact HU. }
  pose proof HC as (fs & HPM & E). assert (PR : Permutation (required_keys (c_fields c)) (required_keys (c_fields c'))) by (apply perm_required; rewrite E; exact HPM).
  rewrite <- (Permutation_length PR). destruct (Nat.eqb (List.length (required_keys (c_fields c))) 1) eqn:EL; [|simpl; auto].
  apply Nat.eqb_eq in EL. destruct (required_keys (c_fields c)) as [|k [|]] eqn:EK; try discriminate. apply Permutation_length_1_inv in PR. rewrite PR.
  destruct (dmem k kw); [simpl; auto|]. apply build_reordered; assumption.
Qed.

Lemma own_fields_exact : forall {obj ty W} (P : Py obj ty W) (d : decl) l fs, dict_ok l -> own_fields P d l = Ok fs ->
  dict_ok fs /\ (forall k, In k (keys fs) -> In k (keys l)) /\
  forall k f, dget k fs = Some f <-> exists a, dget k l = Some a /\ from_type_hint P (d_frozen d) (d_ty d) k (d_static d k) a = Ok (Some f).
Proof.
  intros obj ty W P d l. induction l as [|[k a] r IH]; intros fs HO H.
  - injection H as <-. split; [constructor|]. split; [intros k []|]. intros k f. split; [discriminate|intros (a & E & _); discriminate].
  - cbn in H. oinv H. oinv H. injection H as <-. change (keys ((k, a) :: r)) with (k :: keys r) in *. inversion HO as [|? ? N HO']; subst.
    destruct (IH _ HO' Ha0) as (H1 & H2 & H3). split; [|split].
    + destruct a0 as [f|]; [|assumption]. unfold dict_ok. cbn. constructor; [|assumption]. intro HI. apply N. apply H2. exact HI.
    + destruct a0 as [f|]; intros k' HI; [destruct HI as [<-|HI]; [left; reflexivity|]|]; right; apply H2; assumption.
    + intros k' f. cbn [dget]. destruct (String.eqb_spec k' k) as [->|NE].
      * split.
        -- intro E. exists a. split; [reflexivity|]. destruct a0 as [g|]; [cbn in E; rewrite String.eqb_refl in E; congruence|].
           exfalso. apply N. apply H2. eapply dget_some_key. exact E.
        -- intros (a' & E & E'). injection E as <-. rewrite Ha in E'. injection E' as ->. cbn. rewrite String.eqb_refl. reflexivity.
      * destruct a0 as [g|]; [cbn [dget]; destruct (String.eqb_spec k' k); [contradiction|]|]; apply H3.
Qed.

Lemma own_hints_exact : forall {obj ty W} (anns : dict (@ann obj ty W)) inh, dict_ok anns ->
  dict_ok (own_hints anns inh) /\ forall k, dget k (own_hints anns inh) = dget k anns.
Proof.
  intros obj ty W anns inh HO.
  assert (FI : forall l k, In k (firsts l) -> In k l).
  { induction l as [|x r IH]; intros k H; [destruct H|]. cbn in H. destruct H as [<-|H]; [left; reflexivity|]. apply filter_In in H. right. apply IH. apply H. }
  assert (IF : forall l k, In k l -> In k (firsts l)).
  { induction l as [|x r IH]; intros k H; [destruct H|]. cbn. destruct (String.eqb_spec x k) as [->|N]; [left; reflexivity|]. destruct H as [H|H]; [contradiction|].
    right. apply filter_In. split; [apply IH; assumption|]. destruct (String.eqb_spec x k); [contradiction|reflexivity]. }
  assert (FN : forall l, NoDup (firsts l)).
  { induction l as [|x r IH]; cbn; [constructor|]. constructor; [|apply NoDup_filter; assumption]. intro H. apply filter_In in H. destruct H as [_ H].
    rewrite String.eqb_refl in H. discriminate. }
  set (A := flat_map (fun k => match dget k anns with Some a => [(k, a)] | None => [] end) (firsts inh)).
  set (B := filter (fun ka : string * ann => negb (smem (fst ka) inh)) anns).
  assert (KA : forall k, In k (keys A) -> In k inh).
  { intros k H. unfold A, keys in H. apply in_map_iff in H. destruct H as ([k' a] & <- & H). apply in_flat_map in H. destruct H as (x & HX & H).
    destruct (dget x anns); [|destruct H]. destruct H as [H|[]]. injection H as <- _. apply FI. assumption. }
  assert (KB : forall k, In k (keys B) -> ~ In k inh).
  { intros k H. unfold B, keys in H. apply in_map_iff in H. destruct H as ([k' a] & <- & H). apply filter_In in H. destruct H as [_ H].
    apply negb_true_iff in H. apply smem_false. exact H. }
  assert (NB : NoDup (keys B)).
  { unfold B, keys. clear -HO. unfold dict_ok, keys in HO. induction anns as [|[k a] r IH]; [constructor|]. cbn in HO |- *. inversion HO as [|? ? N HO']; subst.
    destruct (negb (smem k inh)); [|apply IH; assumption]. cbn. constructor; [|apply IH; assumption]. intro H. apply N. apply in_map_iff in H.
    destruct H as (x & E & H). apply filter_In in H. apply in_map_iff. exists x. tauto. }
  assert (NA : NoDup (keys A)).
  { unfold A, keys. clear -FN. generalize (FN inh). induction (firsts inh) as [|x r IH]; intro ND; [constructor|]. inversion ND as [|? ? N ND']; subst. cbn.
    destruct (dget x anns); [|apply IH; assumption]. cbn. constructor; [|apply IH; assumption]. intro H. apply N. apply in_map_iff in H.
    destruct H as ([k' a'] & <- & H). apply in_flat_map in H. destruct H as (y & HY & H). destruct (dget y anns); [|destruct H]. destruct H as [H|[]]. injection H as <- _. exact HY. }
  assert (OK : dict_ok (own_hints anns inh)).
  { unfold dict_ok, own_hints. fold A B. rewrite keys_app. clear -NA NB KA KB. revert NA KA. induction (keys A) as [|x r IH]; intros NA KA; [exact NB|]. cbn.
    inversion NA as [|? ? N NA']; subst. constructor; [|apply IH; [assumption|intros k H; apply KA; right; assumption]]. intro H. apply in_app_or in H.
    destruct H as [H|H]; [contradiction|]. apply (KB x H). apply KA. left. reflexivity. }
  split; [assumption|]. intro k. destruct (dget k anns) as [a|] eqn:E.
  - apply dget_In; [assumption|]. unfold own_hints. fold A B. apply in_or_app. destruct (smem k inh) eqn:EI.
    + left. unfold A. apply in_flat_map. exists k. split; [apply IF; apply smem_In; assumption|]. rewrite E. left. reflexivity.
    + right. unfold B. apply filter_In. split; [apply dget_Some_In; assumption|]. cbn. rewrite EI. reflexivity.
  - destruct (dget k (own_hints anns inh)) as [a|] eqn:E'; [|reflexivity]. apply dget_Some_In in E'. apply own_hints_In in E'; [|assumption]. congruence.
Qed.

Lemma field_eq : forall {obj ty W} (f g : @field obj ty W), f_filler f = f_filler g -> same_field f g -> f = g.
Proof. intros obj ty W [n fi de o t] [n' fi' de' o' t'] E (E1 & E2 & E3 & E4). cbn in *. congruence. Qed.
Lemma statement_reordered : forall {obj ty W} (R : Rt obj ty W) d d' c c',
  dict_ok (d_anns d) -> reordered_statement d d' -> make_class (rt_py R) d = Ok c -> make_class (rt_py R) d' = Ok c' ->
  reordered c c'.
Proof.
  intros obj ty W R d d' c c' HO (anns & inh & HPA & ED) HM HM'. set (P := rt_py R) in *.
  destruct (make_class_parts P d c HM) as (own & parents & MP). destruct (make_class_parts P d' c' HM') as (own' & parents' & MP').
  destruct (perm_get _ _ HPA HO) as (HO' & HGA).
  destruct (own_hints_exact (d_anns d) (d_inherited_anns d) HO) as (OH & GH).
  assert (DA : d_anns d' = anns) by (rewrite ED; reflexivity).
  destruct (own_hints_exact anns (d_inherited_anns d') HO') as (OH' & GH').
  destruct (own_fields_exact P d _ own OH (mp_own _ _ _ _ _ MP)) as (OO & _ & GO).
  assert (MO := mp_own _ _ _ _ _ MP'). rewrite DA in MO.
  destruct (own_fields_exact P d' _ own' OH' MO) as (OO' & _ & GO').
  assert (EP : parents' = parents) by (rewrite (mp_parents _ _ _ _ _ MP'), (mp_parents _ _ _ _ _ MP), ED; reflexivity). subst parents'.
  assert (GE : forall k, dget k own' = dget k own).
  { intro k. destruct (dget k own) as [f|] eqn:E.
    - apply GO'. apply GO in E. destruct E as (a & E1 & E2). exists a. rewrite GH', HGA, <- GH, E1. split; [reflexivity|]. rewrite ED. exact E2.
    - destruct (dget k own') as [f|] eqn:E'; [|reflexivity]. apply GO' in E'. destruct E' as (a & E1 & E2). rewrite ED in E2.
      assert (E3 : dget k own = Some f) by (apply GO; exists a; rewrite GH, <- HGA, <- GH', E1; auto). congruence. }
  assert (PO : Permutation own own') by (apply get_perm; assumption).
  assert (PF : Permutation (parents ++ own) (parents ++ own')) by (apply Permutation_app_head; assumption).
  assert (OP : dict_ok (parents ++ own)).
  { unfold dict_ok. rewrite keys_app. assert (N1 := mp_nodup _ _ _ _ _ MP). assert (N2 := mp_disjoint _ _ _ _ _ MP). clear -N1 N2 OO.
    induction (keys parents) as [|x r IH]; [exact OO|]. cbn. inversion N1 as [|? ? N N1']; subst.
    constructor; [|apply IH; [assumption|intros k H; apply N2; right; assumption]]. intro H. apply in_app_or in H. destruct H as [H|H]; [contradiction|].
    apply (N2 x); [left; reflexivity|assumption]. }
  destruct (perm_get _ _ PF OP) as (OP' & GP).
  assert (OC : dict_ok (c_fields c)) by (unfold dict_ok; rewrite (mp_keys _ _ _ _ _ MP), <- keys_app; exact OP).
  assert (OC' : dict_ok (c_fields c')) by (unfold dict_ok; rewrite (mp_keys _ _ _ _ _ MP'), <- keys_app; exact OP').
  assert (DT : d_ty d' = d_ty d) by (rewrite ED; reflexivity). assert (DS : d_style d' = d_style d) by (rewrite ED; reflexivity).
  assert (DP : d_prebind d' = d_prebind d) by (rewrite ED; reflexivity).
  assert (GC : forall k, dget k (c_fields c') = dget k (c_fields c)).
  { intro k. destruct (dget k (parents ++ own)) as [f|] eqn:E.
    - destruct (mp_field _ _ _ _ _ MP k f E) as (g & fl & G1 & G2 & G3 & G4 & G5). assert (E' := E). rewrite <- GP in E'.
      destruct (mp_field _ _ _ _ _ MP' k f E') as (g' & fl' & G1' & G2' & G3' & G4' & G5'). rewrite G1, G1'. f_equal.
      rewrite DP in G3'. assert (fl' = fl) by congruence. subst fl'. apply field_eq.
      + rewrite DT, DS in *. destruct (ty_eqP (rt_py R) (f_owner f) (d_ty d)) as [ET|NE].
        * specialize (G4 ET). specialize (G4' ET). congruence.
        * rewrite (G5 NE), (G5' NE). reflexivity.
      + destruct G2 as (A1 & A2 & A3 & A4), G2' as (B1 & B2 & B3 & B4). repeat split; congruence.
    - assert (E1 : dget k (c_fields c) = None).
      { apply dget_None. rewrite (mp_keys _ _ _ _ _ MP), <- keys_app. apply dget_None. assumption. }
      assert (E2 : dget k (c_fields c') = None).
      { apply dget_None. rewrite (mp_keys _ _ _ _ _ MP'), <- keys_app. apply dget_None. rewrite GP. assumption. }
      congruence. }
  exists (c_fields c'). split; [apply get_perm; assumption|].
  assert (EL : List.length (required_keys (parents ++ own')) = List.length (required_keys (parents ++ own))).
  { symmetry. apply Permutation_length. apply perm_required. assumption. }
  assert (R1 := mp_rest _ _ _ _ _ MP). assert (R2 := mp_rest _ _ _ _ _ MP'). rewrite EL in R2. rewrite ED in R2. cbn in R2.
  clear -R1 R2. destruct c, c'. cbn in *. injection R1 as -> -> -> -> -> -> -> ->. injection R2 as -> -> -> -> -> -> -> ->. reflexivity.
Qed.

Lemma own_fields_forward : forall {obj ty W} (P : Py obj ty W) (d : decl) l,
  (forall k a, In (k, a) l -> exists f, from_type_hint P (d_frozen d) (d_ty d) k (d_static d k) a = Ok f) -> exists fs, own_fields P d l = Ok fs.
Proof.
  intros obj ty W P d l. induction l as [|[k a] r IH]; intro H; [eexists; reflexivity|]. destruct (H k a (or_introl eq_refl)) as [f E].
  destruct IH as [fs E']; [intros k' a' HI; apply (H k' a'); right; assumption|]. cbn. rewrite E. cbn. rewrite E'. cbn. eexists. reflexivity.
Qed.
Lemma own_fields_each : forall {obj ty W} (P : Py obj ty W) (d : decl) l fs, own_fields P d l = Ok fs ->
  forall k a, In (k, a) l -> exists f, from_type_hint P (d_frozen d) (d_ty d) k (d_static d k) a = Ok f.
Proof.
  intros obj ty W P d l. induction l as [|[k a] r IH]; intros fs H k' a' HI; [destruct HI|]. cbn in H. oinv H. oinv H. destruct HI as [E|HI].
  - injection E as <- <-. eexists. exact Ha.
  - eapply IH; eassumption.
Qed.
Lemma prebind_perm : forall {obj ty W} (P : Py obj ty W) ops (fs fs' : dict field) fs1, dict_ok fs -> Permutation fs fs' ->
  apply_prebind P ops fs = Ok fs1 -> exists fs1', apply_prebind P ops fs' = Ok fs1' /\ dict_ok fs1 /\ Permutation fs1 fs1'.
Proof.
  intros obj ty W P ops. induction ops as [|[k [key t]] r IH]; intros fs fs' fs1 HO HP H.
  - injection H as <-. exists fs'. auto.
  - destruct (perm_get _ _ HP HO) as (HO' & HG). cbn in H |- *. rewrite HG. destruct (dget k fs) as [f|] eqn:E; [|discriminate]. oinv H. oinv Ha. injection Ha as <-.
    rewrite Haa. cbn. refine (IH _ _ _ _ _ H); [apply dict_ok_dset; assumption|]. apply get_perm; [apply dict_ok_dset; assumption|apply dict_ok_dset; assumption|].
    intro k'. rewrite !dget_dset. rewrite HG. reflexivity.
Qed.
Lemma bind_perm : forall {obj ty W} (P : Py obj ty W) t s (fs fs' : dict field), Permutation fs fs' ->
  forall fs1, bind_fields P t s fs = Ok fs1 -> exists fs1', bind_fields P t s fs' = Ok fs1'.
Proof.
  intros obj ty W P t s fs fs' HP.
  set (good := fun kf : string * field => exists f', (if ty_eqb P (f_owner (snd kf)) t
     then do fl <- bind_filler P s (f_filler (snd kf)); Ok (Field (f_name (snd kf)) fl (f_default (snd kf)) (f_owner (snd kf)) (f_tags (snd kf))) else Ok (snd kf)) = Ok f').
  assert (A : forall l fs1, bind_fields P t s l = Ok fs1 -> Forall good l).
  { induction l as [|[k f] r IH]; intros fs1 H; [constructor|]. cbn in H. oinv H. oinv H. constructor; [eexists; exact Ha|eapply IH; eassumption]. }
  assert (B : forall l, Forall good l -> exists fs1, bind_fields P t s l = Ok fs1).
  { induction l as [|[k f] r IH]; intro H; [eexists; reflexivity|]. inversion H as [|? ? [f' E] H']; subst. destruct (IH H') as [r' E']. cbn in E |- *. rewrite E. cbn. rewrite E'.
    eexists. reflexivity. }
  intros fs1 H. apply B. eapply Permutation_Forall; [exact HP|]. eapply A. exact H.
Qed.

Lemma c164_statement_proof : forall {obj ty W} (R : Rt obj ty W) d d' c,
  dict_ok (d_anns d) -> reordered_statement d d' -> make_class (rt_py R) d = Ok c ->
  exists c', make_class (rt_py R) d' = Ok c' /\ reordered c c'.
Proof.
  intros obj ty W R d d' c HO HR HM. cut (exists c', make_class (rt_py R) d' = Ok c').
  { intros [c' E]. exists c'. split; [assumption|]. eapply statement_reordered; eassumption. }
  destruct HR as (anns & inh & HPA & ED). set (P := rt_py R) in *. destruct (perm_get _ _ HPA HO) as (HO' & HGA).
  destruct (own_hints_exact (d_anns d) (d_inherited_anns d) HO) as (OH & GH). destruct (own_hints_exact anns (d_inherited_anns d') HO') as (OH' & GH').
  assert (DA : d_anns d' = anns) by (rewrite ED; reflexivity).
  unfold make_class in HM. oinv HM. oinv HM. rename a into own, a0 into parents.
  assert (FW : exists own', own_fields P d' (own_hints anns (d_inherited_anns d')) = Ok own').
  { apply own_fields_forward. intros k a HI. apply dget_In in HI; [|assumption]. rewrite GH', HGA, <- GH in HI. apply dget_Some_In in HI.
    rewrite ED. cbn. eapply own_fields_each; eassumption. }
  destruct FW as [own' EO'].
  destruct (own_fields_exact P d _ own OH HMa) as (OO & _ & GO). destruct (own_fields_exact P d' _ own' OH' EO') as (OO' & _ & GO').
  assert (GE : forall k, dget k own' = dget k own).
  { intro k. destruct (dget k own) as [f|] eqn:E.
    - apply GO'. apply GO in E. destruct E as (a & E1 & E2). exists a. rewrite GH', HGA, <- GH, E1. split; [reflexivity|]. rewrite ED. exact E2.
    - destruct (dget k own') as [f|] eqn:E'; [|reflexivity]. apply GO' in E'. destruct E' as (a & E1 & E2). rewrite ED in E2.
      assert (E3 : dget k own = Some f) by (apply GO; exists a; rewrite GH, <- HGA, <- GH', E1; auto). congruence. }
  assert (PO : Permutation own own') by (apply get_perm; assumption).
  apply inherit_fields_ok in HMa0. destruct HMa0 as (EP & HDJ & HND). cbn in EP.
  assert (EI : inherit_fields own' [] (flat_map base_fields (d_bases d')) = Ok parents).
  { replace (d_bases d') with (d_bases d) by (rewrite ED; reflexivity). rewrite inherit_fields_forward; [rewrite EP; reflexivity|change (NoDup (keys (flat_map base_fields (d_bases d)))); rewrite <- EP; apply HND; constructor|].
    intros k HI H. apply (HDJ k HI). unfold keys in *. eapply Permutation_in; [apply Permutation_map; apply Permutation_sym; exact PO|exact H]. }
  assert (OP : dict_ok (parents ++ own)).
  { unfold dict_ok. rewrite keys_app. assert (N1 : NoDup (keys parents)) by (apply HND; constructor). rewrite <- EP in HDJ. clear -N1 HDJ OO.
    induction (keys parents) as [|x r IH]; [exact OO|]. cbn. inversion N1 as [|? ? N N1']; subst.
    constructor; [|apply IH; [intros k H; apply HDJ; right; assumption|assumption]]. intro H. apply in_app_or in H. destruct H as [H|H]; [contradiction|].
    apply (HDJ x); [left; reflexivity|assumption]. }
  assert (PF : Permutation (parents ++ own) (parents ++ own')) by (apply Permutation_app_head; assumption).
  unfold make_class. rewrite DA, EO'. cbn [obind]. rewrite EI. cbn [obind].
  destruct (parents ++ own) as [|kf r] eqn:E1; [discriminate|]. rewrite <- E1 in *.
  destruct (parents ++ own') as [|kf' r'] eqn:E2; [apply Permutation_sym, Permutation_nil in PF; congruence|]. rewrite <- E2 in *.
  oinv HM. oinv HM. replace (d_prebind d') with (d_prebind d) by (rewrite ED; reflexivity). replace (d_ty d') with (d_ty d) by (rewrite ED; reflexivity).
  replace (d_style d') with (d_style d) by (rewrite ED; reflexivity).
  destruct (prebind_perm P _ _ _ _ OP PF HMa0) as (fs1' & E3 & _ & PF1). rewrite E3. cbn [obind].
  destruct (bind_perm P _ _ _ _ PF1 _ HMa1) as (fs2' & E4). rewrite E4. cbn [obind]. eexists. reflexivity.
Qed.

Lemma fieldwise_reordered : forall {obj ty W} eqb (c c' : @cls obj ty W) (i j i' j' : inst obj ty), dict_ok (c_fields c) -> reordered c c' ->
  same_values i i' -> same_values j j' -> (fieldwise eqb c i j <-> fieldwise eqb c' i' j').
Proof.
  intros obj ty W eqb c c' i j i' j' HO (fs & HP & ->) SI SJ. destruct (perm_get _ _ HP HO) as (HO' & HG).
  assert (KI : forall k, In k (keys fs) <-> In k (keys (c_fields c))).
  { intro k. unfold keys. split; apply Permutation_in; [apply Permutation_sym|]; apply Permutation_map; assumption. }
  unfold fieldwise. cbn [c_fields]. split; intros H k a b HK EA EB.
  - apply (H k a b); [apply KI; assumption|rewrite <- SI; assumption|rewrite <- SJ; assumption].
  - apply (H k a b); [apply KI; assumption|rewrite SI; assumption|rewrite SJ; assumption].
Qed.

Lemma c164_equal_proof : forall {obj ty W} (R : Rt obj ty W) ctx ctx' D eqb hf c c' w w' x i y j x' i' y' j',
  made (rt_py R) c -> made (rt_py R) c' -> reordered c c' -> has_eq R D eqb -> equivalence D eqb -> defaults_in D c ->
  instance_of R ctx c w x i -> instance_of R ctx c w y j -> instance_of R ctx' c' w' x' i' -> instance_of R ctx' c' w' y' j' ->
  same_values i i' -> same_values j j' -> values_in D c i -> values_in D c j ->
  (c_frozen c = true -> hash_contract D eqb hf /\ hashable R hf c i /\ hashable R hf c j /\
     cache_ok R eqb hf c i /\ cache_ok R eqb hf c j /\ cache_ok R eqb hf c' i' /\ cache_ok R eqb hf c' j') ->
  exists b w1 w2, record_eq R ctx x y w = (Ok b, w1) /\ record_eq R ctx' x' y' w' = (Ok b, w2).
Proof.
  intros obj ty W R ctx ctx' D eqb hf c c' w w' x i y j x' i' y' j' HM HM' HR HE HQ HD HI HJ HI' HJ' SI SJ VI VJ HH.
  pose proof (made_named R c HM) as [HO _].
  destruct (c53_fieldwise_proof R ctx D eqb hf c w x i y j HM HE HQ HD HI HJ VI VJ) as (b & w1 & E1 & B1 & _).
  { intro F. destruct (HH F) as (A & B & C & D1 & D2 & _). auto. }
  pose proof (fieldwise_reordered eqb c c' i j i' j' HO HR SI SJ) as FW.
  destruct HR as (fs & HP & EC). destruct (perm_get _ _ HP HO) as (HO' & HG).
  assert (KI : forall k, In k (keys (c_fields c')) -> In k (keys (c_fields c))).
  { intro k. subst c'. unfold keys. apply Permutation_in. apply Permutation_sym, Permutation_map. assumption. }
  destruct (c53_fieldwise_proof R ctx' D eqb hf c' w' x' i' y' j' HM' HE HQ) as (b' & w2 & E2 & B2 & _); try assumption.
  - intros k f d EF ED. subst c'. cbn in EF. rewrite HG in EF. eapply HD; eassumption.
  - intros k v HK EV. rewrite SI in EV. apply (VI k v); [apply KI|]; assumption.
  - intros k v HK EV. rewrite SJ in EV. apply (VJ k v); [apply KI|]; assumption.
  - intro F. assert (F' : c_frozen c = true) by (subst c'; exact F). destruct (HH F') as (A & B & C & _ & _ & D1 & D2). split; [assumption|].
    split; [intros k v HK EV; rewrite SI in EV; apply (B k v); [apply KI|]; assumption|].
    split; [intros k v HK EV; rewrite SJ in EV; apply (C k v); [apply KI|]; assumption|]. auto.
  - exists b, w1, w2. split; [assumption|]. rewrite E2. replace b' with b; [reflexivity|].
    destruct b, b'; try reflexivity; [symmetry; apply B2, FW, B1; reflexivity|apply B1, FW, B2; reflexivity].
Qed.

Lemma exported_reordered : forall {obj ty W} eqb a black (c c' : @cls obj ty W) (i i' : inst obj ty), dict_ok (c_fields c) -> reordered c c' ->
  same_values i i' -> Permutation (exported eqb a black c i) (exported eqb a black c' i').
Proof.
  intros obj ty W eqb a black c c' i i' HO (fs & HP & ->) SI. destruct (perm_get _ _ HP HO) as (HO' & HG).
  apply get_perm; [apply exported_ok; assumption|apply exported_ok; assumption|]. intro k.
  assert (G : forall v, dget k (exported eqb a black (Cls (c_ty c) fs (c_field_dict c) (c_frozen c) (c_ordered c) (c_unary c) (c_style c) (c_parsers c) (c_post_new c)) i') = Some v <->
     dget k (exported eqb a black c i) = Some v).
  { intro v. rewrite !dget_exported by assumption. cbn [c_fields]. split; intros (f & E1 & E2 & E3); exists f; (split; [congruence|split; [|assumption]]).
    - rewrite <- SI. assumption.
    - rewrite SI. assumption. }
  destruct (dget k (exported eqb a black c i)) as [v|] eqn:E; [apply G; reflexivity|].
  match goal with |- ?t = None => destruct t as [v|] eqn:E' end; [|reflexivity]. assert (H := proj1 (G v) eq_refl). discriminate.
Qed.

Lemma sorted_same : forall {A} (le : string -> string -> bool) (l m : dict A), (forall a b, le a b = true -> le b a = true -> a = b) ->
  sorted_by le l -> sorted_by le m -> dict_ok l -> Permutation l m -> l = m.
Proof.
  intros A le l m AS HL. revert m. induction HL as [|k v r HK HL IH]; intros m HM HO HP; [apply Permutation_nil in HP; congruence|].
  destruct HM as [|k' v' m HK' HM]; [apply Permutation_sym, Permutation_nil in HP; discriminate|]. unfold dict_ok in HO. cbn in HO. inversion HO as [|? ? N HO']; subst.
  assert (E : (k, v) = (k', v')).
  { assert (I1 : In (k', v') ((k, v) :: r)) by (eapply Permutation_in; [apply Permutation_sym; exact HP|left; reflexivity]).
    assert (I2 : In (k, v) ((k', v') :: m)) by (eapply Permutation_in; [exact HP|left; reflexivity]).
    destruct I1 as [I1|I1]; [assumption|]. destruct I2 as [I2|I2]; [congruence|].
    assert (k = k') by (apply AS; [eapply HK; exact I1|eapply HK'; exact I2]). subst. exfalso. apply N. change k' with (fst (k', v')). apply in_map. assumption. }
  injection E as <- <-. f_equal. apply IH; [assumption|assumption|]. eapply Permutation_cons_inv. exact HP.
Qed.

Lemma leb_preorder : total_preorder String.leb.
Proof.
  split.
  - intros a b. destruct (String.leb_total a b); auto.
  - intros a b d. apply string_leb_trans.
Qed.

Lemma c164_export_proof : forall {obj ty W} (R : Rt obj ty W) ctx ctx' D eqb c c' a black w w' x i x' i',
  made (rt_py R) c -> made (rt_py R) c' -> reordered c c' -> has_eq R D eqb -> defaults_in D c ->
  instance_of R ctx c w x i -> instance_of R ctx' c' w' x' i' -> same_values i i' -> values_in D c i -> e_black a = BlackSet black ->
  exists d d', to_dict R ctx x a sel_empty w = (Ok d, w) /\ to_dict R ctx' x' a sel_empty w' = (Ok d', w') /\ Permutation d d' /\
    (e_sort a = SortAsc \/ e_sort a = SortDesc -> d' = d).
Proof.
  intros obj ty W R ctx ctx' D eqb c c' a black w w' x i x' i' HM HM' HR HE HD HI HI' SI VI EB.
  apply (made_named R) in HM. apply (made_named R) in HM'. pose proof HM as [HO _].
  pose proof (exported_reordered eqb a black c c' i i' HO HR SI) as PE.
  destruct HR as (fs & HP & EC). destruct (perm_get _ _ HP HO) as (HO' & HG).
  assert (HD' : defaults_in D c') by (intros k f d EF ED; subst c'; cbn in EF; rewrite HG in EF; eapply HD; eassumption).
  assert (VI' : values_in D c' i').
  { intros k v HK EV. rewrite SI in EV. apply (VI k v); [|assumption]. subst c'. unfold keys in *. eapply Permutation_in; [|exact HK]. apply Permutation_sym, Permutation_map. assumption. }
  do 2 eexists. split; [exact (to_dict_exported R ctx D eqb HE c a black w x i HM HD HI VI EB)|].
  split; [exact (to_dict_exported R ctx' D eqb HE c' a black w' x' i' HM' HD' HI' VI' EB)|].
  assert (PS : forall le, Permutation (sort_by le (exported eqb a black c i)) (sort_by le (exported eqb a black c' i'))).
  { intro le. eapply Permutation_trans; [apply Permutation_sym, sort_perm|]. eapply Permutation_trans; [exact PE|apply sort_perm]. }
  assert (SU : forall le, total_preorder le -> (forall a b, le a b = true -> le b a = true -> a = b) ->
     sort_by le (exported eqb a black c' i') = sort_by le (exported eqb a black c i)).
  { intros le T AS. symmetry. apply (sorted_same le); try assumption; [apply sort_sorted; assumption|apply sort_sorted; assumption| |apply PS].
    unfold dict_ok, keys. eapply Permutation_NoDup; [apply Permutation_map; apply sort_perm|]. apply exported_ok. assumption. }
  split; [destruct (e_sort a); cbn; [exact PE|apply PS|apply PS|apply PS]|].
  intros [E|E]; rewrite E; cbn; apply SU.
  - exact leb_preorder.
  - intros u v. apply String.leb_antisym.
  - destruct leb_preorder as [T1 T2]. split; [intros u v; destruct (T1 u v); auto|intros u v z H1 H2; eapply T2; eassumption].
  - intros u v H1 H2. apply String.leb_antisym; assumption.
Qed.

Lemma c164_less_refuted_proof : exists (R : Rt dobj dty rstate) d d' c c' x y w1 w2 w1' w2',
  make_class (rt_py R) d = Ok c /\ make_class (rt_py R) d' = Ok c' /\ reordered c c' /\
  construct R 1 c None [("a", DInt 1); ("b", DInt 2)] w0 = (Ok x, w1) /\ construct R 1 c None [("a", DInt 2); ("b", DInt 1)] w1 = (Ok y, w2) /\
  construct R 1 c' None [("a", DInt 1); ("b", DInt 2)] w0 = (Ok x, w1') /\ construct R 1 c' None [("a", DInt 2); ("b", DInt 1)] w1' = (Ok y, w2') /\
  compare R (fun _ => Some c) CLt x y w2 = (Ok true, w2) /\ compare R (fun _ => Some c') CLt x y w2' = (Ok false, w2').
Proof.
  exists (demo_rt 0).
  exists (rdecl 0 false true (Some false) SCheck [("a", (an TInt, NoDefault)); ("b", (an TInt, NoDefault))] [] no_post).
  exists (rdecl 0 false true (Some false) SCheck [("b", (an TInt, NoDefault)); ("a", (an TInt, NoDefault))] [] no_post).
  do 8 eexists. split; [reflexivity|]. split; [reflexivity|]. split; [eexists; split; [apply perm_swap|reflexivity]|].
  split; [reflexivity|]. split; [reflexivity|]. split; [reflexivity|]. split; [reflexivity|]. split; vm_compute; reflexivity.
Qed.
