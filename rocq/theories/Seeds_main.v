(** Seeds_main.v -- proofs of the properties stated in Props_Seeds.v: runs of Python that iterate sets in different orders (records/record.py:133-134, 227-231) *)

From Verif Require Import Base Py Select Filler Classes Runtime Record Spec_Record Spec_Seeds Demo DemoRt DemoCls.
From Verif Require Dict_proofs Record_proofs.
Open Scope string_scope.
Open Scope list_scope.

Import Dict_proofs Record_proofs.
Section Commute.
Context {obj ty W : Type} (c : @cls obj ty W).
Definition made (k : string) : M W obj := match dget k (c_fields c) with Some f => make_default f | None => raise (mkexc KeyError k) end.
Definition alike (o o' : outcome (dict obj) * W) : Prop :=
  match o, o' with
  | (Ok d, w), (Ok d', w') => Permutation d d' /\ w' = w
  | (Raise e, w), (Raise e', w') => e' = e /\ w' = w
  | _, _ => False
  end.
Lemma alike_refl : forall o, alike o o.
Proof. intros [[d|e] w]; simpl; auto. Qed.
Lemma alike_trans : forall a b d, alike a b -> alike b d -> alike a d.
Proof.
  intros [[d|e] w] [[d1|e1] w1] [[d2|e2] w2]; simpl; try tauto; intros [A B] [C D]; subst; auto.
  split; [eapply Permutation_trans; eassumption|reflexivity].
Qed.
Lemma made_commute : independent c -> forall ks, (forall k, In k ks -> exists f, dget k (c_fields c) = Some f /\ f_default f <> NoDefault) ->
  forall k k', In k ks -> In k' ks -> k <> k' -> commute (made k) (made k').
Proof.
  intros HI ks HK k k' H H' N. destruct (HK k H) as (f & E & D), (HK k' H') as (f' & E' & D'). unfold made. rewrite E, E'.
  unfold make_default. destruct (f_default f) as [|v|g] eqn:F; [congruence| |]; destruct (f_default f') as [|v'|g'] eqn:F'; try congruence.
  - intro w. reflexivity.
  - intro w. unfold bind, ret. destruct (g' w) as [[b|e] w']; reflexivity.
  - intro w. unfold bind, ret. destruct (g w) as [[b|e] w']; reflexivity.
  - exact (HI k f g k' f' g' E F E' F' N).
Qed.
Lemma defaults_order : forall ks ks', Permutation ks ks' -> NoDup ks ->
  (forall k k', In k ks -> In k' ks -> k <> k' -> commute (made k) (made k')) ->
  forall w, alike (fill_defaults c ks w) (fill_defaults c ks' w).
Proof.
  intros ks ks' HP. induction HP as [|k l l' HP IH|a b l|l1 l2 l3 H1 IH1 H2 IH2]; intros HN HC w.
  - apply alike_refl.
  - cbn [fill_defaults]. fold (made k). unfold bind. destruct (made k w) as [[v|e] w1]; [|simpl; auto].
    inversion HN; subst. assert (HX := IH H2 ltac:(intros; apply HC; simpl; auto) w1).
    destruct (fill_defaults c l w1) as [[d|e] w2], (fill_defaults c l' w1) as [[d'|e'] w3]; simpl in *; try contradiction; auto.
    destruct HX as [HX ->]. split; [constructor; assumption|reflexivity].
  - cbn [fill_defaults]. fold (made a). fold (made b).
    assert (N : b <> a) by (inversion HN as [|? ? HX ?]; subst; intros ->; apply HX; left; reflexivity).
    assert (HX := HC b a (or_introl eq_refl) (or_intror (or_introl eq_refl)) N w).
    unfold bind, ret in *. destruct (made b w) as [[vb|eb] wb], (made a w) as [[va|ea] wa].
    + destruct (made a wb) as [[va'|ea'] w1], (made b wa) as [[vb'|eb'] w2]; try discriminate; injection HX as ? ?; subst; [|simpl; auto].
      subst. destruct (fill_defaults c l w2) as [[d|e] w3]; simpl; [|auto]. split; [constructor|reflexivity].
    + destruct (made a wb) as [[va'|ea'] w1]; [discriminate|]. injection HX as -> ->. simpl. auto.
    + destruct (made b wa) as [[vb'|eb'] w1]; [discriminate|]. injection HX as -> ->. simpl. auto.
    + injection HX as -> ->. simpl. auto.
  - eapply alike_trans; [apply IH1; assumption|]. apply IH2; [eapply Permutation_NoDup; eassumption|].
    intros k k' A B. apply HC; eapply Permutation_in; try (apply Permutation_sym; exact H1); assumption.
Qed.
End Commute.

Lemma c152_orders_partial_proof : forall {obj ty W} (R : Rt obj ty W) (o : @orders W) n c kw w,
  dict_ok (c_fields c) -> independent c -> no_post_new R c -> no_reserved kw ->
  match construct R (S n) c None kw w, construct (with_order R o) (S n) c None kw w with
  | (Ok x, w1), (Ok y, w2) => y = x /\ same_but_order R x w1 w2
  | (Raise e, w1), (Raise e', w2) => e' = e /\ w2 = w1
  | _, _ => False
  end.
Proof.
  intros obj ty W R o n c kw w HD HI HP HR.
  rewrite (construct_plain R) by assumption. rewrite (construct_plain (with_order R o)) by assumption.
  unfold build. change (none (with_order R o)) with (none R).
  change (fill_kwargs (with_order R o) c (none R) kw) with (fill_kwargs R c (none R) kw).
  destruct (forallb (fun k => dmem k (c_fields c)) (keys kw)); cbn [negb]; [|simpl; auto].
  unfold bind. destruct (fill_kwargs R c (none R) kw w) as [[[vs|]|e] w1] eqn:EF; [|destruct (fill_kwargs_none _ _ _ _ _ EF)|simpl; auto].
  destruct (forallb (fun k => dmem k kw) (required_keys (c_fields c))) eqn:EC; cbn [negb]; [|simpl; auto].
  set (ks := filter (fun k => negb (dmem k kw)) (optional_keys (c_fields c))).
  assert (HK : forall k, In k ks -> exists f, dget k (c_fields c) = Some f /\ f_default f <> NoDefault).
  { intros k HK. unfold ks in HK. apply filter_In in HK as [HK _]. unfold optional_keys in HK. apply filter_In in HK as [HK HQ].
    apply dmem_In, dmem_true_get in HK as (f & E). exists f. split; [assumption|]. intro HX. apply negb_true_iff in HQ.
    assert (smem k (required_keys (c_fields c)) = true); [|congruence]. apply smem_In. unfold required_keys.
    apply in_map_iff. exists (k, f). split; [reflexivity|]. apply filter_In. split; [apply dget_Some_In; assumption|].
    unfold has_default. cbn. rewrite HX. reflexivity. }
  assert (HN : NoDup ks) by (unfold ks, optional_keys; apply NoDup_filter, NoDup_filter; assumption).
  set (l1 := set_order R w1 ks). set (l2 := set_order (with_order R o) w1 ks).
  assert (P1 : Permutation ks l1) by apply set_order_perm. assert (P2 : Permutation ks l2) by apply (set_order_perm (with_order R o)).
  assert (HA : alike (fill_defaults c l1 w1) (fill_defaults c l2 w1)).
  { apply defaults_order; [eapply Permutation_trans; [apply Permutation_sym; eassumption|assumption]|eapply Permutation_NoDup; eassumption|].
    intros k k' H H'. apply (made_commute c HI ks HK); eapply Permutation_in; try (apply Permutation_sym; exact P1); assumption. }
  destruct (fill_defaults c l1 w1) as [[d|e] w2], (fill_defaults c l2 w1) as [[d'|e'] w2']; simpl in HA; try contradiction; [|simpl; tauto].
  destruct HA as [HA ->]. rewrite (finish_none R). change (finish (with_order R o) c (none R) (vs ++ d') w2) with (finish R c (none R) (vs ++ d') w2).
  rewrite (finish_none R). unfold post_new_result, bind. rewrite !HP. change (o_none (rt_py R)) with (none R). unfold none. rewrite truth_none. cbn.
  split; [reflexivity|]. exists (Inst (c_ty c) (vs ++ d) (if c_frozen c then SNone else SUnset)), (vs ++ d').
  split; [exact (lookup_alloc R c (vs ++ d) w2)|]. split; [exact (lookup_alloc R c (vs ++ d') w2)|]. split; [apply Permutation_app_head; assumption|].
  unfold store. rewrite deref_ref, heap_set, set_heap_twice. f_equal.
  generalize (heap R w2). intros h. induction h as [|i r IH]; cbn; [reflexivity|]. f_equal. exact IH.
Qed.

Lemma c152_factories_refuted_proof : exists (R : Rt dobj dty rstate) (o : @orders rstate) d c x w1 w2 w,
  make_class (rt_py R) d = Ok c /\ keys (c_fields c) = ["first"; "second"] /\ no_post_new R c /\
  construct R 1 c None [] w = (Ok x, w1) /\ construct (with_order R o) 1 c None [] w = (Ok x, w2) /\
  getattr R x "first" w1 = (Ok (DInt 0), w1) /\ getattr R x "second" w1 = (Ok (DInt 1), w1) /\
  getattr (with_order R o) x "first" w2 = (Ok (DInt 1), w2) /\ getattr (with_order R o) x "second" w2 = (Ok (DInt 0), w2).
Proof.
  exists (demo_rt 0), backwards.
  set (count := fun w => (Ok (DInt (Z.of_nat (List.length (rs_log w)))), RState (rs_lit w) (rs_heap w) (rs_log w ++ [DNone])) : outcome dobj * rstate).
  exists (rdecl 0 false false (Some false) SCheck [("first", (an TInt, DefFactory count)); ("second", (an TInt, DefFactory count))] [] no_post).
  eexists. exists (DRef (TRec 0) 0). eexists. eexists. exists (RState [] [] []).
  split; [reflexivity|]. split; [reflexivity|]. split; [intros x w; reflexivity|].
  split; [reflexivity|]. split; [reflexivity|]. repeat split.
Qed.

Lemma c152_reads_proof : forall {obj ty W} (R : Rt obj ty W) x w1 w2 y i k v,
  same_but_order R x w1 w2 -> lookup R w1 y = Some i -> dict_ok (i_dict i) -> dget k (i_dict i) = Some v ->
  getattr R y k w1 = (Ok v, w1) /\ getattr R y k w2 = (Ok v, w2).
Proof.
  intros obj ty W R x w1 w2 y i k v (ix & d & H1 & H2 & HP & HS) HL HK HG. unfold getattr. rewrite HL, HG. split; [reflexivity|].
  destruct (deref R x) as [n|] eqn:EX; [|unfold lookup in H1; rewrite EX in H1; discriminate].
  destruct (deref R y) as [m|] eqn:EY; [|unfold lookup in HL; rewrite EY in HL; discriminate].
  destruct (Nat.eq_dec n m) as [<-|N].
  - assert (lookup R w1 y = lookup R w1 x) as HE by (unfold lookup; rewrite EX, EY; reflexivity).
    assert (lookup R w2 y = lookup R w2 x) as HE' by (unfold lookup; rewrite EX, EY; reflexivity).
    rewrite HE' , H2. cbn. rewrite HE, H1 in HL. injection HL as <-.
    assert (dget k d = Some v) as ->; [|reflexivity].
    apply dget_In; [unfold dict_ok; eapply Permutation_NoDup; [|exact HK]; apply Permutation_map; exact HP|].
    eapply Permutation_in; [exact HP|]. apply dget_Some_In. exact HG.
  - assert (lookup R w2 y = Some i) as ->; [|rewrite HG; reflexivity].
    rewrite <- HL, HS. symmetry. apply lookup_store_other. congruence.
Qed.

Lemma c152_others_proof : forall {obj ty W} (R : Rt obj ty W) (o : @orders W) ctx,
  record_eq (with_order R o) ctx = record_eq R ctx /\ record_hash (with_order R o) ctx = record_hash R ctx /\
  compare (with_order R o) ctx = compare R ctx /\ to_dict (with_order R o) ctx = to_dict R ctx /\ to_json (with_order R o) ctx = to_json R ctx /\
  repr (with_order R o) ctx = repr R ctx /\ setattr (with_order R o) ctx = setattr R ctx /\ delattr (with_order R o) = delattr R.
Proof.
 intros. repeat split. Qed.
