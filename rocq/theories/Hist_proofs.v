(** Hist_proofs.v -- from the rules of Spec_Hist.v to the invariants of Record_inv.v. *)
From Verif Require Import Base Dict_proofs Py Select Filler Spec_Filler Filler_proofs Filler_sound Filler_inv Filler_seal Classes Spec_Classes Classes_proofs Classes_main
  Runtime Record Spec_Record Spec_Inst Record_proofs Inst_proofs Record_inv Spec_Hist.

Section Bridge.
Context {obj ty W : Type} (R : Rt obj ty W).
Notation P := (rt_py R).
Notation cls := (@cls obj ty W).
Notation parser := (@parser obj W).
Variable rule : W -> option exc -> W -> Prop.

Lemma obeys_sat : forall {A} (m : M W A), obeys rule m <-> sat rule m.
Proof. intros A m. split; intros H w; specialize (H w); destruct (m w) as [[a|e] w']; exact H. Qed.

Lemma coercer_obeys_aux : forall n (c : @ctoken obj ty W), ctoken_size c <= n -> coercer_obeys rule c -> ctoken_sat rule c.
Proof.
  induction n as [|n IH]; intros c HS HT; [destruct c; cbn in HS; lia|].
  destruct c as [g| |cs|]; cbn in *; [|exact I| |exact I].
  - intros o f E x. apply obeys_sat. eapply HT; exact E.
  - assert (HS' : (fix sum l := match l with [] => 0 | c :: r => ctoken_size c + sum r end) cs <= n) by lia. clear HS.
    induction cs as [|c r IHr]; [exact I|]. destruct HT as [H1 H2]. split; [apply IH; [lia|assumption]|apply IHr; [assumption|lia]].
Qed.
Lemma token_obeys_sat : forall t : @token obj ty W, token_obeys rule t -> token_sat rule t.
Proof.
  intros [|c|v|] H; cbn in *; try exact I.
  - eapply coercer_obeys_aux; [apply Nat.le_refl|exact H].
  - destruct v; try exact I. intros o f E x. apply obeys_sat. eapply H; exact E.
Qed.

Lemma objects_obey_sat : objects_obey R rule -> objects_sat R rule.
Proof. intros []. constructor; intros; apply obeys_sat; auto. Qed.
Lemma runtime_obey_sat : objects_obey R rule -> (forall l t w, rule w None (lit_grow P l t w)) -> runtime_sat P rule.
Proof.
  intros [] HG. repeat split; intros; try (apply obeys_sat; eauto). apply HG.
Qed.

Lemma insert_name_In : forall {A} k (v : A) l y, In y (insert_name k v l) <-> y = (k, v) \/ In y l.
Proof.
  intros A k v. induction l as [|[k' v'] r IH]; intro y; cbn; [intuition|].
  destruct (String.leb k k'); cbn; [intuition congruence|]. rewrite IH. tauto.
Qed.
Lemma sort_names_In : forall {A} (l : list (string * A)) y, In y (sort_names l) <-> In y l.
Proof.
  intros A l y. induction l as [|[k v] r IH]; [reflexivity|]. unfold sort_names in *. cbn [fold_right fst snd]. rewrite insert_name_In, IH. cbn. intuition congruence.
Qed.
Lemma class_parsers_user : forall ps p, In (PUser p) (@class_parsers obj W ps) -> exists k, In (k, p) ps.
Proof.
  intros ps p H. unfold class_parsers in H. apply in_map_iff in H. destruct H as ([k q] & E & H). cbn [snd] in E. subst q.
  apply (proj1 (sort_names_In _ _)) in H. apply in_app_or in H. destruct H as [[H|[H|[H|[]]]]|H]; try discriminate.
  apply in_map_iff in H. destruct H as ([k' p'] & E & H). injection E as <- <-. eauto.
Qed.

Hypothesis CL : closed_rel rule.
Hypothesis OO : objects_obey R rule.
Hypothesis LG : forall l t w, rule w None (lit_grow P l t w).

Lemma class_obeys_made : forall c, class_obeys R rule c -> made P c.
Proof. intros c H. induction H as [d c HM HO HS HB IH]. econstructor; eassumption. Qed.

Lemma class_obeys_fields : forall c, class_obeys R rule c ->
  forall k f, dget k (c_fields c) = Some f -> (forall v, sat rule (call P (f_filler f) v)) /\ (forall g, f_default f = DefFactory g -> sat rule g).
Proof.
  intros c HC. induction HC as [d c H HO HS HB IH]. intros k g Eg.
  destruct (make_class_parts P d c H) as (own & parents & MP). destruct MP.
  assert (EK : In k (keys (parents ++ own))) by (rewrite keys_app, <- mp_keys; eapply dget_some_key; eassumption).
  apply in_keys_get in EK. destruct EK as [f Ef].
  destruct (mp_field k f Ef) as (g' & fl & Eg' & SF & A & B1 & B2).
  rewrite Eg in Eg'. injection Eg' as <-. destruct SF as (S1 & S2 & S3 & S4).
  rewrite dget_app in Ef. destruct (dget k parents) as [f0|] eqn:EP.
  - injection Ef as ->. rewrite mp_parents in EP.
    assert (BASE : exists b, In (BRecord b) (d_bases d) /\ In (k, f) (c_fields b)).
    { apply dget_Some_In in EP. apply in_flat_map in EP. destruct EP as ([b|] & HI & HF); cbn in HF; [eauto|contradiction]. }
    destruct BASE as (b & HI & HF). pose proof (class_obeys_made b (HB b HI)) as MB. destruct (made_inv P b MB) as [OK FF].
    apply dget_In in HF; [|assumption]. destruct (FF k f HF) as (NM & s & h & ops & M). destruct (IH b HI k f HF) as [I1 I2].
    destruct (sealed_ops P _ _ _ (make_seals P _ _ _ _ M) A) as [_ ->].
    destruct (ty_eqP P (f_owner f) (d_ty d)) as [E|N].
    + destruct (bind_sealed P _ (d_style d) (make_seals P _ _ _ _ M)) as [e Ee]. rewrite (B1 E) in Ee. discriminate.
    + rewrite (B2 N). split; [assumption|]. intros g' E. apply I2. congruence.
  - destruct (own_fields_get P _ _ _ _ _ mp_own Ef) as (a & HI & HF & NM & DF & OW & GF & TG). split.
    + intro v. eapply (make_filler_sat P rule CL (runtime_obey_sat OO LG) (d_style d) (declared_hint a) (ops_for k (d_prebind d))).
      * unfold make_filler. rewrite GF. cbn. rewrite A. cbn. apply B1. assumption.
      * apply Forall_app. split; apply Forall_forall; intros t HT; apply token_obeys_sat.
        -- apply own_hints_In in HI; [|assumption]. apply dget_Some_In in HI. eapply (so_anns rule d HS); eassumption.
        -- apply in_map_iff in HT. destruct HT as ([key t'] & E & HT). cbn in E. subst t'.
           unfold ops_for in HT. apply in_map_iff in HT. destruct HT as ([k' o] & E & HT). cbn in E. subst o. apply filter_In in HT. destruct HT as [HT _].
           eapply (so_prebind rule d HS); exact HT.
    + intros g' E. apply obeys_sat. eapply (so_factories rule d HS k). congruence.
Qed.

Lemma class_obeys_sat : forall c, class_obeys R rule c -> class_sat R rule c /\ factories_sat rule c.
Proof.
  intros c HC. pose proof (class_obeys_fields c HC) as HF. split.
  - constructor.
    + intros k f v E. exact (proj1 (HF k f E) v).
    + intros k f g E. exact (proj2 (HF k f E) g).
    + intros p v HI. destruct HC as [d c H HO HS HB]. destruct (make_class_parts P d c H) as (own & parents & []).
      rewrite mp_rest in HI. cbn in HI. apply class_parsers_user in HI. destruct HI as [k HI]. apply obeys_sat. eapply (so_parsers rule d HS); exact HI.
    + intros x. destruct HC as [d c H HO HS HB]. destruct (make_class_parts P d c H) as (own & parents & []).
      rewrite mp_rest. cbn. apply obeys_sat. apply (so_post rule d HS).
  - intros k f g HI. destruct (made_inv P c (class_obeys_made c HC)) as [OK _]. exact (proj2 (HF k f (dget_In _ _ _ OK HI)) g).
Qed.

End Bridge.

(** ** Rules about states only *)
Section Keeping.
Context {obj ty W : Type} (R : Rt obj ty W).
Notation P := (rt_py R).
Notation cls := (@cls obj ty W).
Context (ctx : ty -> option cls).
Variable K : W -> W -> Prop.

Lemma keeping_closed : (forall w, K w w) -> (forall a b c, K a b -> K b c -> K a c) -> closed_rel (keeping K).
Proof. intros HR HT. unfold closed_rel, keeping. repeat split; intros; eauto. Qed.

(** growing Literals and hashing are in [K] *)
Hypothesis REFL : forall w, K w w.
Hypothesis TRANS : forall a b c, K a b -> K b c -> K a c.
Hypothesis GROW : forall l t w, K w (lit_grow P l t w).
Hypothesis HASH : hash_sat R ctx (keeping K).
Hypothesis PO : program_obeys R (keeping K) ctx.

Let CL : closed_rel (keeping K) := keeping_closed REFL TRANS.
Let OS : objects_sat R (keeping K) := objects_obey_sat R _ (proj1 PO).
Let CS : forall t c, ctx t = Some c -> class_sat R (keeping K) c /\ factories_sat (keeping K) c.
Proof.
  intros t c E. apply class_obeys_sat; [exact CL|apply PO| |eapply (proj2 PO); exact E].
  intros l t' w. apply GROW.
Qed.

Definition setting_kept (a : @action obj ty W) : Prop :=
  match a with ASet x k v => forall w, K w (snd (setattr R ctx x k v w)) | _ => True end.

Section By.
Hypothesis BUILD : forall t c, ctx t = Some c -> build_ok_sat R (keeping K) c.

Lemma after_kept_by : forall a w, allowed ctx K a -> setting_kept a -> K w (after R ctx a w).
Proof.
  assert (F : forall t c, ctx t = Some c -> factories_sat (keeping K) c) by (intros; eapply CS; eassumption).
  assert (C : forall t c, ctx t = Some c -> class_sat R (keeping K) c) by (intros; eapply CS; eassumption).
  assert (OUT : forall A (m : M W A) w, sat (keeping K) m -> K w (snd (m w))) by (intros A m w H; exact (H w)).
  intros a w HA HS. destruct a; cbn [after allowed setting_kept] in *.
  - apply HS.
  - apply OUT. apply record_hash_sat; assumption.
  - apply OUT. apply record_eq_sat; assumption.
  - apply OUT. apply compare_sat; assumption.
  - apply OUT. apply to_dict_sat; assumption.
  - apply OUT. apply to_json_sat; assumption.
  - apply OUT. apply repr_sat; assumption.
  - apply OUT. apply copy_sat_by; assumption.
  - apply OUT. apply deepcopy_sat_by; assumption.
  - apply OUT. apply construct_sat_by; try assumption; [eapply C|eapply F|eapply BUILD]; exact HA.
  - apply OUT. apply from_mapping_sat_by; try assumption; [eapply C|eapply F|eapply BUILD]; exact HA.
  - apply OUT. apply from_instance_sat_by; try assumption; [eapply C|eapply F|eapply BUILD]; exact HA.
  - apply OUT. apply from_json_sat_by; try assumption; [eapply C|eapply F|eapply BUILD]; exact HA.
  - apply OUT. apply parse_sat_by; try assumption; [eapply C|eapply F|eapply BUILD]; exact HA.
  - apply OUT. apply from_pickled_sat_by; try assumption; [eapply C|eapply F|eapply BUILD]; exact HA.
  - apply OUT. apply obeys_sat. exact HA.
Qed.

Lemma after_all_kept_by : forall l w, (forall a, In a l -> allowed ctx K a /\ setting_kept a) -> K w (after_all R ctx l w).
Proof.
  induction l as [|a r IH]; intros w H; [apply REFL|]. cbn. eapply TRANS; [|apply IH; intros; apply H; right; assumption].
  destruct (H a (or_introl eq_refl)). apply after_kept_by; assumption.
Qed.

End By.

Lemma after_all_kept_alloc : (forall c vs, sat (keeping K) (alloc R c vs)) ->
  forall l w, (forall a, In a l -> allowed ctx K a /\ setting_kept a) -> K w (after_all R ctx l w).
Proof. intros ALLOC. apply after_all_kept_by. intros t c E. apply build_sat; [exact CL|exact OS|exact (proj1 (CS t c E))|exact ALLOC]. Qed.

End Keeping.

Lemma after_all_kept : forall {obj ty W} (R : Rt obj ty W) ctx (K : W -> W -> Prop),
  (forall w, K w w) -> (forall a b c, K a b -> K b c -> K a c) -> (forall w w', heap R w' = heap R w -> K w w') ->
  (forall c vs, sat (keeping K) (alloc R c vs)) -> hash_sat R ctx (keeping K) -> program_obeys R (keeping K) ctx ->
  forall l w, (forall a, In a l -> allowed ctx K a /\ setting_kept R ctx K a) -> K w (after_all R ctx l w).
Proof. intros obj ty W R ctx K HR HT HG. intros. apply after_all_kept_alloc; try assumption. intros. apply HG. apply heap_grow. Qed.


(** ** The states that records are kept in *)
Section Kept.
Context {obj ty W : Type} (R : Rt obj ty W).
Notation cls := (@cls obj ty W).
Context (ctx : ty -> option cls).

Lemma heap_lookup : forall w w' x, heap R w' = heap R w -> lookup R w' x = lookup R w x.
Proof. intros w w' x H. unfold lookup. rewrite H. reflexivity. Qed.

Lemma alloc_kept : forall c vs w x i, lookup R w x = Some i -> lookup R (snd (alloc R c vs w)) x = Some i.
Proof. intros. apply lookup_alloc_kept. assumption. Qed.

Lemma frozen_kept_refl : forall w, frozen_kept R ctx w w.
Proof. intros w x i c H _ _. eauto. Qed.
Lemma frozen_kept_trans : forall a b c, frozen_kept R ctx a b -> frozen_kept R ctx b c -> frozen_kept R ctx a c.
Proof.
  intros a b c H1 H2 x i k HL HC HF. destruct (H1 x i k HL HC HF) as (j & L1 & C1 & D1).
  destruct (H2 x j k L1) as (j' & L2 & C2 & D2); [congruence|assumption|]. exists j'. split; [assumption|]. split; congruence.
Qed.
Lemma frozen_kept_heap : forall w w', heap R w' = heap R w -> frozen_kept R ctx w w'.
Proof. intros w w' H x i c HL _ _. exists i. rewrite (heap_lookup w w' x H). auto. Qed.
Lemma frozen_kept_alloc : forall c vs, sat (keeping (frozen_kept R ctx)) (alloc R c vs).
Proof. intros c vs w x i c' HL _ _. exists i. split; [apply alloc_kept; assumption|auto]. Qed.
Lemma frozen_kept_hash : hash_sat R ctx (keeping (frozen_kept R ctx)).
Proof.
  intros w x i c w1 j z HL HC HF HH HK HJ y i' c' HL' HC' HF'. destruct (HK y i' c' HL' HC' HF') as (j' & L & C & D).
  destruct (deref_dec (deref R x) (deref R y)) as [E|N].
  - exists (Inst (i_cls j) (i_dict j) (SHash z)). split; [eapply lookup_store_deref; eassumption|]. cbn.
    assert (j = j') by (unfold lookup in L, HJ; rewrite E in HJ; congruence). subst. auto.
  - exists j'. rewrite lookup_store_other by assumption. auto.
Qed.
Lemma frozen_kept_set : forall x k v w, frozen_kept R ctx w (snd (setattr R ctx x k v w)).
Proof.
  intros x k v w. unfold setattr. destruct (lookup R w x) as [i|] eqn:EL; [|apply frozen_kept_refl].
  destruct (ctx (i_cls i)) as [c|] eqn:EC; [|apply frozen_kept_refl].
  assert (ST : forall i', (i_cls i' = i_cls i) -> (c_frozen c = true -> i_dict i' = i_dict i) -> frozen_kept R ctx w (store R x i' w)).
  { intros i' HC HD y j c' HL' HC' HF'. destruct (deref_dec (deref R x) (deref R y)) as [E|N].
    - exists i'. split; [eapply lookup_store_deref; eassumption|]. assert (i = j) by (unfold lookup in EL, HL'; rewrite E in EL; congruence). subst j.
      split; [assumption|]. apply HD. congruence.
    - exists j. rewrite lookup_store_other by assumption. auto. }
  destruct (String.eqb k "_hash"); [apply ST; reflexivity|]. destruct (c_frozen c) eqn:EF; [apply frozen_kept_refl|].
  apply ST; [reflexivity|discriminate].
Qed.

Lemma hashes_kept_refl : forall w, hashes_kept R w w.
Proof. intros w x i H. eauto. Qed.
Lemma hashes_kept_trans : forall a b c, hashes_kept R a b -> hashes_kept R b c -> hashes_kept R a c.
Proof.
  intros a b c H1 H2 x i HL. destruct (H1 x i HL) as (j & L1 & C1 & D1). destruct (H2 x j L1) as (j' & L2 & C2 & D2).
  exists j'. split; [assumption|]. split; [congruence|]. auto.
Qed.
Lemma hashes_kept_heap : forall w w', heap R w' = heap R w -> hashes_kept R w w'.
Proof. intros w w' H x i HL. exists i. rewrite (heap_lookup w w' x H). auto. Qed.
Lemma hashes_kept_alloc : forall c vs, sat (keeping (hashes_kept R)) (alloc R c vs).
Proof. intros c vs w x i HL. exists i. split; [apply alloc_kept; assumption|auto]. Qed.
Lemma hashes_kept_hash : hash_sat R ctx (keeping (hashes_kept R)).
Proof.
  intros w x i c w1 j z HL HC HF HH HK HJ y i' HL'. destruct (HK y i' HL') as (j' & L & C & D).
  destruct (deref_dec (deref R x) (deref R y)) as [E|N].
  - exists (Inst (i_cls j) (i_dict j) (SHash z)). split; [eapply lookup_store_deref; eassumption|]. cbn.
    assert (j = j') by (unfold lookup in L, HJ; rewrite E in HJ; congruence). subst.
    assert (i = i') by (unfold lookup in HL, HL'; rewrite E in HL; congruence). subst. split; [assumption|]. intros z' E'. congruence.
  - exists j'. rewrite lookup_store_other by assumption. auto.
Qed.
Lemma hashes_kept_set : forall x k v w, k <> "_hash"%string -> hashes_kept R w (snd (setattr R ctx x k v w)).
Proof.
  intros x k v w HN. unfold setattr. destruct (lookup R w x) as [i|] eqn:EL; [|apply hashes_kept_refl].
  destruct (ctx (i_cls i)) as [c|] eqn:EC; [|apply hashes_kept_refl].
  destruct (String.eqb_spec k "_hash"); [contradiction|]. destruct (c_frozen c) eqn:EF; [apply hashes_kept_refl|].
  cbn [snd]. intros y j HL'. destruct (deref_dec (deref R x) (deref R y)) as [E|N].
  - eexists. split; [eapply lookup_store_deref; eassumption|]. assert (i = j) by (unfold lookup in EL, HL'; rewrite E in EL; congruence). subst j. cbn. auto.
  - exists j. rewrite lookup_store_other by assumption. auto.
Qed.

Lemma only_hashed_refl : forall w, only_hashed R ctx w w.
Proof. intros w x i H. auto. Qed.
Lemma only_hashed_trans : forall a b c, only_hashed R ctx a b -> only_hashed R ctx b c -> only_hashed R ctx a c.
Proof.
  intros a b c H1 H2 x i HL. destruct (H1 x i HL) as [L1|(k & z & C1 & F1 & N1 & L1)].
  - apply H2. assumption.
  - right. exists k, z. repeat split; try assumption. destruct (H2 _ _ L1) as [L2|(k' & z' & _ & _ & N2 & _)]; [assumption|discriminate].
Qed.
Lemma only_hashed_heap : forall w w', heap R w' = heap R w -> only_hashed R ctx w w'.
Proof. intros w w' H x i HL. left. rewrite (heap_lookup w w' x H). assumption. Qed.
Lemma only_hashed_alloc : forall c vs, sat (keeping (only_hashed R ctx)) (alloc R c vs).
Proof. intros c vs w x i HL. left. apply alloc_kept. assumption. Qed.
Lemma only_hashed_hash : hash_sat R ctx (keeping (only_hashed R ctx)).
Proof.
  intros w x i c w1 j z HL HC HF HH HK HJ y i' HL'.
  destruct (deref_dec (deref R x) (deref R y)) as [E|N].
  - assert (i = i') by (unfold lookup in HL, HL'; rewrite E in HL; congruence). subst i'. right. exists c, z. repeat split; try assumption.
    rewrite (lookup_store_deref R x y _ _ _ E HJ).
    destruct (HK x i HL) as [L|(c' & z' & _ & _ & _ & L)]; rewrite HJ in L; injection L as ->; reflexivity.
  - rewrite lookup_store_other by assumption. apply HK. assumption.
Qed.

End Kept.
