(** Hist_main.v -- proofs of the properties stated in Props_Hist.v: histories of programs: what exports, constructions and assignments do to existing records; interrupts *)

From Verif Require Import Base Py Select Filler Spec_Filler Classes Spec_Classes Runtime Record Spec_Record Spec_Inst Spec_Hist Demo DemoRt DemoCls.
From Verif Require Dict_proofs Filler_proofs Filler_main Filler_inv Classes_main Record_proofs Inst_proofs Inst_main Record_inv Hist_proofs.
Open Scope string_scope.
Open Scope list_scope.

Import Dict_proofs Filler_inv Classes_main Record_proofs Inst_proofs Inst_main Record_inv Hist_proofs.

Lemma factories_obey : forall {obj ty W} (R : Rt obj ty W) (ctx : ty -> option (@cls obj ty W)) rule,
  (forall t c, ctx t = Some c -> made (rt_py R) c /\
     forall k f g, dget k (c_fields c) = Some f -> f_default f = DefFactory g -> obeys rule g) ->
  forall t c, ctx t = Some c -> factories_sat rule c.
Proof.
  intros obj ty W R ctx rule H t c E k f g HI ED. destruct (H t c E) as [HM HF]. destruct (made_inv (rt_py R) c HM) as [HO _].
  apply obeys_sat. eapply HF; [apply dget_In; eassumption|exact ED].
Qed.

Lemma c34_exports_proof : forall {obj ty W} (R : Rt obj ty W) ctx,
  objects_obey R (keeping (only_hashed R ctx)) ->
  (forall t c, ctx t = Some c -> made (rt_py R) c /\
     forall k f g, dget k (c_fields c) = Some f -> f_default f = DefFactory g -> obeys (keeping (only_hashed R ctx)) g) ->
  forall w x y a s o,
    only_hashed R ctx w (snd (to_dict R ctx x a s w)) /\ only_hashed R ctx w (snd (to_json R ctx x a s w)) /\
    only_hashed R ctx w (snd (repr R ctx x a w)) /\ only_hashed R ctx w (snd (compare R ctx o x y w)) /\
    only_hashed R ctx w (snd (record_eq R ctx x y w)) /\ only_hashed R ctx w (snd (record_hash R ctx x w)).
Proof.
  intros obj ty W R ctx HO HC w x y a s o.
  pose proof (keeping_closed _ (only_hashed_refl R ctx) (only_hashed_trans R ctx)) as CL.
  pose proof (objects_obey_sat R _ HO) as OS. pose proof (factories_obey R ctx _ HC) as FC. pose proof (only_hashed_hash R ctx) as HS.
  split; [exact (to_dict_sat R ctx _ CL OS FC x a s w)|]. split; [exact (to_json_sat R ctx _ CL OS FC x a s w)|].
  split; [exact (repr_sat R ctx _ CL OS FC x a w)|]. split; [exact (compare_sat R ctx _ CL OS o x y w)|].
  split; [exact (record_eq_sat R ctx _ CL OS FC HS x y w)|exact (record_hash_sat R ctx _ CL OS FC HS x w)].
Qed.

Lemma c34_untouched_proof : forall {obj ty W} (R : Rt obj ty W) ctx,
  objects_obey R (keeping (all_kept R)) ->
  (forall t c, ctx t = Some c -> made (rt_py R) c /\
     forall k f g, dget k (c_fields c) = Some f -> f_default f = DefFactory g -> obeys (keeping (all_kept R)) g) ->
  forall w x y a s o,
    all_kept R w (snd (to_dict R ctx x a s w)) /\ all_kept R w (snd (to_json R ctx x a s w)) /\
    all_kept R w (snd (repr R ctx x a w)) /\ all_kept R w (snd (compare R ctx o x y w)).
Proof.
  intros obj ty W R ctx HO HC w x y a s o.
  assert (CL : closed_rel (keeping (all_kept R))) by (apply keeping_closed; unfold all_kept; auto).
  pose proof (objects_obey_sat R _ HO) as OS. pose proof (factories_obey R ctx _ HC) as FC.
  split; [exact (to_dict_sat R ctx _ CL OS FC x a s w)|]. split; [exact (to_json_sat R ctx _ CL OS FC x a s w)|].
  split; [exact (repr_sat R ctx _ CL OS FC x a w)|exact (compare_sat R ctx _ CL OS o x y w)].
Qed.

Lemma c34_history_proof : forall {obj ty W} (R : Rt obj ty W) ctx,
  program_obeys R (keeping (only_hashed R ctx)) ctx ->
  forall l w, (forall a, In a l -> allowed ctx (only_hashed R ctx) a /\ forall x k v, a <> ASet x k v) ->
  only_hashed R ctx w (after_all R ctx l w).
Proof.
  intros obj ty W R ctx PO l w HA.
  apply after_all_kept; [apply only_hashed_refl|apply only_hashed_trans|apply only_hashed_heap|apply only_hashed_alloc|apply only_hashed_hash|exact PO|].
  intros a HI. destruct (HA a HI) as [H1 H2]. split; [assumption|]. destruct a; try exact I. destruct (H2 x k v eq_refl).
Qed.

Lemma c49_history_proof : forall {obj ty W} (R : Rt obj ty W) ctx,
  program_obeys R (keeping (frozen_kept R ctx)) ctx ->
  forall l w, (forall a, In a l -> allowed ctx (frozen_kept R ctx) a) ->
  frozen_kept R ctx w (after_all R ctx l w).
Proof.
  intros obj ty W R ctx PO l w HA.
  apply after_all_kept; [apply frozen_kept_refl|apply frozen_kept_trans|apply frozen_kept_heap|apply frozen_kept_alloc|apply frozen_kept_hash|exact PO|].
  intros a HI. split; [apply HA; assumption|]. destruct a; try exact I. intro. apply frozen_kept_set.
Qed.

Lemma c49_assignment_proof : forall {obj ty W} (R : Rt obj ty W) ctx c w x i k v,
  instance_of R ctx c w x i -> c_frozen c = true -> k <> "_hash" ->
  exists m, setattr R ctx x k v w = (Raise (mkexc TypeError m), w).
Proof.
  intros obj ty W R ctx c w x i k v (HX & HL & HT & _) HF HN. unfold setattr. rewrite HL, HT, HX.
  destruct (String.eqb_spec k "_hash"); [contradiction|]. rewrite HF. eauto.
Qed.

Lemma c49_not_frozen_proof : forall {obj ty W} (R : Rt obj ty W) ctx c w x i k v,
  instance_of R ctx c w x i -> c_frozen c = false -> k <> "_hash" ->
  exists w', setattr R ctx x k v w = (Ok tt, w') /\
    getattr R x k w' = (Ok v, w') /\
    (forall k' j, k' <> k -> lookup R w' x = Some j -> dget k' (i_dict j) = dget k' (i_dict i)) /\
    (forall y, deref R y <> deref R x -> lookup R w' y = lookup R w y).
Proof.
  intros obj ty W R ctx c w x i k v (HX & HL & HT & _) HF HN.
  set (i' := Inst (i_cls i) (dset k v (i_dict i)) (i_hash i)).
  assert (ES : setattr R ctx x k v w = (Ok tt, store R x i' w)).
  { unfold setattr. rewrite HL, HT, HX. destruct (String.eqb_spec k "_hash"); [contradiction|]. rewrite HF. unfold i'. rewrite HT. reflexivity. }
  exists (store R x i' w). split; [assumption|].
  pose proof (lookup_store_same R x i' i w HL) as L'.
  assert (G : getattr R x k (store R x i' w) = (Ok v, store R x i' w)).
  { unfold getattr. rewrite L'. cbn [i_dict i']. unfold i'. cbn [i_dict]. rewrite dget_dset_same. reflexivity. }
  split; [assumption|]. split.
  - intros k' j NK HJ. rewrite L' in HJ. injection HJ as <-. unfold i'. cbn [i_dict]. apply dget_dset_other. congruence.
  - intros y NY. apply lookup_store_other. congruence.
Qed.

Lemma c50_delete_refuted_proof : forall {obj ty W} (R : Rt obj ty W) ctx c w x i k,
  instance_of R ctx c w x i -> c_frozen c = true -> In k (keys (c_fields c)) -> k <> "_hash" -> dict_ok (i_dict i) ->
  exists w' j, delattr R x k w = (Ok tt, w') /\ lookup R w x = Some i /\ (exists v, dget k (i_dict i) = Some v) /\
    lookup R w' x = Some j /\ dget k (i_dict j) = None.
Proof.
  intros obj ty W R ctx c w x i k (HX & HL & HT & _ & HFl) HF HK HN HO. destruct (HFl k HK) as [v EV].
  exists (store R x (Inst (i_cls i) (ddel k (i_dict i)) (i_hash i)) w). eexists.
  split; [|split; [assumption|split; [eauto|split; [eapply lookup_store_same; exact HL|]]]].
  - unfold delattr. rewrite HL. destruct (String.eqb_spec k "_hash"); [contradiction|].
    unfold dmem. rewrite EV. reflexivity.
  - cbn [i_dict]. apply dget_ddel_same. assumption.
Qed.

Lemma c51_assignment_refuted_proof : forall {obj ty W} (R : Rt obj ty W) ctx c w x i v z,
  instance_of R ctx c w x i -> c_frozen c = true -> int_of R v = Some z -> v <> o_none (rt_py R) ->
  exists w', setattr R ctx x "_hash" v w = (Ok tt, w') /\ record_hash R ctx x w' = (Ok z, w').
Proof.
  intros obj ty W R ctx c w x i v z (HX & HL & HT & _) HF HV NN.
  exists (store R x (Inst (i_cls i) (i_dict i) (SHash z)) w). split.
  - unfold setattr. rewrite HL, HT, HX. rewrite String.eqb_refl, HV.
    unfold is_none. destruct (py_isP (rt_py R) v (none R)) as [E|N]; [contradiction|reflexivity].
  - unfold record_hash. rewrite (lookup_store_same R x _ i w HL). cbn [i_cls i_hash]. rewrite HT, HX, HF. reflexivity.
Qed.

Lemma c51_history_partial_proof : forall {obj ty W} (R : Rt obj ty W) ctx,
  program_obeys R (keeping (hashes_kept R)) ctx ->
  forall c w x i z w1, instance_of R ctx c w x i -> c_frozen c = true -> record_hash R ctx x w = (Ok z, w1) ->
  forall l, (forall a, In a l -> allowed ctx (hashes_kept R) a /\ no_hash_assignment a) ->
  record_hash R ctx x (after_all R ctx l w1) = (Ok z, after_all R ctx l w1).
Proof.
  intros obj ty W R ctx PO c w x i z w1 (HX & HL & HT & _) HF HH l HA.
  assert (KL : hashes_kept R w1 (after_all R ctx l w1)).
  { apply after_all_kept; [apply hashes_kept_refl|apply hashes_kept_trans|apply hashes_kept_heap|apply hashes_kept_alloc|apply hashes_kept_hash|exact PO|].
    intros a HI. destruct (HA a HI) as [H1 H2]. split; [assumption|]. destruct a; try exact I. intro. apply hashes_kept_set. exact H2. }
  assert (S1 : exists j, lookup R w1 x = Some j /\ i_cls j = c_ty c /\ i_hash j = SHash z).
  { unfold record_hash in HH. rewrite HL, HT, HX, HF in HH. cbn [negb] in HH.
    destruct (i_hash i) as [| |z'|] eqn:EH; try discriminate.
    - set (m := (let* d := to_dict R ctx x no_args sel_empty in mapM (v_hash R) (dvalues d))).
      assert (HM : sat (keeping (hashes_kept R)) m).
      { assert (CL : closed_rel (keeping (hashes_kept R))) by (apply keeping_closed; [apply hashes_kept_refl|apply hashes_kept_trans]).
        pose proof (objects_obey_sat R _ (proj1 PO)) as OS. apply (sat_bind _ CL).
        - apply (to_dict_sat R ctx _ CL OS). intros t c' E. eapply class_obeys_sat; [exact CL|apply PO| |eapply (proj2 PO); exact E].
          intros l' t' w'. apply hashes_kept_heap. apply heap_grow.
        - intro. apply (sat_mapM _ CL). apply (os_hash R _ OS). }
      specialize (HM w). unfold m, bind in HM. unfold bind in HH. destruct (to_dict R ctx x no_args sel_empty w) as [[d|e] w2]; [|discriminate].
      destruct (mapM (v_hash R) (dvalues d) w2) as [[hs|e] w3]; [|discriminate]. cbn in HM, HH. injection HH as <- <-.
      destruct (HM x i HL) as (j & LJ & CJ & _). rewrite LJ. eexists. split; [eapply lookup_store_same; exact LJ|]. cbn. split; [congruence|reflexivity].
    - cbn in HH. injection HH as <- <-. exists i. auto. }
  destruct S1 as (j & LJ & CJ & EJ). destruct (KL x j LJ) as (j' & LJ' & CJ' & EJ').
  unfold record_hash. rewrite LJ'. replace (i_cls j') with (c_ty c) by congruence. rewrite HX, HF, (EJ' z EJ). reflexivity.
Qed.

Lemma passes_closed : forall {W} (pending : W -> option exc), closed_rel (passes_interrupts pending).
Proof.
  intros W pending. unfold closed_rel, passes_interrupts. repeat split.
  - auto.
  - intros w e ->. auto.
  - intros w w1 o w2 H1 H2 H. apply H2, H1, H.
  - intros w e w1 o w2 E H1 H2 H. apply H2. rewrite H1 by assumption. rewrite E. reflexivity.
Qed.

Lemma c19_records_proof : forall {obj ty W} (R : Rt obj ty W) ctx (pending : W -> option exc),
  (forall h w, pending (set_heap R h w) = pending w) ->
  (forall l t w, pending (lit_grow (rt_py R) l t w) = pending w) ->
  program_obeys R (passes_interrupts pending) ctx ->
  (forall t c n, ctx t = Some c ->
     (forall pos kw, obeys (passes_interrupts pending) (construct R n c pos kw)) /\
     (forall s ms kw, obeys (passes_interrupts pending) (from_mapping R n c s ms kw)) /\
     (forall s v ms kw, obeys (passes_interrupts pending) (from_instance R n c s v ms kw)) /\
     (forall s v, obeys (passes_interrupts pending) (from_json R n c s v)) /\
     (forall v, obeys (passes_interrupts pending) (parse R n c v)) /\
     (forall v, obeys (passes_interrupts pending) (from_pickled R n c v))) /\
  (forall x y a s o n,
     obeys (passes_interrupts pending) (to_dict R ctx x a s) /\ obeys (passes_interrupts pending) (to_json R ctx x a s) /\
     obeys (passes_interrupts pending) (repr R ctx x a) /\ obeys (passes_interrupts pending) (compare R ctx o x y) /\
     obeys (passes_interrupts pending) (record_eq R ctx x y) /\ obeys (passes_interrupts pending) (record_hash R ctx x) /\
     obeys (passes_interrupts pending) (copy R ctx n x) /\ obeys (passes_interrupts pending) (deepcopy R ctx n x)).
Proof.
  intros obj ty W R ctx pending PH PG PO. pose proof (passes_closed pending) as CL.
  pose proof (objects_obey_sat R _ (proj1 PO)) as OS.
  assert (CS : forall t c, ctx t = Some c -> class_sat R (passes_interrupts pending) c /\ factories_sat (passes_interrupts pending) c).
  { intros t c E. apply class_obeys_sat; [exact CL|apply PO| |eapply (proj2 PO); exact E]. intros l t' w H. rewrite PG. assumption. }
  assert (F : forall t c, ctx t = Some c -> factories_sat (passes_interrupts pending) c) by (intros; eapply CS; eassumption).
  assert (C : forall t c, ctx t = Some c -> class_sat R (passes_interrupts pending) c) by (intros; eapply CS; eassumption).
  assert (AS : alloc_sat R (passes_interrupts pending)).
  { intros c vs w H. cbn. rewrite PH. assumption. }
  assert (HS : hash_sat R ctx (passes_interrupts pending)).
  { intros w x i c w1 j z _ _ _ _ HP _ H. specialize (HP H). cbn in HP. unfold store.
    destruct (deref R x) as [m|]; [rewrite PH; assumption|assumption]. }
  split.
  - intros t c n E. repeat split; intros; apply obeys_sat.
    + apply construct_sat; try assumption; [eapply C|eapply F]; exact E.
    + apply from_mapping_sat; try assumption; [eapply C|eapply F]; exact E.
    + apply from_instance_sat; try assumption; [eapply C|eapply F]; exact E.
    + apply from_json_sat; try assumption; [eapply C|eapply F]; exact E.
    + apply parse_sat; try assumption; [eapply C|eapply F]; exact E.
    + apply from_pickled_sat; try assumption; [eapply C|eapply F]; exact E.
  - intros x y a s o n. repeat split; apply obeys_sat.
    + apply to_dict_sat; assumption.
    + apply to_json_sat; assumption.
    + apply repr_sat; assumption.
    + apply compare_sat; assumption.
    + apply record_eq_sat; assumption.
    + apply record_hash_sat; assumption.
    + apply copy_sat; assumption.
    + apply deepcopy_sat; assumption.
Qed.

Lemma only_hashed_old : forall {obj ty W} (R : Rt obj ty W) ctx w w' t n, only_hashed R ctx w w' ->
  List.length (heap R w') <= n -> lookup R w (ref R t n) = None.
Proof.
  intros obj ty W R ctx w w' t n HK HL. destruct (lookup R w (ref R t n)) as [i|] eqn:E; [|reflexivity].
  assert (N : lookup R w' (ref R t n) = None) by (unfold lookup; rewrite deref_ref; apply nth_error_None; assumption).
  destruct (HK _ _ E) as [H|(c & z & _ & _ & _ & H)]; congruence.
Qed.
Lemma filled_rule : forall {obj ty W} (R : Rt obj ty W) ctx c kw w vs w1, class_sat R (keeping (only_hashed R ctx)) c ->
  filled R c kw w vs w1 -> only_hashed R ctx w w1.
Proof.
  intros obj ty W R ctx c kw w vs w1 CS H. induction H as [w|k v r f y ys w w1 w2 EF EC HF IH]; [apply only_hashed_refl|].
  eapply only_hashed_trans; [|exact IH]. pose proof (cs_fill R _ c CS k f v EF w) as HC. rewrite EC in HC. exact HC.
Qed.
Lemma defaulted_rule : forall {obj ty W} (R : Rt obj ty W) ctx c ks w vs w1, class_sat R (keeping (only_hashed R ctx)) c ->
  defaulted c ks w vs w1 -> only_hashed R ctx w w1.
Proof.
  intros obj ty W R ctx c ks w vs w1 CS H. induction H as [w|k r f v vs w w1 w2 EF HD HR IH]; [apply only_hashed_refl|].
  eapply only_hashed_trans; [|exact IH]. destruct HD as [v w ED|g v w w1 ED EG]; [apply only_hashed_refl|].
  pose proof (cs_default R _ c CS k f g EF ED w) as HC. rewrite EG in HC. exact HC.
Qed.
Lemma extract_names : forall {obj ty W} (R : Rt obj ty W) ok x a fs w d w' k,
  extract R ok x a fs w = (Ok d, w') -> In k (keys d) -> exists f, In f fs /\ x_name f = k.
Proof.
  intros obj ty W R ok x a. induction fs as [|f r IH]; intros w d w' k H HI; cbn in H; [injection H as <- <-; destruct HI|].
  apply bind_ok in H. destruct H as (h & w1 & H1 & H). apply bind_ok in H. destruct H as (t & w2 & H2 & H). cbn in H. injection H as <- <-.
  rewrite keys_app, in_app_iff in HI. destruct HI as [HI|HI].
  - assert (EH : h = [] \/ exists v, h = [(x_name f, v)]).
    { unfold extract_one in H1. destruct (export_field a f) as [[]|e]; [|injection H1 as <- <-; auto|discriminate].
      destruct (getattr R x (x_name f) w) as [[v|e] w3].
      - apply bind_ok in H1. destruct H1 as (b & w4 & _ & H1). cbn in H1. injection H1 as <- <-. destruct b; eauto.
      - destruct (is_AttributeError e); [|discriminate]. destruct (negb (ok (x_name f))); [discriminate|].
        destruct (e_defaults a); [|injection H1 as <- <-; auto]. destruct (x_default f) as [|d0|g]; try (injection H1 as <- <-; eauto).
        apply bind_ok in H1. destruct H1 as (v & w4 & _ & H1). cbn in H1. injection H1 as <- <-. eauto. }
    destruct EH as [->|[v ->]]; [destruct HI|]. destruct HI as [<-|[]]. exists f. split; [left; reflexivity|reflexivity].
  - destruct (IH w1 t w2 k H2 HI) as (f' & HF & E). exists f'. split; [right; assumption|assumption].
Qed.
Lemma plain_dict_names : forall {obj ty W} (R : Rt obj ty W) ctx c x w i d w' k, well_named c ->
  lookup R w x = Some i -> ctx (i_cls i) = Some c -> to_dict R ctx x no_args sel_empty w = (Ok d, w') -> In k (keys d) -> In k (keys (c_fields c)).
Proof.
  intros obj ty W R ctx c x w i d w' k [HO HN] HL HC H HI. unfold to_dict, with_class, class_of in H. rewrite HL, HC in H.
  apply bind_ok in H. destruct H as (d1 & w1 & H1 & H). change (sel_apply sel_empty d1) with (@Ok (dict obj) d1) in H. cbn in H. injection H as -> ->.
  unfold to_dict_of in H1. apply bind_ok in H1. destruct H1 as (l & w2 & H1 & H). cbn in H. injection H as -> ->.
  destruct (extract_names R _ _ _ _ _ _ _ k H1 HI) as (f & HF & E). cbn in HF. apply in_map_iff in HF. destruct HF as ([k' f'] & E1 & HF).
  cbn in E1. subst f'. apply in_map_iff in HF. destruct HF as ([k2 f2] & E2 & HF). injection E2 as <- <-. cbn in E.
  assert (k2 = k) by (rewrite <- E; symmetry; apply HN; apply dget_In; assumption). subst k2. apply in_map_iff. exists (k, f2). auto.
Qed.

(** post_new returns None, the record it is called for, or something that is no record when it
    is called, such as a new record *)
Definition gives_no_old_record {obj ty W} (R : Rt obj ty W) (c : @cls obj ty W) : Prop :=
  forall self w r w', c_post_new c self w = (Ok r, w') -> r = o_none (rt_py R) \/ r = self \/ lookup R w r = None.

Lemma c78_fresh_result_partial_proof : forall {obj ty W} (R : Rt obj ty W) ctx,
  program_obeys R (keeping (only_hashed R ctx)) ctx ->
  forall c n w x i, instance_of R ctx c w x i -> gives_no_old_record R c -> fields_callable c ->
  only_hashed R ctx w (snd (pickle_copy R ctx n x w)).
Proof.
  intros obj ty W R ctx PO c n w x i (HX & HL & HT & _) HP HFC.
  pose proof (keeping_closed _ (only_hashed_refl R ctx) (only_hashed_trans R ctx)) as CL.
  pose proof (objects_obey_sat R _ (proj1 PO)) as OS.
  assert (CS : forall t c, ctx t = Some c -> class_sat R (keeping (only_hashed R ctx)) c /\ factories_sat (keeping (only_hashed R ctx)) c).
  { intros t c' E. apply class_obeys_sat; [exact CL|apply PO| |eapply (proj2 PO); exact E]. intros l t' w'. apply only_hashed_heap. apply heap_grow. }
  assert (F : forall t c, ctx t = Some c -> factories_sat (keeping (only_hashed R ctx)) c) by (intros; eapply CS; eassumption).
  destruct (CS _ _ HX) as [Cc Fc].
  assert (WN : well_named c) by (apply (made_named R); eapply class_obeys_made; eapply (proj2 PO); exact HX).
  unfold pickle_copy, with_class, class_of. rewrite HL, HT, HX. unfold pickle_state, bind.
  pose proof (to_dict_sat R ctx _ CL OS F x no_args sel_empty w) as K1.
  destruct (to_dict R ctx x no_args sel_empty w) as [[kw|e] w1] eqn:ET; [|exact K1]. cbn in K1.
  destruct (lookup R w1 x) as [j|] eqn:EJ; [|exact K1]. cbn.
  pose proof (os_pickle R _ OS (dvalues (i_dict j)) w1) as K2.
  destruct (pickle_values R (dvalues (i_dict j)) w1) as [[vs|e] w2]; cbn in K2; [|cbn; eapply only_hashed_trans; eassumption].
  eapply only_hashed_trans; [exact K1|]. eapply only_hashed_trans; [exact K2|]. clear K1 K2.
  set (kw' := flat_map (fun k => match dget k (combine (keys (i_dict j)) vs) with Some v => [(k, v)] | None => [] end) (keys kw)).
  assert (KN : forall k, In k (keys kw') -> In k (keys (c_fields c))).
  { intros k HI. apply (plain_dict_names R ctx c x w i kw w1 k WN HL); [congruence|exact ET|].
    unfold kw' in HI. apply in_map_iff in HI. destruct HI as ([k' v'] & E & HI). cbn in E. subst k'. apply in_flat_map in HI. destruct HI as (k2 & HK & HI).
    destruct (dget k2 _); [|destruct HI]. destruct HI as [HI|[]]. injection HI as -> _. assumption. }
  unfold unpickle. assert (E1 : dmem "cls" kw' = false) by (apply dmem_false; intro HI; apply (HFC "cls" (KN _ HI)); left; reflexivity).
  assert (E2 : dget "arg" kw' = None) by (apply dget_None; intro HI; apply (HFC "arg" (KN _ HI)); right; left; reflexivity).
  rewrite E1, E2. unfold bind. destruct n as [|n]; [cbn; apply only_hashed_refl|]. cbn [new].
  pose proof (build_sat R _ CL OS c Cc (only_hashed_alloc R ctx) (none R) kw' w2) as KB.
  destruct (build R c (none R) kw' w2) as [[y|e] w3] eqn:EB; [|exact KB]. cbn [fst snd exc_of] in KB. cbn [snd].
  destruct (lookup R w3 y) as [iy|] eqn:EY; [|exact KB].
  apply build_ok in EB. destruct EB as (_ & _ & vs' & w4 & ds & w5 & HF & HD & HPN).
  assert (K5 : only_hashed R ctx w2 w5) by (eapply only_hashed_trans; [eapply filled_rule; eassumption|eapply defaulted_rule; eassumption]).
  assert (EYr : lookup R w2 y = None).
  { assert (OLD : forall z, lookup R (snd (alloc R c (vs' ++ ds) w5)) z = None -> lookup R w2 z = None).
    { intros z Hz. destruct (lookup R w2 z) as [iz|] eqn:Ez; [|reflexivity]. exfalso.
      destruct (K5 z iz Ez) as [Q|(c0 & h0 & _ & _ & _ & Q)]; rewrite (alloc_kept R c (vs' ++ ds) w5 z _ Q) in Hz; discriminate. }
    unfold post_new_result, bind in HPN.
    match type of HPN with context [c_post_new c ?s ?u] => destruct (c_post_new c s u) as [[r|e] w6] eqn:EP; [|discriminate] end.
    assert (SELF : lookup R w2 (ref R (c_ty c) (List.length (heap R w5))) = None) by (eapply only_hashed_old; [exact K5|lia]).
    destruct (HP _ _ _ _ EP) as [->|Q]; [rewrite truth_none in HPN; cbn in HPN; injection HPN as <- _; exact SELF|].
    destruct (truth R r w6) as [[t|e] w7]; [|discriminate]. cbn in HPN. injection HPN as HPN _.
    destruct t; [|subst y; exact SELF]. subst y. destruct Q as [->|Q]; [exact SELF|]. apply OLD. exact Q. }
  intros z iz HZ. destruct (deref_dec (deref R y) (deref R z)) as [E|N].
  - exfalso. unfold lookup in EYr, HZ. rewrite <- E in HZ. congruence.
  - rewrite lookup_store_other by assumption. apply KB. assumption.
Qed.

Lemma c78_no_post_new_partial_proof : forall {obj ty W} (R : Rt obj ty W) ctx,
  program_obeys R (keeping (only_hashed R ctx)) ctx ->
  forall c n w x i, instance_of R ctx c w x i -> no_post_new R c -> fields_callable c ->
  only_hashed R ctx w (snd (pickle_copy R ctx n x w)).
Proof.
  intros obj ty W R ctx PO c n w x i HI HP HFC. eapply c78_fresh_result_partial_proof; try eassumption.
  intros self w0 r w' E. left. rewrite HP in E. congruence.
Qed.

(** a frozen class whose post_new always answers with the first instance there is *)
Definition shared_decl := rdecl 0 true false (Some false) SCheck [("x", (an TInt, NoDefault))] [] (fun _ => ret (DRef (TRec 0) 0)).
Definition shared_ctx (t : dty) : option (@cls dobj dty rstate) := match t with TRec 0 => Some (made_of shared_decl) | _ => None end.
Definition shared_state := RState [] [Inst (TRec 0) [("x", DInt 1)] SNone; Inst (TRec 0) [("x", DInt 2)] SNone] [].

Lemma c78_post_new_refuted_proof : forall {obj ty W} (R : Rt obj ty W) n c kw state h w y w1 j,
  no_reserved kw -> construct R n c None kw w = (Ok y, w1) -> lookup R w1 y = Some j -> dict_ok state ->
  exists w2 j', unpickle R n c kw state h w = (Ok y, w2) /\ lookup R w2 y = Some j' /\
    forall k v, dget k state = Some v -> dget k (i_dict j') = Some v.
Proof.
  intros obj ty W R n c kw state h w y w1 j HR HC HL HO.
  assert (EN : new R n c None kw w = (Ok y, w1)).
  { unfold construct, call_cls in HC. unfold dmem in HC.
    rewrite (reserved_get kw "cls"), (reserved_get kw "arg"), (reserved_get kw "self") in HC by (unfold reserved; auto).
    apply bind_ok in HC. destruct HC as (z & wz & HZ & HC). rewrite andb_false_r in HC. injection HC as <- <-. exact HZ. }
  eexists. eexists. split; [|split].
  - unfold unpickle. unfold dmem. rewrite (reserved_get kw "cls"), (reserved_get kw "arg") by (unfold reserved; auto).
    unfold bind. rewrite EN, HL. reflexivity.
  - eapply lookup_store_same. exact HL.
  - intros k v E. cbn [i_dict]. rewrite dget_dupdate by assumption. rewrite E. reflexivity.
Qed.

(** a program with a frozen class 0 and a class 1 that is not frozen; the validator of their
    field x writes a log, and that of class 0 is interrupted by negative numbers *)
Definition log_value : dobj -> M rstate dobj := fun x w => (Ok x, RState (rs_lit w) (rs_heap w) (rs_log w ++ [x])).
Definition note_decl (n : nat) (frozen : bool) := rdecl n frozen false (Some false) SCheck
  [("x", (AHint (HTy TInt) [ATok (TValid (VGlobal (fun _ => Ok log_value)))], NoDefault))] [] no_post.
Definition note_ctx (t : dty) : option (@cls dobj dty rstate) :=
  match t with TRec 0 => Some (made_of (note_decl 0 true)) | TRec 1 => Some (made_of (note_decl 1 false)) | _ => None end.
Definition note_state := RState [] [Inst (TRec 0) [("x", DInt 5)] SNone; Inst (TRec 1) [("x", DInt 6)] SUnset] [].

Section Demo.
Variable rule : rstate -> option exc -> rstate -> Prop.
Hypothesis R1 : forall w, rule w None w.
Hypothesis R2 : forall w e, is_Exception e = true -> rule w (Some e) w.
Ltac done := first [apply R1 | apply R2; reflexivity].
Lemma demo_obey : forall seed, objects_obey (demo_rt seed) rule.
Proof.
  intro seed. constructor; try (intros; intro; done).
  - intros rk v es w. destruct v; done.
  - intros rk v es w. destruct v; done.
  - intros v b w. destruct v; done.
  - intros v e H w. apply R2. exact (dhash_error_Exception v e H).
  - intros o x y w. cbn. unfold dcmp. destruct (dint x), (dint y); done.
  - intros x w. destruct x; done.
  - intros x k w. destruct x; try done. cbn. destruct (String.eqb k "x"); [done|]. destruct (String.eqb k "boom"); done.
  - intros x w. cbn -[dict_of]. destruct x; try (destruct (dict_of _); done). destruct (names_of (unchain x)); done.
  - intros x k w. cbn -[dict_of]. destruct (dict_of x) as [d|]; [|done]. destruct (dget k d); done.
  - intros x w. cbn -[dict_of]. destruct (dict_of x); done.
  - intros x w. cbn -[to_dict_of_pairs]. destruct (to_dict_of_pairs x); done.
  - intros x w. destruct x; try done. destruct x; try done. destruct x2; done.
Qed.
Hypothesis R3 : forall w x, rule w None (snd (log_value x w)).
Lemma note_obeys : forall n fz, (n = 0 \/ n = 1) -> class_obeys (demo_rt 0) rule (made_of (note_decl n fz)).
Proof.
  intros n fz HN. apply (Spec_Hist.class_obeys_made _ _ (note_decl n fz)).
  - destruct HN as [-> | ->], fz; reflexivity.
  - repeat constructor; simpl; tauto.
  - constructor.
    + intros k a t [H|[]] HT. injection H as <- <-. cbn in HT. destruct HT as [<-|[]]. intros o f E x w. injection E as <-. cbn. apply R3.
    + intros k key t [].
    + intros k g E. cbn in E. destruct (String.eqb k "x"); discriminate.
    + intros k p v [].
    + intros x w. apply R1.
  - intros b [H|[]]. discriminate.
Qed.
Lemma note_program : program_obeys (demo_rt 0) rule note_ctx.
Proof.
  split; [apply demo_obey|]. intros t c E. destruct t as [| | | | | | | | | | | | |[|[|]]]; cbn in E; try discriminate; injection E as <-; (split; [reflexivity|]);
    [exact (note_obeys 0 true (or_introl eq_refl))|exact (note_obeys 1 false (or_intror eq_refl))].
Qed.
End Demo.
Lemma note_guarantees : forall t c, note_ctx t = Some c -> guarantees (demo_rt 0) (fun _ _ v => isinstance rt0 v TInt = true) c.
Proof.
  intros t c E. destruct t as [| | | | | | | | | | | | |[|[|]]]; cbn in E; try discriminate; injection E as <-;
    intros k f EF; cbn in EF; (destruct (String.eqb k "x"); [|discriminate]); injection EF as <-;
    (split; [|split; [intros d E; discriminate|intros g w y w' E; discriminate]]); intros v w y w' EC; destruct v; try (vm_compute in EC; discriminate).
  all: try (vm_compute in EC; injection EC as <- _; reflexivity).
  all: destruct t; vm_compute in EC; try discriminate; injection EC as <- _; reflexivity.
Qed.
Lemma note_right : all_right (demo_rt 0) note_ctx (fun _ _ v => isinstance rt0 v TInt = true) note_state.
Proof.
  intros x i c k v HL HC HI HV. unfold lookup in HL. destruct (deref (demo_rt 0) x) as [[|[|[|]]]|]; try discriminate; injection HL as <-;
    cbn in HC; injection HC as <-; destruct HI as [<-|[]]; injection HV as <-; reflexivity.
Qed.

Section Right.
Context {obj ty W : Type} (R : Rt obj ty W) (ctx : ty -> option (@cls obj ty W)) (Q : ty -> string -> obj -> Prop).
Notation K := (stays_right R ctx Q).
Lemma right_heap : forall w w', heap R w' = heap R w -> K w w'.
Proof. intros w w' H A x i c k v HL. rewrite (heap_lookup R w w' x H) in HL. exact (A x i c k v HL). Qed.
Lemma right_hash : hash_sat R ctx (keeping K).
Proof.
  intros w x i c w1 j z HL HC HF HH HK HJ A y i' c' k v HL' HC' HI HV. specialize (HK A).
  destruct (deref_dec (deref R x) (deref R y)) as [E|N].
  - rewrite (lookup_store_deref R x y _ _ _ E HJ) in HL'. injection HL' as <-. cbn [i_cls i_dict] in *. eapply HK; eassumption.
  - rewrite lookup_store_other in HL' by assumption. eapply HK; eassumption.
Qed.
Lemma right_set : forall x k v w,
  (forall i c, lookup R w x = Some i -> ctx (i_cls i) = Some c -> c_frozen c = true \/ Q (i_cls i) k v) -> K w (snd (setattr R ctx x k v w)).
Proof.
  intros x k v w HA A. unfold setattr. destruct (lookup R w x) as [i|] eqn:EL; [|exact A].
  destruct (ctx (i_cls i)) as [c|] eqn:EC; [|exact A].
  assert (ST : forall i', i_cls i' = i_cls i -> (forall k1 v1, In k1 (keys (c_fields c)) -> dget k1 (i_dict i') = Some v1 -> Q (i_cls i) k1 v1) ->
               all_right R ctx Q (store R x i' w)).
  { intros i' HC HD y j c' k1 v1 HL' HC' HI HV. destruct (deref_dec (deref R x) (deref R y)) as [E|N].
    - rewrite (lookup_store_deref R x y _ _ _ E EL) in HL'. injection HL' as <-. rewrite HC in HC' |- *. rewrite EC in HC'. injection HC' as <-. apply HD; assumption.
    - rewrite lookup_store_other in HL' by assumption. eapply A; eassumption. }
  destruct (String.eqb k "_hash"); [apply ST; [reflexivity|]; intros k1 v1 HI HV; exact (A x i c k1 v1 EL EC HI HV)|].
  destruct (c_frozen c) eqn:EF; [exact A|]. apply ST; [reflexivity|]. cbn [i_dict]. intros k1 v1 HI HV.
  destruct (string_dec k1 k) as [->|N].
  - rewrite dget_dset_same in HV. injection HV as <-. destruct (HA i c eq_refl EC) as [H|H]; [congruence|exact H].
  - rewrite dget_dset_other in HV by congruence. exact (A x i c k1 v1 EL EC HI HV).
Qed.
Variable c : @cls obj ty W.
Hypothesis HG : guarantees R Q c.
Lemma right_fill : forall p kw w vs w1, fill_kwargs R c p kw w = (Ok (Some vs), w1) -> Forall (fun kv => Q (c_ty c) (fst kv) (snd kv)) vs.
Proof.
  intros p. induction kw as [|[k v] r IH]; intros w vs w1 H; cbn in H; [injection H as <- <-; constructor|].
  destruct (dget k (c_fields c)) as [f|] eqn:EF; [|discriminate]. destruct (call (rt_py R) (f_filler f) v w) as [[y|e] w2] eqn:EC.
  - apply Filler_proofs.bind_Ok in H as (ys & w3 & E & H). destruct ys as [ys|]; [|discriminate]. injection H as <- <-. constructor; [|eapply IH; exact E].
    cbn. exact (proj1 (HG k f EF) v w y w2 EC).
  - destruct (negb (is_Exception e)); [discriminate|]. destruct (is_none R p); discriminate.
Qed.
Lemma right_defaults : forall ks w ds w1, fill_defaults c ks w = (Ok ds, w1) -> Forall (fun kv => Q (c_ty c) (fst kv) (snd kv)) ds.
Proof.
  induction ks as [|k r IH]; intros w ds w1 H; cbn in H; [injection H as <- <-; constructor|].
  apply Filler_proofs.bind_Ok in H as (v & w2 & E & H). apply Filler_proofs.bind_Ok in H as (vs & w3 & E2 & H). injection H as <- <-. constructor; [|eapply IH; exact E2].
  destruct (dget k (c_fields c)) as [f|] eqn:EF; [|discriminate]. destruct (HG k f EF) as (_ & G1 & G2). cbn. unfold make_default in E.
  destruct (f_default f) as [|d|g] eqn:ED; [discriminate| |].
  - injection E as <- <-. apply G1. reflexivity.
  - eapply G2; [reflexivity|exact E].
Qed.
Lemma right_alloc : forall vs, Forall (fun kv => Q (c_ty c) (fst kv) (snd kv)) vs -> sat (keeping K) (alloc R c vs).
Proof.
  intros vs HV w A y j c' k v HL HC HI HD. unfold alloc in HL. cbn [snd] in HL. unfold lookup in HL. rewrite heap_set in HL.
  destruct (deref R y) as [n|] eqn:ED; [|discriminate].
  destruct (Nat.lt_ge_cases n (List.length (heap R w))) as [HN|HN].
  - rewrite nth_error_app1 in HL by assumption. eapply (A y); try eassumption. unfold lookup. rewrite ED. exact HL.
  - rewrite nth_error_app2 in HL by assumption. destruct (n - List.length (heap R w)) as [|m]; [|destruct m; discriminate]. injection HL as <-.
    cbn [i_cls i_dict] in *. apply dget_Some_In in HD. exact (proj1 (Forall_forall _ _) HV _ HD).
Qed.
End Right.

Lemma c99_always_partial_proof : forall {obj ty W} (R : Rt obj ty W) ctx (Q : ty -> string -> obj -> Prop),
  program_obeys R (keeping (stays_right R ctx Q)) ctx ->
  (forall t c, ctx t = Some c -> guarantees R Q c) ->
  forall l w, (forall a, In a l -> allowed ctx (stays_right R ctx Q) a) -> assigns_right R ctx Q l w ->
  all_right R ctx Q w -> all_right R ctx Q (after_all R ctx l w).
Proof.
  intros obj ty W R ctx Q PO HG l w HA.
  assert (REFL : forall w, stays_right R ctx Q w w) by (intros w' H; exact H).
  assert (TRANS : forall a b c, stays_right R ctx Q a b -> stays_right R ctx Q b c -> stays_right R ctx Q a c) by (intros a b c H1 H2 H; auto).
  pose proof (keeping_closed _ REFL TRANS) as CL.
  assert (BS : forall t c, ctx t = Some c -> build_ok_sat R (keeping (stays_right R ctx Q)) c).
  { intros t c E.
    assert (CS : class_sat R (keeping (stays_right R ctx Q)) c).
    { apply class_obeys_sat; [exact CL|apply PO| |eapply (proj2 PO); exact E]. intros l' t' w'. apply right_heap. apply heap_grow. }
    apply build_sat_by; [exact CL|exact (objects_obey_sat R _ (proj1 PO))|exact CS|].
    intros p kw w0 vs w1 ks ds w2 E1 E2. apply right_alloc. apply Forall_app. split.
    + eapply right_fill; [eapply HG; exact E|exact E1].
    + eapply right_defaults; [eapply HG; exact E|exact E2]. }
  revert w. induction l as [|a r IH]; intros w HS A; [exact A|]. destruct HS as [H1 H2]. cbn [after_all]. apply IH; [intros; apply HA; right; assumption|exact H2|].
  assert (GEN : setting_kept R ctx (stays_right R ctx Q) a -> all_right R ctx Q (after R ctx a w)).
  { intro SK. refine (after_kept_by R ctx (stays_right R ctx Q) REFL TRANS (fun l' t w0 => right_heap R ctx Q _ _ (heap_grow R l' t w0)) (right_hash R ctx Q) PO BS a w (HA a (or_introl eq_refl)) SK A). }
  destruct a; try (apply GEN; exact I). apply right_set; [exact H1|exact A].
Qed.

Lemma c99_types_partial_proof : forall {obj ty W} (R : Rt obj ty W) ctx,
  honest_containers (rt_py R) ->
  program_obeys R (keeping (stays_right R ctx (of_declared_type R ctx))) ctx ->
  (forall t c k f, ctx t = Some c -> dget k (c_fields c) = Some f -> forall w d w', default_of f w d w' -> of_declared_type R ctx t k d) ->
  forall l w, (forall a, In a l -> allowed ctx (stays_right R ctx (of_declared_type R ctx)) a) -> assigns_right R ctx (of_declared_type R ctx) l w ->
  all_right R ctx (of_declared_type R ctx) w -> all_right R ctx (of_declared_type R ctx) (after_all R ctx l w).
Proof.
  intros obj ty W R ctx HC PO HD l w HA HS. apply c99_always_partial_proof; [exact PO| |exact HA|exact HS].
  intros t c E k f EF. pose proof (proj1 (proj2 PO t c E)) as ET. rewrite ET. split; [|split].
  - intros v w1 y w2 EC c' f' s h ops E' EF' M AS. rewrite E in E'. injection E' as <-. rewrite EF in EF'. injection EF' as <-.
    exact (Filler_main.c02_type_soundness_proof (rt_py R) s h ops (f_filler f) HC M AS v w1 y w2 EC).
  - intros d ED. eapply (HD t c k f E EF w). constructor. exact ED.
  - intros g w1 y w2 ED EG. eapply (HD t c k f E EF). eapply default_made; eassumption.
Qed.

Lemma c99_assignment_refuted_proof : forall {obj ty W} (R : Rt obj ty W) ctx Q c w x i k v,
  instance_of R ctx c w x i -> c_frozen c = false -> In k (keys (c_fields c)) -> k <> "_hash" -> dict_ok (i_dict i) ->
  ~ Q (c_ty c) k v ->
  exists w', setattr R ctx x k v w = (Ok tt, w') /\ ~ all_right R ctx Q w'.
Proof.
  intros obj ty W R ctx Q c w x i k v (HX & HL & HT & _) HF HK HN HO NQ.
  exists (store R x (Inst (i_cls i) (dset k v (i_dict i)) (i_hash i)) w). split.
  - unfold setattr. rewrite HL, HT, HX, HF. destruct (String.eqb_spec k "_hash"); [contradiction|]. reflexivity.
  - intros H. apply NQ. rewrite <- HT. apply (H x (Inst (i_cls i) (dset k v (i_dict i)) (i_hash i)) c k v).
    + eapply lookup_store_same; exact HL.
    + cbn. rewrite HT. exact HX.
    + exact HK.
    + cbn [i_dict]. apply dget_dset_same.
Qed.
