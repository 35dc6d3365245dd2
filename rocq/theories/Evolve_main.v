(** Evolve_main.v -- proofs of the properties stated in Props_Evolve.v: records of an earlier version of a class, read by a later one (records/record.py:418-485, 588-643; records/select.py:103-140) *)

From Verif Require Import Base Py Select Filler Spec_Filler Classes Spec_Classes Runtime Record Spec_Record Spec_Inst Spec_Copy Spec_Keywords Spec_Settle Spec_Hist Spec_Again Spec_Evolve Demo DemoRt DemoCls.
From Verif Require Dict_proofs Classes_proofs Record_proofs Classes_main Inst_proofs Inst_main Copy_proofs Copy_main Again_main Props_Again.
Open Scope string_scope.
Open Scope list_scope.

Import Dict_proofs Classes_proofs Record_proofs Classes_main Inst_proofs Inst_main Copy_proofs.

Lemma mremove_all : forall {A} (l : list string) (d : dict A),
  for_each do_mremove l d = (Ok tt, fold_left (fun d k => ddel k d) l d, []).
Proof. intros A l. induction l as [|k r IH]; intro d; [reflexivity|]. cbn. apply IH. Qed.

Lemma del_all : forall {A} (l : list string) (d : dict A), dict_ok d ->
  dict_ok (fold_left (fun d k => ddel k d) l d) /\
  forall k, dget k (fold_left (fun d k => ddel k d) l d) = if smem k l then None else dget k d.
Proof.
  intros A l. induction l as [|a r IH]; intros d HO; [split; [assumption|reflexivity]|]. cbn [fold_left].
  destruct (IH (ddel a d)) as (H1 & H2); [apply dict_ok_ddel; assumption|]. split; [assumption|]. intro k. rewrite H2. cbn [smem existsb].
  unfold smem. cbn [existsb]. destruct (existsb (String.eqb k) r) eqn:E; [rewrite orb_true_r; reflexivity|]. rewrite orb_false_r.
  destruct (String.eqb_spec k a) as [->|N]; [apply dget_ddel_same; assumption|apply dget_ddel_other; assumption].
Qed.

Lemma forgetting_applied : forall {A} (gone : list string) (d : dict A), dict_ok d ->
  exists e, sel_apply (forgetting gone) d = Ok e /\ dict_ok e /\ forall k, dget k e = if smem k gone then None else dget k d.
Proof.
  intros A gone d HO. destruct gone as [|g r]; [exists d; repeat split; assumption|].
  destruct (del_all (g :: r) d HO) as (H1 & H2). eexists. split; [|split; [exact H1|exact H2]].
  pose proof (mremove_all (g :: r) d) as M. unfold sel_apply, sel_call_mapping, sel_call, forgetting, sel_init.
  cbn [sel_truth norm_pairs norm_names pull elements negb fst snd]. cbn -[for_each do_mremove fold_left].
  change (for_each do_remove [] d) with (Ok tt, d, @nil string). cbv beta iota. rewrite M. reflexivity.
Qed.

Definition read_result {obj ty W : Type} (eqb : obj -> obj -> bool) (Q : obj -> obj -> Prop) a (c c' : @cls obj ty W) (i j : inst obj ty) : Prop :=
    (forall k f f' v, dget k (c_fields c) = Some f -> dget k (c_fields c') = Some f' -> dget k (i_dict i) = Some v ->
       to_export eqb a [] k f v -> exists y, dget k (i_dict j) = Some y /\ Q v y) /\
    (forall k f f' v d', dget k (c_fields c) = Some f -> dget k (c_fields c') = Some f' -> dget k (i_dict i) = Some v ->
       ~ to_export eqb a [] k f v -> f_default f' = DefVal d' -> dget k (i_dict j) = Some d') /\
    (forall k f d, dget k (c_fields c') = Some f -> ~ In k (keys (c_fields c)) -> f_default f = DefVal d -> dget k (i_dict j) = Some d).

Lemma read_core : forall {obj ty W} (R R' : Rt obj ty W) ctx' eqb Q a n c c' gone i d' w1,
  well_named c -> well_named c' -> ctx' (c_ty c') = Some c' -> fields_callable c' ->
  (forall k, In k (keys (c_fields c)) -> exists v, dget k (i_dict i) = Some v) ->
  later_version gone c c' -> (e_defaults a = true \/ defaults_still c c') ->
  arrives R' Q c' (exported eqb a [] c i) d' ->
  accepts R' ctx' c' (read_result eqb Q a c c' i) ->
  exists e, sel_apply (forgetting gone) d' = Ok e /\
  exists y w' j, construct R' (S n) c' None e w1 = (Ok y, w') /\ fresh_instance R' ctx' c' w1 w' y j /\ all_kept R' w1 w' /\ read_result eqb Q a c c' i j.
Proof.
  intros obj ty W R R' ctx' eqb Q a n c c' gone i d' w1 [HO HN] HM' HX HFC HF (L1 & L2 & L3) HDS (OD & KD & HA) HP.
  set (d := exported eqb a [] c i) in *. pose proof HM' as [HO' HN'].
  destruct (forgetting_applied gone d' OD) as (e & SA & OE & GE). exists e. split; [exact SA|].
  assert (EX : forall k v, dget k d = Some v <-> exists f, dget k (c_fields c) = Some f /\ dget k (i_dict i) = Some v /\ to_export eqb a [] k f v)
    by (intros; apply dget_exported; assumption).
  (* what is in e *)
  assert (IE : forall k u, dget k e = Some u -> exists v, dget k d = Some v /\ dget k d' = Some u /\ ~ In k gone).
  { intros k u H. rewrite GE in H. destruct (smem k gone) eqn:EG; [discriminate|].
    assert (In k (keys d')) by (eapply dget_some_key; eassumption). apply KD in H0. apply in_keys_get in H0. destruct H0 as [v E].
    exists v. split; [assumption|]. split; [assumption|]. apply smem_false. assumption. }
  assert (EI : forall k v, dget k d = Some v -> ~ In k gone -> exists u, dget k e = Some u /\ dget k d' = Some u).
  { intros k v H N. assert (In k (keys d')) by (apply KD; eapply dget_some_key; eassumption). apply in_keys_get in H0. destruct H0 as [u E].
    exists u. rewrite GE. apply smem_false in N. rewrite N. auto. }
  assert (NG : forall k f, dget k (c_fields c') = Some f -> ~ In k gone).
  { intros k f E H. apply (L1 k H). eapply dget_some_key. exact E. }
  assert (DEC : forall k (f : @field obj ty W) v, to_export eqb a [] k f v \/ ~ to_export eqb a [] k f v).
  { intros. destruct (to_exportb eqb a [] k f v) eqn:E; [left; apply to_exportb_spec; assumption|right; intro H; apply to_exportb_spec in H; congruence]. }
  set (Q' := fun (k : string) (u y : obj) => forall v, dget k d = Some v -> Q v y).
  assert (RES : forall j, (forall k v, dget k e = Some v -> exists u, dget k (i_dict j) = Some u /\ Q' k v u) /\
     (forall k f v, dget k (c_fields c') = Some f -> ~ In k (keys e) -> f_default f = DefVal v -> dget k (i_dict j) = Some v) -> read_result eqb Q a c c' i j).
  { intros j (J1 & J2). split; [|split].
    - intros k f f' v EF EF' EV HE. assert (ED : dget k d = Some v) by (apply EX; exists f; auto).
      destruct (EI k v ED (NG k f' EF')) as (u & EU & _). destruct (J1 k u EU) as (y & EY & HQ). exists y. split; [assumption|]. apply HQ. assumption.
    - intros k f f' v dv EF EF' EV HE ED. apply (J2 k f' dv EF'); [|assumption]. intro HI. apply in_keys_get in HI. destruct HI as [u HI].
      destruct (IE k u HI) as (v' & E1 & _). apply EX in E1. destruct E1 as (f2 & E2 & E3 & E4).
      assert (f2 = f) by congruence. assert (v' = v) by congruence. subst. contradiction.
    - intros k f dv EF NK ED. apply (J2 k f dv EF); [|assumption]. intro HI. apply in_keys_get in HI. destruct HI as [u HI].
      destruct (IE k u HI) as (v' & E1 & _). apply EX in E1. destruct E1 as (f2 & E2 & _). apply NK. eapply dget_some_key. exact E2. }
  destruct (construct_filled R' ctx' n c' Q' e w1) as (y & w2 & j & H1 & _ & H3 & H4 & H5 & H6); try assumption.
  - eapply accepts_less; [|exact HP]. exact RES.
  - intros k u HI. apply (dget_In _ _ _ OE) in HI. destruct (IE k u HI) as (v & E1 & E2 & NGk). pose proof E1 as E3. apply EX in E3.
    destruct E3 as (f & EF & EV & HE). assert (KI : In k (keys (c_fields c'))) by (apply L2; [eapply dget_some_key; exact EF|assumption]).
    destruct (HA k v u KI E1 E2) as (y & (g & (f' & EF' & EG) & HG) & HQ). exists f', y. split; [assumption|]. split.
    + intro w. rewrite <- EG. apply HG.
    + intros v' E. assert (v' = v) by congruence. subst. assumption.
  - intros k f' EF' NK. destruct (in_dec string_dec k (keys (c_fields c))) as [KC|KC]; [|exact (L3 k f' EF' KC)].
    destruct (HF k KC) as [v EV]. apply in_keys_get in KC. destruct KC as [f EF]. destruct (DEC k f v) as [HE|HE].
    + exfalso. assert (ED : dget k d = Some v) by (apply EX; exists f; auto). destruct (EI k v ED (NG k f' EF')) as (u & EU & _).
      apply NK. eapply dget_some_key. exact EU.
    + destruct HDS as [HA1|HDS].
      * exfalso. apply HE. right. split; [intros t _ []|left; assumption].
      * destruct (f_default f) as [|dv|fac] eqn:ED; [|exact (HDS k f f' dv EF EF' ED)|];
          (exfalso; apply HE; right; split; [intros t _ []|right; intros dv E; congruence]).
  - exists y, w2, j. split; [assumption|]. split; [assumption|]. split; [assumption|]. apply RES. split; assumption.
Qed.

Lemma stems_continues : forall {obj ty W} eqb Q (c c' : @cls obj ty W) i j,
  well_named c -> defaults_kept c c' -> stems_from eqb Q c c' i j -> continues (or_equal eqb Q) c c' i j.
Proof.
  intros obj ty W eqb Q c c' i j _ HD (H1 & H2 & H3). split; [|assumption]. intros k v KC KC' EV.
  apply in_keys_get in KC. destruct KC as [f EF]. apply in_keys_get in KC'. destruct KC' as [f' EF'].
  assert (G : (forall d, f_default f = DefVal d -> eqb d v = false) \/ exists d, f_default f = DefVal d /\ eqb d v = true).
  { destruct (f_default f) as [|d|g]; [left; discriminate| |left; discriminate].
    destruct (eqb d v) eqn:E; [right; exists d; auto|left; intros d' E'; congruence]. }
  destruct G as [G|(d & ED & EE)].
  - destruct (H1 k f f' v EF EF' EV G) as (y & EY & HQ). exists y. split; [assumption|left; assumption].
  - exists d. split; [|right; assumption]. exact (H2 k f f' v d d EF EF' EV ED EE (HD k f f' d EF EF' ED)).
Qed.

Lemma plain_export : forall {obj ty W} eqb k (f : @field obj ty W) v,
  to_export eqb no_args [] k f v <-> (forall d, f_default f = DefVal d -> eqb d v = false).
Proof.
  intros. unfold to_export, no_args. cbn. split.
  - intros [[]|[_ [H|H]]]; [discriminate|assumption].
  - intro H. right. split; [intros t _ []|right; assumption].
Qed.

Lemma stems_core : forall {obj ty W} (R R' : Rt obj ty W) ctx' eqb Q n c c' gone i d' w1,
  well_named c -> well_named c' -> ctx' (c_ty c') = Some c' -> fields_callable c' ->
  (forall k, In k (keys (c_fields c)) -> exists v, dget k (i_dict i) = Some v) ->
  later_version gone c c' -> defaults_still c c' ->
  arrives R' Q c' (exported eqb no_args [] c i) d' -> accepts R' ctx' c' (stems_from eqb Q c c' i) ->
  exists e, sel_apply (forgetting gone) d' = Ok e /\
  exists y w' j, construct R' (S n) c' None e w1 = (Ok y, w') /\ fresh_instance R' ctx' c' w1 w' y j /\ all_kept R' w1 w' /\ stems_from eqb Q c c' i j.
Proof.
  intros obj ty W R R' ctx' eqb Q n c c' gone i d' w1 HM HM' HX HFC HF HL HD HA HP.
  assert (S1 : forall j : inst obj ty, read_result eqb Q no_args c c' i j -> stems_from eqb Q c c' i j).
  2: { destruct (read_core R R' ctx' eqb Q no_args n c c' gone i d' w1 HM HM' HX HFC HF HL (or_intror HD) HA) as (e & SA & y & w' & j & H1 & H2 & H3 & H4).
       - eapply accepts_less; [|exact HP]. exact S1.
       - exists e. split; [assumption|]. exists y, w', j. split; [assumption|]. split; [assumption|]. split; [assumption|]. apply S1. exact H4. }
  intros j (J1 & J2 & J3). split; [|split].
  - intros k f f' v EF EF' EV HE. apply (J1 k f f' v EF EF' EV). apply plain_export. assumption.
  - intros k f f' v d dv EF EF' EV ED EE ED'. apply (J2 k f f' v dv EF EF' EV); [|assumption]. intro HE.
    assert (G := proj1 (plain_export eqb k f v) HE d ED). congruence.
  - exact J3.
Qed.

Lemma c163_mapping_proof : forall {obj ty W} (R R' : Rt obj ty W) ctx ctx' D eqb Q n c c' gone w x i,
  made (rt_py R) c -> made (rt_py R') c' -> ctx' (c_ty c') = Some c' -> fields_callable c' ->
  instance_of R ctx c w x i -> has_eq R D eqb -> defaults_in D c -> values_in D c i ->
  later_version gone c c' -> defaults_still c c' -> accepts R' ctx' c' (stems_from eqb Q c c' i) ->
  exists d, to_dict R ctx x no_args sel_empty w = (Ok d, w) /\
  forall m d' w1, is_mapping R' m d' -> arrives R' Q c' d d' ->
  exists y w' j, from_mapping R' (S n) c' (forgetting gone) [m] [] w1 = (Ok y, w') /\ fresh_instance R' ctx' c' w1 w' y j /\
    all_kept R' w1 w' /\ stems_from eqb Q c c' i j /\ (defaults_kept c c' -> continues (or_equal eqb Q) c c' i j).
Proof.
  intros obj ty W R R' ctx ctx' D eqb Q n c c' gone w x i HM HM' HX HFC HI HE HD HV HL HS HP.
  apply (made_named R) in HM. apply (made_named R') in HM'.
  exists (exported eqb no_args [] c i). split; [exact (to_dict_exported R ctx D eqb HE c no_args [] w x i HM HD HI HV eq_refl)|].
  intros m d' w1 HMP HA. pose proof HI as (_ & _ & _ & _ & HF).
  destruct (stems_core R R' ctx' eqb Q n c c' gone i d' w1 HM HM' HX HFC HF HL HS HA HP) as (e & SA & y & w' & j & H1 & H2 & H3 & H4).
  exists y, w', j. split; [|split; [assumption|split; [assumption|split; [assumption|]]]].
  - unfold from_mapping, from_mapping_with. apply bind_ok. exists d', w1. split; [apply chain_map_one; assumption|].
    apply bind_ok. exists e, w1. split; [unfold lift; rewrite SA; reflexivity|exact H1].
  - intro HK. apply stems_continues; assumption.
Qed.

Lemma c163_defaults_proof : forall {obj ty W} (R R' : Rt obj ty W) ctx ctx' D eqb Q n c c' gone w x i,
  made (rt_py R) c -> made (rt_py R') c' -> ctx' (c_ty c') = Some c' -> fields_callable c' ->
  instance_of R ctx c w x i -> has_eq R D eqb -> defaults_in D c -> values_in D c i ->
  later_version gone c c' -> accepts R' ctx' c' (continues Q c c' i) ->
  exists d, to_dict R ctx x with_defaults sel_empty w = (Ok d, w) /\
  forall m d' w1, is_mapping R' m d' -> arrives R' Q c' d d' ->
  exists y w' j, from_mapping R' (S n) c' (forgetting gone) [m] [] w1 = (Ok y, w') /\ fresh_instance R' ctx' c' w1 w' y j /\
    all_kept R' w1 w' /\ continues Q c c' i j.
Proof.
  intros obj ty W R R' ctx ctx' D eqb Q n c c' gone w x i HM HM' HX HFC HI HE HD HV HL HP.
  apply (made_named R) in HM. apply (made_named R') in HM'.
  exists (exported eqb with_defaults [] c i). split.
  { exact (to_dict_exported R ctx D eqb HE c with_defaults [] w x i HM HD HI HV eq_refl). }
  intros m d' w1 HMP HA. pose proof HI as (_ & _ & _ & _ & HF).
  assert (S1 : forall j : inst obj ty, read_result eqb Q with_defaults c c' i j -> continues Q c c' i j).
  2: { destruct (read_core R R' ctx' eqb Q with_defaults n c c' gone i d' w1 HM HM' HX HFC HF HL (or_introl eq_refl) HA) as (e & SA & y & w' & j & H1 & H2 & H3 & H4).
       - eapply accepts_less; [|exact HP]. exact S1.
       - exists y, w', j. split; [|split; [assumption|split; [assumption|]]].
         + unfold from_mapping, from_mapping_with. apply bind_ok. exists d', w1. split; [apply chain_map_one; assumption|].
           apply bind_ok. exists e, w1. split; [unfold lift; rewrite SA; reflexivity|exact H1].
         + apply S1. exact H4. }
  intros j (J1 & _ & J3). split; [|exact J3]. intros k v KC KC' EV.
  apply in_keys_get in KC. destruct KC as [f EF]. apply in_keys_get in KC'. destruct KC' as [f' EF'].
  apply (J1 k f f' v EF EF' EV). right. split; [intros t _ []|left; reflexivity].
Qed.

Lemma c163_json_proof : forall {obj ty W} (R R' : Rt obj ty W) ctx ctx' D eqb Q n c c' gone w x i,
  made (rt_py R) c -> made (rt_py R') c' -> ctx' (c_ty c') = Some c' -> fields_callable c' ->
  instance_of R ctx c w x i -> has_eq R D eqb -> defaults_in D c -> values_in D c i ->
  later_version gone c c' -> defaults_still c c' -> accepts R' ctx' c' (stems_from eqb Q c c' i) ->
  exists d, to_dict R ctx x no_args sel_empty w = (Ok d, w) /\
  forall t w1, json_dumps R d w = (Ok t, w1) ->
  to_json R ctx x no_args sel_empty w = (Ok t, w1) /\
  forall w2 o w3 d' w4, json_loads R' t w2 = (Ok o, w3) -> as_dict R' o w3 = (Ok d', w4) -> unpack R' o w3 = (Ok d', w4) ->
  arrives R' Q c' d d' ->
  exists y w' j, from_json R' (S n) c' (forgetting gone) t w2 = (Ok y, w') /\ fresh_instance R' ctx' c' w4 w' y j /\
    all_kept R' w4 w' /\ stems_from eqb Q c c' i j /\ (defaults_kept c c' -> continues (or_equal eqb Q) c c' i j).
Proof.
  intros obj ty W R R' ctx ctx' D eqb Q n c c' gone w x i HM HM' HX HFC HI HE HD HV HL HS HP.
  apply (made_named R) in HM. apply (made_named R') in HM'.
  exists (exported eqb no_args [] c i). assert (TD : to_dict R ctx x no_args sel_empty w = (Ok (exported eqb no_args [] c i), w)) by (exact (to_dict_exported R ctx D eqb HE c no_args [] w x i HM HD HI HV eq_refl)).
  split; [assumption|]. intros t w1 HJ. split.
  { unfold to_json. apply bind_ok. exists (exported eqb no_args [] c i), w. auto. }
  intros w2 o w3 d' w4 HLD HAD HUN HA. pose proof HI as (_ & _ & _ & _ & HF).
  destruct (stems_core R R' ctx' eqb Q n c c' gone i d' w4 HM HM' HX HFC HF HL HS HA HP) as (e & SA & y & w' & j & H1 & H2 & H3 & H4).
  exists y, w', j. split; [|split; [assumption|split; [assumption|split; [assumption|]]]].
  - unfold from_json, from_json_with. apply bind_ok. exists o, w3. split; [assumption|]. apply bind_ok. exists d', w4.
    split; [destruct (fst (sel_truth (forgetting gone))); assumption|].
    apply bind_ok. exists e, w4. split; [unfold lift; rewrite SA; reflexivity|exact H1].
  - intro HK. apply stems_continues; assumption.
Qed.

Lemma c163_always_proof : forall {obj ty W} (R : Rt obj ty W) ctx ctx' D eqb l w0 n c c' gone x i,
  settled_program R ctx l w0 -> all_right R ctx (kept_value R ctx) w0 ->
  let w := after_all R ctx l w0 in
  made (rt_py R) c' -> ctx' (c_ty c') = Some c' -> fields_callable c' ->
  instance_of R ctx c w x i -> has_eq R D eqb -> defaults_in D c -> values_in D c i ->
  later_version gone c c' -> defaults_kept c c' ->
  (forall k f f', dget k (c_fields c) = Some f -> dget k (c_fields c') = Some f' -> f_filler f' = f_filler f) ->
  accepts R ctx' c' (continues (or_equal eqb eq) c c' i) ->
  exists d, to_dict R ctx x no_args sel_empty w = (Ok d, w) /\
  forall m w1, is_mapping R m d ->
  exists y w' j, from_mapping R (S n) c' (forgetting gone) [m] [] w1 = (Ok y, w') /\ fresh_instance R ctx' c' w1 w' y j /\
    all_kept R w1 w' /\ continues (or_equal eqb eq) c c' i j.
Proof.
  intros obj ty W R ctx ctx' D eqb l w0 n c c' gone x i HS H0 w HM' HX HFC HI HE HD HV HL HK HFF HP.
  assert (HM : made (rt_py R) c) by (destruct HI as (E & _); exact (Again_main.program_made R ctx l w0 c HS E)).
  assert (SF : stored_fixed R c i) by (eapply Again_main.right_fixed; [|exact HI]; apply Again_main.c156_always_proof; assumption).
  assert (WN := made_named R c HM). pose proof WN as [HO _].
  destruct (c163_mapping_proof R R ctx ctx' D eqb eq n c c' gone w x i) as (d & TD & HR); try assumption.
  - intros k f f' dv E1 E2 E3. exists dv. exact (HK k f f' dv E1 E2 E3).
  - eapply accepts_less; [|exact HP]. intros j HJ. apply stems_continues; assumption.
  - exists d. split; [assumption|]. intros m w1 HMP. destruct (HR m d w1 HMP) as (y & w' & j & H1 & H2 & H3 & _ & H5).
    + split; [apply HMP|]. split; [intro; reflexivity|]. intros k v u KI E1 E2. assert (u = v) by congruence. subst u.
      apply in_keys_get in KI. destruct KI as [f' EF'].
      assert (TD' := to_dict_exported R ctx D eqb HE c no_args [] w x i WN HD HI HV eq_refl). rewrite TD in TD'. injection TD' as TD'. cbn [e_sort no_args sort_items] in TD'. subst d.
      apply (dget_exported eqb no_args [] c i k v HO) in E1. destruct E1 as (f & EF & EV & _).
      exists v. split; [|reflexivity]. eexists. split; [exists f'; split; [exact EF'|reflexivity]|]. intro w2.
      rewrite (HFF k f f' EF EF'). exact (SF k f v EF EV w2).
    + exists y, w', j. auto.
Qed.

Lemma c163_strict_proof : forall {obj ty W} (R R' : Rt obj ty W) ctx D eqb n c c' k f dv v w x i,
  made (rt_py R) c -> instance_of R ctx c w x i -> has_eq R D eqb -> defaults_in D c -> values_in D c i ->
  dget k (c_fields c) = Some f -> f_default f = DefVal dv -> dget k (i_dict i) = Some v -> eqb dv v = true ->
  exists d, to_dict R ctx x no_args sel_empty w = (Ok d, w) /\
  forall m d' w1, is_mapping R' m d' -> (forall k, In k (keys d') <-> In k (keys d)) ->
  exists e, from_mapping R' n c' (removing [k]) [m] [] w1 = (Raise e, w1) /\ exc_cls e = KeyError.
Proof.
  intros obj ty W R R' ctx D eqb n c c' k f dv v w x i HM HI HE HD HV EF ED EV EE. apply (made_named R) in HM. pose proof HM as [HO _].
  exists (exported eqb no_args [] c i). split; [exact (to_dict_exported R ctx D eqb HE c no_args [] w x i HM HD HI HV eq_refl)|]. intros m d' w1 HMP HK.
  assert (N : dget k d' = None).
  { destruct (dget k d') as [u|] eqn:E; [|reflexivity]. exfalso. assert (H : In k (keys d')) by (eapply dget_some_key; exact E). apply HK in H.
    apply in_keys_get in H. destruct H as [v' H]. apply (dget_exported eqb no_args [] c i k v' HO) in H. destruct H as (f2 & E1 & E2 & E3).
    assert (f2 = f) by congruence. assert (v' = v) by congruence. subst. assert (G := proj1 (plain_export eqb k f v) E3 dv ED). congruence. }
  eexists. split.
  - unfold from_mapping, from_mapping_with. apply bind_raise. right. exists d', w1. split; [apply chain_map_one; assumption|]. apply bind_raise. left.
    unfold lift, sel_apply, sel_call_mapping, sel_call, removing, sel_init. cbn. unfold do_remove, dmem. cbn. rewrite N. reflexivity.
  - reflexivity.
Qed.
