(** Export_main.v -- proofs of the properties stated in Props_Export.v: exporting records with arguments and Selects, and rebuilding them *)

From Verif Require Import Base Py Select Spec_Select Filler Classes Spec_Classes Runtime Record Spec_Record Spec_Inst Spec_Copy Select_main Demo DemoRt DemoCls.
From Verif Require Dict_proofs Select_proofs Select_proofs2 Filler_proofs Classes_proofs Record_proofs Classes_main Inst_proofs Inst_main Copy_proofs Copy_main Props_Copy.
Open Scope string_scope.
Open Scope list_scope.

Import Dict_proofs Select_proofs Select_proofs2 Filler_proofs Classes_proofs Record_proofs Classes_main Inst_proofs Inst_main Copy_proofs Copy_main.

(** blacklisting the tags in [black] leaves out only fields whose value equals the default *)
Definition hides_only_defaults {obj ty W} (eqb : obj -> obj -> bool) (a : export_args) (black : list nat) (c : @cls obj ty W) (i : inst obj ty) : Prop :=
  forall k f v t, dget k (c_fields c) = Some f -> dget k (i_dict i) = Some v -> In t (f_tags f) -> In t black ->
  In k (e_white a) \/ exists d, f_default f = DefVal d /\ eqb d v = true.

(** the Select of .select(keys_to_remove=ks, keys_to_rename=r) *)
Definition selecting {A} (ks : list string) (r : list (string * string)) : sel A :=
  sel_init (PIter (Reiter [])) (PIter (Reiter [])) (NIter (Reiter ks)) (NIter (Reiter [])) (PIter (Reiter r)) (PIter (Reiter [])).

(** [ks] and [r] are removals and renames that make sense for class [c]: each concerns a
    field of its own, and the new names are new *)
Definition sensible {obj ty W} (c : @cls obj ty W) (ks : list string) (r : list (string * string)) : Prop :=
  NoDup (ks ++ map fst r) /\ NoDup (map snd r) /\
  (forall k, In k (ks ++ map fst r) -> In k (keys (c_fields c))) /\
  (forall k, In k (map snd r) -> ~ In k (keys (c_fields c))).

Lemma remove_run {A} (ks : list string) : forall m : fmap A, NoDup ks -> (forall k, In k ks -> m k <> None) ->
  exists m', edits (map Remove ks) m = Done m' /\ (forall k, In k ks -> m' k = None) /\ (forall k, ~ In k ks -> m' k = m k).
Proof.
  induction ks as [|k ks IH]; intros m ND H.
  - exists m. repeat split; auto. intros k [].
  - inversion ND as [|? ? N ND']; subst. cbn [map edits edit_step].
    destruct (m k) as [v|] eqn:E; [|destruct (H k); [left; reflexivity|assumption]].
    destruct (IH (fput k None m)) as (m' & E' & H1 & H2); [assumption| |].
    + intros k' HI. unfold fput. destruct (String.eqb_spec k' k); [subst; contradiction|]. apply H. right. assumption.
    + exists m'. split; [assumption|]. split.
      * intros k' [<-|HI]; [|apply H1; assumption]. rewrite H2 by assumption. unfold fput. rewrite String.eqb_refl. reflexivity.
      * intros k' HI. rewrite H2 by (intro; apply HI; right; assumption). unfold fput.
        destruct (String.eqb_spec k' k); [subst; destruct HI; left; reflexivity|reflexivity].
Qed.

Lemma nodup_parts {A} (l l' : list A) : NoDup (l ++ l') -> NoDup l /\ NoDup l'.
Proof.
  induction l as [|x l IH]; cbn; intro H; [split; [constructor|assumption]|]. inversion H as [|? ? N H']; subst.
  destruct (IH H') as [H1 H2]. split; [|assumption]. constructor; [|assumption]. intro HI. apply N. apply in_or_app. left. assumption.
Qed.
Lemma selecting_reachable {A} ks r : reachable (@selecting A ks r).
Proof. constructor. repeat split; reflexivity. Qed.
Lemma edits_of_selecting {A} ks r : edits_of (@selecting A ks r) = map Remove ks ++ map (fun p => Rename (fst p) (snd p)) r.
Proof. unfold edits_of, selecting. cbn. rewrite !app_nil_r. reflexivity. Qed.

Lemma selecting_run {A} ks r (d : dict A) : dict_ok d -> NoDup (ks ++ map fst r) -> NoDup (map snd r) ->
  (forall k, In k (ks ++ map fst r) -> In k (keys d)) -> (forall k, In k (map snd r) -> ~ In k (keys d)) ->
  exists d', sel_apply (selecting ks r) d = Ok d' /\ dict_ok d' /\
    (forall k, In k (ks ++ map fst r) -> dget k d' = None) /\
    (forall old new, In (old, new) r -> dget new d' = dget old d) /\
    (forall k, ~ In k (ks ++ map fst r) -> ~ In k (map snd r) -> dget k d' = dget k d).
Proof.
  intros OD N1 N2 H1 H2.
  assert (NK : NoDup ks) by (exact (proj1 (nodup_parts _ _ N1))).
  assert (NR : NoDup (map fst r)) by (exact (proj2 (nodup_parts _ _ N1))).
  assert (DJ : forall k, In k (map fst r) -> ~ In k ks).
  { clear - N1. induction ks as [|k0 ks IH]; intros k HI HK; [destruct HK|]. cbn in N1. inversion N1 as [|? ? N N']; subst.
    destruct HK as [<-|HK]; [apply N; apply in_or_app; right; assumption|]. eapply IH; eassumption. }
  destruct (remove_run ks (abs d)) as (m1 & E1 & G1 & F1); [assumption| |].
  { intros k HI. unfold abs. assert (KI : In k (keys d)) by (apply H1; apply in_or_app; left; assumption).
    apply in_keys_get in KI. destruct KI as [v ->]. discriminate. }
  destruct (rename_run r m1) as (m2 & E2 & F2 & G2 & K2); try assumption.
  { intros k HI. rewrite F1 by (apply DJ; assumption). unfold abs. assert (KI : In k (keys d)) by (apply H1; apply in_or_app; right; assumption).
    apply in_keys_get in KI. destruct KI as [v ->]. discriminate. }
  { intros k HI. destruct (in_dec string_dec k ks) as [HK|HK]; [apply G1; assumption|]. rewrite F1 by assumption. apply dget_None. apply H2. assumption. }
  pose proof (sel_apply_spec (selecting ks r) d (selecting_reachable ks r) OD) as S. rewrite edits_of_selecting, edits_app, E1, E2 in S.
  destruct S as (d' & A' & D' & H'). exists d'. split; [assumption|]. split; [assumption|].
  assert (DS : forall k, In k (ks ++ map fst r) -> ~ In k (map snd r)) by (intros k HI HS; apply (H2 k HS); apply H1; assumption).
  split; [|split].
  - intros k HI. rewrite H'. pose proof (DS k HI) as NS. apply in_app_iff in HI. destruct (in_dec string_dec k (map fst r)) as [HF|HF].
    + apply K2; assumption.
    + rewrite F2 by assumption. apply G1. tauto.
  - intros o n HI. rewrite H', (G2 o n HI). apply F1. apply DJ. apply in_map_iff. exists (o, n). auto.
  - intros k NI NS. rewrite H'. rewrite in_app_iff in NI. rewrite F2 by tauto. apply F1. tauto.
Qed.

Section Covers.
Context {obj ty W : Type} (R : Rt obj ty W) (ctx : ty -> option (@cls obj ty W)).
Variable eqb : obj -> obj -> bool.

Lemma sort_items_perm : forall s (l : dict obj), Permutation l (sort_items s l).
Proof. intros [| | |le] l; cbn [sort_items]; [reflexivity|apply sort_perm..]. Qed.

Lemma perm_dget : forall (l l' : dict obj) k, Permutation l l' -> dict_ok l -> dict_ok l' /\ dget k l' = dget k l.
Proof.
  intros l l' k HP OL. assert (OL' : dict_ok l').
  { unfold dict_ok in *. unfold keys in *. eapply Permutation_NoDup; [apply Permutation_map; exact HP|assumption]. }
  split; [assumption|]. destruct (dget k l) as [v|] eqn:E.
  - apply dget_In; [assumption|]. apply dget_Some_In in E. eapply Permutation_in; eassumption.
  - apply dget_None. apply dget_None in E. intro HI. apply E. unfold keys in *. eapply Permutation_in; [apply Permutation_map; apply Permutation_sym; exact HP|assumption].
Qed.

Lemma sorted_export : forall a black (c : @cls obj ty W) i, dict_ok (c_fields c) ->
  dict_ok (sort_items (e_sort a) (exported eqb a black c i)) /\
  forall k, dget k (sort_items (e_sort a) (exported eqb a black c i)) = dget k (exported eqb a black c i).
Proof.
  intros a black c i HO. pose proof (exported_ok eqb a black c i HO) as OE. split.
  - exact (proj1 (perm_dget _ _ "" (sort_items_perm (e_sort a) _) OE)).
  - intro k. exact (proj2 (perm_dget _ _ k (sort_items_perm (e_sort a) _) OE)).
Qed.

(** a mapping with the exported values holds all that is not a default *)
Lemma covers : forall a black (c : @cls obj ty W) i (d : dict obj), dict_ok (c_fields c) -> hides_only_defaults eqb a black c i ->
  (forall k, dget k d = dget k (exported eqb a black c i)) ->
  (forall k, In k (keys (exported eqb no_args [] c i)) -> In k (keys d)) /\ (forall k, In k (keys d) -> In k (keys (c_fields c))).
Proof.
  intros a black c i d HO HH HG. split; intros k HI; apply in_keys_get in HI; destruct HI as [v E].
  - apply dget_exported in E; [|assumption]. destruct E as (f & EF & EV & HT). eapply dget_some_key. rewrite HG. apply dget_exported; [assumption|].
    exists f. split; [exact EF|]. split; [exact EV|]. destruct (in_dec string_dec k (e_white a)) as [HW|HW]; [left; exact HW|right].
    destruct HT as [[]|[_ [HT|HT]]]; [discriminate|]. split; [|right; exact HT].
    intros t H1 H2. destruct (HH k f v t EF EV H1 H2) as [H|(d0 & ED & EQ)]; [contradiction|]. rewrite (HT d0 ED) in EQ. discriminate.
  - rewrite HG in E. apply dget_exported in E; [|assumption]. destruct E as (f & EF & _). eapply dget_some_key. exact EF.
Qed.

Lemma from_mapping_selected : forall n (c : @cls obj ty W) s m d d1 w, is_mapping R m d -> sel_apply s d = Ok d1 ->
  from_mapping R n c s [m] [] w = construct R n c None d1 w.
Proof.
  intros n c s m d d1 w HM HS. unfold from_mapping, from_mapping_with. unfold bind at 1. rewrite (chain_map_one R m d w HM).
  unfold bind. rewrite HS. reflexivity.
Qed.
End Covers.

Lemma values_restore : forall {obj ty W} (R : Rt obj ty W) D eqb hf a black c i d, dict_ok (c_fields c) ->
  comparable R D eqb hf c i -> stored_fixed R c i -> (forall k, dget k d = dget k (exported eqb a black c i)) ->
  restores R D eqb hf c i d.
Proof.
  intros obj ty W R D eqb hf a black c i d HO (HE & (E1 & _) & HD & HV & HH) HS HG k f u v EF EU EV.
  rewrite HG in EU. apply dget_exported in EU; [|assumption].
  destruct EU as (f' & _ & EV' & _). assert (u = v) by congruence. subst u.
  assert (KI : In k (keys (c_fields c))) by (eapply dget_some_key; exact EF).
  assert (DV : D v) by (eapply HV; eassumption).
  exists v. split; [eapply HS; eassumption|]. split; [assumption|]. split; [auto|].
  intros EFz w. destruct (HH EFz) as (_ & HHa & _). eapply HHa; eassumption.
Qed.

Lemma c36_arguments_proof : forall {obj ty W} (R : Rt obj ty W) ctx D eqb hf n c w x i a black,
  made (rt_py R) c -> accepts R ctx c (fieldwise eqb c i) -> fields_callable c ->
  instance_of R ctx c w x i -> comparable R D eqb hf c i -> stored_fixed R c i ->
  e_black a = BlackSet black -> hides_only_defaults eqb a black c i ->
  exists d, to_dict R ctx x a sel_empty w = (Ok d, w) /\
    forall m, is_mapping R m d ->
    exists y w', from_mapping R (S n) c sel_empty [m] [] w = (Ok y, w') /\ equal_copy R ctx c w w' x y.
Proof.
  intros obj ty W R ctx D eqb hf n c w x i a black HM HP HFC HI HC HS EB HH. apply (made_named R) in HM. pose proof HM as [HO _].
  pose proof HC as (HE & _ & HD & HV & _). eexists. split; [apply (to_dict_exported R ctx D eqb HE c a black w x i); assumption|]. intros m HMm.
  destruct (sorted_export eqb a black c i HO) as [OD HG].
  destruct (covers eqb a black c i _ HO HH HG) as [K1 K2].
  rewrite (from_mapping_selected R (S n) c sel_empty m _ _ w HMm eq_refl).
  apply (covering_copy R ctx D eqb hf n c x i); try assumption. eapply values_restore; eassumption.
Qed.

Lemma c37_records_proof : forall {obj ty W} (R : Rt obj ty W) ctx D eqb hf n c w x i a black r,
  made (rt_py R) c -> accepts R ctx c (fieldwise eqb c i) -> fields_callable c ->
  instance_of R ctx c w x i -> comparable R D eqb hf c i -> stored_fixed R c i ->
  e_black a = BlackSet black -> hides_only_defaults eqb a black c i ->
  NoDup (map fst r) -> NoDup (map snd r) -> (forall k, In k (map snd r) -> ~ In k (keys (c_fields c))) ->
  (forall k, In k (map fst r) -> exists f v, dget k (c_fields c) = Some f /\ dget k (i_dict i) = Some v /\ to_export eqb a black k f v) ->
  exists d, to_dict R ctx x a (renaming r) w = (Ok d, w) /\
    (forall old new, In (old, new) r -> dget new d = dget old (i_dict i) /\ dget old d = None) /\
    forall m, is_mapping R m d ->
    exists y w', from_mapping R (S n) c (renaming (map swap r)) [m] [] w = (Ok y, w') /\ equal_copy R ctx c w w' x y.
Proof.
  intros obj ty W R ctx D eqb hf n c w x i a black r HM HP HFC HI HC HS EB HH N1 N2 HNew HOld. apply (made_named R) in HM. pose proof HM as [HO _].
  pose proof HC as (HE & _ & HD & HV & _). destruct (sorted_export eqb a black c i HO) as [OD HG].
  assert (TD : to_dict R ctx x a sel_empty w = (Ok (sort_items (e_sort a) (exported eqb a black c i)), w)) by (apply (to_dict_exported R ctx D eqb HE c a black w x i); assumption).
  set (d0 := sort_items (e_sort a) (exported eqb a black c i)) in *.
  destruct (covers eqb a black c i d0 HO HH HG) as [K1 K2].
  assert (OLD : forall k, In k (map fst r) -> dget k d0 = dget k (i_dict i) /\ In k (keys d0)).
  { intros k HIn. destruct (HOld k HIn) as (f & v & EF & EV & HT). assert (E : dget k d0 = Some v).
    { rewrite HG. apply dget_exported; [assumption|]. exists f. auto. }
    split; [congruence|]. eapply dget_some_key. exact E. }
  destruct (c37_rename_roundtrip_proof obj r d0) as (d1 & d2 & A1 & A2 & G1 & O2 & G2); try assumption.
  { intros k HIn. apply OLD. assumption. }
  { intros k HIn HK. apply K2 in HK. apply (HNew k); assumption. }
  exists d1. split; [|split].
  - unfold to_dict, with_class in *. destruct (class_of R ctx x w) as [c'|]; [|discriminate TD].
    unfold bind in *. destruct (to_dict_of R c' x a sel_empty w) as [[d'|e] w1]; [|discriminate TD].
    cbn in TD. injection TD as -> ->. rewrite A1. reflexivity.
  - intros o nw HIn. assert (OI : In o (map fst r)) by (apply in_map_iff; exists (o, nw); auto).
    split; [rewrite (G1 o nw HIn); apply OLD; assumption|].
    assert (DR : dict_ok d1 /\ forall k, In k (map fst r) -> dget k d1 = None).
    { destruct (selecting_run [] r d0 OD) as (d1' & A1' & O1' & GN & _); try assumption.
      - intros k HK. apply OLD. assumption.
      - intros k HK HK'. apply K2 in HK'. apply (HNew k); assumption.
      - change (selecting [] r) with (@renaming obj r) in A1'. assert (d1' = d1) by congruence. subst. auto. }
    apply DR. assumption.
  - intros m HMm. rewrite (from_mapping_selected R (S n) c (renaming (map swap r)) m d1 d2 w HMm A2).
    assert (HG2 : forall k, dget k d2 = dget k (exported eqb a black c i)) by (intro k; rewrite G2; apply HG).
    destruct (covers eqb a black c i d2 HO HH HG2) as [L1 L2].
    apply (covering_copy R ctx D eqb hf n c x i); try assumption. eapply values_restore; eassumption.
Qed.

Lemma c108_selected_partial_proof : forall {obj ty W} (R : Rt obj ty W) ctx D eqb c w x i a black ks r,
  made (rt_py R) c -> instance_of R ctx c w x i -> has_eq R D eqb -> defaults_in D c -> values_in D c i ->
  e_black a = BlackSet black -> sensible c ks r ->
  (forall k f v, In k (ks ++ map fst r) -> dget k (c_fields c) = Some f -> dget k (i_dict i) = Some v -> to_export eqb a black k f v) ->
  exists d, to_dict R ctx x a (selecting ks r) w = (Ok d, w) /\ dict_ok d /\
    (forall k, In k (ks ++ map fst r) -> dget k d = None) /\
    (forall old new, In (old, new) r -> dget new d = dget old (i_dict i)) /\
    (forall k v, ~ In k (ks ++ map fst r) -> ~ In k (map snd r) ->
       (dget k d = Some v <-> exists f, dget k (c_fields c) = Some f /\ dget k (i_dict i) = Some v /\ to_export eqb a black k f v)).
Proof.
  intros obj ty W R ctx D eqb c w x i a black ks r HM HI HE HD HV EB (N1 & N2 & HF & HNew) HX. apply (made_named R) in HM. pose proof HM as [HO _].
  destruct (sorted_export eqb a black c i HO) as [OD HG].
  assert (TD : to_dict R ctx x a sel_empty w = (Ok (sort_items (e_sort a) (exported eqb a black c i)), w)) by (apply (to_dict_exported R ctx D eqb HE c a black w x i); assumption).
  set (d0 := sort_items (e_sort a) (exported eqb a black c i)) in *. pose proof HI as (_ & _ & _ & _ & FI).
  assert (SEL : forall k, In k (ks ++ map fst r) -> dget k d0 = dget k (i_dict i) /\ In k (keys d0)).
  { intros k HIn. pose proof (HF k HIn) as KI. destruct (FI k KI) as [v EV]. apply in_keys_get in KI. destruct KI as [f EF].
    assert (E : dget k d0 = Some v) by (rewrite HG; apply dget_exported; [assumption|]; exists f; split; [exact EF|]; split; [exact EV|]; eapply HX; eassumption).
    split; [congruence|]. eapply dget_some_key. exact E. }
  destruct (selecting_run ks r d0 OD N1 N2) as (d1 & A1 & O1 & G1 & G2 & G3).
  { intros k HIn. apply SEL. assumption. }
  { intros k HIn HK. apply (HNew k HIn). apply in_keys_get in HK. destruct HK as [v E]. rewrite HG in E. apply dget_exported in E; [|assumption].
    destruct E as (f & EF & _). eapply dget_some_key. exact EF. }
  exists d1. split; [|split; [assumption|split; [assumption|split]]].
  - unfold to_dict, with_class in *. destruct (class_of R ctx x w) as [c'|]; [|discriminate TD].
    unfold bind in *. destruct (to_dict_of R c' x a sel_empty w) as [[d'|e] w1]; [|discriminate TD].
    cbn in TD. injection TD as -> ->. rewrite A1. reflexivity.
  - intros o nw HIn. rewrite (G2 o nw HIn). apply SEL. apply in_or_app. right. apply in_map_iff. exists (o, nw). auto.
  - intros k v NI NS. rewrite (G3 k NI NS), HG. apply dget_exported. assumption.
Qed.

Lemma c108_include_defaults_partial_proof : forall {obj ty W} (R : Rt obj ty W) ctx D eqb c w x i s white ks r,
  made (rt_py R) c -> instance_of R ctx c w x i -> has_eq R D eqb -> defaults_in D c -> values_in D c i -> sensible c ks r ->
  exists d, to_dict R ctx x (ExportArgs true s (BlackSet []) white) (selecting ks r) w = (Ok d, w) /\
    (forall k, In k (ks ++ map fst r) -> dget k d = None) /\
    (forall old new, In (old, new) r -> dget new d = dget old (i_dict i)) /\
    (forall k, In k (keys (c_fields c)) -> ~ In k (ks ++ map fst r) -> dget k d = dget k (i_dict i)).
Proof.
  intros obj ty W R ctx D eqb c w x i s white ks r HM HI HE HD HV HS.
  assert (EX : forall k (f : @field obj ty W) v, to_export eqb (ExportArgs true s (BlackSet []) white) [] k f v) by (intros k f v; right; split; [intros t _ []|left; reflexivity]).
  destruct (c108_selected_partial_proof R ctx D eqb c w x i (ExportArgs true s (BlackSet []) white) [] ks r) as (d & H1 & _ & H2 & H3 & H4); try assumption; auto.
  exists d. split; [assumption|]. split; [assumption|]. split; [assumption|].
  intros k KI NI. pose proof HI as (_ & _ & _ & _ & FI). destruct (FI k KI) as [v EV]. rewrite EV.
  apply (H4 k v); [assumption|intro; destruct HS as (_ & _ & _ & HNew); exact (HNew k H KI)|].
  apply in_keys_get in KI. destruct KI as [f EF]. exists f. auto.
Qed.

Lemma c108_default_refuted_proof : forall {obj ty W} (R : Rt obj ty W) ctx D eqb c w x i a black k f v d new,
  made (rt_py R) c -> instance_of R ctx c w x i -> has_eq R D eqb -> defaults_in D c -> values_in D c i ->
  e_black a = BlackSet black -> e_defaults a = false -> ~ In k (e_white a) ->
  dget k (c_fields c) = Some f -> f_default f = DefVal d -> dget k (i_dict i) = Some v -> eqb d v = true ->
  ~ In new (keys (c_fields c)) ->
  to_dict R ctx x a (selecting [] [(k, new)]) w = (Raise (mkexc KeyError k), w) /\
  to_dict R ctx x a (selecting [k] []) w = (Raise (mkexc KeyError k), w).
Proof.
  intros obj ty W R ctx D eqb c w x i a black k f v d new HM HI HE HD HV EB ED NW EF EFD EV EQ NN. apply (made_named R) in HM. pose proof HM as [HO _].
  destruct (sorted_export eqb a black c i HO) as [OD HG].
  assert (TD : to_dict R ctx x a sel_empty w = (Ok (sort_items (e_sort a) (exported eqb a black c i)), w)) by (apply (to_dict_exported R ctx D eqb HE c a black w x i); assumption).
  set (d0 := sort_items (e_sort a) (exported eqb a black c i)) in *.
  assert (NK : dget k d0 = None).
  { rewrite HG. destruct (dget k (exported eqb a black c i)) as [v'|] eqn:E; [|reflexivity]. apply dget_exported in E; [|assumption].
    destruct E as (f' & EF' & EV' & HT). assert (f' = f) by congruence. assert (v' = v) by congruence. subst.
    destruct HT as [HT|[_ [HT|HT]]]; [contradiction|congruence|]. rewrite (HT d EFD) in EQ. discriminate. }
  assert (NNK : dget new d0 = None).
  { apply dget_None. intro HK. apply NN. apply in_keys_get in HK. destruct HK as [u E]. rewrite HG in E. apply dget_exported in E; [|assumption].
    destruct E as (f' & EF' & _). eapply dget_some_key. exact EF'. }
  assert (RUN : forall s e, sel_apply s d0 = Raise e -> to_dict R ctx x a s w = (Raise e, w)).
  { intros s e ES. unfold to_dict, with_class in *. destruct (class_of R ctx x w) as [c'|]; [|discriminate TD].
    unfold bind in *. destruct (to_dict_of R c' x a sel_empty w) as [[d'|e'] w1]; [|discriminate TD].
    cbn in TD. injection TD as -> ->. rewrite ES. reflexivity. }
  split; apply RUN.
  - pose proof (sel_apply_spec (selecting [] [(k, new)]) d0 (selecting_reachable _ _) OD) as S. rewrite edits_of_selecting in S.
    cbn [map app edits edit_step fst snd] in S. unfold abs in S at 1 2. rewrite NNK, NK in S. exact S.
  - pose proof (sel_apply_spec (selecting [k] []) d0 (selecting_reachable _ _) OD) as S. rewrite edits_of_selecting in S.
    cbn [map app edits edit_step fst snd] in S. unfold abs in S at 1. rewrite NK in S. exact S.
Qed.
