(** Inst_proofs.v -- lemmas about exporting, comparing and copying record instances. *)
From Verif Require Import Base Dict_proofs Py Select Filler Filler_proofs Classes Runtime Record Spec_Record Spec_Inst Record_proofs.

Section Inst.
Context {obj ty W : Type} (R : Rt obj ty W).
Notation P := (rt_py R).
Notation field := (@field obj ty W).
Notation cls := (@cls obj ty W).
Notation inst := (inst obj ty).
Context (ctx : ty -> option cls).

Definition well_named (c : cls) : Prop :=
  dict_ok (c_fields c) /\ forall k f, dget k (c_fields c) = Some f -> f_name f = k.

Definition tagged (black : list nat) (f : field) : bool := existsb (fun t => existsb (Nat.eqb t) black) (f_tags f).
Lemma tagged_false : forall black f, tagged black f = false <-> forall t, In t (f_tags f) -> ~ In t black.
Proof.
  intros black f. unfold tagged. split.
  - intros H t HT HB. assert (E : existsb (fun t => existsb (Nat.eqb t) black) (f_tags f) = true).
    { apply existsb_exists. exists t. split; [assumption|]. apply existsb_exists. exists t. split; [assumption|apply Nat.eqb_refl]. }
    congruence.
  - intro H. destruct (existsb (fun t => existsb (Nat.eqb t) black) (f_tags f)) eqn:E; [|reflexivity].
    apply existsb_exists in E. destruct E as (t & HT & E). apply existsb_exists in E. destruct E as (t' & HB & E).
    apply Nat.eqb_eq in E. subst t'. destruct (H t HT HB).
Qed.

Definition to_exportb (eqb : obj -> obj -> bool) (a : export_args) (black : list nat) (k : string) (f : field) (v : obj) : bool :=
  smem k (e_white a) ||
  negb (tagged black f) && (e_defaults a || negb (match f_default f with DefVal d => eqb d v | _ => false end)).
Lemma to_exportb_spec : forall eqb a black k f v, to_exportb eqb a black k f v = true <-> to_export eqb a black k f v.
Proof.
  intros. unfold to_exportb, to_export. rewrite orb_true_iff, andb_true_iff, orb_true_iff, smem_In, !negb_true_iff, tagged_false.
  split; (intros [H|[H1 H2]]; [left; assumption|right; split; [assumption|]]); (destruct H2 as [H2|H2]; [left; assumption|right]).
  - intros d E. rewrite E in H2. assumption.
  - destruct (f_default f) as [|d|g]; [reflexivity|apply H2; reflexivity|reflexivity].
Qed.

Definition exported_from (eqb : obj -> obj -> bool) (a : export_args) (black : list nat) (fs : dict field) (i : inst) : dict obj :=
  flat_map (fun kf => match dget (fst kf) (i_dict i) with
                      | Some v => if to_exportb eqb a black (fst kf) (snd kf) v then [(fst kf, v)] else []
                      | None => []
                      end) fs.
Definition exported (eqb : obj -> obj -> bool) (a : export_args) (black : list nat) (c : cls) (i : inst) : dict obj :=
  exported_from eqb a black (c_fields c) i.

Lemma in_exported : forall eqb a black c i k v, dict_ok (c_fields c) ->
  (In (k, v) (exported eqb a black c i) <->
   exists f, dget k (c_fields c) = Some f /\ dget k (i_dict i) = Some v /\ to_export eqb a black k f v).
Proof.
  intros eqb a black c i k v HO. unfold exported, exported_from. rewrite in_flat_map. split.
  - intros ([k' f] & HI & H). cbn in H. destruct (dget k' (i_dict i)) as [v'|] eqn:E; [|destruct H].
    destruct (to_exportb eqb a black k' f v') eqn:ET; [|destruct H]. destruct H as [H|[]]. injection H as -> ->.
    exists f. split; [apply dget_In; assumption|]. split; [assumption|]. apply to_exportb_spec. assumption.
  - intros (f & EF & EV & HT). exists (k, f). split; [apply dget_Some_In; assumption|]. cbn. rewrite EV.
    apply to_exportb_spec in HT. rewrite HT. left. reflexivity.
Qed.

Lemma exported_from_sub : forall eqb a black fs i k, In k (keys (exported_from eqb a black fs i)) -> In k (keys fs).
Proof.
  intros eqb a black fs i k H. unfold keys in *. apply in_map_iff in H. destruct H as ([k' v] & <- & H). unfold exported_from in H.
  apply in_flat_map in H. destruct H as ([k1 f] & HI & H). cbn in *. destruct (dget k1 (i_dict i)); [|destruct H].
  destruct (to_exportb eqb a black k1 f o); [|destruct H]. destruct H as [H|[]]. injection H as -> ->.
  apply in_map_iff. exists (k', f). auto.
Qed.

Lemma exported_ok : forall eqb a black c i, dict_ok (c_fields c) -> dict_ok (exported eqb a black c i).
Proof.
  intros eqb a black c i. unfold exported. induction (c_fields c) as [|[k f] r IH]; intro HO; [constructor|].
  unfold dict_ok in *. change (keys ((k, f) :: r)) with (k :: keys r) in HO. inversion HO as [|? ? N HO']; subst.
  unfold exported_from. cbn [flat_map]. rewrite keys_app. cbn [fst snd].
  assert (NI : ~ In k (keys (exported_from eqb a black r i))) by (intro HI; apply exported_from_sub in HI; contradiction).
  destruct (dget k (i_dict i)) as [v|]; [|apply IH; assumption].
  destruct (to_exportb eqb a black k f v); [|apply IH; assumption].
  cbn. constructor; [exact NI|apply IH; assumption].
Qed.

Lemma dget_exported : forall eqb a black c i k v, dict_ok (c_fields c) ->
  (dget k (exported eqb a black c i) = Some v <->
   exists f, dget k (c_fields c) = Some f /\ dget k (i_dict i) = Some v /\ to_export eqb a black k f v).
Proof.
  intros eqb a black c i k v HO. rewrite <- (in_exported eqb a black c i k v HO). split.
  - apply dget_Some_In.
  - apply dget_In. apply exported_ok. assumption.
Qed.

Lemma exported_order : forall eqb a black c i, dict_ok (c_fields c) ->
  keys (exported eqb a black c i) = filter (fun k => dmem k (exported eqb a black c i)) (keys (c_fields c)).
Proof.
  intros eqb a black c i HO. unfold exported.
  assert (G : forall (fs : dict field) (p : string -> bool), NoDup (keys fs) ->
     (forall k f, In (k, f) fs -> p k = match dget k (i_dict i) with Some v => to_exportb eqb a black k f v | None => false end) ->
     keys (exported_from eqb a black fs i) = filter p (keys fs)).
  { clear. induction fs as [|[k f] r IH]; intros p ND HP; [reflexivity|].
    change (keys ((k, f) :: r)) with (k :: keys r) in *. inversion ND as [|? ? N ND']; subst.
    unfold exported_from. cbn [flat_map fst snd filter]. rewrite keys_app. fold (exported_from eqb a black r i).
    rewrite (IH p ND') by (intros; apply HP; right; assumption). rewrite (HP k f (or_introl eq_refl)).
    destruct (dget k (i_dict i)) as [v|]; [|reflexivity]. destruct (to_exportb eqb a black k f v); reflexivity. }
  apply G; [assumption|]. intros k f HI. apply (dget_In _ _ _ HO) in HI.
  pose proof (fun v => dget_exported eqb a black c i k v HO) as D. unfold dmem. unfold exported in D.
  destruct (dget k (i_dict i)) as [v|] eqn:EV.
  - destruct (to_exportb eqb a black k f v) eqn:ET.
    + apply to_exportb_spec in ET. destruct (D v) as [_ D2]. rewrite D2; [reflexivity|]. exists f. auto.
    + destruct (dget k (exported_from eqb a black (c_fields c) i)) as [v'|] eqn:E; [|reflexivity].
      destruct (proj1 (D v') eq_refl) as (f' & EF & EV' & HT). rewrite HI in EF. injection EF as <-. injection EV' as <-.
      apply to_exportb_spec in HT. congruence.
  - destruct (dget k (exported_from eqb a black (c_fields c) i)) as [v'|] eqn:E; [|reflexivity].
    destruct (proj1 (D v') eq_refl) as (f' & _ & EV' & _). discriminate.
Qed.

Lemma extraction_empty : forall c : cls, map snd (extraction c (@sel_empty obj)) = map (fun kf => real_field (snd kf)) (c_fields c).
Proof.
  intro c. unfold extraction. change (fst (sel_truth (@sel_empty obj))) with false. cbv iota zeta. rewrite map_map. reflexivity.
Qed.

Section Eq.
Variable D : obj -> Prop.
Variable eqb : obj -> obj -> bool.
Hypothesis HE : has_eq R D eqb.

Lemma to_dict_of_exported : forall c a black w x i, well_named c -> defaults_in D c -> instance_of R ctx c w x i -> values_in D c i ->
  e_black a = BlackSet black ->
  to_dict_of R c x a sel_empty w = (Ok (sort_items (e_sort a) (exported eqb a black c i)), w).
Proof.
  intros c a black w x i [HO HN] HD (_ & HL & _ & _ & HF) HV EB. unfold to_dict_of.
  assert (G : forall (fs : dict field), (forall k f, In (k, f) fs -> dget k (c_fields c) = Some f) ->
    extract R (missing_ok c sel_empty) x a (map (fun kf => real_field (snd kf)) fs) w = (Ok (exported_from eqb a black fs i), w)).
  { induction fs as [|[k f] r IH]; intro HI; [reflexivity|].
    assert (G : dget k (c_fields c) = Some f) by (apply HI; left; reflexivity).
    assert (KI : In k (keys (c_fields c))) by (eapply dget_some_key; eassumption).
    destruct (HF k KI) as [v EV]. pose proof (HV k v KI EV) as DV.
    specialize (IH (fun k f H => HI k f (or_intror H))).
    cbn [map extract snd]. unfold bind at 1. unfold extract_one. unfold real_field at 1 2 3. cbn [x_name].
    unfold exported_from. cbn [flat_map fst snd]. fold (exported_from eqb a black r i).
    unfold export_field. cbn [real_field x_name x_tags]. rewrite EB, (HN k f G). fold (tagged black f).
    unfold getattr. rewrite HL, EV. unfold to_exportb.
    assert (EX : forall w, export_value R a (XField k (f_tags f) (f_default f)) v w =
                   (Ok (smem k (e_white a) || e_defaults a || negb (match f_default f with DefVal d => eqb d v | _ => false end)), w)).
    { intro w1. unfold export_value. cbn [x_name x_default].
      destruct (smem k (e_white a)); [reflexivity|]. destruct (e_defaults a); [reflexivity|]. cbn [orb].
      destruct (f_default f) as [|d|g] eqn:ED; [reflexivity| |reflexivity].
      unfold bind. rewrite (proj1 (HE d v w1 (HD k f d G ED) DV)). reflexivity. }
    destruct (smem k (e_white a)) eqn:EW; cbn [orb] in *.
    - unfold bind at 1. rewrite EX. unfold ret at 1. unfold bind. rewrite IH. reflexivity.
    - destruct (tagged black f); cbn [negb andb].
      + unfold bind. rewrite IH. reflexivity.
      + unfold bind at 1. rewrite EX. unfold ret at 1. unfold bind. rewrite IH. reflexivity. }
  unfold bind. rewrite extraction_empty. rewrite G; [reflexivity|]. intros k f HI. apply dget_In; assumption.
Qed.

Lemma class_of_instance : forall c w x i, instance_of R ctx c w x i -> class_of R ctx x w = Some c.
Proof. intros c w x i (HC & HL & HT & _). unfold class_of. rewrite HL, HT. assumption. Qed.

Lemma sel_apply_empty : forall d : dict obj, sel_apply sel_empty d = Ok d.
Proof. reflexivity. Qed.

Lemma to_dict_exported : forall c a black w x i, well_named c -> defaults_in D c -> instance_of R ctx c w x i -> values_in D c i ->
  e_black a = BlackSet black ->
  to_dict R ctx x a sel_empty w = (Ok (sort_items (e_sort a) (exported eqb a black c i)), w).
Proof.
  intros c a black w x i HN HD HI HV EB. unfold to_dict, with_class. rewrite (class_of_instance _ _ _ _ HI).
  unfold bind. rewrite (to_dict_of_exported c a black w x i) by assumption. unfold lift. rewrite sel_apply_empty. reflexivity.
Qed.

End Eq.

(** ** Sorting *)

Lemma insert_perm : forall le kv (l : dict obj), Permutation (kv :: l) (insert_by le kv l).
Proof.
  intros le kv l; induction l as [|kv' r IH]; cbn; [reflexivity|]. destruct (le (fst kv) (fst kv')); [reflexivity|].
  rewrite perm_swap. constructor. assumption.
Qed.
Lemma sort_perm : forall le (l : dict obj), Permutation l (sort_by le l).
Proof.
  intros le l; induction l as [|kv r IH]; cbn; [constructor|]. rewrite <- insert_perm. constructor. assumption.
Qed.

Lemma insert_sorted : forall le kv (l : dict obj), total_preorder le -> sorted_by le l -> sorted_by le (insert_by le kv l).
Proof.
  intros le [k v] l [TO TR] H. induction H as [|k' v' r HK H IH]; cbn.
  - constructor; [intros ? ? []|constructor].
  - destruct (le k k') eqn:E.
    + constructor; [|constructor; assumption]. intros k1 v1 [HI|HI].
      * injection HI as <- <-. assumption.
      * eapply TR; [exact E|]. eapply HK. exact HI.
    + constructor; [|assumption]. intros k1 v1 HI. apply (Permutation_in _ (Permutation_sym (insert_perm le (k, v) r))) in HI.
      destruct HI as [HI|HI]; [|eapply HK; exact HI]. injection HI as <- <-. destruct (TO k k') as [H1|H1]; congruence.
Qed.
Lemma sort_sorted : forall le (l : dict obj), total_preorder le -> sorted_by le (sort_by le l).
Proof. intros le l TP. induction l as [|kv r IH]; cbn; [constructor|]. apply insert_sorted; assumption. Qed.

Lemma insert_stable : forall le kv (l : dict obj) p, total_preorder le ->
  (forall k k', p k = true -> p k' = true -> le k k' = true) ->
  filter (fun kv => p (fst kv)) (insert_by le kv l) = filter (fun kv => p (fst kv)) (kv :: l).
Proof.
  intros le kv l p TP HP. induction l as [|kv' r IH]; [reflexivity|]. cbn [insert_by].
  destruct (le (fst kv) (fst kv')) eqn:E; [reflexivity|]. cbn [filter] in *. rewrite IH.
  destruct (p (fst kv')) eqn:E1, (p (fst kv)) eqn:E2; try reflexivity. rewrite HP in E by assumption. discriminate.
Qed.
Lemma sort_stable : forall le (l : dict obj) p, total_preorder le ->
  (forall k k', p k = true -> p k' = true -> le k k' = true) ->
  filter (fun kv => p (fst kv)) (sort_by le l) = filter (fun kv => p (fst kv)) l.
Proof.
  intros le l p TP HP. induction l as [|kv r IH]; [reflexivity|]. cbn [sort_by fold_right].
  rewrite insert_stable by assumption. cbn [filter]. unfold sort_by in IH. rewrite IH. reflexivity.
Qed.

Lemma ascii_compare_trans : forall a b c : Ascii.ascii, Ascii.compare a b = Lt -> Ascii.compare b c = Lt -> Ascii.compare a c = Lt.
Proof. intros a b c. unfold Ascii.compare. rewrite !N.compare_lt_iff. lia. Qed.
Lemma ascii_compare_eq : forall a b : Ascii.ascii, Ascii.compare a b = Eq <-> a = b.
Proof.
  intros a b. unfold Ascii.compare. rewrite N.compare_eq_iff. split; [|congruence].
  intro H. rewrite <- (Ascii.ascii_N_embedding a), H, Ascii.ascii_N_embedding. reflexivity.
Qed.
Lemma leb_cons : forall a s b t, String.leb (String a s) (String b t) =
  match Ascii.compare a b with Lt => true | Eq => String.leb s t | Gt => false end.
Proof. intros. unfold String.leb. cbn. destruct (Ascii.compare a b); reflexivity. Qed.
Lemma string_leb_trans : forall a b c, String.leb a b = true -> String.leb b c = true -> String.leb a c = true.
Proof.
  induction a as [|x a IH]; intros [|y b] [|z c]; try reflexivity; try discriminate.
  rewrite !leb_cons. destruct (Ascii.compare x y) eqn:E1, (Ascii.compare y z) eqn:E2; intros H1 H2; try discriminate.
  - apply ascii_compare_eq in E1, E2. subst. replace (Ascii.compare z z) with Eq by (symmetry; apply ascii_compare_eq; reflexivity).
    eapply IH; eassumption.
  - apply ascii_compare_eq in E1. subst. rewrite E2. reflexivity.
  - apply ascii_compare_eq in E2. subst. rewrite E1. reflexivity.
  - rewrite (ascii_compare_trans _ _ _ E1 E2). reflexivity.
Qed.
Lemma string_leb_preorder : total_preorder String.leb.
Proof. split; [apply String.leb_total|apply string_leb_trans]. Qed.
Lemma order_of_preorder : forall s le, order_of s = Some le -> (forall le', s = SortKey le' -> total_preorder le') -> total_preorder le.
Proof.
  intros s le H HK. destruct s as [| | |le']; cbn in H; try discriminate; injection H as <-.
  - apply string_leb_preorder.
  - destruct string_leb_preorder as [T1 T2]. split; [intros a b; destruct (T1 a b); auto|]. intros a b c H1 H2. eapply T2; eassumption.
  - apply HK. reflexivity.
Qed.

(** ** Hashing *)
Section Hash.
Variable D : obj -> Prop.
Variable eqb : obj -> obj -> bool.
Variable hf : obj -> Z.
Hypothesis HE : has_eq R D eqb.

Definition content_hash (c : cls) (i : inst) : Z := tuple_hash R (map hf (dvalues (exported eqb no_args [] c i))).

Lemma cache_ok_content : forall c i, dict_ok (c_fields c) -> cache_ok R eqb hf c i -> i_hash i = SNone \/ i_hash i = SHash (content_hash c i).
Proof.
  intros c i HO [H|(d & ND & (l & HK) & HI & H)]; [left; assumption|right]. rewrite H. unfold content_hash.
  assert (E : d = exported eqb no_args [] c i).
  { assert (SAME : forall k v, dget k d = Some v <-> dget k (exported eqb no_args [] c i) = Some v).
    { intros k v. rewrite (dget_exported _ _ _ _ _ _ _ HO). rewrite <- HI. split; [apply dget_Some_In|apply dget_In; exact ND]. }
    apply dict_eq_ext; [exact ND| |].
    - rewrite HK. rewrite exported_order by assumption. apply filter_ext_in. intros k KI.
      assert (KD : l k = true <-> In k (keys d)).
      { rewrite HK, filter_In. tauto. }
      destruct (dmem k (exported eqb no_args [] c i)) eqn:EM.
      + apply dmem_true_get in EM. destruct EM as [v E]. apply SAME in E. apply KD. eapply dget_some_key. exact E.
      + destruct (l k) eqn:EL; [|reflexivity]. apply dmem_false_get in EM. destruct KD as [KD _]. specialize (KD eq_refl).
        apply in_keys_get in KD. destruct KD as [v E]. apply SAME in E. congruence.
    - intro k. destruct (dget k d) as [v|] eqn:E1.
      + apply SAME in E1. congruence.
      + destruct (dget k (exported eqb no_args [] c i)) as [v|] eqn:E2; [|reflexivity]. apply SAME in E2. congruence. }
  rewrite E. reflexivity.
Qed.
Lemma content_cache_ok : forall c i, dict_ok (c_fields c) -> i_hash i = SHash (content_hash c i) -> cache_ok R eqb hf c i.
Proof.
  intros c i HO H. right. exists (exported eqb no_args [] c i). split; [apply exported_ok; assumption|]. split; [|split; [|assumption]].
  - eexists. apply exported_order. assumption.
  - intros k v. apply in_exported. assumption.
Qed.

Lemma mapM_pure : forall {A B} (f : A -> M W B) (g : A -> B) l w, (forall a, In a l -> f a w = (Ok (g a), w)) -> mapM f l w = (Ok (map g l), w).
Proof.
  intros A B f g l w. induction l as [|a r IH]; intro H; [reflexivity|]. cbn. unfold bind. rewrite H by (left; reflexivity).
  rewrite IH by (intros; apply H; right; assumption). reflexivity.
Qed.

Lemma deref_dec : forall a b : option nat, {a = b} + {a <> b}.
Proof. decide equality. apply Nat.eq_dec. Qed.

(** what a stored hash keeps *)
Lemma store_hash_kept : forall w x i z, lookup R w x = Some i ->
  forall y j, lookup R w y = Some j ->
  exists j', lookup R (store R x (Inst (i_cls i) (i_dict i) (SHash z)) w) y = Some j' /\ i_cls j' = i_cls j /\ i_dict j' = i_dict j /\
    (i_hash j' = i_hash j \/ (j = i /\ i_hash j' = SHash z)).
Proof.
  intros w x i z HL y j HJ. destruct (deref_dec (deref R x) (deref R y)) as [E|N].
  - exists (Inst (i_cls i) (i_dict i) (SHash z)). assert (j = i) by (unfold lookup in *; rewrite E in HL; congruence). subst j.
    split; [eapply lookup_store_deref; eassumption|]. cbn. auto.
  - exists j. rewrite lookup_store_other by assumption. auto.
Qed.

Lemma record_hash_content : forall c w x i, well_named c -> c_frozen c = true -> defaults_in D c ->
  instance_of R ctx c w x i -> values_in D c i -> hashable R hf c i -> cache_ok R eqb hf c i ->
  exists w', record_hash R ctx x w = (Ok (content_hash c i), w') /\
    (forall y j, lookup R w y = Some j -> exists j', lookup R w' y = Some j' /\ i_cls j' = i_cls j /\ i_dict j' = i_dict j /\
       (i_hash j' = i_hash j \/ (j = i /\ i_hash j' = SHash (content_hash c i)))).
Proof.
  intros c w x i HN HF HD HI HV HH HC. pose proof HI as (HX & HL & HT & _). unfold record_hash. rewrite HL, HT, HX, HF. cbn [negb].
  destruct (cache_ok_content c i (proj1 HN) HC) as [EC|EC]; rewrite EC.
  - unfold bind. rewrite (to_dict_exported D eqb HE c no_args [] w x i) by (auto; reflexivity). cbn [sort_items e_sort no_args].
    rewrite (mapM_pure (v_hash R) hf).
    + rewrite HL. eexists. split; [reflexivity|]. intros y j HJ.
      destruct (store_hash_kept w x i (content_hash c i) HL y j HJ) as (j' & H1 & H2 & H3 & H4).
      exists j'. split; [exact H1|auto].
    + intros v HVI. unfold dvalues in HVI. apply in_map_iff in HVI. destruct HVI as ([k v'] & <- & HVI).
      apply (in_exported _ _ _ _ _ _ _ (proj1 HN)) in HVI. destruct HVI as (f & EF & EV & _). apply (HH k); [|assumption].
      eapply dget_some_key. exact EF.
  - exists w. split; [reflexivity|]. intros y j HJ. exists j. auto.
Qed.

End Hash.

(** ** Building from fixed values *)

Lemma filled_fixed : forall c (d : dict obj) w,
  (forall k v, In (k, v) d -> exists f, dget k (c_fields c) = Some f /\ call P (f_filler f) v w = (Ok v, w)) -> filled R c d w d w.
Proof.
  intros c d w. induction d as [|[k v] r IH]; intro H; [constructor|].
  destruct (H k v (or_introl eq_refl)) as (f & EF & EC). econstructor; [exact EF|exact EC|]. apply IH. intros; apply H; right; assumption.
Qed.

Lemma defaulted_values : forall (c : cls) ks w,
  (forall k, In k ks -> exists f v, dget k (c_fields c) = Some f /\ f_default f = DefVal v) ->
  exists ds, defaulted c ks w ds w /\ forall k f v, In k ks -> dget k (c_fields c) = Some f -> f_default f = DefVal v -> dget k ds = Some v.
Proof.
  intros c ks w. induction ks as [|k r IH]; intro H.
  - exists []. split; [constructor|]. intros ? ? ? [].
  - destruct IH as (ds & HD & HG); [intros; apply H; right; assumption|].
    destruct (H k (or_introl eq_refl)) as (f & v & EF & EV). exists ((k, v) :: ds). split.
    + econstructor; [exact EF|constructor; exact EV|exact HD].
    + intros k' f' v' HI EF' EV'. cbn. destruct (String.eqb_spec k' k) as [->|N].
      * congruence.
      * destruct HI as [->|HI]; [congruence|]. eapply HG; eassumption.
Qed.

Lemma lookup_alloc_kept : forall c vs w, all_kept R w (snd (alloc R c vs w)).
Proof.
  intros c vs w x i H. unfold lookup, alloc in *. cbn. destruct (deref R x) as [n|]; [|discriminate].
  rewrite heap_set, nth_error_app1; [assumption|]. apply nth_error_Some. congruence.
Qed.

Lemma no_post_accepts : forall c like, no_post_new R c -> accepts R ctx c like.
Proof. intros c like HP self w j _ _. unfold post_new_result, bind. rewrite HP, truth_none. reflexivity. Qed.

Lemma accepts_less : forall c (like like' : inst -> Prop), (forall j, like' j -> like j) -> accepts R ctx c like -> accepts R ctx c like'.
Proof. intros c like like' H HA self w j HI HL. apply (HA self w j HI). apply H. assumption. Qed.

Lemma construct_fixed : forall n c (d : dict obj) w, well_named c -> ctx (c_ty c) = Some c ->
  accepts R ctx c (fun j => (forall k v, dget k d = Some v -> dget k (i_dict j) = Some v) /\
    (forall k f v, dget k (c_fields c) = Some f -> ~ In k (keys d) -> f_default f = DefVal v -> dget k (i_dict j) = Some v)) -> fields_callable c ->
  dict_ok d ->
  (forall k v, In (k, v) d -> exists f, dget k (c_fields c) = Some f /\ forall w, call P (f_filler f) v w = (Ok v, w)) ->
  (forall k f, dget k (c_fields c) = Some f -> ~ In k (keys d) -> exists v, f_default f = DefVal v) ->
  exists y w' j, construct R (S n) c None d w = (Ok y, w') /\ fresh_instance R ctx c w w' y j /\ all_kept R w w' /\
    (forall k v, dget k d = Some v -> dget k (i_dict j) = Some v) /\
    (forall k f v, dget k (c_fields c) = Some f -> ~ In k (keys d) -> f_default f = DefVal v -> dget k (i_dict j) = Some v).
Proof.
  intros n c d w [HO HN] HX HP HFC HOD HF HDF.
  assert (KN : known c d).
  { intros k HI. apply in_keys_get in HI. destruct HI as [v HI]. apply dget_Some_In in HI. destruct (HF k v HI) as (f & EF & _).
    eapply dget_some_key. exact EF. }
  assert (NR : no_reserved d) by (intros k HI; apply HFC; apply KN; assumption).
  assert (CP : complete c d).
  { intros k HI. unfold required_keys, keys in HI. apply in_map_iff in HI. destruct HI as ([k' f] & <- & HI). apply filter_In in HI.
    destruct HI as [HI HD]. apply (dget_In _ _ _ HO) in HI. cbn in *. destruct (in_dec string_dec k' (keys d)) as [H|H]; [assumption|].
    destruct (HDF k' f HI H) as [v EV]. unfold has_default in HD. rewrite EV in HD. discriminate. }
  assert (FD : filled R c d w d w).
  { apply filled_fixed. intros k v HI. destruct (HF k v HI) as (f & EF & EC). exists f. auto. }
  assert (OM : forall k, In k (set_order R w (omitted c d)) <-> In k (keys (c_fields c)) /\ ~ In k (keys d)).
  { intro k. split.
    - intro HI. apply (Permutation_in _ (Permutation_sym (set_order_perm R w (omitted c d)))) in HI. unfold omitted in HI. apply filter_In in HI.
      rewrite negb_true_iff, dmem_false in HI. assumption.
    - intros H. apply (Permutation_in _ (set_order_perm R w (omitted c d))). unfold omitted. apply filter_In. rewrite negb_true_iff, dmem_false. assumption. }
  destruct (defaulted_values c (set_order R w (omitted c d)) w) as (ds & DD & DG).
  { intros k HI. apply OM in HI. destruct HI as [HI HI']. apply in_keys_get in HI. destruct HI as [f EF].
    destruct (HDF k f EF HI') as [v EV]. exists f, v. auto. }
  assert (KD : keys ds = set_order R w (omitted c d)) by (eapply defaulted_keys; exact DD).
  set (y := ref R (c_ty c) (List.length (heap R w))).
  exists y, (snd (alloc R c (d ++ ds) w)), (Inst (c_ty c) (d ++ ds) (if c_frozen c then SNone else SUnset)).
  assert (G1 : forall k v, dget k d = Some v -> dget k (d ++ ds) = Some v) by (intros k v E; rewrite dget_app, E; reflexivity).
  assert (G2 : forall k f v, dget k (c_fields c) = Some f -> ~ In k (keys d) -> f_default f = DefVal v -> dget k (d ++ ds) = Some v).
  { intros k f v EF NI EV. apply dget_None in NI as E. rewrite dget_app, E. eapply DG; [|exact EF|exact EV]. apply OM. split; [|assumption].
    eapply dget_some_key. exact EF. }
  assert (IO : instance_of R ctx c (snd (alloc R c (d ++ ds) w)) y (Inst (c_ty c) (d ++ ds) (if c_frozen c then SNone else SUnset))).
  { split; [assumption|]. split; [apply lookup_alloc|]. split; [reflexivity|]. split; [apply type_ref|]. cbn [i_dict].
    intros k HI. destruct (in_dec string_dec k (keys d)) as [HD|HD].
    - apply in_keys_get in HD. destruct HD as [v E]. exists v. auto.
    - apply in_keys_get in HI. destruct HI as [f EF]. destruct (HDF k f EF HD) as [v EV]. exists v. eapply G2; eassumption. }
  split; [|split; [|split; [|split]]].
  - rewrite construct_plain by assumption. apply build_ok. split; [assumption|]. split; [assumption|].
    exists d, w, ds, w. split; [assumption|]. split; [assumption|]. exact (HP _ _ _ IO (conj G1 G2)).
  - split; [|split; [|split]].
    + exact IO.
    + unfold lookup, y. rewrite deref_ref. apply nth_error_None. lia.
    + cbn [i_dict]. intros k HI. rewrite keys_app, in_app_iff in HI. destruct HI as [HI|HI]; [apply KN; assumption|].
      rewrite KD in HI. apply OM in HI. tauto.
    + reflexivity.
  - apply lookup_alloc_kept.
  - exact G1.
  - exact G2.
Qed.

(** a mapping that is passed alone is passed on *)
Lemma chain_map_one : forall m d w, is_mapping R m d -> chain_map R [m] [] w = (Ok d, w).
Proof.
  intros m d w (HO & HI & HG). unfold chain_map. cbn [rev app chain_keys]. unfold bind. rewrite HI. cbn [keys map].
  assert (F : forall ks acc, NoDup ks -> (forall k, In k ks -> ~ In k acc) ->
     fold_left (fun acc k => if smem k acc then acc else acc ++ [k]) ks acc = acc ++ ks).
  { induction ks as [|k r IH]; intros acc ND HA; cbn; [symmetry; apply app_nil_r|]. inversion ND as [|? ? N ND']; subst.
    assert (E : smem k acc = false) by (apply smem_false; apply HA; left; reflexivity). rewrite E, IH.
    - rewrite <- app_assoc. reflexivity.
    - assumption.
    - intros k' HI' HA'. apply in_app_iff in HA'. destruct HA' as [HA'|[->|[]]]; [|contradiction]. exact (HA k' (or_intror HI') HA'). }
  rewrite F; [|exact HO|intros ? _ []]. cbn [app chain_keys]. unfold ret at 1.
  assert (G : forall e, (forall k v, In (k, v) e -> dget k d = Some v) -> 
    mapM (fun k => let* v := chain_item R [m] [] k in ret (k, v)) (keys e) w = (Ok e, w)).
  { induction e as [|[k v] r IH]; intro H; [reflexivity|]. change (keys ((k, v) :: r)) with (k :: keys r). cbn [mapM].
    apply bind_ok. exists (k, v), w. split.
    - unfold bind. cbn [chain_item]. rewrite HG, (H k v (or_introl eq_refl)). reflexivity.
    - apply bind_ok. exists r, w. split; [apply IH; intros; apply H; right; assumption|reflexivity]. }
  apply G. intros k v HIn. apply dget_In; assumption.
Qed.

End Inst.
