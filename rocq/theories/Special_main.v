(** Special_main.v -- proofs of the properties stated in Props_Special.v: the special methods of record classes: __init__, __setattr__ and __hash__ *)

From Verif Require Import Base Py Select Filler Classes Runtime Record Special Spec_Special Spec_Inst Demo DemoRt DemoCls.
From Verif Require Dict_proofs Record_proofs.
Open Scope string_scope.
Open Scope list_scope.

Import Dict_proofs Record_proofs.

Section Linear.
Context {obj ty W : Type} (P : Py obj ty W).
Definition before (x y : ty) (l : list ty) : Prop := exists a b c, l = a ++ x :: b ++ y :: c.

Lemma before_in : forall x y l, before x y l -> In x l /\ In y l.
Proof. intros x y l (a & b & c & ->). split; apply in_or_app; right; [left; reflexivity|right; apply in_or_app; right; left; reflexivity]. Qed.
Lemma before_cons : forall x y z l, before x y l -> before x y (z :: l).
Proof. intros x y z l (a & b & c & ->). exists (z :: a), b, c. reflexivity. Qed.
Lemma before_head : forall x y l, In y l -> before x y (x :: l).
Proof. intros x y l H. apply in_split in H. destruct H as (b & c & ->). exists [], b, c. reflexivity. Qed.
Lemma before_inv : forall x y z l, before x y (z :: l) -> (x = z /\ In y l) \/ before x y l.
Proof.
  intros x y z l (a & b & c & E). destruct a as [|a0 a]; cbn in E; injection E as -> E.
  - left. split; [reflexivity|]. rewrite E. apply in_or_app. right; left; reflexivity.
  - right. exists a, b, c. exact E.
Qed.
Lemma before_asym : forall x y l, NoDup l -> before x y l -> before y x l -> False.
Proof.
  intros x y. induction l as [|z l IH]; intros ND B1 B2.
  - destruct B1 as ([|] & b & c & E); discriminate.
  - inversion ND; subst. apply before_inv in B1. apply before_inv in B2. destruct B1 as [[-> I1]|B1], B2 as [[-> I2]|B2].
    + auto.
    + apply before_in in B2. tauto.
    + apply before_in in B1. tauto.
    + eauto.
Qed.
Lemma before_or : forall x y l, In x l -> In y l -> x <> y -> before x y l \/ before y x l.
Proof.
  intros x y. induction l as [|z l IH]; intros HX HY N; [destruct HX|].
  destruct HX as [->|HX], HY as [->|HY].
  - congruence.
  - left. apply before_head. assumption.
  - right. apply before_head. assumption.
  - destruct (IH HX HY N); [left|right]; apply before_cons; assumption.
Qed.

Lemma in_drop : forall R0 h (l : list ty) z, In z (@drop obj ty W R0 h l) -> In z l.
Proof. intros R0 h [|x r] z H; cbn in *; [assumption|]. destruct (ty_eqb (rt_py R0) x h); [right|]; assumption. Qed.
End Linear.

Section Merge.
Context {obj ty W : Type} (R : Rt obj ty W).
Notation P := (rt_py R).

Lemma drop_in : forall h (l : list ty) z, In z l -> z <> h -> In z (drop R h l).
Proof.
  intros h [|x r] z H N; cbn in *; [assumption|]. destruct (ty_eqP P x h) as [->|NE]; [|assumption].
  destruct H as [H|H]; [congruence|assumption].
Qed.
Lemma drop_not : forall h (l : list ty), ~ In h (tl l) -> ~ In h (drop R h l).
Proof.
  intros h [|x r] H; cbn in *; [auto|]. destruct (ty_eqP P x h) as [->|NE]; [assumption|]. intros [->|HI]; congruence.
Qed.
Lemma merges_sound : forall ls r, merges R ls r -> forall z, In z r -> exists l, In l ls /\ In z l.
Proof.
  induction 1 as [|ls h r [l HL] HT HM IH]; intros z HZ; [destruct HZ|].
  destruct HZ as [<-|HZ]; [exists (h :: l); split; [assumption|left; reflexivity]|].
  destruct (IH z HZ) as (l' & HL' & HZ'). apply in_map_iff in HL'. destruct HL' as (l0 & <- & HL0).
  exists l0. split; [assumption|]. eapply in_drop; eassumption.
Qed.
Lemma merges_complete : forall ls r, merges R ls r -> forall l z, In l ls -> In z l -> In z r.
Proof.
  induction 1 as [ls H|ls h r HL HT HM IH]; intros l z HI HZ.
  - rewrite (H l HI) in HZ. destruct HZ.
  - destruct (ty_eqP P z h) as [->|N]; [left; reflexivity|]. right. apply (IH (drop R h l)).
    + apply in_map. assumption.
    + apply drop_in; assumption.
Qed.
Lemma merges_nodup : forall ls r, merges R ls r -> NoDup r.
Proof.
  induction 1 as [ls H|ls h r HL HT HM IH]; constructor; [|assumption].
  intro HI. destruct (merges_sound _ _ HM h HI) as (l & HL' & HZ). apply in_map_iff in HL'. destruct HL' as (l0 & <- & HL0).
  revert HZ. apply drop_not. auto.
Qed.
Lemma merges_order : forall ls r, merges R ls r -> forall l x y, In l ls -> before x y l -> before x y r.
Proof.
  induction 1 as [ls H|ls h r HL HT HM IH]; intros l x y HI B.
  - rewrite (H l HI) in B. destruct B as ([|] & ? & ? & E); discriminate.
  - destruct l as [|z l]; [destruct B as ([|] & ? & ? & E); discriminate|].
    assert (HD : In (drop R h (z :: l)) (map (drop R h) ls)) by (apply in_map; assumption). cbn [drop] in HD.
    destruct (ty_eqP P z h) as [->|N].
    + apply before_inv in B. destruct B as [[-> HY]|B].
      * apply before_head. eapply merges_complete; eassumption.
      * apply before_cons. eapply IH; eassumption.
    + apply before_cons. eapply IH; eassumption.
Qed.

Lemma definer_split : forall {A} (f : ty -> option A) l t, definer f l = Some t ->
  exists p q, l = p ++ t :: q /\ (forall u, In u p -> f u = None) /\ exists v, f t = Some v.
Proof.
  intros A f. induction l as [|u r IH]; intros t H; cbn in H; [discriminate|]. destruct (f u) as [v|] eqn:E.
  - injection H as <-. exists [], r. split; [reflexivity|]. split; [intros ? []|eauto].
  - destruct (IH t H) as (p & q & -> & HP & HV). exists (u :: p), q. split; [reflexivity|]. split; [|assumption].
    intros x [<-|HX]; auto.
Qed.
Lemma definer_some : forall {A} (f : ty -> option A) l t v, In t l -> f t = Some v -> exists u, definer f l = Some u.
Proof.
  intros A f. induction l as [|u r IH]; intros t v HI E; [destruct HI|]. cbn. destruct (f u) eqn:EU; [eauto|].
  destruct HI as [->|HI]; [congruence|eauto].
Qed.
Lemma definer_ext : forall {A} (f g : ty -> option A) l, (forall t, In t l -> f t = g t) -> definer f l = definer g l.
Proof.
  intros A f g. induction l as [|u r IH]; intro H; [reflexivity|]. cbn. rewrite (H u) by (left; reflexivity).
  destruct (g u); [reflexivity|]. apply IH. intros; apply H; right; assumption.
Qed.
Lemma put_same : forall {A} t (v : A) f, put R t v f t = v.
Proof. intros A t v f. unfold put. destruct (ty_eqP P t t); [reflexivity|congruence]. Qed.
Lemma put_other : forall {A} t u (v : A) f, u <> t -> put R t v f u = f u.
Proof. intros A t u v f N. unfold put. destruct (ty_eqP P u t); [congruence|reflexivity]. Qed.

Context (ctx : ty -> option (@cls obj ty W)) (t_record : ty).

Record inv (ss : list (@stmt obj ty W * bool)) (wd : @world obj ty W) (known : list ty) : Prop := {
  inv_mro : forall t, In t known -> ends_with_object R (w_mro wd t) /\ incl (w_mro wd t) known /\ exists r, w_mro wd t = t :: r;
  inv_record : In t_record known /\ t_record <> t_object P;
  inv_init : w_init wd t_record = Some base_init;
  inv_known : forall s b, In (s, b) ss -> In (m_ty s) known;
  inv_quiet : forall s, In (s, false) ss -> definer (w_init wd) (w_mro wd (m_ty s)) = Some t_record;
  inv_setattr : forall s b, In (s, b) ss -> w_setattr wd (m_ty s) = Some (if m_frozen s then base_setattr R else object_setattr R);
  inv_hash : forall s b, In (s, b) ss -> w_hash wd (m_ty s) = Some (if m_frozen s then Some (base_hash R ctx) else None)
}.

Lemma last_before : forall l z, ends_with_object R l -> In z l -> z <> t_object P -> before z (t_object P) l.
Proof.
  intros l z (p & -> & NI) HZ N. apply in_app_or in HZ. destruct HZ as [HZ|[HZ|[]]]; [|congruence].
  apply in_split in HZ. destruct HZ as (a & b & ->). exists a, b, []. rewrite <- app_assoc. reflexivity.
Qed.

Lemma rest_object : forall wd known s, (forall t, In t known -> ends_with_object R (w_mro wd t) /\ incl (w_mro wd t) known /\ exists r, w_mro wd t = t :: r) ->
  class_stmt R wd known s ->
  ends_with_object R (m_ty s :: m_rest s) /\ incl (m_rest s) known /\ NoDup (m_rest s).
Proof.
  intros wd known s HM (NK & NO & NB & HB & HL). unfold linearised in HL.
  assert (ND := merges_nodup _ _ HL).
  assert (SRC : forall z, In z (m_rest s) -> exists b, In b (m_bases s) /\ In z (w_mro wd b)).
  { intros z HZ. destruct (merges_sound _ _ HL z HZ) as (l & HI & HZl). apply in_app_or in HI. destruct HI as [HI|[<-|[]]].
    - apply in_map_iff in HI. destruct HI as (b & <- & HI). eauto.
    - exists z. split; [assumption|]. destruct (HM z (HB z HZl)) as (_ & _ & r & ->). left; reflexivity. }
  assert (MR : forall b, In b (m_bases s) -> In (w_mro wd b) (map (w_mro wd) (m_bases s) ++ [m_bases s])).
  { intros b HI. apply in_or_app. left. apply in_map. assumption. }
  assert (IO : In (t_object P) (m_rest s)).
  { destruct (m_bases s) as [|b r] eqn:EB; [congruence|]. rewrite <- EB in *.
    assert (HI : In b (m_bases s)) by (rewrite EB; left; reflexivity).
    apply (merges_complete _ _ HL (w_mro wd b)); [apply MR; assumption|].
    destruct (HM b (HB b HI)) as ((p & -> & _) & _). apply in_or_app. right; left; reflexivity. }
  split; [|split; [|assumption]].
  - apply in_split in IO. destruct IO as (p & q & E).
    assert (NIP : ~ In (t_object P) p).
    { rewrite E in ND. apply NoDup_remove_2 in ND. intro HI. apply ND. apply in_or_app. left; assumption. }
    destruct q as [|z q].
    + exists (m_ty s :: p). split; [rewrite E; reflexivity|]. intros [HX|HX]; [congruence|contradiction].
    + exfalso. assert (HZ : In z (m_rest s)) by (rewrite E; apply in_or_app; right; right; left; reflexivity).
      destruct (SRC z HZ) as (b & HBb & HZb). assert (NZ : z <> t_object P).
      { intros ->. rewrite E in ND. apply NoDup_remove_2 in ND. apply ND. apply in_or_app. right; left; reflexivity. }
      destruct (HM b (HB b HBb)) as (EO & _).
      apply (before_asym z (t_object P) (m_rest s) ND).
      * eapply merges_order; [exact HL|exact (MR b HBb)|]. apply last_before; assumption.
      * exists p, [], q. rewrite E. reflexivity.
  - intros z HZ. destruct (SRC z HZ) as (b & HBb & HZb). destruct (HM b (HB b HBb)) as (_ & HIn & _). apply HIn. assumption.
Qed.

Lemma quiet_definer : forall wd known s, (forall t, In t known -> ends_with_object R (w_mro wd t) /\ incl (w_mro wd t) known /\ exists r, w_mro wd t = t :: r) ->
  t_record <> t_object P -> w_init wd t_record = Some base_init ->
  class_stmt R wd known s -> In t_record (m_rest s) -> parents_warning R t_record wd s = false ->
  definer (w_init wd) (m_rest s) = Some t_record.
Proof.
  intros wd known s HM NRO HI HC HR HW.
  destruct (rest_object wd known s HM HC) as (EO & HIn & ND).
  destruct HC as (NK & NO & NB & HB & HL). unfold linearised in HL.
  destruct (definer_some (w_init wd) (m_rest s) t_record _ HR HI) as [K EK]. rewrite EK. f_equal.
  destruct (definer_split _ _ _ EK) as (p & q & ER & HP & [fk EF]).
  destruct (ty_eqP P K t_record) as [->|NE]; [reflexivity|]. exfalso.
  assert (BK : before K t_record (m_rest s)).
  { rewrite ER in HR. apply in_app_or in HR. destruct HR as [HR|[HR|HR]]; [rewrite (HP _ HR) in HI; discriminate|congruence|].
    apply in_split in HR. destruct HR as (b & c & ->). rewrite ER. exists p, b, c. reflexivity. }
  assert (HK : In K (m_rest s)) by (apply before_in in BK; tauto).
  assert (SRC : exists b, In b (m_bases s) /\ In K (w_mro wd b)).
  { destruct (merges_sound _ _ HL K HK) as (l & HIl & HZl). apply in_app_or in HIl. destruct HIl as [HIl|[<-|[]]].
    - apply in_map_iff in HIl. destruct HIl as (b & <- & HIl). eauto.
    - exists K. split; [assumption|]. destruct (HM K (HB K HZl)) as (_ & _ & r & ->). left; reflexivity. }
  destruct SRC as (b & HBb & HKb).
  assert (MR : In (w_mro wd b) (map (w_mro wd) (m_bases s) ++ [m_bases s])) by (apply in_or_app; left; apply in_map; assumption).
  destruct (definer_some (w_init wd) (w_mro wd b) K _ HKb EF) as [D ED].
  assert (HWb : ty_eqb P D t_record || ty_eqb P D (t_object P) = true).
  { unfold parents_warning in HW. destruct (ty_eqb P D t_record || ty_eqb P D (t_object P)) eqn:ET; [reflexivity|].
    assert (EX : existsb (fun b0 => match definer (w_init wd) (w_mro wd b0) with
                    | Some t => negb (ty_eqb P t t_record || ty_eqb P t (t_object P)) | None => false end) (m_bases s) = true).
    { apply existsb_exists. exists b. split; [assumption|]. rewrite ED, ET. reflexivity. }
    congruence. }
  destruct (definer_split _ _ _ ED) as (p' & q' & EM & HP' & [fd EFD]).
  assert (NKp : ~ In K p') by (intro X; rewrite (HP' _ X) in EF; discriminate).
  apply orb_true_iff in HWb. destruct HWb as [HWb|HWb].
  - destruct (ty_eqP P D t_record) as [->|]; [|discriminate].
    apply (before_asym K t_record (m_rest s) ND BK). eapply merges_order; [exact HL|exact MR|].
    rewrite EM in HKb. apply in_app_or in HKb. destruct HKb as [X|[X|X]]; [contradiction|congruence|].
    apply in_split in X. destruct X as (b0 & c0 & ->). rewrite EM. exists p', b0, c0. reflexivity.
  - destruct (ty_eqP P D (t_object P)) as [->|]; [|discriminate].
    destruct (HM b (HB b HBb)) as (EOb & _ & _).
    assert (KO : K = t_object P).
    { destruct (ty_eqP P K (t_object P)) as [E|N]; [exact E|]. exfalso.
      assert (B1 := last_before _ _ EOb HKb N). rewrite EM in HKb. apply in_app_or in HKb. destruct HKb as [X|[X|X]]; [contradiction|congruence|].
      destruct EOb as (p2 & E2 & N2). rewrite E2 in EM. clear - EM N2 X.
      revert p' EM. induction p2 as [|a p2 IH]; intros p' EM.
      - destruct p' as [|a' p']; cbn in EM; [injection EM as EM; subst q'; destruct X|].
        assert (E0 : [] = p' ++ t_object P :: q') by congruence. destruct p'; discriminate.
      - destruct p' as [|a' p']; cbn in EM; [apply N2; left; congruence|].
        apply (IH (fun Y => N2 (or_intror Y)) p'). congruence. }
    subst K. destruct EO as (p3 & E3 & N3).
    assert (B2 : before t_record (t_object P) (m_ty s :: m_rest s)).
    { apply last_before; [exists p3; split; assumption|right; assumption|assumption]. }
    apply before_inv in B2. destruct B2 as [[EX _]|B2].
    + (* t_record would be the new class itself, which is not in the rest *)
      apply NK. rewrite <- EX. apply HIn. assumption.
    + exact (before_asym _ _ _ ND BK B2).
Qed.

Lemma own_init_none : forall s : @stmt obj ty W, smem "__init__" (own_warnings s) = false -> m_init s = None.
Proof. intros s H. unfold own_warnings in H. destruct (m_init s); [|reflexivity]. cbn in H. discriminate. Qed.

Lemma program_inv : forall ss wd known, program R ctx t_record ss wd known -> inv ss wd known.
Proof.
  induction 1 as [wd known [S1 S2 S3]|ss wd known s HP IH HC HR|ss wd known s HP IH HC HR].
  - constructor; try assumption; intros; contradiction.
  - destruct IH as [I1 I2 I3 I4 I5 I6 I7]. destruct (rest_object wd known s I1 HC) as (EO & HIn & ND).
    assert (HC' := HC). destruct HC as (NK & NO & NB & HB & HL).
    assert (NT : forall t, In t known -> t <> m_ty s) by (intros t HT ->; contradiction).
    constructor; cbn [declare set_methods create_type w_mro w_init w_setattr w_hash].
    + intros t HT. destruct (ty_eqP P t (m_ty s)) as [->|N].
      * rewrite put_same. split; [assumption|]. split; [|eauto]. intros z [->|HZ]; [left; reflexivity|right; auto].
      * rewrite put_other by assumption. destruct HT as [HT|HT]; [congruence|].
        destruct (I1 t HT) as (A1 & A2 & A3). split; [assumption|]. split; [|assumption]. intros z HZ. right. auto.
    + split; [right; tauto|tauto].
    + rewrite put_other by (apply NT; tauto). assumption.
    + intros s0 b [E|HI]; [injection E as -> _; left; reflexivity|right; eauto].
    + intros s0 [E|HI].
      * injection E as -> E. apply orb_false_iff in E. destruct E as [E1 E2].
        rewrite put_same. cbn [definer]. rewrite put_same, (own_init_none _ E1).
        rewrite <- (quiet_definer wd known s0 I1 (proj2 I2) I3 HC' HR E2). apply definer_ext.
        intros t HT. apply put_other. apply NT. auto.
      * assert (HK := I4 _ _ HI). rewrite put_other by (apply NT; assumption). rewrite <- (I5 s0 HI). apply definer_ext.
        intros t HT. apply put_other. apply NT. destruct (I1 _ HK) as (_ & A2 & _). auto.
    + intros s0 b [E|HI]; [injection E as -> _; apply put_same|]. assert (HK := I4 _ _ HI). rewrite !put_other by (apply NT; assumption). eauto.
    + intros s0 b [E|HI]; [injection E as -> _; apply put_same|]. assert (HK := I4 _ _ HI). rewrite !put_other by (apply NT; assumption). eauto.
  - destruct IH as [I1 I2 I3 I4 I5 I6 I7]. destruct (rest_object wd known s I1 HC) as (EO & HIn & ND).
    destruct HC as (NK & NO & NB & HB & HL).
    assert (NT : forall t, In t known -> t <> m_ty s) by (intros t HT ->; contradiction).
    constructor; cbn [create_type w_mro w_init w_setattr w_hash].
    + intros t HT. destruct (ty_eqP P t (m_ty s)) as [->|N].
      * rewrite put_same. split; [assumption|]. split; [|eauto]. intros z [->|HZ]; [left; reflexivity|right; auto].
      * rewrite put_other by assumption. destruct HT as [HT|HT]; [congruence|].
        destruct (I1 t HT) as (A1 & A2 & A3). split; [assumption|]. split; [|assumption]. intros z HZ. right. auto.
    + split; [right; tauto|tauto].
    + rewrite put_other by (apply NT; tauto). assumption.
    + intros s0 b HI. right; eauto.
    + intros s0 HI. assert (HK := I4 _ _ HI). rewrite put_other by (apply NT; assumption). rewrite <- (I5 s0 HI). apply definer_ext.
      intros t HT. apply put_other. apply NT. destruct (I1 _ HK) as (_ & A2 & _). auto.
    + intros s0 b HI. assert (HK := I4 _ _ HI). rewrite !put_other by (apply NT; assumption). eauto.
    + intros s0 b HI. assert (HK := I4 _ _ HI). rewrite !put_other by (apply NT; assumption). eauto.
Qed.

Lemma found_own : forall {A} (f : ty -> option A) t r v, f t = Some v -> found f (t :: r) = Some v.
Proof. intros A f t r v E. unfold found. cbn. rewrite E. exact E. Qed.
End Merge.

Lemma c111_assignment_proof : forall {obj ty W} (R : Rt obj ty W) ctx t_record ss wd known s b c x i k v w,
  program R ctx t_record ss wd known -> In (s, b) ss ->
  ctx (m_ty s) = Some c -> c_frozen c = m_frozen s ->
  type_of (rt_py R) x = m_ty s -> lookup R w x = Some i -> i_cls i = m_ty s ->
  assign R wd x k v w = setattr R ctx x k v w.
Proof.
  intros obj ty W R ctx t_record ss wd known s b c x i k v w HP HI HC HF HT HL HX.
  destruct (program_inv R ctx t_record ss wd known HP) as [I1 I2 I3 I4 I5 I6 I7].
  unfold assign. rewrite HT. destruct (I1 _ (I4 _ _ HI)) as (_ & _ & r & ->).
  rewrite (found_own _ _ _ _ (I6 s b HI)). unfold setattr. rewrite HL, HX, HC, HF.
  destruct (m_frozen s).
  - unfold base_setattr. rewrite HL. unfold set_slot. destruct (String.eqb k "_hash"); [|reflexivity]. rewrite HX. reflexivity.
  - unfold object_setattr. rewrite HL. unfold set_slot. destruct (String.eqb k "_hash"); rewrite HX; reflexivity.
Qed.

Lemma c111_hash_proof : forall {obj ty W} (R : Rt obj ty W) ctx t_record ss wd known s b c x i w,
  program R ctx t_record ss wd known -> In (s, b) ss ->
  ctx (m_ty s) = Some c -> c_frozen c = m_frozen s ->
  type_of (rt_py R) x = m_ty s -> lookup R w x = Some i -> i_cls i = m_ty s ->
  hash_of R wd x w = record_hash R ctx x w.
Proof.
  intros obj ty W R ctx t_record ss wd known s b c x i w HP HI HC HF HT HL HX.
  destruct (program_inv R ctx t_record ss wd known HP) as [I1 I2 I3 I4 I5 I6 I7].
  unfold hash_of. rewrite HT. destruct (I1 _ (I4 _ _ HI)) as (_ & _ & r & ->).
  rewrite (found_own _ _ _ _ (I7 s b HI)). unfold record_hash. rewrite HL, HX, HC, HF.
  destruct (m_frozen s); cbn [negb]; [|reflexivity]. unfold base_hash. rewrite HL. reflexivity.
Qed.

Lemma c111_frozen_proof : forall {obj ty W} (R : Rt obj ty W) ctx t_record ss wd known s b x i k v w,
  program R ctx t_record ss wd known -> In (s, b) ss -> m_frozen s = true ->
  type_of (rt_py R) x = m_ty s -> lookup R w x = Some i -> k <> "_hash" ->
  exists e, assign R wd x k v w = (Raise e, w) /\ exc_cls e = TypeError.
Proof.
  intros obj ty W R ctx t_record ss wd known s b x i k v w HP HS HF HT HL HK.
  destruct (program_inv R ctx t_record ss wd known HP) as [I1 I2 I3 I4 I5 I6 I7].
  unfold assign. rewrite HT. destruct (I1 _ (I4 _ _ HS)) as (_ & _ & r & ->).
  rewrite (found_own _ _ _ _ (I6 s b HS)), HF. unfold base_setattr. rewrite HL.
  destruct (String.eqb_spec k "_hash"); [contradiction|]. eexists; split; reflexivity.
Qed.

Lemma c111_unfrozen_proof : forall {obj ty W} (R : Rt obj ty W) ctx t_record ss wd known s b x i k v w,
  program R ctx t_record ss wd known -> In (s, b) ss -> m_frozen s = false ->
  type_of (rt_py R) x = m_ty s -> lookup R w x = Some i -> k <> "_hash" ->
  (exists w', assign R wd x k v w = (Ok tt, w') /\ exists i', lookup R w' x = Some i' /\ dget k (i_dict i') = Some v) /\
  (exists e, hash_of R wd x w = (Raise e, w) /\ exc_cls e = TypeError).
Proof.
  intros obj ty W R ctx t_record ss wd known s b x i k v w HP HS HF HT HL HK.
  destruct (program_inv R ctx t_record ss wd known HP) as [I1 I2 I3 I4 I5 I6 I7].
  unfold assign, hash_of. rewrite HT. destruct (I1 _ (I4 _ _ HS)) as (_ & _ & r & ->).
  rewrite (found_own _ _ _ _ (I6 s b HS)), (found_own _ _ _ _ (I7 s b HS)), HF. split.
  - unfold object_setattr. rewrite HL. destruct (String.eqb_spec k "_hash"); [contradiction|]. eexists. split; [reflexivity|].
    eexists. split; [exact (Record_proofs.lookup_store_same R x _ i w HL)|]. cbn [i_dict]. apply Dict_proofs.dget_dset_same.
  - eexists. split; reflexivity.
Qed.

Section Init.
Context {obj ty W : Type} (R : Rt obj ty W).
Notation P := (rt_py R).
Notation cls := (@cls obj ty W).

Lemma bind_cong : forall {A B} (m m' : M W A) (k k' : A -> M W B) w,
  m w = m' w -> (forall a w1, k a w1 = k' a w1) -> (let* a := m in k a) w = (let* a := m' in k' a) w.
Proof. intros A B m m' k k' w E H. unfold bind. rewrite E. destruct (m' w) as [[a|e] w1]; [apply H|reflexivity]. Qed.

Lemma run_parser_cong : forall mk mk' (c : cls) p v, (forall d w, mk d w = mk' d w) -> forall w, run_parser R mk c p v w = run_parser R mk' c p v w.
Proof.
  intros mk mk' c p v H w. destruct p as [| | |f]; cbn [run_parser]; [| | |reflexivity].
  - unfold from_instance_with. destruct (_ && _ && _ && _ && _); [reflexivity|].
    apply bind_cong; [reflexivity|]. intros d w1. apply bind_cong; [reflexivity|]. intros d1 w2. apply bind_cong; [reflexivity|]. intros d2 w3. apply H.
  - unfold from_json_with. apply bind_cong; [reflexivity|]. intros d w1. apply bind_cong; [reflexivity|]. intros d1 w2. apply bind_cong; [reflexivity|]. intros d2 w3. apply H.
  - unfold from_mapping_with. apply bind_cong; [reflexivity|]. intros d w1. apply bind_cong; [reflexivity|]. intros d1 w2. apply H.
Qed.
Lemma parse_with_cong : forall mk mk' (c : cls) v, (forall d w, mk d w = mk' d w) -> forall w, parse_with R mk c v w = parse_with R mk' c v w.
Proof.
  intros mk mk' c v H w. unfold parse_with. apply bind_cong; [|intros; reflexivity].
  revert w. induction (c_parsers c) as [|p r IH]; intro w; [reflexivity|]. cbn [attempt_parsers].
  rewrite (run_parser_cong mk mk' c p v H w). destruct (run_parser R mk' c p v w) as [[x|e] w1].
  - apply bind_cong; [apply IH|reflexivity].
  - destruct (is_Exception e); [apply IH|reflexivity].
Qed.

Section Lib.
Variable (wd : @world obj ty W) (c : cls).
Hypothesis LIB : forall r, isinstance P r (c_ty c) = true -> found (w_init wd) (w_mro wd (type_of P r)) = Some base_init.

Lemma call_lib : forall nw nw' pos kw, (forall p k w, nw p k w = nw' p k w) ->
  forall w, call_with_init R wd nw c pos kw w = call_cls R nw' c pos kw w.
Proof.
  intros nw nw' pos kw H w. unfold call_with_init, call_cls. destruct (dmem "cls" kw); [reflexivity|].
  apply bind_cong; [destruct pos, (dget "arg" kw); try reflexivity; apply H|]. intros r w1.
  destruct (isinstance P r (c_ty c)) eqn:E; [|reflexivity]. cbn [andb]. unfold initialize. rewrite (LIB r E). unfold base_init.
  destruct (dmem "self" kw); reflexivity.
Qed.
Lemma new_lib : forall fuel arg kw w, new_with_init R wd fuel c arg kw w = new R fuel c arg kw w.
Proof.
  induction fuel as [|n IH]; intros arg kw w; [reflexivity|]. destruct arg as [a|]; [|reflexivity].
  cbn [new_with_init new]. apply bind_cong; [|intros; reflexivity].
  destruct kw; [|reflexivity]. destruct (c_unary c); [|reflexivity]. unfold catch_parse_failure.
  rewrite (parse_with_cong (call_with_init R wd (new_with_init R wd n c) c None) (call_cls R (new R n c) c None) c a); [reflexivity|].
  intros d w1. apply call_lib. exact IH.
Qed.
End Lib.

Lemma definer_first : forall {A} (f : ty -> option A) p t r v, (forall u, In u p -> f u = None) -> f t = Some v -> definer f (p ++ t :: r) = Some t.
Proof.
  intros A f. induction p as [|u p IH]; intros t r v HP E; cbn; [rewrite E; reflexivity|]. rewrite (HP u) by (left; reflexivity).
  eapply IH; [|eassumption]. intros; apply HP; right; assumption.
Qed.
End Init.

Lemma c110_no_warning_partial_proof : forall {obj ty W} (R : Rt obj ty W) ctx t_record ss wd known c,
  program R ctx t_record ss wd known ->
  (forall r, isinstance (rt_py R) r (c_ty c) = true -> exists s, In (s, false) ss /\ m_ty s = type_of (rt_py R) r) ->
  forall fuel pos kw w, construct_with_init R wd fuel c pos kw w = construct R fuel c pos kw w.
Proof.
  intros obj ty W R ctx t_record ss wd known c HP HI fuel pos kw w.
  destruct (program_inv R ctx t_record ss wd known HP) as [I1 I2 I3 I4 I5 I6 I7].
  assert (LIB : forall r, isinstance (rt_py R) r (c_ty c) = true -> found (w_init wd) (w_mro wd (type_of (rt_py R) r)) = Some base_init).
  { intros r E. destruct (HI r E) as (s & HS & <-). unfold found. rewrite (I5 s HS). exact I3. }
  unfold construct_with_init, construct. apply call_lib; [exact LIB|]. intros p k w1. apply new_lib. exact LIB.
Qed.

Lemma c110_after_partial_proof : forall {obj ty W} (R : Rt obj ty W) ctx t_record ss wd known c,
  program R ctx t_record ss wd known ->
  (forall r, isinstance (rt_py R) r (c_ty c) = true ->
     exists p q, w_mro wd (type_of (rt_py R) r) = p ++ t_record :: q /\ forall t, In t p -> w_init wd t = None) ->
  forall fuel pos kw w, construct_with_init R wd fuel c pos kw w = construct R fuel c pos kw w.
Proof.
  intros obj ty W R ctx t_record ss wd known c HP HI fuel pos kw w.
  destruct (program_inv R ctx t_record ss wd known HP) as [I1 I2 I3 I4 I5 I6 I7].
  assert (LIB : forall r, isinstance (rt_py R) r (c_ty c) = true -> found (w_init wd) (w_mro wd (type_of (rt_py R) r)) = Some base_init).
  { intros r E. destruct (HI r E) as (p & q & EM & HN). unfold found. rewrite EM.
    rewrite (definer_first _ p t_record q _ HN I3). exact I3. }
  unfold construct_with_init, construct. apply call_lib; [exact LIB|]. intros pp k w1. apply new_lib. exact LIB.
Qed.

Lemma c110_runs_refuted_proof : forall {obj ty W} (R : Rt obj ty W) wd fuel c pos kw w x w1 p t q f,
  c_unary c = false -> construct R fuel c pos kw w = (Ok x, w1) -> isinstance (rt_py R) x (c_ty c) = true ->
  w_mro wd (type_of (rt_py R) x) = p ++ t :: q -> (forall u, In u p -> w_init wd u = None) -> w_init wd t = Some f ->
  construct_with_init R wd fuel c pos kw w =
    match f x pos kw w1 with (Ok _, w2) => (Ok x, w2) | (Raise e, w2) => (Raise e, w2) end.
Proof.
  intros obj ty W R wd fuel c pos kw w x w1 p t q f HU HC HI HM HN HF.
  assert (N : forall a k w0, new_with_init R wd fuel c a k w0 = new R fuel c a k w0).
  { intros a k w0. destruct fuel as [|n]; [reflexivity|]. destruct a as [a|]; [|reflexivity].
    cbn [new_with_init new]. rewrite HU. reflexivity. }
  assert (G : found (w_init wd) (w_mro wd (type_of (rt_py R) x)) = Some f).
  { unfold found. rewrite HM, (definer_first _ p t q _ HN HF). exact HF. }
  unfold construct_with_init, call_with_init. unfold construct, call_cls in HC.
  destruct (dmem "cls" kw); [discriminate HC|]. unfold bind at 1. unfold bind in HC.
  assert (E : (match pos, dget "arg" kw with
     | Some _, Some _ => raise (mkexc TypeError "multiple values for argument 'arg'")
     | None, Some a => new_with_init R wd fuel c (Some a) (ddel "arg" kw)
     | _, None => new_with_init R wd fuel c pos kw end) w =
    (match pos, dget "arg" kw with
     | Some _, Some _ => raise (mkexc TypeError "multiple values for argument 'arg'")
     | None, Some a => new R fuel c (Some a) (ddel "arg" kw)
     | _, None => new R fuel c pos kw end) w).
  { destruct pos, (dget "arg" kw); try reflexivity; apply N. }
  rewrite E. destruct (_ w) as [[r|e] w2]; [|discriminate HC].
  destruct (isinstance (rt_py R) r (c_ty c) && dmem "self" kw) eqn:S; [discriminate HC|].
  unfold ret at 1 in HC. inversion HC; subst r w2. clear HC. rewrite HI. unfold bind, initialize. rewrite G.
  destruct (f x pos kw w1) as [[u|e] w2]; reflexivity.
Qed.

(** RecordBase is class 50; class 51 is a mixin with an __init__ that keeps a log *)
Definition log_init : @init_fn dobj rstate :=
  fun x _ _ w => (Ok tt, RState (rs_lit w) (rs_heap w) (x :: rs_log w)).
Definition start_world : @world dobj dty rstate :=
  World (fun t => match t with TObject => [TObject] | _ => [t; TObject] end)
        (fun t => match t with TRec 50 => Some base_init | TRec 51 => Some log_init | _ => None end)
        (fun _ => None) (fun _ => None).
Definition int_class (frozen : bool) : @cls dobj dty rstate := made_of (rdecl 0 frozen false None SCheck [("x", (an TInt, NoDefault))] [] no_post).
Definition one_class (frozen : bool) (t : dty) : option (@cls dobj dty rstate) := if dtyb t (TRec 0) then Some (int_class frozen) else None.

Lemma start_ok : start (demo_rt 0) (TRec 50) start_world [TRec 50; TRec 51; TObject].
Proof.
  constructor; [|split; [left; reflexivity|discriminate]|reflexivity].
  intros t [<-|[<-|[<-|[]]]]; (split; [|split; [|eexists; reflexivity]]).
  - exists [TRec 50]. split; [reflexivity|]. intros [H|[]]; discriminate.
  - intros z [<-|[<-|[]]]; cbn; auto.
  - exists [TRec 51]. split; [reflexivity|]. intros [H|[]]; discriminate.
  - intros z [<-|[<-|[]]]; cbn; auto.
  - exists []. split; [reflexivity|]. intros [].
  - intros z [<-|[]]; cbn; auto.
Qed.

Lemma c110_own_refuted_proof : exists ss wd known s c x w,
  program (demo_rt 0) (one_class false) (TRec 50) ss wd known /\ In (s, true) ss /\ In "__init__" (own_warnings s) /\
  make_class rt0 (rdecl 0 false false None SCheck [("x", (an TInt, NoDefault))] [] no_post) = Ok c /\ c_ty c = m_ty s /\
  construct_with_init (demo_rt 0) wd 1 c None [("x", DInt 1)] w0 = (Ok x, w) /\ rs_log w = [x].
Proof.
  exists [(Stmt (TRec 0) [TRec 50] [TRec 50; TObject] false (Some log_init) None None, true)], (declare (demo_rt 0) (one_class false) (Stmt (TRec 0) [TRec 50] [TRec 50; TObject] false (Some log_init) None None) start_world), [TRec 0; TRec 50; TRec 51; TObject].
  exists (Stmt (TRec 0) [TRec 50] [TRec 50; TObject] false (Some log_init) None None), (int_class false). do 2 eexists.
  split; [|split; [left; reflexivity|split; [left; reflexivity|split; [reflexivity|split; [reflexivity|split; reflexivity]]]]].
  refine (program_record (demo_rt 0) _ (TRec 50) [] start_world _ _ (program_start _ _ _ _ _ start_ok) _ _); [|left; reflexivity].
  split; [cbn; intuition discriminate|]. split; [discriminate|]. split; [discriminate|]. split; [intros b [<-|[]]; left; reflexivity|].
  unfold linearised. cbn [m_bases map app m_rest start_world w_mro].
  apply merges_take; [eexists; left; reflexivity|intros l [<-|[<-|[]]]; cbn; intuition discriminate|]. cbn.
  apply merges_take; [eexists; left; reflexivity|intros l [<-|[<-|[]]]; cbn; intuition discriminate|]. cbn.
  apply merges_done. intros l [<-|[<-|[]]]; reflexivity.
Qed.

Lemma c110_parent_refuted_proof : exists ss wd known s c x w,
  program (demo_rt 0) (one_class false) (TRec 50) ss wd known /\ In (s, true) ss /\
  own_warnings s = [] /\ parents_warning (demo_rt 0) (TRec 50) start_world s = true /\
  make_class rt0 (rdecl 0 false false None SCheck [("x", (an TInt, NoDefault))] [] no_post) = Ok c /\ c_ty c = m_ty s /\
  construct_with_init (demo_rt 0) wd 1 c None [("x", DInt 1)] w0 = (Ok x, w) /\ rs_log w = [x].
Proof.
  exists [(Stmt (TRec 0) [TRec 51; TRec 50] [TRec 51; TRec 50; TObject] false None None None, true)], (declare (demo_rt 0) (one_class false) (Stmt (TRec 0) [TRec 51; TRec 50] [TRec 51; TRec 50; TObject] false None None None) start_world), [TRec 0; TRec 50; TRec 51; TObject].
  exists (Stmt (TRec 0) [TRec 51; TRec 50] [TRec 51; TRec 50; TObject] false None None None), (int_class false). do 2 eexists.
  split; [|split; [left; reflexivity|split; [reflexivity|split; [reflexivity|split; [reflexivity|split; [reflexivity|split; reflexivity]]]]]].
  refine (program_record (demo_rt 0) _ (TRec 50) [] start_world _ _ (program_start _ _ _ _ _ start_ok) _ _); [|right; left; reflexivity].
  split; [cbn; intuition discriminate|]. split; [discriminate|]. split; [discriminate|]. split; [intros b [<-|[<-|[]]]; cbn; auto|].
  unfold linearised. cbn [m_bases map app m_rest start_world w_mro].
  apply merges_take; [eexists; left; reflexivity|intros l [<-|[<-|[<-|[]]]]; cbn; intuition discriminate|]. cbn.
  apply merges_take; [eexists; right; left; reflexivity|intros l [<-|[<-|[<-|[]]]]; cbn; intuition discriminate|]. cbn.
  apply merges_take; [eexists; left; reflexivity|intros l [<-|[<-|[<-|[]]]]; cbn; intuition discriminate|]. cbn.
  apply merges_done. intros l [<-|[<-|[<-|[]]]]; reflexivity.
Qed.

Lemma c112_subclass_refuted_proof : exists ss wd known s s' x w v,
  program (demo_rt 0) (one_class true) (TRec 50) ss wd known /\ In (s, false) ss /\ In (s', false) ss /\
  m_frozen s = true /\ m_bases s' = [m_ty s] /\ isinstance rt0 x (m_ty s) = true /\
  type_of rt0 x = m_ty s' /\ (exists i, lookup (demo_rt 0) w x = Some i /\ dget "x" (i_dict i) = Some (DInt 1)) /\
  (exists w', assign (demo_rt 0) wd x "x" v w = (Ok tt, w') /\
     exists i, lookup (demo_rt 0) w' x = Some i /\ dget "x" (i_dict i) = Some (DInt 2)) /\
  fst (hash_of (demo_rt 0) wd x w) = Raise (mkexc TypeError "unhashable type").
Proof.
  pose (s1 := Stmt (TRec 0) [TRec 50] [TRec 50; TObject] true None None None : @stmt dobj dty rstate).
  pose (s2 := Stmt (TRec 100) [TRec 0] [TRec 0; TRec 50; TObject] false None None None : @stmt dobj dty rstate).
  pose (wd1 := declare (demo_rt 0) (one_class true) s1 start_world).
  assert (P1 : program (demo_rt 0) (one_class true) (TRec 50) [(s1, false)] wd1 [TRec 0; TRec 50; TRec 51; TObject]).
  { refine (program_record (demo_rt 0) _ (TRec 50) [] start_world _ s1 (program_start _ _ _ _ _ start_ok) _ _); [|left; reflexivity].
    split; [cbn; intuition discriminate|]. split; [discriminate|]. split; [discriminate|]. split; [intros b [<-|[]]; left; reflexivity|].
    unfold linearised. cbn [m_bases map app m_rest start_world w_mro s1].
    apply merges_take; [eexists; left; reflexivity|intros l [<-|[<-|[]]]; cbn; intuition discriminate|]. cbn.
    apply merges_take; [eexists; left; reflexivity|intros l [<-|[<-|[]]]; cbn; intuition discriminate|]. cbn.
    apply merges_done. intros l [<-|[<-|[]]]; reflexivity. }
  exists [(s2, false); (s1, false)], (declare (demo_rt 0) (one_class true) s2 wd1), [TRec 100; TRec 0; TRec 50; TRec 51; TObject], s1, s2,
    (DRef (TRec 100) 0), (RState [] [Inst (TRec 100) [("x", DInt 1)] SNone] []), (DInt 2).
  split.
  { refine (program_record (demo_rt 0) _ (TRec 50) _ wd1 _ s2 P1 _ _); [|right; left; reflexivity].
    split; [cbn; intuition discriminate|]. split; [discriminate|]. split; [discriminate|]. split; [intros b [<-|[]]; left; reflexivity|].
    unfold linearised.
    change (merges (demo_rt 0) [[TRec 0; TRec 50; TObject]; [TRec 0]] [TRec 0; TRec 50; TObject]).
    apply merges_take; [eexists; left; reflexivity|intros l [<-|[<-|[]]]; cbn; intuition discriminate|]. cbn.
    apply merges_take; [eexists; left; reflexivity|intros l [<-|[<-|[]]]; cbn; intuition discriminate|]. cbn.
    apply merges_take; [eexists; left; reflexivity|intros l [<-|[<-|[]]]; cbn; intuition discriminate|]. cbn.
    apply merges_done. intros l [<-|[<-|[]]]; reflexivity. }
  split; [right; left; reflexivity|]. split; [left; reflexivity|]. split; [reflexivity|]. split; [reflexivity|]. split; [reflexivity|].
  split; [reflexivity|]. split; [eexists; split; reflexivity|]. split; [|reflexivity].
  eexists. split; [reflexivity|]. eexists. split; reflexivity.
Qed.
