(** Keyed_main.v -- proofs of the properties stated in Props_Keyed.v: frozen records as keys of dicts and members of sets (records/record.py:281-289, 411-420) *)

From Verif Require Import Base Py Select Filler Spec_Filler Classes Spec_Classes Runtime Record Spec_Record Spec_Inst Spec_Hist Keyed Spec_Keyed Demo DemoRt DemoCls.
From Verif Require Dict_proofs Filler_proofs Classes_proofs Record_proofs Classes_main Inst_proofs Inst_main Record_inv Hist_proofs Hist_main.
Open Scope string_scope.
Open Scope list_scope.

Import Dict_proofs Record_proofs Classes_main Inst_proofs Inst_main Record_inv Hist_proofs.

Section Steady.
Context {obj ty W : Type} (R : Rt obj ty W) (ctx : ty -> option (@cls obj ty W)).
Notation K := (steady R ctx).
Lemma steady_refl : forall w, K w w.
Proof. intro w. split; [apply frozen_kept_refl|apply hashes_kept_refl]. Qed.
Lemma steady_trans : forall a b c, K a b -> K b c -> K a c.
Proof. intros a b c [A B] [A' B']. split; [eapply frozen_kept_trans|eapply hashes_kept_trans]; eassumption. Qed.
Lemma steady_heap : forall w w', heap R w' = heap R w -> K w w'.
Proof. intros w w' H. split; [apply frozen_kept_heap|apply hashes_kept_heap]; assumption. Qed.
Lemma steady_hash : hash_sat R ctx (keeping K).
Proof.
  intros w x i c w1 j z HL HC HF HH [HA HB] HJ. split.
  - exact (frozen_kept_hash R ctx w x i c w1 j z HL HC HF HH HA HJ).
  - exact (hashes_kept_hash R ctx w x i c w1 j z HL HC HF HH HB HJ).
Qed.
Lemma steady_history : program_obeys R (keeping K) ctx ->
  forall l w, (forall a, In a l -> allowed ctx K a /\ no_hash_assignment a) -> K w (after_all R ctx l w).
Proof.
  intros HP l w HA. apply (after_all_kept R ctx K); try assumption.
  - apply steady_refl.
  - apply steady_trans.
  - apply steady_heap.
  - intros c vs w0. split; [apply frozen_kept_alloc|apply hashes_kept_alloc].
  - apply steady_hash.
  - intros a HI. destruct (HA a HI) as [A B]. split; [exact A|]. destruct a; try exact I. intro w0. split; [apply frozen_kept_set|apply hashes_kept_set; exact B].
Qed.
End Steady.

Section Keys.
Context {obj ty W : Type} (R : Rt obj ty W) (ctx : ty -> option (@cls obj ty W)) {V : Type}.
Context (D : obj -> Prop) (eqb : obj -> obj -> bool) (hf : obj -> Z).
Hypothesis HE : has_eq R D eqb.
Hypothesis HQ : equivalence D eqb.
Hypothesis HC : hash_contract D eqb hf.
Notation P := (rt_py R).
Notation cls := (@cls obj ty W).
Notation inst := (inst obj ty).
Notation content := (@content obj ty W).
Notation equal := (@equal obj ty W eqb).
Notation held := (@held obj ty W V eqb).
Notation table := (@table obj V).

Definition proper (q : content) : Prop :=
  made P (fst q) /\ c_frozen (fst q) = true /\ defaults_in D (fst q) /\ ctx (c_ty (fst q)) = Some (fst q) /\ i_cls (snd q) = c_ty (fst q) /\
  (forall k, In k (keys (c_fields (fst q))) -> exists v, dget k (i_dict (snd q)) = Some v) /\
  values_in D (fst q) (snd q) /\ hashable R hf (fst q) (snd q).
Definition chash (q : content) : Z := content_hash R eqb hf (fst q) (snd q).
(** [k] has the content [q] and its hash has been computed *)
Definition hashed (w : W) (k : obj) (q : content) : Prop :=
  proper q /\ type_of P k = c_ty (fst q) /\
  exists j, lookup R w k = Some j /\ i_cls j = i_cls (snd q) /\ i_dict j = i_dict (snd q) /\ i_hash j = SHash (chash q).

Lemma is_key_proper : forall c w x i, is_key R ctx D eqb hf c w x i -> proper (c, i).
Proof.
  intros c w x i (HM & HF & HD & HI & HV & HH & _). destruct HI as (A & _ & B & _ & F). unfold proper. cbn [fst snd]. tauto.
Qed.
Lemma proper_class : forall p q, proper p -> proper q -> i_cls (snd p) = i_cls (snd q) -> fst p = fst q.
Proof. intros p q (_ & _ & _ & A & B & _) (_ & _ & _ & A' & B' & _) E. rewrite B, B' in E. rewrite E in A. congruence. Qed.
Lemma equal_refl : forall p, proper p -> equal p p.
Proof.
  intros [c i] (_ & _ & _ & _ & _ & _ & HV & _). split; [reflexivity|]. intros k a b HK HA HB. cbn [fst snd] in *.
  assert (a = b) by congruence. subst. apply (proj1 HQ). eapply HV; eassumption.
Qed.
Lemma equal_sym : forall p q, proper p -> proper q -> equal p q -> equal q p.
Proof.
  intros [c i] [c' j] HP HP' [E HF]. pose proof (proper_class _ _ HP HP' E) as EC. cbn [fst] in EC. subst c'. split; [symmetry; exact E|].
  destruct HP as (_ & _ & _ & _ & _ & _ & HV & _). destruct HP' as (_ & _ & _ & _ & _ & _ & HV' & _). cbn [fst snd] in *.
  intros k a b HK HA HB. apply (proj1 (proj2 HQ)); [eapply HV; eassumption|eapply HV'; eassumption|]. eapply HF; eassumption.
Qed.
Lemma equal_trans : forall p q r, proper p -> proper q -> proper r -> equal p q -> equal q r -> equal p r.
Proof.
  intros [c i] [c' j] [c'' l] HP HP' HP'' [E HF] [E' HF'].
  pose proof (proper_class _ _ HP HP' E) as EC. pose proof (proper_class _ _ HP' HP'' E') as EC'. cbn [fst] in EC, EC'. subst c' c''.
  split; [congruence|]. destruct HP as (_ & _ & _ & _ & _ & _ & HV & _). destruct HP' as (_ & _ & _ & _ & _ & F & HV' & _).
  destruct HP'' as (_ & _ & _ & _ & _ & _ & HV'' & _). cbn [fst snd] in *.
  intros k a b HK HA HB. destruct (F k HK) as [m EM]. destruct HQ as (_ & _ & T). apply (T a m b); try (eapply HV; eassumption); try (eapply HV'; eassumption); try (eapply HV''; eassumption).
  - eapply HF; eassumption.
  - eapply HF'; eassumption.
Qed.
Lemma equal_hash : forall p q, proper p -> proper q -> equal p q -> chash p = chash q.
Proof.
  intros [c i] [c' j] HP HP' [E HF]. pose proof (proper_class _ _ HP HP' E) as EC. cbn [fst] in EC. subst c'.
  destruct HP as (HM & _ & HD & _ & _ & F & HV & _). destruct HP' as (_ & _ & _ & _ & _ & F' & HV' & _). cbn [fst snd] in *.
  apply (fieldwise_exported R D eqb); try assumption. apply (made_named R) in HM. apply HM.
Qed.

Lemma hash_hashed : forall w k q, hashed w k q -> record_hash R ctx k w = (Ok (chash q), w).
Proof.
  intros w k q ((_ & HF & _ & HX & HT & _) & _ & j & HL & EC & _ & EH). unfold record_hash. rewrite HL, EC, HT, HX, HF, EH. reflexivity.
Qed.

(** == of keys whose hashes are known: fields are compared, nothing changes *)
Lemma eq_hashed : forall w x p y q, hashed w x p -> hashed w y q ->
  exists b, record_eq R ctx x y w = (Ok b, w) /\ (b = true <-> equal p q).
Proof.
  intros w x p y q HX HY. pose proof (hash_hashed _ _ _ HX) as H1. pose proof (hash_hashed _ _ _ HY) as H2.
  pose proof HX as (PP & TX & i & LX & CX & DX & SX). pose proof HY as (PQ & TY & j & LY & CY & DY & SY).
  pose proof PP as (HM & HF & HD & HCX & HT & F & HV & HH). pose proof PQ as (HM' & HF' & HD' & HCX' & HT' & F' & HV' & HH').
  unfold record_eq, with_class. unfold class_of. rewrite LX, CX, HT, HCX, TX, TY.
  destruct (ty_eqP P (c_ty (fst p)) (c_ty (fst q))) as [ET|NT]; cbn [negb].
  - assert (EC : fst p = fst q) by (apply proper_class; congruence). rewrite HF. unfold bind. rewrite H1, H2. cbn [ret].
    destruct (Z.eqb_spec (chash p) (chash q)) as [EZ|NZ]; cbn [negb].
    + destruct p as [c i0], q as [c' j0]. cbn [fst snd] in *. subst c'.
      destruct (fields_equal_pure R D eqb HE c x y i0 j0 w) as (b & EB & HB); eauto.
      exists b. split; [exact EB|]. rewrite HB. unfold Spec_Keyed.equal. cbn [fst snd]. split; [intro; split; [congruence|assumption]|tauto].
    + exists false. split; [reflexivity|]. split; [discriminate|]. intro E. exfalso. apply NZ. apply equal_hash; assumption.
  - exists false. split; [reflexivity|]. split; [discriminate|]. intros [E _]. congruence.
Qed.

(** ** The entries of the dict *)
Definition entry := ((Z * (obj * V)) * content)%type.
Definition stored (w : W) (a : entry) : Prop := hashed w (fst (snd (fst a))) (snd a) /\ fst (fst a) = chash (snd a).
Definition val (a : entry) : V := snd (snd (fst a)).

Lemma find_spec : forall w k q, hashed w k q -> forall tp, Forall (stored w) tp ->
  exists n, find R ctx (map fst tp) (chash q) k w = (Ok n, w) /\
    match n with
    | Some m => exists a, nth_error tp m = Some a /\ equal (snd a) q
    | None => forall a, In a tp -> ~ equal (snd a) q
    end.
Proof.
  intros w k q HK tp HS. induction HS as [|[[h [k' v]] p] r HA HR IH]; [exists None; split; [reflexivity|intros a []]|].
  destruct HA as [HA EH]. cbn [fst snd] in HA, EH. destruct IH as (n & EN & HN). cbn [map fst find]. subst h.
  assert (NEXT : ~ equal p q -> exists n0, (let* n := find R ctx (map fst r) (chash q) k in ret (option_map S n)) w = (Ok n0, w) /\
     match n0 with
     | Some m => exists a, nth_error (((chash p, (k', v)), p) :: r) m = Some a /\ equal (snd a) q
     | None => forall a, In a (((chash p, (k', v)), p) :: r) -> ~ equal (snd a) q
     end).
  { intro NE. unfold bind. rewrite EN. exists (option_map S n). split; [reflexivity|]. destruct n as [m|]; cbn.
    - exact HN.
    - intros a [<-|HI]; [exact NE|apply HN; exact HI]. }
  destruct (Z.eqb_spec (chash p) (chash q)) as [EZ|NZ].
  - destruct (py_isP P k' k) as [->|NK].
    + exists (Some 0). split; [reflexivity|]. eexists. split; [reflexivity|]. cbn [snd].
      destruct HA as (PP & _ & i & L & C & DD & _). destruct HK as (PQ & _ & j & L' & C' & DD' & _). assert (i = j) by congruence. subst j.
      assert (E : i_cls (snd p) = i_cls (snd q)) by congruence. split; [exact E|].
      intros k0 a b HI HAA HBB. rewrite <- DD in HAA. rewrite <- DD' in HBB. assert (a = b) by congruence. subst b.
      apply (proj1 HQ). destruct PP as (_ & _ & _ & _ & _ & _ & HV & _). eapply HV; [exact HI|]. congruence.
    + destruct (eq_hashed w k' p k q HA HK) as (b & EB & HB). unfold bind at 1. rewrite EB. destruct b.
      * exists (Some 0). split; [reflexivity|]. eexists. split; [reflexivity|]. cbn. apply HB. reflexivity.
      * apply NEXT. intro E. apply HB in E. discriminate.
  - apply NEXT. intro E. apply NZ. apply equal_hash; [apply HA|apply HK|exact E].
Qed.

(** hashing the key that is looked for *)
Lemma hash_key : forall c w k i, is_key R ctx D eqb hf c w k i ->
  exists w1, record_hash R ctx k w = (Ok (chash (c, i)), w1) /\ hashed w1 k (c, i) /\ steady R ctx w w1.
Proof.
  intros c w k i HK. pose proof (is_key_proper _ _ _ _ HK) as HP. pose proof HK as (HM & HF & HD & HI & HV & HH & HCO).
  pose proof (made_named R c HM) as HN. pose proof HI as (HX & HL & HT & TX & FI).
  destruct (record_hash_content R ctx D eqb hf HE c w k i HN HF HD HI HV HH HCO) as (w1 & E1 & KEEP).
  exists w1. split; [exact E1|].
  assert (HJ : exists j, lookup R w1 k = Some j /\ i_cls j = i_cls i /\ i_dict j = i_dict i /\ i_hash j = SHash (chash (c, i))).
  { destruct (KEEP k i HL) as (j & A & B & C & H4). exists j. split; [exact A|]. split; [exact B|]. split; [exact C|].
    destruct H4 as [H4|[_ H4]]; [|exact H4]. rewrite H4.
    destruct (cache_ok_content R eqb hf c i (proj1 HN) HCO) as [E|E]; [|exact E]. exfalso.
    unfold record_hash in E1. rewrite HL, HT, HX, HF, E in E1. cbn [negb] in E1.
    unfold bind in E1. destruct (to_dict R ctx k no_args sel_empty w) as [[d|e] w2] eqn:ED; [|discriminate].
    destruct (mapM (v_hash R) (dvalues d) w2) as [[hs|e] w3]; [|discriminate]. injection E1 as _ E1.
    destruct (lookup R w3 k) as [j3|] eqn:L3.
    - rewrite <- E1, (lookup_store_deref R k k _ _ _ eq_refl L3) in A. injection A as <-. cbn in H4. congruence.
    - subst w3. congruence. }
  split.
  - split; [exact HP|]. split; [exact TX|]. exact HJ.
  - split.
    + intros y j c' LY _ _. destruct (KEEP y j LY) as (j' & A & B & C & _). exists j'. auto.
    + intros y j LY. destruct (KEEP y j LY) as (j' & A & B & C & H4). exists j'. split; [exact A|]. split; [exact B|].
      intros z EZ. destruct H4 as [H4|[-> H4]]; [congruence|]. rewrite H4.
      destruct (cache_ok_content R eqb hf c i (proj1 HN) HCO) as [E|E]; congruence.
Qed.

Lemma hashed_steady : forall w w' k q, steady R ctx w w' -> hashed w k q -> hashed w' k q.
Proof.
  intros w w' k q [SF SH] (HP & HT & j & L & C & DD & H). split; [exact HP|]. split; [exact HT|].
  pose proof HP as (_ & HF & _ & HX & HTY & _).
  destruct (SF k j (fst q) L) as (j1 & L1 & C1 & D1); [congruence|exact HF|].
  destruct (SH k j L) as (j2 & L2 & C2 & H2). assert (j1 = j2) by congruence. subst j2.
  exists j1. split; [exact L1|]. split; [congruence|]. split; [congruence|]. apply H2. exact H.
Qed.
Lemma stored_steady : forall w w' tp, steady R ctx w w' -> Forall (stored w) tp -> Forall (stored w') tp.
Proof. intros w w' tp HS HA. eapply Forall_impl; [|exact HA]. intros a [H1 H2]. split; [eapply hashed_steady; eassumption|exact H2]. Qed.

(** ** The invariant *)
Definition inv (past : list event) (t : table) (w : W) : Prop :=
  exists tp, t = map fst tp /\ Forall (stored w) tp /\
    (forall n m a b, nth_error tp n = Some a -> nth_error tp m = Some b -> equal (snd a) (snd b) -> n = m) /\
    forall q, proper q ->
      (forall a, In a tp -> equal (snd a) q -> held q past (Some (val a))) /\
      ((forall a, In a tp -> ~ equal (snd a) q) -> held q past None).

Lemma inv_steady : forall past t w w', steady R ctx w w' -> inv past t w -> inv past t w'.
Proof. intros past t w w' HS (tp & A & B & C & E). exists tp. split; [exact A|]. split; [eapply stored_steady; eassumption|]. auto. Qed.

Lemma look : forall past t w c k i, inv past t w -> is_key R ctx D eqb hf c w k i ->
  exists w1 tp n, record_hash R ctx k w = (Ok (chash (c, i)), w1) /\ steady R ctx w w1 /\ hashed w1 k (c, i) /\
    t = map fst tp /\ Forall (stored w1) tp /\
    (forall n m a b, nth_error tp n = Some a -> nth_error tp m = Some b -> equal (snd a) (snd b) -> n = m) /\
    (forall q, proper q ->
      (forall a, In a tp -> equal (snd a) q -> held q past (Some (val a))) /\
      ((forall a, In a tp -> ~ equal (snd a) q) -> held q past None)) /\
    find R ctx t (chash (c, i)) k w1 = (Ok n, w1) /\
    match n with
    | Some m => exists a, nth_error tp m = Some a /\ equal (snd a) (c, i)
    | None => forall a, In a tp -> ~ equal (snd a) (c, i)
    end.
Proof.
  intros past t w c k i (tp & A & B & C & E) HK. destruct (hash_key c w k i HK) as (w1 & E1 & H1 & S1).
  assert (B1 : Forall (stored w1) tp) by (eapply stored_steady; eassumption).
  destruct (find_spec w1 k (c, i) H1 tp B1) as (n & EN & HN). exists w1, tp, n. subst t. auto 12.
Qed.
Lemma nth_map : forall {A B} (f : A -> B) l n, nth_error (map f l) n = option_map f (nth_error l n).
Proof. intros A B f l. induction l as [|a r IH]; intros [|n]; cbn; auto. Qed.
Lemma split_at : forall {A} (l : list A) n a, nth_error l n = Some a -> l = firstn n l ++ a :: skipn (S n) l.
Proof. intros A l. induction l as [|b r IH]; intros [|n] a H; cbn in *; try discriminate; [congruence|]. f_equal. apply IH. exact H. Qed.

Lemma get_spec : forall past t w c k i, inv past t w -> is_key R ctx D eqb hf c w k i ->
  exists o w1, get R ctx t k w = (Ok o, w1) /\ steady R ctx w w1 /\ held (c, i) past o.
Proof.
  intros past t w c k i HI HK. destruct (look past t w c k i HI HK) as (w1 & tp & n & E1 & S1 & H1 & ET & B & C & E & EN & HN).
  pose proof (is_key_proper _ _ _ _ HK) as HP. destruct (E (c, i) HP) as [EA EB].
  unfold get, bind. rewrite E1, EN. eexists. exists w1. split; [reflexivity|]. split; [exact S1|].
  destruct n as [m|].
  - destruct HN as (a & NA & QA). rewrite ET, nth_map, NA. cbn. apply EA; [eapply nth_error_In; exact NA|exact QA].
  - apply EB. exact HN.
Qed.

Definition uniq (tp : list entry) : Prop :=
  forall n m a b, nth_error tp n = Some a -> nth_error tp m = Some b -> equal (snd a) (snd b) -> n = m.
Lemma uniq_elsewhere : forall tp m a, Forall (fun b => proper (snd b)) tp -> uniq tp -> nth_error tp m = Some a ->
  forall b, In b (firstn m tp ++ skipn (S m) tp) -> In b tp /\ ~ equal (snd a) (snd b).
Proof.
  intros tp m a HP HU HA b HB. pose proof (split_at tp m a HA) as SP.
  assert (LM : List.length (firstn m tp) = m).
  { apply firstn_length_le. apply Nat.lt_le_incl. apply nth_error_Some. congruence. }
  assert (IB : In b tp). { rewrite SP. apply in_or_app. apply in_app_or in HB. destruct HB; [left|right; right]; assumption. }
  split; [exact IB|]. intro EQ. apply in_app_or in HB. destruct HB as [HB|HB].
  - apply In_nth_error in HB. destruct HB as [n HB]. assert (n < m) by (rewrite <- LM; apply nth_error_Some; congruence).
    assert (HB' : nth_error tp n = Some b) by (rewrite SP, nth_error_app1; [exact HB|rewrite LM; assumption]).
    pose proof (HU m n a b HA HB' EQ). lia.
  - apply In_nth_error in HB. destruct HB as [n HB].
    assert (HB' : nth_error tp (m + S n) = Some b).
    { rewrite SP, nth_error_app2 by (rewrite LM; lia). rewrite LM. replace (m + S n - m) with (S n) by lia. exact HB. }
    pose proof (HU m (m + S n) a b HA HB' EQ). lia.
Qed.
Lemma stored_proper : forall w tp, Forall (stored w) tp -> Forall (fun b => proper (snd b)) tp.
Proof. intros w tp H. eapply Forall_impl; [|exact H]. intros a [[A _] _]. exact A. Qed.
Lemma stored_in : forall w tp b, Forall (stored w) tp -> In b tp -> proper (snd b).
Proof. intros w tp b H HI. rewrite Forall_forall in H. destruct (H b HI) as [[A _] _]. exact A. Qed.

(** equality of contents is decidable *)
Lemma equal_dec : forall p q, proper p -> equal p q \/ ~ equal p q.
Proof.
  intros p q HP. unfold Spec_Keyed.equal.
  destruct (ty_eqP P (i_cls (snd p)) (i_cls (snd q))) as [ET|NT]; [|right; intros [A _]; contradiction].
  assert (X : forall ks, (forall k a b, In k ks -> dget k (i_dict (snd p)) = Some a -> dget k (i_dict (snd q)) = Some b -> eqb a b = true) \/
     ~ (forall k a b, In k ks -> dget k (i_dict (snd p)) = Some a -> dget k (i_dict (snd q)) = Some b -> eqb a b = true)).
  { induction ks as [|k r IH]; [left; intros k a b []|].
    destruct (dget k (i_dict (snd p))) as [a|] eqn:EA; [|destruct IH as [IH|IH]; [left; intros k' a b [<-|HI] HA HB; [congruence|eapply IH; eassumption]|right; intro H; apply IH; intros k' a b HI; apply H; right; exact HI]].
    destruct (dget k (i_dict (snd q))) as [b|] eqn:EB; [|destruct IH as [IH|IH]; [left; intros k' a' b [<-|HI] HA HB; [congruence|eapply IH; eassumption]|right; intro H; apply IH; intros k' a' b HI; apply H; right; exact HI]].
    destruct (eqb a b) eqn:EQ.
    - destruct IH as [IH|IH]; [left; intros k' a' b' [<-|HI] HA HB; [congruence|eapply IH; eassumption]|right; intro H; apply IH; intros k' a' b' HI; apply H; right; exact HI].
    - right. intro H. specialize (H k a b (or_introl eq_refl) EA EB). congruence. }
  destruct (X (keys (c_fields (fst p)))) as [A|A]; [left; split; [exact ET|exact A]|right; intros [_ B]; apply A; exact B].
Qed.

Lemma put_spec : forall past t w c k i v, inv past t w -> is_key R ctx D eqb hf c w k i ->
  exists t' w1, put R ctx t k v w = (Ok t', w1) /\ steady R ctx w w1 /\ inv (EPut (c, i) v :: past) t' w1.
Proof.
  intros past t w c k i v HI HK. destruct (look past t w c k i HI HK) as (w1 & tp & n & E1 & S1 & H1 & ET & B & C & E & EN & HN).
  pose proof (is_key_proper _ _ _ _ HK) as HP.
  unfold put, bind. rewrite E1, EN. eexists. exists w1. split; [reflexivity|]. split; [exact S1|].
  destruct n as [m|].
  - destruct HN as ([[h' [k' v']] p] & NA & QA). cbn [snd] in QA. rewrite ET, nth_map, NA. cbn [option_map fst].
    set (new := ((h', (k', v)), p) : entry). exists (firstn m tp ++ new :: skipn (S m) tp).
    pose proof (uniq_elsewhere tp m _ (stored_proper _ _ B) C NA) as UE. pose proof (split_at tp m _ NA) as SP.
    assert (HPP : proper p) by (apply (stored_in w1 tp _ B (nth_error_In _ _ NA))).
    split; [rewrite map_app, firstn_map; cbn [map fst new]; rewrite skipn_map; reflexivity|]. split; [|split].
    + rewrite SP in B. apply Forall_app in B. destruct B as [B1 B2]. inversion B2 as [|? ? B3 B4]; subst. apply Forall_app. split; [exact B1|].
      constructor; [|exact B4]. exact B3.
    + assert (SN : forall n, option_map snd (nth_error (firstn m tp ++ new :: skipn (S m) tp) n) = option_map snd (nth_error tp n)).
      { intro n. rewrite <- !nth_map. f_equal. rewrite SP at 3. rewrite !map_app. reflexivity. }
      intros n1 n2 a b HA HB EQ. pose proof (SN n1) as X1. pose proof (SN n2) as X2. rewrite HA in X1. rewrite HB in X2.
      destruct (nth_error tp n1) as [a'|] eqn:EA; [|discriminate]. destruct (nth_error tp n2) as [b'|] eqn:EB; [|discriminate].
      injection X1 as X1. injection X2 as X2. apply (C n1 n2 a' b' EA EB). congruence.
    + intros q PQ. destruct (E q PQ) as [EA EB]. split.
      * intros a HA QA'. apply in_app_or in HA.
        assert (CASE : a = new \/ In a (firstn m tp ++ skipn (S m) tp)).
        { destruct HA as [HA|[HA|HA]]; [right; apply in_or_app; left; exact HA|left; auto|right; apply in_or_app; right; exact HA]. }
        destruct CASE as [->|HA']; [apply held_put; cbn [snd new] in QA'; apply (equal_trans (c, i) p q); auto; apply equal_sym; auto|].
        destruct (UE a HA') as [IA NE]. apply held_before; [|apply EA; assumption]. cbn [about]. intro Q. apply NE. cbn [snd].
        assert (PA : proper (snd a)) by (eapply stored_in; eassumption).
        apply (equal_trans p q (snd a)); auto; [|apply equal_sym; auto]. apply (equal_trans p (c, i) q); auto.
      * intro NO. assert (NQ : ~ equal p q). { apply (NO new). apply in_or_app. right. left. reflexivity. }
        apply held_before; [|apply EB; intros a IA Q].
        -- cbn [about]. intro Q. apply NQ. apply (equal_trans p (c, i) q); auto.
        -- rewrite SP in IA. apply in_app_or in IA. destruct IA as [IA|[<-|IA]]; [|contradiction|]; refine (NO a _ Q); apply in_or_app; [left|right; right]; exact IA.
  - exists (tp ++ [((chash (c, i), (k, v)), (c, i))]). split; [rewrite map_app, ET; reflexivity|]. split; [|split].
    + apply Forall_app. split; [exact B|]. constructor; [|constructor]. split; [exact H1|reflexivity].
    + assert (LAST : forall n a, nth_error (tp ++ [((chash (c, i), (k, v)), (c, i))]) n = Some a ->
        nth_error tp n = Some a \/ n = List.length tp /\ snd a = (c, i)).
      { intros n a HA. destruct (Nat.lt_ge_cases n (List.length tp)) as [LT|GE].
        - left. rewrite nth_error_app1 in HA by exact LT. exact HA.
        - rewrite nth_error_app2 in HA by exact GE. destruct (n - List.length tp) as [|[|]] eqn:EX; try discriminate. injection HA as <-. right. split; [lia|reflexivity]. }
      intros n1 n2 a b HA HB EQ. destruct (LAST n1 a HA) as [HA'|[-> SA]]; destruct (LAST n2 b HB) as [HB'|[-> SB]].
      * apply (C n1 n2 a b HA' HB' EQ).
      * exfalso. rewrite SB in EQ. exact (HN a (nth_error_In _ _ HA') EQ).
      * exfalso. rewrite SA in EQ. apply (HN b (nth_error_In _ _ HB')). apply equal_sym; auto. eapply stored_in; [exact B|]. eapply nth_error_In. exact HB'.
      * reflexivity.
    + intros q PQ. destruct (E q PQ) as [EA EB]. split.
      * intros a HA QA'. apply in_app_or in HA. destruct HA as [HA|[<-|[]]].
        -- apply held_before; [|apply EA; assumption]. cbn [about]. intro Q. apply (HN a HA).
           assert (PA : proper (snd a)) by (eapply stored_in; eassumption).
           apply (equal_trans (snd a) q (c, i)); auto. apply equal_sym; auto.
        -- cbn [snd] in QA'. apply held_put. exact QA'.
      * intro NO. apply held_before; [cbn [about]; intro Q|].
        -- refine (NO ((chash (c, i), (k, v)), (c, i)) _ Q). apply in_or_app. right. left. reflexivity.
        -- apply EB. intros a HA. apply NO. apply in_or_app. left. exact HA.
Qed.

Lemma pop_spec : forall past t w c k i, inv past t w -> is_key R ctx D eqb hf c w k i ->
  exists o t' w1, pop R ctx t k w = (Ok (o, t'), w1) /\ steady R ctx w w1 /\ held (c, i) past o /\ inv (EPop (c, i) :: past) t' w1.
Proof.
  intros past t w c k i HI HK. destruct (look past t w c k i HI HK) as (w1 & tp & n & E1 & S1 & H1 & ET & B & C & E & EN & HN).
  pose proof (is_key_proper _ _ _ _ HK) as HP. destruct (E (c, i) HP) as [EA0 EB0].
  unfold pop, bind. rewrite E1, EN.
  destruct n as [m|].
  - destruct HN as ([[h' [k' v']] p] & NA & QA). cbn [snd] in QA. rewrite ET, nth_map, NA. cbn [option_map fst].
    eexists. eexists. exists w1. split; [reflexivity|]. split; [exact S1|].
    split; [exact (EA0 _ (nth_error_In _ _ NA) QA)|].
    exists (firstn m tp ++ skipn (S m) tp).
    pose proof (uniq_elsewhere tp m _ (stored_proper _ _ B) C NA) as UE. pose proof (split_at tp m _ NA) as SP.
    assert (HPP : proper p) by (apply (stored_in w1 tp _ B (nth_error_In _ _ NA))).
    assert (LM : List.length (firstn m tp) = m).
    { apply firstn_length_le. apply Nat.lt_le_incl. apply nth_error_Some. congruence. }
    split; [rewrite map_app, firstn_map, skipn_map; reflexivity|]. split; [|split].
    + rewrite SP in B. apply Forall_app in B. destruct B as [B1 B2]. inversion B2 as [|? ? B3 B4]; subst. apply Forall_app. split; assumption.
    + assert (POS : forall n a, nth_error (firstn m tp ++ skipn (S m) tp) n = Some a ->
        nth_error tp (if Nat.ltb n m then n else S n) = Some a).
      { intros n a HA. destruct (Nat.ltb_spec n m) as [LT|GE].
        - rewrite nth_error_app1 in HA by lia. rewrite SP, nth_error_app1 by lia. exact HA.
        - rewrite nth_error_app2 in HA by lia. rewrite LM in HA. rewrite SP, nth_error_app2 by lia. rewrite LM.
          replace (S n - m) with (S (n - m)) by lia. exact HA. }
      intros n1 n2 a b HA HB EQ. apply POS in HA. apply POS in HB. pose proof (C _ _ a b HA HB EQ) as X.
      destruct (Nat.ltb_spec n1 m), (Nat.ltb_spec n2 m); lia.
    + intros q PQ. destruct (E q PQ) as [EA EB]. split.
      * intros a HA' QA'. destruct (UE a HA') as [IA NE]. apply held_before; [|apply EA; assumption]. cbn [about]. intro Q. apply NE. cbn [snd].
        assert (PA : proper (snd a)) by (eapply stored_in; eassumption).
        apply (equal_trans p q (snd a)); auto; [|apply equal_sym; auto]. apply (equal_trans p (c, i) q); auto.
      * intro NO. destruct (equal_dec (c, i) q HP) as [Q|NQ]; [apply held_pop; exact Q|].
        apply held_before; [exact NQ|]. apply EB. intros a IA Q. rewrite SP in IA. apply in_app_or in IA. destruct IA as [IA|[<-|IA]].
        -- refine (NO a _ Q). apply in_or_app. left. exact IA.
        -- cbn [snd] in Q. apply NQ. apply (equal_trans (c, i) p q); auto. apply equal_sym; auto.
        -- refine (NO a _ Q). apply in_or_app. right. exact IA.
  - eexists. eexists. exists w1. split; [reflexivity|]. split; [exact S1|]. split; [apply EB0; exact HN|].
    exists tp. split; [exact ET|]. split; [exact B|]. split; [exact C|].
    intros q PQ. destruct (E q PQ) as [EA EB]. split.
    + intros a HA QA'. apply held_before; [|apply EA; assumption]. cbn [about]. intro Q. apply (HN a HA).
      assert (PA : proper (snd a)) by (eapply stored_in; eassumption). apply (equal_trans (snd a) q (c, i)); auto. apply equal_sym; auto.
    + intro NO. destruct (equal_dec (c, i) q HP) as [Q|NQ]; [apply held_pop; exact Q|]. apply held_before; [exact NQ|]. apply EB. exact NO.
Qed.

Lemma used_inv : program_obeys R (keeping (steady R ctx)) ctx ->
  forall past t w, used R ctx D eqb hf past t w -> inv past t w.
Proof.
  intros HPO past t w H. induction H.
  - exists []. split; [reflexivity|]. split; [constructor|]. split; [intros [|] m a b X; discriminate|]. intros q _. split; [intros a []|intros _; constructor].
  - destruct (put_spec past t w c k i v IHused H0) as (t1 & w1 & A & _ & B). rewrite H1 in A. injection A as -> ->. exact B.
  - destruct (pop_spec past t w c k i IHused H0) as (o1 & t1 & w1 & A & _ & _ & B). rewrite H1 in A. injection A as -> -> ->. exact B.
  - destruct (get_spec past t w c k i IHused H0) as (o1 & w1 & A & B & _). rewrite H1 in A. injection A as -> ->. eapply inv_steady; eassumption.
  - eapply inv_steady; [|exact IHused]. apply steady_history; assumption.
Qed.
Lemma held_functional : forall q past o o', held q past o -> held q past o' -> o = o'.
Proof.
  intros q past o o' H. revert o'. induction H; intros o' H'; inversion H'; subst; try reflexivity; try contradiction; auto.
Qed.
End Keys.

Lemma c148_get_proof : forall {obj ty W} (R : Rt obj ty W) ctx {V : Type} D eqb hf,
  program_obeys R (keeping (steady R ctx)) ctx -> has_eq R D eqb -> equivalence D eqb -> hash_contract D eqb hf ->
  forall past (t : @table obj V) w c k i, used R ctx D eqb hf past t w -> is_key R ctx D eqb hf c w k i ->
  exists o w', get R ctx t k w = (Ok o, w') /\ held eqb (c, i) past o /\
    forall o', held eqb (c, i) past o' -> o' = o.
Proof.
  intros obj ty W R ctx V D eqb hf HPO HE HQ HC past t w c k i HU HK.
  destruct (get_spec R ctx D eqb hf HE HQ HC past t w c k i (used_inv R ctx D eqb hf HE HQ HC HPO past t w HU) HK) as (o & w' & A & _ & B).
  exists o, w'. split; [exact A|]. split; [exact B|]. intros o' H. exact (held_functional eqb (c, i) past o' o H B).
Qed.

Lemma c148_put_pop_proof : forall {obj ty W} (R : Rt obj ty W) ctx {V : Type} D eqb hf,
  program_obeys R (keeping (steady R ctx)) ctx -> has_eq R D eqb -> equivalence D eqb -> hash_contract D eqb hf ->
  forall past (t : @table obj V) w c k i, used R ctx D eqb hf past t w -> is_key R ctx D eqb hf c w k i ->
  (forall v, exists t' w', put R ctx t k v w = (Ok t', w')) /\
  (exists o t' w', pop R ctx t k w = (Ok (o, t'), w') /\ held eqb (c, i) past o).
Proof.
  intros obj ty W R ctx V D eqb hf HPO HE HQ HC past t w c k i HU HK. pose proof (used_inv R ctx D eqb hf HE HQ HC HPO past t w HU) as HI. split.
  - intro v. destruct (put_spec R ctx D eqb hf HE HQ HC past t w c k i v HI HK) as (t' & w' & A & _). eauto.
  - destruct (pop_spec R ctx D eqb hf HE HQ HC past t w c k i HI HK) as (o & t' & w' & A & _ & B & _). eauto 6.
Qed.

Lemma c148_entries_proof : forall {obj ty W} (R : Rt obj ty W) ctx {V : Type} D eqb hf,
  program_obeys R (keeping (steady R ctx)) ctx -> has_eq R D eqb -> equivalence D eqb -> hash_contract D eqb hf ->
  forall past (t : @table obj V) w, used R ctx D eqb hf past t w ->
  exists ps : list (@content obj ty W),
    Forall2 (fun e p => exists i, is_key R ctx D eqb hf (fst p) w (fst (snd e)) i /\ i_dict i = i_dict (snd p) /\ i_cls i = i_cls (snd p) /\
                          held eqb p past (Some (snd (snd e)))) t ps /\
    (forall n m p q, nth_error ps n = Some p -> nth_error ps m = Some q -> equal eqb p q -> n = m) /\
    (forall c k i v, is_key R ctx D eqb hf c w k i -> held eqb (c, i) past (Some v) -> exists p, In p ps /\ equal eqb p (c, i)).
Proof.
  intros obj ty W R ctx V D eqb hf HPO HE HQ HC past t w HU. destruct (used_inv R ctx D eqb hf HE HQ HC HPO past t w HU) as (tp & ET & B & C & E).
  exists (map snd tp). split; [|split].
  - assert (X : forall a, In a tp -> exists i, is_key R ctx D eqb hf (fst (snd a)) w (fst (snd (fst a))) i /\ i_dict i = i_dict (snd (snd a)) /\
        i_cls i = i_cls (snd (snd a)) /\ held eqb (snd a) past (Some (snd (snd (fst a))))).
    { intros a IA. pose proof (proj1 (Forall_forall _ _) B a IA) as [HH EH].
      pose proof HH as (HP & TX & j & L & CJ & DJ & HJ). pose proof HP as (P1 & P2 & P3 & P4 & P5 & P6 & P7 & P8).
      exists j. split; [|split; [exact DJ|split; [exact CJ|]]].
      - split; [exact P1|]. split; [exact P2|]. split; [exact P3|]. split; [|split; [|split]].
        + split; [exact P4|]. split; [exact L|]. split; [congruence|]. split; [exact TX|]. rewrite DJ. exact P6.
        + unfold values_in. rewrite DJ. exact P7.
        + unfold hashable. rewrite DJ. exact P8.
        + apply content_cache_ok; [apply (made_named R) in P1; apply P1|]. rewrite HJ. clear - DJ. destruct j as [jc jd jh], a as [e [c0 [ic id ih]]]. cbn [fst snd i_dict] in *. subst. reflexivity.
      - apply (proj1 (E (snd a) HP) a IA). apply (equal_refl R ctx D eqb hf HQ). exact HP. }
    subst t. clear - X. induction tp as [|a r IH]; [constructor|]. cbn [map]. constructor; [apply X; left; reflexivity|].
    apply IH. intros b HB. apply X. right. exact HB.
  - intros n m p q HN HM EQ. rewrite nth_map in HN, HM. destruct (nth_error tp n) as [a|] eqn:EA; [|discriminate]. destruct (nth_error tp m) as [b|] eqn:EB; [|discriminate].
    injection HN as <-. injection HM as <-. exact (C n m a b EA EB EQ).
  - intros c k i v HK HH. pose proof (is_key_proper R ctx D eqb hf _ _ _ _ HK) as HP. destruct (E (c, i) HP) as [EA EB].
    assert (Y : (exists a, In a tp /\ equal eqb (snd a) (c, i)) \/ forall a, In a tp -> ~ equal eqb (snd a) (c, i)).
    { pose proof (stored_proper R ctx D eqb hf w tp B) as PB. clear - PB. induction PB as [|a r HA HB IH]; [right; intros a []|].
      destruct (equal_dec R ctx D eqb hf (snd a) (c, i) HA) as [Q|NQ]; [left; exists a; split; [left; reflexivity|exact Q]|].
      destruct IH as [(b & IB & Q)|NO]; [left; exists b; split; [right; exact IB|exact Q]|]. right. intros b [<-|IB]; [exact NQ|exact (NO b IB)]. }
    destruct Y as [(a & IA & Q)|NO]; [exists (snd a); split; [apply in_map; exact IA|exact Q]|].
    pose proof (held_functional eqb _ _ _ _ HH (EB NO)). discriminate.
Qed.

Lemma c148_hash_assigned_proof : forall {obj ty W} (R : Rt obj ty W) ctx {V : Type} c w x i v z h (d : V),
  instance_of R ctx c w x i -> c_frozen c = true -> int_of R v = Some z -> v <> o_none (rt_py R) -> h <> z ->
  exists w', setattr R ctx x "_hash" v w = (Ok tt, w') /\ get R ctx [(h, (x, d))] x w' = (Ok None, w').
Proof.
  intros obj ty W R ctx V c w x i v z h d HI HF HZ HN HH.
  destruct (Hist_main.c51_assignment_refuted_proof R ctx c w x i v z HI HF HZ HN) as (w' & A & B). exists w'. split; [exact A|].
  unfold get, bind. rewrite B. cbn [find]. destruct (Z.eqb_spec h z); [contradiction|]. reflexivity.
Qed.
