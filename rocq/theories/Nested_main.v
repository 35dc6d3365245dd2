(** Nested_main.v -- proofs of the properties stated in Props_Nested.v: == and hash of records that contain records *)

From Verif Require Import Base Deep Spec_Deep Spec_Graph Nest.
Open Scope string_scope.
Open Scope list_scope.

From Verif Require Import Dict_proofs.
Scheme hashes_mut := Minimality for hashes Sort Prop with hashes_all_mut := Minimality for hashes_all Sort Prop.

Lemma same_length {A B} (R : A -> B -> Prop) xs ys : Forall2 R xs ys -> List.length xs = List.length ys.
Proof. induction 1; cbn; congruence. Qed.

Section Equals.
Context (objects : list node) (atom_eq : nat -> nat -> bool).
Notation equals := (equals objects atom_eq).
Notation close := (fun a b => a = b \/ equals a b).

(** induction over the parts of equal objects *)
Lemma equals_deep (P : nat -> nat -> Prop) :
  (forall x y, other objects x -> other objects y -> atom_eq x y = true -> P x y) ->
  (forall x y xs ys, nth_error objects x = Some (NList xs) -> nth_error objects y = Some (NList ys) ->
     Forall2 (fun a b => a = b \/ equals a b /\ P a b) xs ys -> P x y) ->
  (forall x y xs ys, nth_error objects x = Some (NTuple xs) -> nth_error objects y = Some (NTuple ys) ->
     Forall2 (fun a b => a = b \/ equals a b /\ P a b) xs ys -> P x y) ->
  (forall x y kvs kvs', nth_error objects x = Some (NDict kvs) -> nth_error objects y = Some (NDict kvs') ->
     List.length kvs = List.length kvs' ->
     (forall k a, In (k, a) kvs -> exists b, dget k kvs' = Some b /\ (b = a \/ equals b a /\ P b a)) -> P x y) ->
  (forall x y c fs gs, nth_error objects x = Some (NRec c fs) -> nth_error objects y = Some (NRec c gs) ->
     Forall2 (fun a b => equals a b /\ P a b) (map snd fs) (map snd gs) -> P x y) ->
  forall x y, equals x y -> P x y.
Proof.
  intros H1 H2 H3 H4 H5. fix IH 3. intros x y [a b E1 E2 E3|a b xs ys E1 E2 F|a b xs ys E1 E2 F|a b kvs kvs' E1 E2 L G|a b c fs gs E1 E2 F].
  - apply H1; assumption.
  - apply (H2 a b xs ys E1 E2). clear E1 E2. revert xs ys F. fix go 3. intros xs ys [|p q r r' [E|H] F]; constructor.
    + left. exact E.
    + apply go. exact F.
    + right. split; [exact H|]. apply IH. exact H.
    + apply go. exact F.
  - apply (H3 a b xs ys E1 E2). clear E1 E2. revert xs ys F. fix go 3. intros xs ys [|p q r r' [E|H] F]; constructor.
    + left. exact E.
    + apply go. exact F.
    + right. split; [exact H|]. apply IH. exact H.
    + apply go. exact F.
  - apply (H4 a b kvs kvs' E1 E2 L). intros k p Hin. destruct (G k p Hin) as (q & E & [e|H]); exists q; (split; [exact E|]).
    + left. exact e.
    + right. split; [exact H|]. apply IH. exact H.
  - apply (H5 a b c fs gs E1 E2). clear E1 E2. revert F. generalize (map snd fs) (map snd gs). fix go 3. intros xs ys [|p q r r' H F]; constructor.
    + split; [exact H|]. apply IH. exact H.
    + apply go. exact F.
Qed.

(** what equal objects look like *)
Lemma equals_inv x y : equals x y ->
  match nth_error objects x with
  | None | Some NAtom => other objects y /\ atom_eq x y = true
  | Some (NList xs) => exists ys, nth_error objects y = Some (NList ys) /\ Forall2 close xs ys
  | Some (NTuple xs) => exists ys, nth_error objects y = Some (NTuple ys) /\ Forall2 close xs ys
  | Some (NDict kvs) => exists kvs', nth_error objects y = Some (NDict kvs') /\ List.length kvs = List.length kvs' /\
      forall k a, In (k, a) kvs -> exists b, dget k kvs' = Some b /\ close b a
  | Some (NRec c fs) => exists gs, nth_error objects y = Some (NRec c gs) /\ Forall2 equals (map snd fs) (map snd gs)
  end.
Proof.
  intros [a b [E|E] E2 E3|a b xs ys E1 E2 F|a b xs ys E1 E2 F|a b kvs kvs' E1 E2 L G|a b c fs gs E1 E2 F]; try rewrite E; try rewrite E1; eauto.
Qed.

Lemma dget_in {A} k (v : A) d : dget k d = Some v -> In (k, v) d.
Proof. apply dget_Some_In. Qed.

Lemma keys_same {A} (d d' : dict A) : NoDup (keys d) -> List.length d = List.length d' -> (forall k, In k (keys d) -> In k (keys d')) ->
  forall k, In k (keys d') -> In k (keys d).
Proof.
  intros ND L H k. apply (NoDup_length_incl ND); [|exact H]. unfold keys. rewrite !map_length. lia.
Qed.

Context (WF : well_formed objects).
Context (SYM : forall x y, atom_eq x y = true -> atom_eq y x = true).
Context (TRA : forall x y z, atom_eq x y = true -> atom_eq y z = true -> atom_eq x z = true).

Lemma equals_sym x y : equals x y -> equals y x.
Proof.
  revert x y. apply equals_deep.
  - intros x y H1 H2 H. apply equal_others; auto.
  - intros x y xs ys H1 H2 F. eapply equal_lists; try eassumption. clear - F. induction F as [|a b r r' [->|[_ H]] F IH]; constructor; auto.
  - intros x y xs ys H1 H2 F. eapply equal_tuples; try eassumption. clear - F. induction F as [|a b r r' [->|[_ H]] F IH]; constructor; auto.
  - intros x y kvs kvs' H1 H2 L G. eapply equal_dicts; try eassumption; [auto|]. intros k b Hb.
    destruct WF as [_ WD]. pose proof (WD x kvs H1) as N1. pose proof (WD y kvs' H2) as N2.
    assert (K : In k (keys kvs)).
    { apply (keys_same kvs kvs' N1 L).
      - intros k' Hk. apply in_keys_get in Hk. destruct Hk as [a Ha]. apply dget_in in Ha. destruct (G k' a Ha) as (b' & E & _). eapply dget_some_key. exact E.
      - apply in_map_iff. exists (k, b). auto. }
    apply in_keys_get in K. destruct K as [a Ea]. exists a. split; [exact Ea|]. apply dget_in in Ea.
    destruct (G k a Ea) as (b' & Eb' & H). rewrite (dget_In k b kvs' N2 Hb) in Eb'. injection Eb' as <-.
    destruct H as [->|[_ H]]; auto.
  - intros x y c fs gs H1 H2 F. eapply equal_records; try eassumption. clear - F. induction F as [|a b r r' [_ H] F IH]; constructor; auto.
Qed.

Lemma other_case x (A B : Prop) : other objects x -> match nth_error objects x with None | Some NAtom => A | _ => B end -> A.
Proof. intros [->| ->]; auto. Qed.

Lemma Forall2_close (P : nat -> nat -> Prop) xs ys : Forall2 (fun a b => a = b \/ equals a b /\ P a b) xs ys -> forall zs,
  (forall a b c, equals a b -> P a b -> equals b c -> equals a c) ->
  Forall2 close ys zs -> Forall2 close xs zs.
Proof.
  induction 1 as [|a b r r' H F IH]; intros zs K G; inversion G as [|? c ? rs HC G']; subst; constructor; auto.
  destruct H as [->|[H PH]]; [exact HC|]. right. destruct HC as [<-|HC]; [exact H|]. eapply K; eassumption.
Qed.

(** by induction on the first; the dicts compare the other way round *)
Lemma equals_trans x y : equals x y -> (forall z, equals y z -> equals x z) /\ (forall z, equals z x -> equals z y).
Proof.
  revert x y. apply equals_deep.
  - intros x y H1 H2 H. split.
    + intros z HZ. apply equals_inv in HZ. assert (K : other objects z /\ atom_eq y z = true) by (destruct H2 as [E|E]; rewrite E in HZ; exact HZ).
      destruct K. apply equal_others; eauto.
    + intros z HZ. apply equals_sym in HZ. apply equals_inv in HZ.
      assert (K : other objects z /\ atom_eq x z = true) by (destruct H1 as [E|E]; rewrite E in HZ; exact HZ).
      destruct K. apply equal_others; eauto.
  - intros x y xs ys H1 H2 F. split.
    + intros z HZ. apply equals_inv in HZ. rewrite H2 in HZ. destruct HZ as (zs & E & G). eapply equal_lists; try eassumption.
      eapply Forall2_close; [exact F| |exact G]. intros a b c _ [K _] HC. apply K. exact HC.
    + intros z HZ. apply equals_sym in HZ. apply equals_inv in HZ. rewrite H1 in HZ. destruct HZ as (zs & E & G). eapply equal_lists; try eassumption.
      clear - F G WF SYM. revert zs G. induction F as [|a b r r' H F IH]; intros zs G; inversion G as [|? c ? rs HC G']; subst; constructor; auto.
      destruct H as [->|[H [_ PH]]]; destruct HC as [<-|HC]; auto.
      * right. apply equals_sym. exact HC.
      * right. apply PH. apply equals_sym. exact HC.
  - intros x y xs ys H1 H2 F. split.
    + intros z HZ. apply equals_inv in HZ. rewrite H2 in HZ. destruct HZ as (zs & E & G). eapply equal_tuples; try eassumption.
      eapply Forall2_close; [exact F| |exact G]. intros a b c _ [K _] HC. apply K. exact HC.
    + intros z HZ. apply equals_sym in HZ. apply equals_inv in HZ. rewrite H1 in HZ. destruct HZ as (zs & E & G). eapply equal_tuples; try eassumption.
      clear - F G WF SYM. revert zs G. induction F as [|a b r r' H F IH]; intros zs G; inversion G as [|? c ? rs HC G']; subst; constructor; auto.
      destruct H as [->|[H [_ PH]]]; destruct HC as [<-|HC]; auto.
      * right. apply equals_sym. exact HC.
      * right. apply PH. apply equals_sym. exact HC.
  - intros x y kvs kvs' H1 H2 L G. destruct WF as [_ WD]. split.
    + intros z HZ. apply equals_inv in HZ. rewrite H2 in HZ. destruct HZ as (ws & E & L' & G'). eapply equal_dicts; try eassumption; [congruence|].
      intros k a Ha. destruct (G k a Ha) as (b & Eb & HB). destruct (G' k b (dget_in _ _ _ Eb)) as (c & Ec & HC). exists c. split; [exact Ec|].
      destruct HC as [->|HC]; [destruct HB as [->|[HB _]]; auto|]. destruct HB as [->|[HB [_ PB]]]; auto.
    + intros z HZ. apply equals_inv in HZ.
      assert (K : exists ws, nth_error objects z = Some (NDict ws) /\ List.length ws = List.length kvs /\
                forall k a, In (k, a) ws -> exists b, dget k kvs = Some b /\ close b a).
      { destruct (nth_error objects z) as [[|?|?|ws|? ?]|] eqn:EZ.
        - destruct HZ as [[E|E] _]; congruence.
        - destruct HZ as (? & E & _); congruence.
        - destruct HZ as (? & E & _); congruence.
        - destruct HZ as (kvs0 & E & LL & GG). rewrite H1 in E. injection E as <-. exists ws. auto.
        - destruct HZ as (? & E & _); congruence.
        - destruct HZ as [[E|E] _]; congruence. }
      destruct K as (ws & E & L' & G'). eapply equal_dicts; try eassumption; [congruence|].
      intros k a Ha. destruct (G' k a Ha) as (b & Eb & HB). destruct (G k b (dget_in _ _ _ Eb)) as (c & Ec & HC). exists c. split; [exact Ec|].
      destruct HC as [->|[HC [PC _]]]; [exact HB|]. destruct HB as [->|HB]; auto.
  - intros x y c fs gs H1 H2 F. split.
    + intros z HZ. apply equals_inv in HZ. rewrite H2 in HZ. destruct HZ as (hs & E & G). eapply equal_records; try eassumption.
      clear - F G. revert G. generalize (map snd hs). induction F as [|a b r r' [H [K _]] F IH]; intros zs G; inversion G as [|? d ? rs HC G']; subst; constructor; auto.
    + intros z HZ. apply equals_sym in HZ. apply equals_inv in HZ. rewrite H1 in HZ. destruct HZ as (hs & E & G). eapply equal_records; try eassumption.
      clear - F G WF SYM. revert G. generalize (map snd hs). induction F as [|a b r r' [H [_ K]] F IH]; intros zs G; inversion G as [|? d ? rs HC G']; subst; constructor; auto.
      apply K. apply equals_sym. exact HC.
Qed.

Section Hash.
Context (atom_hash : nat -> option Z) (tuple_hash : list Z -> Z) (frozen : nat -> bool) (default : nat -> string -> option nat).
Context (HSH : forall x y, atom_eq x y = true -> atom_hash x = atom_hash y).
Notation hashes := (hashes objects atom_eq atom_hash tuple_hash frozen default).
Notation hashes_all := (hashes_all objects atom_eq atom_hash tuple_hash frozen default).
Notation not_default := (not_default objects atom_eq default).

Lemma not_default_equal c fs : forall vs, not_default c fs vs -> forall gs ws, map fst fs = map fst gs ->
  Forall2 close (map snd fs) (map snd gs) -> not_default c gs ws -> Forall2 close vs ws.
Proof.
  induction 1 as [|k v fs vs H N IH|k v d fs vs ED EQ N IH]; intros gs ws K F M.
  - destruct gs; [|discriminate]. inversion M. constructor.
  - destruct gs as [|[k' v'] gs]; [discriminate|]. cbn in K, F. injection K as <- K. inversion F as [|? ? ? ? HV F']; subst.
    inversion M as [|? ? ? ? H' M'|? ? d ? ? ED EQ M']; subst.
    + constructor; [exact HV|]. eapply IH; eassumption.
    + destruct (H d ED). destruct HV as [->|HV]; [exact EQ|]. apply equals_sym in HV. apply (equals_trans _ _ EQ). exact HV.
  - destruct gs as [|[k' v'] gs]; [discriminate|]. cbn in K, F. injection K as <- K. inversion F as [|? ? ? ? HV F']; subst.
    inversion M as [|? ? ? ? H' M'|? ? d' ? ? ED' EQ' M']; subst.
    + destruct (H' d ED). destruct HV as [<-|HV]; [exact EQ|]. apply (equals_trans _ _ EQ). exact HV.
    + eapply IH; eassumption.
Qed.

(** equal objects have the same hash *)
Lemma hashes_equal x h : hashes x h -> forall y h', close x y -> hashes y h' -> h = h'.
Proof.
  revert x h. apply (hashes_mut objects atom_eq atom_hash tuple_hash frozen default
    (fun x h => forall y h', close x y -> hashes y h' -> h = h')
    (fun xs hs => forall ys hs', Forall2 close xs ys -> hashes_all ys hs' -> hs = hs')).
  - intros x h HO E y h' HC HY. assert (K : other objects y /\ atom_hash y = Some h).
    { destruct HC as [<-|HC]; [auto|]. apply equals_inv in HC.
      assert (K : other objects y /\ atom_eq x y = true) by (destruct HO as [O|O]; rewrite O in HC; exact HC). destruct K as [K1 K2].
      split; [exact K1|]. rewrite <- (HSH x y K2). exact E. }
    destruct K as [K1 K2]. inversion HY as [? ? _ E'|? xs ? EX _|? c fs ? ? EX _ _ _]; subst; [congruence| |]; destruct K1; congruence.
  - intros x xs hs EX HA IH y h' HC HY. assert (K : exists ys, nth_error objects y = Some (NTuple ys) /\ Forall2 close xs ys).
    { destruct HC as [<-|HC]; [exists xs; split; [exact EX|]; clear; induction xs; constructor; auto|]. apply equals_inv in HC. rewrite EX in HC. exact HC. }
    destruct K as (ys & EY & F). inversion HY as [? ? [O|O] _|? ys' hs' EY' HA'|? c fs ? ? EY' _ _ _]; subst; try congruence.
    rewrite EY in EY'. injection EY' as <-. f_equal. eapply IH; eassumption.
  - intros x c fs vs hs EX EF ND HA IH y h' HC HY.
    assert (K : exists gs, nth_error objects y = Some (NRec c gs) /\ Forall2 close (map snd fs) (map snd gs)).
    { destruct HC as [<-|HC]; [exists fs; split; [exact EX|]; clear; induction (map snd fs); constructor; auto|]. apply equals_inv in HC. rewrite EX in HC.
      destruct HC as (gs & EG & F). exists gs. split; [exact EG|]. clear - F. induction F; constructor; auto. }
    destruct K as (gs & EY & F). inversion HY as [? ? [O|O] _|? ys' hs' EY' HA'|? c' gs' ws hs' EY' _ ND' HA']; subst; try congruence.
    rewrite EY in EY'. injection EY' as <- <-. f_equal. eapply IH; [|exact HA']. eapply not_default_equal; [exact ND| |exact F|exact ND'].
    destruct WF as [WR _]. eapply WR; eassumption.
  - intros ys hs' F HA. inversion F; subst. inversion HA. reflexivity.
  - intros x xs h hs H IH _ IHs ys hs' F HA. inversion F as [|? y ? ys' HC F']; subst. inversion HA as [|? ? h' hs'' HY HA']; subst. f_equal; [eapply IH; eassumption|eapply IHs; eassumption].
Qed.

(** ** the model *)
Notation right := (right_caches objects atom_eq atom_hash tuple_hash frozen default).
Definition keeps (ks ks' : slots) : Prop := right ks' /\ caches_kept ks ks'.
(** a call that, from right slots, leaves right slots, and whose answers satisfy [Q] *)
Definition sound {A} (m : N A) (Q : A -> Prop) : Prop := forall ks, right ks ->
  keeps ks (snd (m ks)) /\ forall a, fst (m ks) = Gives a -> Q a.

Lemma keeps_refl ks : right ks -> keeps ks ks.
Proof. intros H. split; [exact H|]. intros x h E. exact E. Qed.
Lemma sound_gives {A} (a : A) (Q : A -> Prop) : Q a -> sound (gives a) Q.
Proof. intros H ks HR. split; [apply keeps_refl; exact HR|]. intros b E. injection E as <-. exact H. Qed.
Lemma sound_unhashable {A} (Q : A -> Prop) : sound unhashable Q.
Proof. intros ks HR. split; [apply keeps_refl; exact HR|]. intros b E. discriminate. Qed.
Lemma sound_too_deep {A} (Q : A -> Prop) : sound too_deep Q.
Proof. intros ks HR. split; [apply keeps_refl; exact HR|]. intros b E. discriminate. Qed.
Lemma sound_after {A B} (m : N A) (k : A -> N B) (Q : A -> Prop) (Q' : B -> Prop) :
  sound m Q -> (forall a, Q a -> sound (k a) Q') -> sound (after m k) Q'.
Proof.
  intros H HK ks HR. destruct (H ks HR) as [[R1 K1] HA]. unfold after. destruct (m ks) as [[a| |] ks']; cbn in *.
  - destruct (HK a (HA a eq_refl) ks' R1) as [[R2 K2] HB]. split; [|exact HB]. split; [exact R2|]. intros x h E. apply K2. apply K1. exact E.
  - split; [split; assumption|]. intros b E. discriminate.
  - split; [split; assumption|]. intros b E. discriminate.
Qed.
Lemma sound_weaken {A} (m : N A) (Q Q' : A -> Prop) : (forall a, Q a -> Q' a) -> sound m Q -> sound m Q'.
Proof. intros H HM ks HR. destruct (HM ks HR) as [K HA]. split; [exact K|]. intros a E. apply H. apply HA. exact E. Qed.

Section Step.
Context (eq : nat -> nat -> N bool) (hash : nat -> N Z).
Context (HE : forall x y, sound (eq x y) (fun b => b = true <-> equals x y)).
Context (HH : forall x, sound (hash x) (fun h => hashes x h)).

Lemma sound_pairs (same : nat -> nat -> N bool) (R : nat -> nat -> Prop) : (forall x y, sound (same x y) (fun b => b = true <-> R x y)) ->
  forall xs ys, sound (pairs_equal same xs ys) (fun b => List.length xs = List.length ys -> (b = true <-> Forall2 R xs ys)).
Proof.
  intros HS. induction xs as [|x xs IH]; intros [|y ys]; cbn [pairs_equal]; try (apply sound_gives; cbn; intros; split; auto; discriminate).
  eapply sound_after; [apply HS|]. intros [|] HB; cbn beta iota.
  - eapply sound_weaken; [|apply IH]. cbn. intros b H L. injection L as L. rewrite (H L). split.
    + intros F. constructor; [apply HB; reflexivity|exact F].
    + intros F. inversion F. assumption.
  - apply sound_gives. intros _. split; [discriminate|]. intros F. inversion F; subst. apply HB. assumption.
Qed.
Lemma sound_elements x y : sound (elements_same eq x y) (fun b => b = true <-> close x y).
Proof.
  unfold elements_same. destruct (Nat.eqb_spec x y) as [->|NE]; [apply sound_gives; tauto|].
  eapply sound_weaken; [|apply HE]. cbn. intros b H. rewrite H. tauto.
Qed.
Lemma sound_entries kvs' kvs : sound (entries_equal eq kvs kvs') (fun b => b = true <-> forall k a, In (k, a) kvs -> exists b, dget k kvs' = Some b /\ close b a).
Proof.
  induction kvs as [|[k x] r IH]; cbn [entries_equal]; [apply sound_gives; split; [intros _ k a []|reflexivity]|].
  destruct (dget k kvs') as [y|] eqn:E.
  - eapply sound_after; [apply sound_elements|]. intros [|] HB; cbn beta iota.
    + eapply sound_weaken; [|exact IH]. cbn. intros b H. rewrite H. split.
      * intros G k' a [EQ|Hin]; [injection EQ as <- <-; exists y; split; [exact E|apply HB; reflexivity]|apply G; exact Hin].
      * intros G k' a Hin. apply G. right. exact Hin.
    + apply sound_gives. split; [discriminate|]. intros G. destruct (G k x (or_introl eq_refl)) as (b & Eb & HC). rewrite E in Eb. injection Eb as <-. apply HB. exact HC.
  - apply sound_gives. split; [discriminate|]. intros G. destruct (G k x (or_introl eq_refl)) as (b & Eb & HC). congruence.
Qed.
Lemma sound_hash_all xs : sound (hash_all hash xs) (fun hs => hashes_all xs hs).
Proof.
  induction xs as [|x r IH]; cbn [hash_all]; [apply sound_gives; constructor|].
  eapply sound_after; [apply HH|]. intros h Hh. eapply sound_after; [exact IH|]. intros hs Hhs. apply sound_gives. constructor; assumption.
Qed.
Lemma sound_exported c fs : sound (exported_values default eq c fs) (fun vs => not_default c fs vs).
Proof.
  induction fs as [|[k v] r IH]; cbn [exported_values]; [apply sound_gives; constructor|].
  destruct (default c k) as [d|] eqn:ED.
  - eapply sound_after; [apply HE|]. intros b HB. eapply sound_after; [exact IH|]. intros vs HV. apply sound_gives. destruct b.
    + apply (nd_left_out _ _ _ _ _ _ d); [exact ED|apply HB; reflexivity|exact HV].
    + constructor; [|exact HV]. intros d' E. rewrite ED in E. injection E as <-. intros Q. apply HB in Q. discriminate.
  - eapply sound_after; [apply (sound_gives _ (fun b => b = false)); reflexivity|]. intros b ->. eapply sound_after; [exact IH|]. intros vs HV. apply sound_gives.
    constructor; [|exact HV]. intros d' E. congruence.
Qed.
Lemma sound_hash_of x : sound (hash_of objects atom_hash tuple_hash frozen default eq hash x) (fun h => hashes x h).
Proof.
  unfold hash_of. destruct (nth_error objects x) as [[|xs|xs|kvs|c fs]|] eqn:EX; try apply sound_unhashable.
  - destruct (atom_hash x) as [h|] eqn:EH; [|apply sound_unhashable]. apply sound_gives. apply hash_other; [right; exact EX|exact EH].
  - eapply sound_after; [apply sound_hash_all|]. intros hs HA. apply sound_gives. eapply hash_tuple; eassumption.
  - destruct (frozen c) eqn:EF; [|apply sound_unhashable]. intros ks HR. destruct (ks x) as [h|] eqn:EK.
    + split; [apply keeps_refl; exact HR|]. intros a E. injection E as <-. apply HR. exact EK.
    + destruct (sound_exported c fs ks HR) as [[R1 K1] HA]. unfold after at 1 3. destruct (exported_values default eq c fs ks) as [[vs| |] ks1]; cbn in *;
        [|split; [split; assumption|intros; discriminate]..].
      specialize (HA vs eq_refl). destruct (sound_hash_all vs ks1 R1) as [[R2 K2] HB]. unfold after. destruct (hash_all hash vs ks1) as [[hs| |] ks2]; cbn in *.
      * specialize (HB hs eq_refl). assert (HX : hashes x (tuple_hash hs)) by (eapply hash_record; eassumption).
        split; [|intros a E; injection E as <-; exact HX]. split.
        { intros z h. cbn beta. destruct (Nat.eqb_spec z x) as [->|NE]; [intros E; injection E as <-; exact HX|apply R2]. }
        { intros z h E. cbn beta. destruct (Nat.eqb_spec z x) as [->|NE]; [congruence|]. apply K2. apply K1. exact E. }
      * split; [|intros; discriminate]. split; [exact R2|]. intros z h E. apply K2. apply K1. exact E.
      * split; [|intros; discriminate]. split; [exact R2|]. intros z h E. apply K2. apply K1. exact E.
  - destruct (atom_hash x) as [h|] eqn:EH; [|apply sound_unhashable]. apply sound_gives. apply hash_other; [left; exact EX|exact EH].
Qed.
Lemma sound_equal_of x y : sound (equal_of objects atom_eq frozen eq hash x y) (fun b => b = true <-> equals x y).
Proof.
  assert (NO : match nth_error objects x, nth_error objects y with
               | Some (NList _), Some (NList _) | Some (NTuple _), Some (NTuple _) | Some (NDict _), Some (NDict _) | Some (NRec _ _), Some (NRec _ _)
               | (None | Some NAtom), (None | Some NAtom) => True
               | _, _ => ~ equals x y
               end).
  { destruct (nth_error objects x) as [[|xs|xs|kvs|c fs]|] eqn:EX; destruct (nth_error objects y) as [[|ys|ys|kvs'|d gs]|] eqn:EY; auto;
    intros Q; apply equals_inv in Q; rewrite EX in Q; unfold other in Q; rewrite EY in Q;
    first [destruct Q as (? & E & _); discriminate E|destruct Q as [[E|E] _]; discriminate E]. }
  unfold equal_of.
  destruct (nth_error objects x) as [[|xs|xs|kvs|c fs]|] eqn:EX; destruct (nth_error objects y) as [[|ys|ys|kvs'|d gs]|] eqn:EY;
    try (apply sound_gives; split; [discriminate|intros Q; exfalso; exact (NO Q)]);
    try (apply sound_gives; split; [intros H; apply equal_others; unfold other; auto|intros Q; apply equals_inv in Q; rewrite EX in Q; tauto]).
  - destruct (Nat.eqb_spec (List.length xs) (List.length ys)) as [L|L].
    + eapply sound_weaken; [|apply (sound_pairs _ _ sound_elements)]. cbn. intros b H. rewrite (H L). split; [intros F; eapply equal_lists; eassumption|].
      intros Q. apply equals_inv in Q. rewrite EX in Q. destruct Q as (ys' & E & F). rewrite EY in E. injection E as <-. exact F.
    + apply sound_gives. split; [discriminate|]. intros Q. apply equals_inv in Q. rewrite EX in Q. destruct Q as (ys' & E & F). rewrite EY in E. injection E as <-.
      apply same_length in F. contradiction.
  - eapply sound_after; [apply (sound_pairs _ _ sound_elements)|]. cbn. intros b H. apply sound_gives. destruct (Nat.eqb_spec (List.length xs) (List.length ys)) as [L|L].
    + rewrite Bool.andb_true_r, (H L). split; [intros F; eapply equal_tuples; eassumption|].
      intros Q. apply equals_inv in Q. rewrite EX in Q. destruct Q as (ys' & E & F). rewrite EY in E. injection E as <-. exact F.
    + rewrite Bool.andb_false_r. split; [discriminate|]. intros Q. apply equals_inv in Q. rewrite EX in Q. destruct Q as (ys' & E & F). rewrite EY in E. injection E as <-.
      apply same_length in F. contradiction.
  - destruct (Nat.eqb_spec (List.length kvs) (List.length kvs')) as [L|L].
    + eapply sound_weaken; [|apply sound_entries]. cbn. intros b H. rewrite H. split; [intros F; eapply equal_dicts; eassumption|].
      intros Q. apply equals_inv in Q. rewrite EX in Q. destruct Q as (ys' & E & _ & F). rewrite EY in E. injection E as <-. exact F.
    + apply sound_gives. split; [discriminate|]. intros Q. apply equals_inv in Q. rewrite EX in Q. destruct Q as (ys' & E & LL & F). rewrite EY in E. injection E as <-. contradiction.
  - destruct (Nat.eqb_spec c d) as [<-|NE]; cbn [negb].
    + assert (INV : equals x y -> Forall2 equals (map snd fs) (map snd gs)).
      { intros Q. apply equals_inv in Q. rewrite EX in Q. destruct Q as (gs' & E & F). rewrite EY in E. injection E as <-. exact F. }
      apply (sound_after _ _ (fun b => b = true \/ ~ equals x y)).
      * destruct (frozen c); [|apply sound_gives; left; reflexivity]. eapply sound_after; [apply HH|]. intros h Hx. eapply sound_after; [apply HH|]. intros h' Hy.
        apply sound_gives. destruct (Z.eqb_spec h h') as [E|E]; [left; reflexivity|right]. intros Q. apply E. eapply hashes_equal; [exact Hx|right; exact Q|exact Hy].
      * intros [|] HB; cbn beta iota.
        { eapply sound_weaken; [|apply (sound_pairs _ _ HE)]. cbn. intros b H. rewrite H.
          - split; [intros F; eapply equal_records; eassumption|exact INV].
          - destruct WF as [WR _]. pose proof (f_equal (@List.length _) (WR _ _ _ _ _ EX EY)) as L. rewrite !map_length in *. exact L. }
        { apply sound_gives. split; [discriminate|]. destruct HB as [HB|HB]; [discriminate|]. intros Q. contradiction. }
    + apply sound_gives. split; [discriminate|]. intros Q. apply equals_inv in Q. rewrite EX in Q. destruct Q as (gs' & E & F). congruence.
Qed.
End Step.

Lemma sound_calls fuel :
  (forall x y, sound (deep_equal objects atom_eq atom_hash tuple_hash frozen default fuel x y) (fun b => b = true <-> equals x y)) /\
  (forall x, sound (deep_hash objects atom_eq atom_hash tuple_hash frozen default fuel x) (fun h => hashes x h)).
Proof.
  unfold deep_equal, deep_hash. induction fuel as [|n [IH1 IH2]]; cbn [calls fst snd]; [split; intros; apply sound_too_deep|].
  split; intros; [apply sound_equal_of|apply sound_hash_of]; assumption.
Qed.

(** ** calls that end *)
Definition answers {A} (m : N A) : Prop := forall ks, exists a, fst (m ks) = Gives a.
Lemma answers_gives {A} (a : A) : answers (gives a).
Proof. intros ks. exists a. reflexivity. Qed.
Lemma answers_after {A B} (m : N A) (k : A -> N B) : answers m -> (forall a, answers (k a)) -> answers (after m k).
Proof. intros H HK ks. unfold after. destruct (H ks) as [a E]. destruct (m ks) as [r ks']. cbn in E. subst r. apply HK. Qed.

Context (rank : nat -> nat) (NC : no_cycle objects rank) (NCD : no_cycle_of_defaults objects default rank).
Notation hashable := (hashable objects atom_hash frozen).
Context (FH : forall x c fs, nth_error objects x = Some (NRec c fs) -> frozen c = true -> hashable x).

Section Ends.
Context (eq : nat -> nat -> N bool) (hash : nat -> N Z) (n : nat).
Context (AE : forall x y, 2 * rank x + 2 <= n -> 2 * rank y + 2 <= n -> answers (eq x y)).
Context (AH : forall x, hashable x -> 2 * rank x + 1 <= n -> answers (hash x)).

Lemma answers_pairs (same : nat -> nat -> N bool) : (forall x y, 2 * rank x + 2 <= n -> 2 * rank y + 2 <= n -> answers (same x y)) ->
  forall xs ys, Forall (fun x => 2 * rank x + 2 <= n) xs -> Forall (fun x => 2 * rank x + 2 <= n) ys -> answers (pairs_equal same xs ys).
Proof.
  intros AS. induction xs as [|x xs IH]; intros [|y ys] HX HY; cbn [pairs_equal]; try apply answers_gives.
  inversion HX; inversion HY; subst. apply answers_after; [auto|]. intros [|]; [auto|apply answers_gives].
Qed.
Lemma answers_elements x y : 2 * rank x + 2 <= n -> 2 * rank y + 2 <= n -> answers (elements_same eq x y).
Proof. intros. unfold elements_same. destruct (Nat.eqb x y); [apply answers_gives|auto]. Qed.
Lemma answers_entries kvs' : Forall (fun p => 2 * rank (snd p) + 2 <= n) kvs' -> forall kvs, Forall (fun p => 2 * rank (snd p) + 2 <= n) kvs -> answers (entries_equal eq kvs kvs').
Proof.
  intros HY. induction kvs as [|[k x] r IH]; intros HX; cbn [entries_equal]; [apply answers_gives|]. inversion HX; subst.
  destruct (dget k kvs') as [y|] eqn:E; [|apply answers_gives]. apply dget_in in E. rewrite Forall_forall in HY. specialize (HY _ E).
  apply answers_after; [apply answers_elements; assumption|]. intros [|]; [auto|apply answers_gives].
Qed.
Lemma answers_hash_all xs : Forall hashable xs -> Forall (fun x => 2 * rank x + 2 <= n) xs -> answers (hash_all hash xs).
Proof.
  induction xs as [|x r IH]; intros HX HR; cbn [hash_all]; [apply answers_gives|]. inversion HX; inversion HR; subst.
  apply answers_after; [apply AH; [assumption|lia]|]. intros h. apply answers_after; [auto|]. intros hs. apply answers_gives.
Qed.
Lemma answers_exported c fs : (forall k d, default c k = Some d -> 2 * rank d + 2 <= n) -> Forall (fun x => 2 * rank x + 2 <= n) (map snd fs) ->
  answers (exported_values default eq c fs).
Proof.
  intros HD. induction fs as [|[k v] r IH]; intros HR; cbn [exported_values]; [apply answers_gives|]. inversion HR; subst.
  apply answers_after; [destruct (default c k) as [d|] eqn:ED; [apply AE; eauto|apply answers_gives]|]. intros b.
  apply answers_after; [auto|]. intros vs. apply answers_gives.
Qed.
Lemma parts_small x m ns : nth_error objects x = Some m -> 2 * rank x + 1 <= S n -> (forall y, In y ns -> In y (children m)) -> Forall (fun y => 2 * rank y + 2 <= n) ns.
Proof. intros E L H. apply Forall_forall. intros y Hy. assert (rank y < rank x); [|lia]. apply NC. exists m. auto. Qed.
Lemma answers_hash_of x : hashable x -> 2 * rank x + 1 <= S n -> answers (hash_of objects atom_hash tuple_hash frozen default eq hash x).
Proof.
  intros HX L. unfold hash_of. destruct HX as [x h [E|E] EH|x xs E F|x c fs E EF F]; rewrite E; try (rewrite EH; apply answers_gives).
  - apply answers_after; [|intros; apply answers_gives]. apply answers_hash_all; [exact F|]. eapply parts_small; eauto.
  - rewrite EF. assert (SM : Forall (fun y => 2 * rank y + 2 <= n) (map snd fs)) by (eapply parts_small; eauto).
    intros ks. destruct (ks x) as [h|]; [eexists; reflexivity|]. unfold after at 1.
    assert (A1 : answers (exported_values default eq c fs)).
    { apply answers_exported; [|exact SM]. intros k d ED. pose proof (NCD x c fs k d E ED). lia. }
    destruct (A1 ks) as [vs E1].
    assert (IN : forall y, In y vs -> In y (map snd fs)).
    { clear - E1. revert vs ks E1. induction fs as [|[k v] r IH]; intros vs ks E1 y Hy; cbn [exported_values] in E1.
      - injection E1 as <-. exact Hy.
      - unfold after in E1. destruct ((match default c k with Some d => eq d v | None => gives false end) ks) as [[b| |] ks1]; try discriminate.
        destruct (exported_values default eq c r ks1) as [[ws| |] ks2] eqn:E2; try discriminate. injection E1 as <-. cbn.
        assert (K : In y (map snd r) \/ y = v) by (destruct b; [left|destruct Hy as [<-|Hy]; [right; reflexivity|left]]; eapply IH; try rewrite E2; try reflexivity; assumption).
        destruct K; auto. }
    destruct (exported_values default eq c fs ks) as [r ks1]. cbn in E1. subst r.
    assert (A2 : answers (hash_all hash vs)).
    { apply answers_hash_all; [apply Forall_forall; intros y Hy; rewrite Forall_forall in F; auto|apply Forall_forall; intros y Hy; rewrite Forall_forall in SM; auto]. }
    destruct (A2 ks1) as [hs E2]. unfold after. destruct (hash_all hash vs ks1) as [r ks2]. cbn in E2. subst r. eexists. reflexivity.
Qed.
Lemma answers_equal_of x y : 2 * rank x + 2 <= S n -> 2 * rank y + 2 <= S n -> answers (equal_of objects atom_eq frozen eq hash x y).
Proof.
  intros LX LY. unfold equal_of.
  destruct (nth_error objects x) as [[|xs|xs|kvs|c fs]|] eqn:EX; destruct (nth_error objects y) as [[|ys|ys|kvs'|d gs]|] eqn:EY; try apply answers_gives.
  - destruct (Nat.eqb _ _); [|apply answers_gives]. apply answers_pairs; [apply answers_elements|apply (parts_small _ _ _ EX); [lia|auto]|apply (parts_small _ _ _ EY); [lia|auto]].
  - apply answers_after; [|intros; apply answers_gives]. apply answers_pairs; [apply answers_elements|apply (parts_small _ _ _ EX); [lia|auto]|apply (parts_small _ _ _ EY); [lia|auto]].
  - destruct (Nat.eqb _ _); [|apply answers_gives].
    assert (X : Forall (fun y => 2 * rank y + 2 <= n) (map snd kvs)) by (apply (parts_small _ _ _ EX); [lia|auto]).
    assert (Y : Forall (fun y => 2 * rank y + 2 <= n) (map snd kvs')) by (apply (parts_small _ _ _ EY); [lia|auto]).
    apply answers_entries; [apply (proj1 (Forall_map snd (fun y => 2 * rank y + 2 <= n) _)); exact Y|apply (proj1 (Forall_map snd (fun y => 2 * rank y + 2 <= n) _)); exact X].
  - destruct (Nat.eqb_spec c d) as [<-|NE]; cbn [negb]; [|apply answers_gives]. apply answers_after.
    + destruct (frozen c) eqn:EF; [|apply answers_gives]. apply answers_after; [apply AH; [eapply FH; eassumption|lia]|]. intros h. apply answers_after; [apply AH; [eapply FH; eassumption|lia]|]. intros h'. apply answers_gives.
    + intros [|]; [|apply answers_gives]. apply answers_pairs; [exact AE|apply (parts_small _ _ _ EX); [lia|auto]|apply (parts_small _ _ _ EY); [lia|auto]].
Qed.
End Ends.
Lemma answers_calls fuel :
  (forall x y, 2 * rank x + 2 <= fuel -> 2 * rank y + 2 <= fuel -> answers (deep_equal objects atom_eq atom_hash tuple_hash frozen default fuel x y)) /\
  (forall x, hashable x -> 2 * rank x + 1 <= fuel -> answers (deep_hash objects atom_eq atom_hash tuple_hash frozen default fuel x)).
Proof.
  unfold deep_equal, deep_hash. induction fuel as [|n [IH1 IH2]]; cbn [calls fst snd]; [split; intros; lia|].
  split; intros; [apply (answers_equal_of _ _ n)|apply (answers_hash_of _ _ n)]; assumption.
Qed.
End Hash.
End Equals.

(** ** calls that do not run out of stack *)
Section NoCycle.
Context (objects : list node) (atom_eq : nat -> nat -> bool) (atom_hash : nat -> option Z) (tuple_hash : list Z -> Z)
        (frozen : nat -> bool) (default : nat -> string -> option nat)
        (rank : nat -> nat) (NC : no_cycle objects rank) (NCD : no_cycle_of_defaults objects default rank).
Definition ends {A} (m : N A) (Q : A -> Prop) : Prop := forall ks, match fst (m ks) with Gives a => Q a | Unhashable => True | TooDeep => False end.
Definition any {A} : A -> Prop := fun _ => True.
Lemma ends_gives {A} (a : A) (Q : A -> Prop) : Q a -> ends (gives a) Q.
Proof. intros H ks. exact H. Qed.
Lemma ends_unhashable {A} (Q : A -> Prop) : ends unhashable Q.
Proof. intros ks. exact I. Qed.
Lemma ends_after {A B} (m : N A) (k : A -> N B) (Q : A -> Prop) (Q' : B -> Prop) : ends m Q -> (forall a, Q a -> ends (k a) Q') -> ends (after m k) Q'.
Proof.
  intros H HK ks. unfold after. specialize (H ks). destruct (m ks) as [[a| |] ks']; cbn in H |- *; [apply (HK a H)|exact I|exact H].
Qed.
Lemma ends_any {A} (m : N A) (Q : A -> Prop) : ends m Q -> ends m any.
Proof. intros H ks. specialize (H ks). destruct (fst (m ks)); [exact I|exact I|exact H]. Qed.

Section Step.
Context (eq : nat -> nat -> N bool) (hash : nat -> N Z) (n : nat).
Notation small x := (2 * rank x + 2 <= n).
Context (AE : forall x y, small x -> small y -> ends (eq x y) any).
Context (AH : forall x, 2 * rank x + 1 <= n -> ends (hash x) any).
Ltac done := first [apply ends_gives; exact I|apply ends_unhashable].

Lemma ends_pairs (same : nat -> nat -> N bool) : (forall x y, small x -> small y -> ends (same x y) any) ->
  forall xs ys, Forall (fun x => small x) xs -> Forall (fun x => small x) ys -> ends (pairs_equal same xs ys) any.
Proof.
  intros AS. induction xs as [|x xs IH]; intros [|y ys] HX HY; cbn [pairs_equal]; try done.
  inversion HX; inversion HY; subst. eapply ends_after; [apply AS; assumption|]. intros [|] _; [auto|done].
Qed.
Lemma ends_elements x y : small x -> small y -> ends (elements_same eq x y) any.
Proof. intros. unfold elements_same. destruct (Nat.eqb x y); [done|auto]. Qed.
Lemma ends_entries kvs' : Forall (fun p => small (snd p)) kvs' -> forall kvs, Forall (fun p => small (snd p)) kvs -> ends (entries_equal eq kvs kvs') any.
Proof.
  intros HY. induction kvs as [|[k x] r IH]; intros HX; cbn [entries_equal]; [done|]. inversion HX; subst.
  destruct (dget k kvs') as [y|] eqn:E; [|done]. apply dget_in in E. rewrite Forall_forall in HY. specialize (HY _ E).
  eapply ends_after; [apply ends_elements; assumption|]. intros [|] _; [auto|done].
Qed.
Lemma ends_hash_all xs : Forall (fun x => small x) xs -> ends (hash_all hash xs) any.
Proof.
  induction xs as [|x r IH]; intros HR; cbn [hash_all]; [done|]. inversion HR; subst.
  eapply ends_after; [apply AH; lia|]. intros h _. eapply ends_after; [auto|]. intros hs _. done.
Qed.
Lemma ends_exported c fs : (forall k d, default c k = Some d -> small d) -> Forall (fun x => small x) (map snd fs) ->
  ends (exported_values default eq c fs) (Forall (fun x => small x)).
Proof.
  intros HD. induction fs as [|[k v] r IH]; intros HR; cbn [exported_values]; [apply ends_gives; constructor|]. inversion HR; subst.
  eapply ends_after; [destruct (default c k) as [d|] eqn:ED; [apply AE; eauto|done]|]. intros b _.
  eapply ends_after; [apply IH; assumption|]. intros vs HV. apply ends_gives. destruct b; [exact HV|constructor; assumption].
Qed.
Lemma parts_less x m ns : nth_error objects x = Some m -> 2 * rank x + 1 <= S n -> (forall y, In y ns -> In y (children m)) -> Forall (fun y => small y) ns.
Proof. intros E L H. apply Forall_forall. intros y Hy. assert (rank y < rank x); [|lia]. apply NC. exists m. auto. Qed.
Lemma ends_hash_of x : 2 * rank x + 1 <= S n -> ends (hash_of objects atom_hash tuple_hash frozen default eq hash x) any.
Proof.
  intros L. unfold hash_of. destruct (nth_error objects x) as [[|xs|xs|kvs|c fs]|] eqn:E; try done; try (destruct (atom_hash x); done).
  - eapply ends_after; [|intros; done]. apply ends_hash_all. eapply parts_less; eauto.
  - destruct (frozen c); [|done]. intros ks. destruct (ks x) as [h|]; [exact I|]. revert ks.
    change (ends (after (exported_values default eq c fs) (fun vs => after (hash_all hash vs) (fun hs ks' => (Gives (tuple_hash hs), fun z => if Nat.eqb z x then Some (tuple_hash hs) else ks' z)))) any).
    eapply ends_after; [apply ends_exported|].
    + intros k d ED. pose proof (NCD x c fs k d E ED). lia.
    + eapply parts_less; eauto.
    + intros vs HV. eapply ends_after; [apply ends_hash_all; exact HV|]. intros hs _ ks. exact I.
Qed.
Lemma ends_equal_of x y : 2 * rank x + 2 <= S n -> 2 * rank y + 2 <= S n -> ends (equal_of objects atom_eq frozen eq hash x y) any.
Proof.
  intros LX LY. unfold equal_of.
  destruct (nth_error objects x) as [[|xs|xs|kvs|c fs]|] eqn:EX; destruct (nth_error objects y) as [[|ys|ys|kvs'|d gs]|] eqn:EY; try done.
  - destruct (Nat.eqb _ _); [|done]. apply ends_pairs; [apply ends_elements|apply (parts_less _ _ _ EX); [lia|auto]|apply (parts_less _ _ _ EY); [lia|auto]].
  - eapply ends_after; [|intros; done]. apply ends_pairs; [apply ends_elements|apply (parts_less _ _ _ EX); [lia|auto]|apply (parts_less _ _ _ EY); [lia|auto]].
  - destruct (Nat.eqb _ _); [|done].
    assert (X : Forall (fun y => small y) (map snd kvs)) by (apply (parts_less _ _ _ EX); [lia|auto]).
    assert (Y : Forall (fun y => small y) (map snd kvs')) by (apply (parts_less _ _ _ EY); [lia|auto]).
    apply ends_entries; [apply (proj1 (Forall_map snd (fun y => small y) _)); exact Y|apply (proj1 (Forall_map snd (fun y => small y) _)); exact X].
  - destruct (Nat.eqb_spec c d) as [<-|NE]; cbn [negb]; [|done]. eapply ends_after.
    + instantiate (1 := any). destruct (frozen c) eqn:EF; [|done]. eapply ends_after; [apply AH; lia|]. intros h _. eapply ends_after; [apply AH; lia|]. intros h' _. done.
    + intros [|] _; [|done]. apply ends_pairs; [exact AE|apply (parts_less _ _ _ EX); [lia|auto]|apply (parts_less _ _ _ EY); [lia|auto]].
Qed.
End Step.
Lemma ends_calls fuel :
  (forall x y, 2 * rank x + 2 <= fuel -> 2 * rank y + 2 <= fuel -> ends (deep_equal objects atom_eq atom_hash tuple_hash frozen default fuel x y) any) /\
  (forall x, 2 * rank x + 1 <= fuel -> ends (deep_hash objects atom_eq atom_hash tuple_hash frozen default fuel x) any).
Proof.
  unfold deep_equal, deep_hash. induction fuel as [|n [IH1 IH2]]; cbn [calls fst snd]; [split; intros; lia|].
  split; intros; [apply (ends_equal_of _ _ n)|apply (ends_hash_of _ _ n)]; assumption.
Qed.
End NoCycle.

(** comparing and hashing, one after the other; each call may also fail *)
Inductive asked := Compare (fuel x y : nat) | Hash (fuel x : nat).
Definition ask (objects : list node) (atom_eq : nat -> nat -> bool) (atom_hash : nat -> option Z) (tuple_hash : list Z -> Z)
  (frozen : nat -> bool) (default : nat -> string -> option nat) (q : asked) (ks : slots) : slots :=
  match q with
  | Compare fuel x y => snd (deep_equal objects atom_eq atom_hash tuple_hash frozen default fuel x y ks)
  | Hash fuel x => snd (deep_hash objects atom_eq atom_hash tuple_hash frozen default fuel x ks)
  end.

Lemma c131_equal_proof : forall objects atom_eq atom_hash tuple_hash frozen default,
  well_formed objects -> lawful_atoms atom_eq atom_hash ->
  forall fuel x y ks,
  right_caches objects atom_eq atom_hash tuple_hash frozen default ks ->
  let r := deep_equal objects atom_eq atom_hash tuple_hash frozen default fuel x y ks in
  (forall b, fst r = Gives b -> (b = true <-> equals objects atom_eq x y)) /\
  right_caches objects atom_eq atom_hash tuple_hash frozen default (snd r) /\ caches_kept ks (snd r).
Proof.
  intros objects atom_eq atom_hash tuple_hash frozen default WF (S & T & H) fuel x y ks HR. destruct (sound_calls objects atom_eq WF S T atom_hash tuple_hash frozen default H fuel) as [HE _].
  destruct (HE x y ks HR) as [[R K] HA]. cbn zeta. auto.
Qed.

Lemma c131_hash_proof : forall objects atom_eq atom_hash tuple_hash frozen default,
  well_formed objects -> lawful_atoms atom_eq atom_hash ->
  forall fuel x ks,
  right_caches objects atom_eq atom_hash tuple_hash frozen default ks ->
  let r := deep_hash objects atom_eq atom_hash tuple_hash frozen default fuel x ks in
  (forall h, fst r = Gives h -> hashes objects atom_eq atom_hash tuple_hash frozen default x h) /\
  right_caches objects atom_eq atom_hash tuple_hash frozen default (snd r) /\ caches_kept ks (snd r).
Proof.
  intros objects atom_eq atom_hash tuple_hash frozen default WF (S & T & H) fuel x ks HR. destruct (sound_calls objects atom_eq WF S T atom_hash tuple_hash frozen default H fuel) as [_ HE].
  destruct (HE x ks HR) as [[R K] HA]. cbn zeta. auto.
Qed.

Lemma c131_history_proof : forall objects atom_eq atom_hash tuple_hash frozen default,
  well_formed objects -> lawful_atoms atom_eq atom_hash ->
  forall qs qs' fuel fuel' x y,
  let after qs := fold_left (fun ks q => ask objects atom_eq atom_hash tuple_hash frozen default q ks) qs (fun _ => None) in
  let eq ks := fst (deep_equal objects atom_eq atom_hash tuple_hash frozen default fuel x y ks) in
  let hash fuel x ks := fst (deep_hash objects atom_eq atom_hash tuple_hash frozen default fuel x ks) in
  (forall b, eq (after qs) = Gives b -> (b = true <-> equals objects atom_eq x y)) /\
  (forall h h', x = y \/ equals objects atom_eq x y -> hash fuel x (after qs) = Gives h -> hash fuel' y (after qs') = Gives h' -> h = h').
Proof.
  intros objects atom_eq atom_hash tuple_hash frozen default WF (S & T & H) qs qs' fuel fuel' x y after eq hash.
  assert (HR : forall qs, right_caches objects atom_eq atom_hash tuple_hash frozen default (after qs)).
  { intros q. unfold after. assert (K : right_caches objects atom_eq atom_hash tuple_hash frozen default (fun _ => None)) by (intros z h E; discriminate).
    revert K. generalize (fun _ : nat => @None Z). induction q as [|[f a b|f a] r IH]; intros ks K; cbn [fold_left]; [exact K| |]; apply IH; cbn [ask].
    - apply (proj1 (sound_calls objects atom_eq WF S T atom_hash tuple_hash frozen default H f)). exact K.
    - apply (proj2 (sound_calls objects atom_eq WF S T atom_hash tuple_hash frozen default H f)). exact K. }
  destruct (sound_calls objects atom_eq WF S T atom_hash tuple_hash frozen default H fuel) as [HE HH].
  destruct (sound_calls objects atom_eq WF S T atom_hash tuple_hash frozen default H fuel') as [_ HH'].
  split.
  - intros b E. apply (HE x y (after qs) (HR qs)). exact E.
  - intros h h' C E E'. eapply hashes_equal; try eassumption; [apply (HH x (after qs) (HR qs)); exact E|apply (HH' y (after qs') (HR qs')); exact E'].
Qed.

Lemma c131_frozen_proof : forall objects atom_eq atom_hash tuple_hash frozen frozen' default,
  well_formed objects -> lawful_atoms atom_eq atom_hash ->
  forall fuel fuel' x y ks ks' b b',
  right_caches objects atom_eq atom_hash tuple_hash frozen default ks ->
  right_caches objects atom_eq atom_hash tuple_hash frozen' default ks' ->
  fst (deep_equal objects atom_eq atom_hash tuple_hash frozen default fuel x y ks) = Gives b ->
  fst (deep_equal objects atom_eq atom_hash tuple_hash frozen' default fuel' x y ks') = Gives b' -> b = b'.
Proof.
  intros objects atom_eq atom_hash tuple_hash frozen frozen' default WF L fuel fuel' x y ks ks' b b' HR HR' E E'.
  destruct (c131_equal_proof objects atom_eq atom_hash tuple_hash frozen default WF L fuel x y ks HR) as [H _].
  destruct (c131_equal_proof objects atom_eq atom_hash tuple_hash frozen' default WF L fuel' x y ks' HR') as [H' _].
  apply H in E. apply H' in E'. apply Bool.eq_iff_eq_true. rewrite E, E'. reflexivity.
Qed.

Lemma c131_relation_proof : forall objects atom_eq,
  well_formed objects ->
  (forall x y, atom_eq x y = true -> atom_eq y x = true) ->
  (forall x y z, atom_eq x y = true -> atom_eq y z = true -> atom_eq x z = true) ->
  (forall x y, equals objects atom_eq x y -> equals objects atom_eq y x) /\
  (forall x y z, equals objects atom_eq x y -> equals objects atom_eq y z -> equals objects atom_eq x z).
Proof.
  intros objects atom_eq WF S T. split; [apply (equals_sym objects atom_eq WF S)|]. intros x y z H. apply (equals_trans objects atom_eq WF S T x y H).
Qed.

Lemma c131_answers_proof : forall objects atom_eq atom_hash tuple_hash frozen default rank,
  no_cycle objects rank -> no_cycle_of_defaults objects default rank ->
  (forall x c fs, nth_error objects x = Some (NRec c fs) -> frozen c = true -> hashable objects atom_hash frozen x) ->
  forall fuel ks,
  (forall x y, 2 * rank x + 2 <= fuel -> 2 * rank y + 2 <= fuel ->
     exists b, fst (deep_equal objects atom_eq atom_hash tuple_hash frozen default fuel x y ks) = Gives b) /\
  (forall x, hashable objects atom_hash frozen x -> 2 * rank x + 1 <= fuel ->
     exists h, fst (deep_hash objects atom_eq atom_hash tuple_hash frozen default fuel x ks) = Gives h).
Proof.
  intros objects atom_eq atom_hash tuple_hash frozen default rank NC ND FH fuel ks. destruct (answers_calls objects atom_eq atom_hash tuple_hash frozen default rank NC ND FH fuel) as [AE AH].
  split; intros; [apply AE|apply AH]; assumption.
Qed.

Lemma c131_failures_proof : forall objects atom_eq atom_hash tuple_hash frozen default rank,
  no_cycle objects rank -> no_cycle_of_defaults objects default rank ->
  forall fuel ks,
  (forall x y, 2 * rank x + 2 <= fuel -> 2 * rank y + 2 <= fuel ->
     fst (deep_equal objects atom_eq atom_hash tuple_hash frozen default fuel x y ks) <> TooDeep) /\
  (forall x, 2 * rank x + 1 <= fuel ->
     fst (deep_hash objects atom_eq atom_hash tuple_hash frozen default fuel x ks) <> TooDeep) /\
  (well_formed objects -> lawful_atoms atom_eq atom_hash -> right_caches objects atom_eq atom_hash tuple_hash frozen default ks ->
   forall x, ~ (exists h, hashes objects atom_eq atom_hash tuple_hash frozen default x h) ->
     (2 * rank x + 1 <= fuel -> fst (deep_hash objects atom_eq atom_hash tuple_hash frozen default fuel x ks) = Unhashable) /\
     (forall y c fs gs, nth_error objects x = Some (NRec c fs) -> nth_error objects y = Some (NRec c gs) -> frozen c = true -> 2 * rank x + 2 <= fuel ->
        fst (deep_equal objects atom_eq atom_hash tuple_hash frozen default fuel x y ks) = Unhashable)).
Proof.
  intros objects atom_eq atom_hash tuple_hash frozen default rank NC NCD.
  assert (HH : forall fuel ks, well_formed objects -> lawful_atoms atom_eq atom_hash -> right_caches objects atom_eq atom_hash tuple_hash frozen default ks ->
    forall x, ~ (exists h, hashes objects atom_eq atom_hash tuple_hash frozen default x h) -> 2 * rank x + 1 <= fuel ->
    fst (deep_hash objects atom_eq atom_hash tuple_hash frozen default fuel x ks) = Unhashable).
  { intros fuel ks WF L HR x HN LX.
    pose proof (proj2 (ends_calls objects atom_eq atom_hash tuple_hash frozen default rank NC NCD fuel) x LX ks) as HE.
    pose proof (c131_hash_proof objects atom_eq atom_hash tuple_hash frozen default WF L fuel x ks HR) as [HG _].
    destruct (fst (deep_hash objects atom_eq atom_hash tuple_hash frozen default fuel x ks)) as [h| |]; [|reflexivity|destruct HE].
    destruct HN. exists h. apply HG. reflexivity. }
  intros fuel ks. destruct (ends_calls objects atom_eq atom_hash tuple_hash frozen default rank NC NCD fuel) as [HE HF]. split; [|split].
  - intros x y LX LY E. pose proof (HE x y LX LY ks) as K. rewrite E in K. exact K.
  - intros x LX E. pose proof (HF x LX ks) as K. rewrite E in K. exact K.
  - intros WF L HR x HN. split; [apply HH; assumption|]. intros y c fs gs EX EY EF LX.
    destruct fuel as [|n]; [lia|]. assert (LX' : 2 * rank x + 1 <= n) by lia. specialize (HH n ks WF L HR x HN LX').
    unfold deep_equal, deep_hash in *. cbn [calls fst]. unfold equal_of. rewrite EX, EY, Nat.eqb_refl. cbn [negb]. rewrite EF. unfold after at 1 2.
    destruct (snd (calls objects atom_eq atom_hash tuple_hash frozen default n) x ks) as [r ks']. cbn in HH. subst r. reflexivity.
Qed.
