(** Hints_proofs.v -- annotations as the user writes them. *)
From Verif Require Import Base Py Filler Hints Spec_Filler Spec_State Spec_Typing Spec_Hints.
From Verif Require Import Filler_proofs Filler_shape Filler_eqs Filler_decl Filler_main Filler_exact.

Section Hints.
Context {obj ty W : Type} (P : Py obj ty W) (T : @Typing ty).
Notation typing := (@typing obj ty W).
Notation meta := (@meta obj ty W).
Notation token := (@token obj ty W).
Notation hint := (@hint obj ty W).
Notation hint_of := (hint_of P T).

Section TypingInd.
Variable Q : typing -> Prop.
Hypothesis QClass : forall t, Q (YClass t).
Hypothesis QNone : Q YNone.
Hypothesis QAny : Q YAny.
Hypothesis QCallable : Q YCallable.
Hypothesis QTypeVar : Q YTypeVar.
Hypothesis QEllipsis : Q YEllipsis.
Hypothesis QOther : Q YOther.
Hypothesis QNewType : forall y, Q y -> Q (YNewType y).
Hypothesis QUnion : forall ys, Forall Q ys -> Q (YUnion ys).
Hypothesis QLiteral : forall l vs, Q (YLiteral l vs).
Hypothesis QAlias : forall t ps, Forall Q ps -> Q (YAlias t ps).
Hypothesis QAnn : forall y ms, Q y -> Q (YAnn y ms).
Fixpoint typing_ind' (y : typing) : Q y :=
  let fix all (ys : list typing) : Forall Q ys :=
    match ys with [] => Forall_nil Q | y :: r => Forall_cons y (typing_ind' y) (all r) end in
  match y with
  | YClass t => QClass t
  | YNone => QNone
  | YAny => QAny
  | YCallable => QCallable
  | YTypeVar => QTypeVar
  | YEllipsis => QEllipsis
  | YOther => QOther
  | YNewType y => QNewType y (typing_ind' y)
  | YUnion ys => QUnion ys (all ys)
  | YLiteral l vs => QLiteral l vs
  | YAlias t ps => QAlias t ps (all ps)
  | YAnn y ms => QAnn y ms (typing_ind' y)
  end.
End TypingInd.

Lemma every_all : forall (p : typing -> Prop) ys,
  (fix all l := match l with [] => True | y' :: r => every p y' /\ all r end) ys <-> Forall (every p) ys.
Proof. intros p. induction ys as [|y r IH]; split; intros H; auto; [destruct H; constructor; tauto|inversion H; subst; tauto]. Qed.
Lemma every_here : forall (p : typing -> Prop) y, every p y -> p y.
Proof. intros p y H. destruct y; apply H. Qed.
Lemma every_union : forall (p : typing -> Prop) ys, every p (YUnion ys) -> p (YUnion ys) /\ Forall (every p) ys.
Proof. intros p ys [H1 H2]. split; [assumption|]. apply every_all. assumption. Qed.
Lemma every_alias : forall (p : typing -> Prop) t ys, every p (YAlias t ys) -> p (YAlias t ys) /\ Forall (every p) ys.
Proof. intros p t ys [H1 H2]. split; [assumption|]. apply every_all. assumption. Qed.

Lemma Forall_pair : forall {A} (p q : A -> Prop) l, Forall p l -> Forall q l -> Forall (fun a => p a /\ q a) l.
Proof. induction 1; intros H1; inversion H1; subst; constructor; auto. Qed.

Definition others (ts : list token) : Prop := Forall (eq TOther) ts.
Lemma others_style : forall dflt ts, others ts -> eff_style dflt ts = dflt.
Proof.
  intros dflt ts H. unfold eff_style. replace (last_style ts) with SDefault; [reflexivity|].
  induction H as [|t r <- _ IH]; [reflexivity|exact IH].
Qed.
Lemma others_coercer : forall ts, others ts -> has_coercer ts = false.
Proof. intros ts H. unfold has_coercer. induction H as [|t r <- _ IH]; [reflexivity|exact IH]. Qed.
Lemma others_app : forall a b, others a -> others b -> others (a ++ b).
Proof. intros a b HA HB. apply Forall_app; auto. Qed.
Lemma others_meta : forall ms : list meta, Forall (eq MOther) ms -> others (map (@meta_token obj ty W) ms).
Proof. induction 1 as [|m r <- _ IH]; constructor; auto. Qed.
Lemma others_nil : others []. Proof. constructor. Qed.
Hint Resolve others_nil others_app others_meta : core.

(** the two styles of classes that check types *)
Definition checking (s : style) : Prop := s = SCheck \/ s = SStrict.
Definition is_strict (s : style) : bool := match s with SStrict => true | _ => false end.
Lemma checking_hollow : forall s, checking s -> style_eqb s SHollow = false.
Proof. intros s [->| ->]; reflexivity. Qed.

Lemma newtype_cases : forall y : typing, (exists y' ms, y = YAnn y' ms) \/
  ((forall A (a b : A), match y with YAnn _ _ => a | _ => b end = b) /\
   (forall A (a b : A), match hint_of y with HAnn _ _ => a | _ => b end = b)).
Proof.
  intros y. destruct y; try (right; split; intros; reflexivity); [|left; eauto].
  right. split; intros A a b; [reflexivity|]. cbn. destruct (has_args ps); [|reflexivity]. destruct (ty_eqb P t (t_type P)); [reflexivity|].
  destruct (gmap T t) as [[| | |]|]; try reflexivity; destruct ps as [|p1 [|p2 [|p3 ps]]]; try reflexivity; destruct p2; reflexivity.
Qed.

Lemma all_i_Forall : forall {A B} (f : A -> B) (p : nat -> B -> bool) (q : A -> Prop) l i,
  (forall j, Forall (fun a => p j (f a) = true <-> q a) l) ->
  (all_i p i (map f l) = true <-> (fix all l := match l with [] => True | a :: r => q a /\ all r end) l).
Proof.
  intros A B f p q l. induction l as [|a r IH]; intros i H; cbn; [tauto|]. rewrite andb_true_iff, IH.
  - pose proof (Forall_inv (H i)) as E. rewrite E. tauto.
  - intros j. exact (Forall_inv_tail (H j)).
Qed.

Lemma all_Forall_q : forall {A} (q : A -> Prop) l,
  (fix all l := match l with [] => True | a :: r => q a /\ all r end) l <-> Forall q l.
Proof. intros A q. induction l as [|y r IH]; split; intros H; auto; [destruct H; constructor; tauto|inversion H; subst; tauto]. Qed.

(** ** Which annotations are supported *)

Lemma supported_hollow : forall s y, checking s -> bare y -> proper y -> supported P T (is_strict s) y ->
  forall pre own, others pre -> others own -> hollow_hint s no_sub_tokens pre own (hint_of y) = false.
Proof.
  intros s y CS. assert (L : forall pre own, others pre -> others own -> style_eqb (eff_style s (pre ++ own)) SHollow = false).
  { intros pre own H1 H2. rewrite others_style by auto. apply checking_hollow; assumption. }
  induction y as [t| | | | | | |y IH|ys IH|l vs|t ps IH|y ms IH] using typing_ind'; intros HB HP HS pre own H1 H2;
    cbn [Hints.hint_of hollow_hint]; auto; try contradiction.
  - destruct (newtype_cases y) as [(y' & ms & ->)|[N1 N2]]; [contradiction|]. rewrite N2.
    apply IH; auto; [apply HB|apply HP|]. cbn in HS. rewrite N1 in HS. exact HS.
  - apply every_union in HB as [_ HB]. apply every_union in HP as [PN HP]. cbn [supported] in HS. apply all_Forall_q in HS.
    destruct ys as [|y0 yr]; [contradiction|]. cbn.
    rewrite (Forall_inv IH (Forall_inv HB) (Forall_inv HP) (Forall_inv HS)); auto.
  - cbn [supported] in HS. destruct HS as [_ HS]. destruct (has_args ps); [|cbn; auto]. destruct (ty_eqb P t (t_type P)); [cbn; auto|].
    destruct (gmap T t) as [[|rk|rk|]|]; try contradiction.
    + destruct ps as [|p1 [|p2 [|p3 ps]]]; try (cbn; auto; fail); destruct p2; cbn; auto.
    + destruct ps; [contradiction|]. cbn. auto.
    + destruct ps as [|p1 [|p2 [|p3 ps]]]; try contradiction. cbn; auto.
  - destruct HB as [HB1 HB2]. apply IH; auto. apply HP.
Qed.

Lemma class_usable : forall s ts t, checking s -> others ts ->
  (negb (style_eqb (eff_style s ts) SHollow && has_coercer ts) && negb (style_eqb (eff_style s ts) SStrict && isabstract P t) = true <->
   (is_strict s = true -> isabstract P t = false)).
Proof.
  intros s ts t CS HO. rewrite others_style by assumption. destruct CS as [->| ->]; cbn; [split; auto; discriminate|].
  destruct (isabstract P t); cbn; split; auto; intros H; try discriminate; specialize (H eq_refl); discriminate.
Qed.

Lemma supported_consistent : forall s y, checking s -> (forall t, gmap T t = Some GTuple -> t = t_tuple P) -> bare y -> proper y ->
  forall pre own, others pre -> others own ->
  (consistent P s no_sub_tokens pre own (hint_of y) = true <-> supported P T (is_strict s) y).
Proof.
  intros s y CS TU.
  assert (PL : forall ts, others ts -> negb (style_eqb (eff_style s ts) SHollow && has_coercer ts) = true).
  { intros ts H. rewrite others_coercer by assumption. rewrite andb_false_r. reflexivity. }
  assert (NT : forall ts, match ts : list token with [] => style_eqb s SHollow | _ => false end = false).
  { intros [|? ?]; [apply checking_hollow; assumption|reflexivity]. }
  assert (CL : forall pre own t, others pre -> others own -> negb (style_eqb (eff_style s (pre ++ own)) SHollow && has_coercer (pre ++ own)) &&
     negb (style_eqb (eff_style s (pre ++ own)) SStrict && isabstract P t) = true <-> (is_strict s = true -> isabstract P t = false)).
  { intros. apply class_usable; auto. }
  assert (NH : forall pre own b, others pre -> others own -> negb (style_eqb (eff_style s (pre ++ own)) SHollow) || b = true).
  { intros. rewrite others_style by auto. rewrite checking_hollow by assumption. reflexivity. }
  induction y as [t| | | | | | |y IH|ys IH|l vs|t ps IH|y ms IH] using typing_ind'; intros HB HP pre own H1 H2;
    try (cbn [Hints.hint_of consistent supported]; first [apply CL; assumption|rewrite NT; split; [discriminate|contradiction]|rewrite PL by auto; tauto]).
  - cbn [Hints.hint_of]. destruct (newtype_cases y) as [(y' & ms & ->)|[N1 N2]].
    + cbn [Hints.hint_of consistent supported]. rewrite NT. split; [discriminate|contradiction].
    + cbn [consistent]. rewrite N2. replace (supported P T (is_strict s) (YNewType y)) with (supported P T (is_strict s) y) by (cbn; rewrite N1; reflexivity).
      apply IH; auto; [apply HB|apply HP].
  - apply every_union in HB as [_ HB]. apply every_union in HP as [PN HP]. cbn [Hints.hint_of consistent supported]. apply all_i_Forall.
    intros j. apply Forall_forall. intros y I. rewrite Forall_forall in IH, HB, HP. apply IH; [exact I|apply HB; exact I|apply HP; exact I|cbn; auto|auto].
  - apply every_alias in HB as [_ HB]. apply every_alias in HP as [_ HP]. cbn [Hints.hint_of supported].
    assert (PART : forall p, In p ps -> forall pre own, others pre -> others own -> (consistent P s no_sub_tokens pre own (hint_of p) = true <-> supported P T (is_strict s) p)).
    { intros p I. rewrite Forall_forall in IH, HB, HP. intros. apply IH; auto; [apply HB; exact I|apply HP; exact I]. }
    destruct (has_args ps) eqn:HA.
    2:{ cbn [consistent]. rewrite CL by assumption. tauto. }
    destruct (ty_eqP P t (t_type P)) as [->|NE].
    { cbn [consistent]. rewrite CL by assumption. tauto. }
    assert (TN : consistent P s no_sub_tokens pre own (HTupleN (map hint_of ps)) = true <->
      (is_strict s = true -> isabstract P (t_tuple P) = false) /\ (fix all l := match l with [] => True | y' :: r => supported P T (is_strict s) y' /\ all r end) ps).
    { cbn [consistent]. rewrite !andb_true_iff. rewrite NH by assumption. rewrite all_i_Forall with (q := supported P T (is_strict s)).
      - rewrite <- andb_true_iff, CL by assumption. tauto.
      - intros j. apply Forall_forall. intros p I. apply PART; auto. }
    destruct (gmap T t) as [[|rk|rk|]|] eqn:GM.
    + pose proof (TU t GM) as ->.
      assert (D : (exists p, ps = [p; YEllipsis]) \/ ((forall A (f : typing -> A) (b : A), match ps with [p; YEllipsis] => f p | _ => b end = b))).
      { destruct ps as [|p1 [|p2 [|p3 ps]]]; auto; destruct p2; auto. left. eauto. }
      destruct D as [[p ->]|D].
      * cbn [consistent]. rewrite !andb_true_iff. rewrite NH by assumption. rewrite PART by (auto; left; reflexivity).
        rewrite <- andb_true_iff, CL by assumption. tauto.
      * rewrite (D _ (fun p => HTupleV (hint_of p))). rewrite (D _ (supported P T (is_strict s))). exact TN.
    + destruct ps as [|p pr]; [discriminate|]. cbn [consistent]. rewrite !andb_true_iff. rewrite NH by assumption. rewrite PART by (auto; left; reflexivity).
      rewrite <- andb_true_iff, CL by assumption. tauto.
    + destruct ps as [|p1 [|p2 [|p3 ps]]]; try (cbn [consistent]; rewrite NT; split; [discriminate|tauto]); try discriminate.
      cbn [consistent]. rewrite !andb_true_iff. rewrite NH by assumption. rewrite (PART p1) by (auto; left; reflexivity). rewrite (PART p2) by (auto; right; left; reflexivity).
      rewrite <- andb_true_iff, CL by assumption. tauto.
    + split; [|tauto]. cbn [consistent]. rewrite !andb_true_iff. intros [[_ C] H]. exfalso.
      rewrite all_i_Forall with (q := supported P T (is_strict s)) in C by (intros j; apply Forall_forall; intros p I; apply PART; auto).
      apply all_Forall_q in C. destruct ps as [|p pr]; [discriminate|]. cbn in H. apply andb_true_iff in H as [H _].
      rewrite supported_hollow in H; auto; [discriminate|exact (Forall_inv HB)|exact (Forall_inv HP)|exact (Forall_inv C)].
    + replace (consistent P s no_sub_tokens pre own _) with false; [split; [discriminate|tauto]|]. symmetry. cbn. apply NT.
  - destruct HB as [HB1 HB2]. cbn [Hints.hint_of consistent supported]. apply IH; auto. apply HP.
Qed.

(** ** What the annotations describe *)

Definition is_a (s : style) : obj -> ty -> Prop := match s with SStrict => exactly_a P | _ => an_instance P end.

Section Sane.
Hypothesis S : sane P T.

Lemma class_is_a : forall s t v, checking s -> (class_ok P s t v <-> is_a s v t).
Proof.
  intros s t v [->| ->]; cbn; [|reflexivity]. unfold an_instance. split; [|auto]. intros [<-|H]; [apply (sane_own P T S)|assumption].
Qed.
Lemma none_is_a : forall s v, checking s -> (v = o_none P <-> is_a s v (t_none P)).
Proof.
  intros s v CS. destruct CS as [->| ->]; cbn; unfold an_instance, exactly_a; split; intros H.
  - subst v. rewrite <- (sane_none_type P T S). apply (sane_own P T S).
  - apply (sane_none P T S). assumption.
  - subst v. apply (sane_none_type P T S).
  - apply (sane_none P T S). rewrite <- H. apply (sane_own P T S).
Qed.
Lemma ellipsis_is_a : forall s v, checking s -> (v = o_ellipsis P <-> is_a s v (t_ellipsis P)).
Proof.
  intros s v CS. destruct CS as [->| ->]; cbn; unfold an_instance, exactly_a; split; intros H.
  - subst v. rewrite <- (sane_ellipsis_type P T S). apply (sane_own P T S).
  - apply (sane_ellipsis P T S). assumption.
  - subst v. apply (sane_ellipsis_type P T S).
  - apply (sane_ellipsis P T S). rewrite <- H. apply (sane_own P T S).
Qed.
Lemma checked_on : forall s p, checking s -> (checked s p <-> p).
Proof. intros s p [->| ->]; reflexivity. Qed.
Lemma instance_is_a : forall s t v, checking s -> (instance_of P s t v <-> is_a s v t).
Proof.
  intros s t v CS. unfold instance_of. destruct (ty_eqP P t (t_bool P)) as [->|]; [apply class_is_a; assumption|].
  destruct (ty_eqP P t (t_none P)) as [->|]; [rewrite checked_on by assumption; apply none_is_a; assumption|].
  destruct (ty_eqP P t (t_ellipsis P)) as [->|]; [rewrite checked_on by assumption; apply ellipsis_is_a; assumption|apply class_is_a; assumption].
Qed.

Lemma any_of_map : forall {A B} (f : A -> B) (p : B -> Prop) (q : A -> Prop) l,
  Forall (fun a => p (f a) <-> q a) l -> (any_of p (map f l) <-> any_of q l).
Proof. intros A B f p q l H. induction H as [|a r E _ IH]; cbn; [reflexivity|]. rewrite E, IH. reflexivity. Qed.
Lemma pairwise_map : forall {A B C} (f : A -> B) (p : B -> C -> Prop) (q : A -> C -> Prop) l m,
  Forall (fun a => forall c, p (f a) c <-> q a c) l -> (pairwise p (map f l) m <-> pairwise q l m).
Proof. intros A B C f p q l m H. revert m. induction H as [|a r E _ IH]; intros [|c m]; cbn; try reflexivity. rewrite E, IH. reflexivity. Qed.

Lemma belongs_describes : forall s y, checking s -> bare y -> proper y -> types_of_classes P y -> (s = SStrict -> any_free y) ->
  supported P T (is_strict s) y ->
  forall pre own, others pre -> others own -> forall v, belongs P s pre own (hint_of y) v <-> describes P T (is_a s) y v.
Proof.
  intros s y CS.
  assert (ES : forall pre own, others pre -> others own -> eff_style s (pre ++ own) = s) by (intros; apply others_style; auto).
  induction y as [t| | | | | | |y IH|ys IH|l vs|t ps IH|y ms IH] using typing_ind'; intros HB HP HC HA HS pre own H1 H2 v;
    try contradiction;
    try (cbn [Hints.hint_of belongs describes]; rewrite ES by assumption; first [apply instance_is_a; assumption|rewrite checked_on by assumption; reflexivity]; fail).
  - cbn [Hints.hint_of belongs describes]. rewrite ES by assumption. split; [tauto|]. intros _. destruct CS as [->| ->]; cbn.
    + right. apply (sane_object P T S).
    + specialize (HA eq_refl). destruct (every_here _ _ HA). reflexivity.
  - cbn [Hints.hint_of describes]. destruct (newtype_cases y) as [(y' & ms & ->)|[N1 N2]]; [contradiction|].
    cbn [belongs]. rewrite N2. apply IH; auto; [apply HB|apply HP|apply HC|intros E; apply (HA E)|]. cbn in HS. rewrite N1 in HS. exact HS.
  - apply every_union in HB as [_ HB]. apply every_union in HP as [PN HP]. apply every_union in HC as [_ HC]. cbn [supported] in HS. apply all_Forall_q in HS.
    assert (HA' : s = SStrict -> Forall any_free ys) by (intros E; apply every_union in HA; [apply HA|assumption]).
    cbn [Hints.hint_of belongs describes]. destruct ys as [|y0 yr]; [contradiction|].
    apply (any_of_map hint_of (fun h' => belongs P s (own ++ pre) [] h' v) (fun y => describes P T (is_a s) y v) (y0 :: yr)).
    rewrite Forall_forall in *. intros y I. apply IH; auto; try (intros E; specialize (HA' E); rewrite Forall_forall in HA'; auto);
      first [apply HB; exact I|apply HP; exact I|apply HC; exact I].
  - assert (HC0 := HC). apply every_alias in HB as [_ HB]. apply every_alias in HP as [_ HP]. apply every_alias in HC as [HT HC]. cbn [supported] in HS.
    assert (HA' : s = SStrict -> Forall any_free ps) by (intros E; specialize (HA E); apply every_alias in HA; apply HA).
    assert (PART : forall p, In p ps -> supported P T (is_strict s) p -> forall v, belongs P s [] [] (hint_of p) v <-> describes P T (is_a s) p v).
    { intros p I SP. rewrite Forall_forall in *. apply IH; auto; try (intros E; specialize (HA' E); rewrite Forall_forall in HA'; auto);
        first [apply HB; exact I|apply HP; exact I|apply HC; exact I]. }
    assert (LOOK : forall p, In p ps -> supported P T (is_strict s) p -> ~ not_looked_at s (hint_of p)).
    { intros p I SP. unfold not_looked_at. rewrite Forall_forall in *. rewrite supported_hollow; auto; [apply HB; exact I|apply HP; exact I]. }
    destruct HS as [_ HS]. cbn [Hints.hint_of describes]. destruct (has_args ps) eqn:AR.
    2:{ cbn [belongs]. rewrite ES by assumption. rewrite instance_is_a by assumption. tauto. }
    destruct (ty_eqP P t (t_type P)) as [->|NE].
    { destruct (HT eq_refl eq_refl) as [b ->]. cbn [belongs class_fits]. rewrite ES by assumption. rewrite class_is_a, checked_on by assumption. reflexivity. }
    destruct (gmap T t) as [[|rk|rk|]|] eqn:GM; try contradiction.
    + pose proof (sane_tuple P T S t GM) as ->.
      assert (D : (exists p, ps = [p; YEllipsis]) \/ ((forall A (f : typing -> A) (b : A), match ps with [p; YEllipsis] => f p | _ => b end = b))).
      { destruct ps as [|p1 [|p2 [|p3 ps]]]; auto; destruct p2; auto. left. eauto. }
      destruct D as [[p ->]|D].
      * cbn [belongs]. rewrite ES by assumption. rewrite class_is_a, checked_on by assumption.
        specialize (PART p (or_introl eq_refl) HS). specialize (LOOK p (or_introl eq_refl) HS). split; intros [Q1 Q2]; (split; [assumption|]).
        -- destruct Q2 as [Q2|(l & E & Q2)]; [contradiction|]. exists l. split; [assumption|]. intros e I. apply PART. auto.
        -- destruct Q2 as (l & E & Q2). right. exists l. split; [assumption|]. intros e I. apply PART. auto.
      * rewrite (D _ (fun p => HTupleV (hint_of p))). rewrite (D _ (fun p => exists l, elems P v = Some l /\ forall e, In e l -> describes P T (is_a s) p e)).
        rewrite (D _ (supported P T (is_strict s))) in HS. apply all_Forall_q in HS.
        cbn [belongs]. rewrite ES by assumption. rewrite class_is_a, checked_on by assumption.
        assert (F : forall l, pairwise (fun h' e => belongs P s [] [] h' e) (map hint_of ps) l <-> pairwise (fun p e => describes P T (is_a s) p e) ps l).
        { intros l. apply pairwise_map. apply Forall_forall. intros p I. apply PART; [assumption|]. rewrite Forall_forall in HS. auto. }
        split; intros [Q1 (l & E & Q2)]; (split; [assumption|]); exists l; (split; [assumption|]); apply F; assumption.
    + destruct ps as [|p pr]; [discriminate|]. cbn [belongs]. rewrite ES by assumption. rewrite class_is_a, checked_on by assumption.
      specialize (PART p (or_introl eq_refl) HS). specialize (LOOK p (or_introl eq_refl) HS). split; intros [Q1 Q2]; (split; [assumption|]).
      * destruct Q2 as [Q2|(l & E & Q2)]; [contradiction|]. exists l. split; [assumption|]. intros e I. apply PART. auto.
      * destruct Q2 as (l & E & Q2). right. exists l. split; [assumption|]. intros e I. apply PART. auto.
    + destruct ps as [|p1 [|p2 [|p3 ps]]]; try contradiction. cbn [belongs]. rewrite ES by assumption. rewrite class_is_a, checked_on by assumption.
      destruct HS as [S1 S2]. pose proof (PART p1 (or_introl eq_refl) S1) as PK. pose proof (PART p2 (or_intror (or_introl eq_refl)) S2) as PV.
      pose proof (LOOK p1 (or_introl eq_refl) S1) as LK. split; intros [Q1 Q2]; (split; [assumption|]).
      * destruct Q2 as [[Q2 _]|(l & E & Q2)]; [contradiction|]. exists l. split; [assumption|]. intros a b I. rewrite <- PK, <- PV. auto.
      * destruct Q2 as (l & E & Q2). right. exists l. split; [assumption|]. intros a b I. rewrite PK, PV. auto.
  - destruct HB as [HB1 HB2]. cbn [Hints.hint_of belongs describes]. apply IH; auto; [apply HP|apply HC|intros E; apply (HA E)].
Qed.

End Sane.
End Hints.
