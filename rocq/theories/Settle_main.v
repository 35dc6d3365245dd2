(** Settle_main.v -- proofs of the properties stated in Props_Settle.v: storing stored values again (Filler.fill, used by copies and by every way back into a record) *)

From Verif Require Import Base Py Filler Spec_Filler Classes Spec_Classes Runtime Record Spec_Record Spec_Inst Spec_Copy Spec_Settle Demo DemoRt DemoCls.
From Verif Require New_main Copy_main Filler_proofs Filler_sound Filler_inv Filler_shape Filler_eqs Filler_leaf Filler_kind Filler_decl Filler_main Props_Filler.
Open Scope string_scope.
Open Scope list_scope.

Import Filler_proofs Filler_sound Filler_shape Filler_eqs Filler_leaf Filler_kind Filler_decl.
Section Lemmas.
Context {obj ty W : Type} (P : Py obj ty W).
Notation token := (@token obj ty W).
Notation hint := (@hint obj ty W).
Notation filler := (@filler obj ty W).
Notation callback := (@callback obj W).
Notation akind := (@akind obj ty).

(** the validators are tests *)
Lemma testing_declared : forall (k : akind) ts vs, Forall testing ts -> tok_validators P k ts = Ok vs ->
  Forall (@testing_callback obj W) vs.
Proof.
  intros k. induction ts as [|t r IH]; intros vs HT H; cbn in H.
  - injection H as <-. constructor.
  - inversion HT as [|? ? H1 H2]; subst. destruct t as [s|c|v|]; try (apply IH; assumption).
    destruct v as [g|]; cbn in H; [|discriminate]. oinv H. oinv H. injection H as <-. constructor; [|apply IH; assumption].
    exact (H1 _ _ Ha).
Qed.

Lemma tests_run : forall (vs : list callback) z (w : W), Forall (@testing_callback obj W) vs ->
  (exists e, forall w1, run_validators vs z w1 = (Raise e, w1)) \/ (forall w1, run_validators vs z w1 = (Ok z, w1)).
Proof.
  induction vs as [|v r IH]; intros z w H.
  - right. reflexivity.
  - inversion H as [|? ? (p & Hp) H2]; subst. cbn. unfold bind.
    destruct (p z) as [e|] eqn:E.
    + left. exists e. intro w1. rewrite Hp, E. reflexivity.
    + destruct (IH z w H2) as [(e & He)|Ho].
      * left. exists e. intro w1. rewrite Hp, E. apply He.
      * right. intro w1. rewrite Hp, E. apply Ho.
Qed.

(** the type phase: what it returns is the argument or what a coercer made of it *)
Lemma type_phase_ok : forall k s cs x w y p w', checks s -> type_phase P k s cs x w = (Ok (y, p), w') ->
  (y = x /\ w' = w /\ (type_check P k x w = TCExact \/ type_check P k x w = TCInexact /\ s = SCheck) /\ (p = PStrict \/ p = PNoCoerce)) \/
  (cs <> [] /\ p = PCoerce /\ coerced_ok s (type_check P k y w') = true).
Proof.
  intros k s cs x w y p w' HS H.
  assert (R : forall cs x w y w', cs <> [] -> run_coercers P k s cs x w = (Ok y, w') -> coerced_ok s (type_check P k y w') = true).
  { clear. induction cs as [|c r IH]; intros x w y w' N H; [congruence|]. cbn in H.
    destruct (c x w) as [[z|e] w1] eqn:E.
    - destruct (coerced_ok s (type_check P k z w1)) eqn:C; [congruence|].
      destruct r as [|c2 r]; [discriminate|]. eapply IH; [discriminate|exact H].
    - destruct r as [|c2 r]; [rewrite andb_false_r in H; discriminate|]. rewrite andb_true_r in H.
      destruct (is_Exception e); [|discriminate]. eapply IH; [discriminate|exact H]. }
  assert (C : forall w, (match cs with [] => raise (mkexc TypeError "failed type checking")
              | _ => let* y := run_coercers P k s cs x in ret (y, PCoerce) end) w = (Ok (y, p), w') ->
              cs <> [] /\ p = PCoerce /\ coerced_ok s (type_check P k y w') = true).
  { intros w0 HC. destruct cs as [|c r] eqn:EC; [discriminate|]. split; [discriminate|]. rewrite <- EC in HC. unfold bind in HC.
    destruct (run_coercers P k s cs x w0) as [[z|e] w1] eqn:ER; [|discriminate]. unfold ret in HC. injection HC as <- <- <-.
    split; [reflexivity|]. eapply R; [|exact ER]. rewrite EC. discriminate. }
  unfold type_phase in H. destruct HS as [-> | ->]; cbn [style_eqb] in H.
  - destruct (type_check P k x w) eqn:E.
    + injection H as <- <- <-. left. auto 8.
    + injection H as <- <- <-. left. auto 8.
    + right. apply C in H. exact H.
    + right. apply C in H. exact H.
  - destruct (type_check P k x w) eqn:E.
    + injection H as <- <- <-. left. auto 8.
    + right. apply C in H. exact H.
    + right. apply C in H. exact H.
    + right. apply C in H. exact H.
Qed.

Definition firm (s : style) (k : akind) (y : obj) : Prop :=
  forall w, type_check P k y w = TCExact \/ type_check P k y w = TCInexact /\ s = SCheck.

Lemma firm_phase : forall k s cs y w, checks s -> firm s k y ->
  exists p, type_phase P k s cs y w = (Ok (y, p), w) /\ (p = PStrict \/ p = PNoCoerce).
Proof.
  intros k s cs y w HS HF. unfold type_phase. destruct (HF w) as [E|[E ->]]; rewrite E.
  - exists PStrict. destruct HS as [-> | ->]; auto.
  - exists PNoCoerce. cbn. auto.
Qed.

(** a kind whose test does not depend on the state and whose coerced values pass it *)
Definition kind_settles (k : akind) (s : style) (cs : list callback) : Prop :=
  forall y w, (type_check P k y w = TCExact \/ type_check P k y w = TCInexact /\ s = SCheck) \/
              (cs <> [] /\ coerced_ok s (type_check P k y w) = true) -> firm s k y.

Lemma class_settles : forall t s cs, t <> t_none P -> t <> t_ellipsis P -> checks s -> kind_settles (class_kind P t) s cs.
Proof.
  intros t s cs H1 H2 HS y w H w'. rewrite class_kind_check in * by assumption.
  destruct H as [H|[_ H]]; [assumption|]. unfold coerced_ok in H.
  destruct (simple_check P t y) eqn:E; auto; [|discriminate|].
  - right. split; [reflexivity|]. destruct HS as [-> | ->]; [reflexivity|discriminate].
  - unfold simple_check in E. destruct (ty_eqb P (type_of P y) t); [discriminate|]. destruct (isinstance P y t); discriminate.
Qed.

Lemma simple_settles : forall t s cs, checks s -> kind_settles (KSimple t) s cs.
Proof.
  intros t s cs HS y w H w'. cbn [type_check] in *.
  destruct H as [H|[_ H]]; [assumption|]. unfold coerced_ok in H.
  destruct (simple_check P t y) eqn:E; auto; [|discriminate|].
  - right. split; [reflexivity|]. destruct HS as [-> | ->]; [reflexivity|discriminate].
  - unfold simple_check in E. destruct (ty_eqb P (type_of P y) t); [discriminate|]. destruct (isinstance P y t); discriminate.
Qed.

Lemma none_settles : forall s, kind_settles KNone s [].
Proof. intros s y w [H|[[] _]]; [|reflexivity]. exact (fun _ => H). Qed.
Lemma callable_settles : forall s, kind_settles KCallable s [].
Proof. intros s y w [H|[[] _]]; [|reflexivity]. exact (fun _ => H). Qed.

(** [made f x y]: some call of the filler on [x] returned [y] *)
Definition good (p : tpk) : Prop := p = PStrict \/ p = PNoCoerce.

Definition settled (d : style) (ts own : list token) (h : hint) : Prop :=
  forall f, make_filler P d (HAnn h own) (own_only ts) = Ok f ->
  (forall x w y p w', fill P f x w = (Ok (y, p), w') ->
     (forall w1, exists q w2, fill P f y w1 = (Ok (y, q), w2) /\ (is_union h = false -> good q) /\ (quiet ts own h = true -> w2 = w1)) /\
     (is_leaf h = true -> good p -> y = x) /\
     (coercer_free (own ++ ts) h = true -> y = x)) /\
  (coercer_free (own ++ ts) h = true -> has_literal h = false -> forall x w o w', fill P f x w = (o, w') -> w' = w).

Lemma no_coercion_tokens : forall (k : akind) ts cs, tok_coercers P k ts = Ok cs -> has_coercer ts = false -> cs = [].
Proof. exact (no_coercers P). Qed.

Lemma coercer_free_own : forall ts own (h : hint), coercer_free (own ++ ts) h = true -> has_coercer (ts ++ own) = false.
Proof.
  intros ts own h H. unfold coercer_free, has_coercer in *. rewrite !existsb_app in H.
  rewrite existsb_app. destruct (existsb is_coercion own); destruct (existsb is_coercion ts); cbn in *; try reflexivity;
  rewrite ?orb_true_r in H; discriminate.
Qed.

(** classes, None and callables *)
Lemma tested_settled : forall h k d ts own, checks (eff_style d (ts ++ own)) ->
  (forall f, make_filler P d (HAnn h own) (own_only ts) = Ok f -> exists toks cs vs b,
     tok_coercers P k (ts ++ own) = Ok cs /\ Forall (@testing_callback obj W) vs /\ kind_settles k (eff_style d (ts ++ own)) cs /\
     forall x, fill P f x = afill P (AF k toks (eff_style d (ts ++ own)) cs vs b) x) ->
  settled d ts own h.
Proof.
  intros h k d ts own HS HF0 f HM.
  destruct (HF0 f HM) as (toks & cs & vs & b & C & HV & KS & HF). clear HF0.
  set (s := eff_style d (ts ++ own)) in *.
  assert (Q : forall x w y p w', (let* p := type_phase P k s cs x in let* y := run_validators vs (fst p) in ret (y, snd p)) w = (Ok (y, p), w') ->
            type_phase P k s cs x w = (Ok (y, p), w') /\ forall w1, run_validators vs y w1 = (Ok y, w1)).
  { intros x w y p w' H. unfold bind in H. destruct (type_phase P k s cs x w) as [[[z q]|e] w1] eqn:ET; [|discriminate]. cbn [fst snd] in H.
    destruct (tests_run vs z w1 HV) as [(e & He)|Ho]; [rewrite He in H; discriminate|].
    rewrite Ho in H. unfold ret in H. injection H as <- <- <-. auto. }
  split.
  - intros x w y p w' H. rewrite HF in H. unfold afill in H. cbn [a_kind a_style a_coercers a_validators] in H. apply Q in H. destruct H as [H HR]. pose proof (type_phase_ok _ _ _ _ _ _ _ _ HS H) as TP. split; [|split].
    + intro w1. assert (F : firm s k y).
      { destruct TP as [(-> & -> & T & _)|(N & _ & T)]; apply (KS _ _ (or_introl T)) || apply (KS _ _ (or_intror (conj N T))). }
      destruct (firm_phase k s cs y w1 HS F) as (q & E & G). exists q, w1. rewrite HF. unfold afill. cbn [a_kind a_style a_coercers a_validators]. unfold bind. rewrite E. cbn [fst snd]. rewrite HR. auto.
    + intros _ G. destruct TP as [(-> & _)|(_ & -> & _)]; [reflexivity|]. destruct G; discriminate.
    + intros F. apply coercer_free_own in F. rewrite (no_coercion_tokens _ _ _ C F) in TP.
      destruct TP as [(-> & _)|(N & _)]; [reflexivity|congruence].
  - intros F _ x w o w' H. rewrite HF in H. unfold afill in H. cbn [a_kind a_style a_coercers a_validators] in H. apply coercer_free_own in F. rewrite (no_coercion_tokens _ _ _ C F) in H.
    unfold bind in H. destruct (type_phase P k s [] x w) as [[[z q]|e] w1] eqn:ET.
    + assert (w1 = w). { destruct (type_phase_ok _ _ _ _ _ _ _ _ HS ET) as [(_ & -> & _)|(N & _)]; [reflexivity|congruence]. }
      subst w1. cbn [fst snd] in H. destruct (tests_run vs z w HV) as [(e & He)|Ho]; [rewrite He in H|rewrite Ho in H; unfold ret in H]; congruence.
    + unfold type_phase, raise in ET. destruct HS as [HS | HS]; rewrite HS in ET; cbn [style_eqb] in ET; destruct (type_check P k x w); congruence.
Qed.

Lemma leaf_settled : forall h k d ts own,
  leaf_kind P h = Some k -> (forall lid vals, k <> KLiteral lid vals) -> checks (eff_style d (ts ++ own)) -> Forall testing (ts ++ own) ->
  (forall cs, tok_coercers P k (ts ++ own) = Ok cs -> kind_settles k (eff_style d (ts ++ own)) cs) ->
  settled d ts own h.
Proof.
  intros h k d ts own HK HL HS HT HC. apply (tested_settled h k); [assumption|]. intros f HM.
  destruct (leaf_make P _ _ _ _ _ _ HK HM) as (cs & vs & C & V & -> & _). rewrite own_ops_own_only in *.
  assert (E : lit_validators P k (eff_style d (ts ++ own)) = []). { destruct k; try reflexivity. destruct (HL lid vals). reflexivity. }
  rewrite E, app_nil_r. exists own, cs, vs, true. split; [assumption|]. split; [exact (testing_declared _ _ _ HT V)|]. split; [exact (HC _ C)|]. reflexivity.
Qed.

(** Type[base] *)
Lemma type_settled : forall base d ts own, checks (eff_style d (ts ++ own)) -> Forall testing (ts ++ own) -> settled d ts own (HType base).
Proof.
  intros base d ts own HS HT. apply (tested_settled (HType base) (KSimple (t_type P))); [assumption|]. intros f HM.
  unfold make_filler, get_filler, bind_filler in HM. cbn in HM. rewrite app_nil_r in HM. oinv HM. apply ops_type in HMa. destruct HMa as (a1 & -> & HO).
  cbn in HM. oinv HM. injection HM as <-.
  destruct (bound_afiller P _ _ _ _ _ _ HO HMa) as (cs & vs & C & V & -> & H1 & H2). rewrite own_ops_own_only in *.
  unfold ahollow. cbn [a_style]. assert (EH : style_eqb (eff_style d (ts ++ own)) SHollow = false) by (destruct HS as [HS | HS]; rewrite HS; reflexivity).
  rewrite EH. do 4 eexists. split; [exact C|]. split; [|split; [apply simple_settles; assumption|intro x; reflexivity]].
  cbn. rewrite app_nil_r. apply Forall_app. split; [exact (testing_declared _ _ _ HT V)|]. constructor; [|constructor].
  exists (fun v => match issubclass P v base with Raise e => Some e | Ok true => None | Ok false => Some (mkexc ValueError "must be a subclass") end).
  intros x w. unfold type_validator. destruct (issubclass P x base) as [[|]|]; reflexivity.
Qed.

(** a NewType is its base *)
Lemma newtype_settled : forall h d ts own, (forall h' toks, h <> HAnn h' toks) -> settled d ts own h -> settled d ts own (HNewType h).
Proof.
  intros h d ts own HN HS f HM. apply (HS f). rewrite <- HM. unfold make_filler, get_filler. cbn. destruct h; try reflexivity. destruct (HN h toks eq_refl).
Qed.

Lemma literal_settled : forall lid vals d ts own, checks (eff_style d (ts ++ own)) -> Forall testing (ts ++ own) ->
  settled d ts own (HLiteral lid vals).
Proof.
  intros lid vals d ts own HS HT f HM.
  destruct (leaf_make P (HLiteral lid vals) (KLiteral lid vals) _ _ _ _ eq_refl HM) as (cs & vs & C & V & -> & _). rewrite own_ops_own_only in *.
  set (s := eff_style d (ts ++ own)) in *. set (k := KLiteral lid vals) in *.
  assert (E : lit_validators P k s = [literal_validator P lid vals]). { destruct HS as [-> | ->]; reflexivity. }
  rewrite E. clear E. pose proof (testing_declared _ _ _ HT V) as HV.
  cbn [fill]. unfold afill. cbn [a_kind a_style a_coercers a_validators].
  split.
  - intros x w y p w' H.
    assert (Q : (exists w0, type_phase P k s cs x w = (Ok (y, p), w0)) /\ (forall w1, run_validators vs y w1 = (Ok y, w1)) /\
                lit_mem P vals y = true).
    { unfold bind in H. destruct (type_phase P k s cs x w) as [[[z q]|e] w1] eqn:ET; [|discriminate]. cbn [fst snd] in H.
      rewrite run_validators_app in H. unfold bind in H.
      destruct (tests_run vs z w1 HV) as [(e & He)|Ho]; [rewrite He in H; discriminate|].
      rewrite Ho in H. cbn [run_validators] in H. unfold bind, literal_validator, ret in H.
      destruct (lit_mem P vals z) eqn:EL; [|discriminate]. injection H as <- <- _. eauto. }
    destruct Q as ((w0 & HP) & HR & HM2).
    assert (T : forall w1, ty_mem P (type_of P y) (lit_types P lid vals w1) = true).
    { intro w1. unfold lit_mem in HM2. apply existsb_exists in HM2. destruct HM2 as (l & HI & HE). apply andb_prop in HE. destruct HE as [HE _].
      unfold ty_mem, lit_types. rewrite existsb_app. apply orb_true_iff. left. apply existsb_exists. exists (type_of P l).
      split; [apply in_map; assumption|assumption]. }
    pose proof (type_phase_ok _ _ _ _ _ _ _ _ HS HP) as TP. split; [|split].
    + intro w1. assert (F : firm s k y). { intro w2. left. cbn. rewrite T. reflexivity. }
      destruct (firm_phase k s cs y w1 HS F) as (q & E & G). exists q, w1. unfold bind. rewrite E. cbn [fst snd].
      rewrite run_validators_app. unfold bind. rewrite HR. cbn [run_validators]. unfold bind, literal_validator, ret. rewrite HM2, T. auto.
    + intros _ G. destruct TP as [(-> & _)|(_ & -> & _)]; [reflexivity|]. destruct G; discriminate.
    + intros F. apply coercer_free_own in F. rewrite (no_coercion_tokens _ _ _ C F) in TP.
      destruct TP as [(-> & _)|(N & _)]; [reflexivity|congruence].
  - intros _ F. discriminate.
Qed.

(** from calls to fills, for containers *)
Lemma container_settled : forall d ts own h t,
  checks (eff_style d (ts ++ own)) -> is_leaf h = false ->
  (forall x, match_kind P d ts own h x = Some (fits (eff_style d (ts ++ own)) (ty_eqb P (type_of P x) t) (isinstance P x t))) ->
  (forall f, make_filler P d (HAnn h own) (own_only ts) = Ok f ->
     (forall x w y w', call P f x w = (Ok y, w') ->
        class_ok P (eff_style d (ts ++ own)) t y /\
        (forall w1, exists w2, call P f y w1 = (Ok y, w2) /\ (quiet ts own h = true -> w2 = w1)) /\
        (coercer_free (own ++ ts) h = true -> y = x)) /\
     (coercer_free (own ++ ts) h = true -> has_literal h = false -> forall x w o w', call P f x w = (o, w') -> w' = w)) ->
  settled d ts own h.
Proof.
  intros d ts own h t HS HL HK H f HM. destruct (H f HM) as [H1 H2]. split.
  - intros x w y p w' HF. assert (HC : call P f x w = (Ok y, w')) by (rewrite call_eq, HF; reflexivity).
    destruct (H1 _ _ _ _ HC) as (O & S & F). split; [|split; [congruence|assumption]].
    intro w1. destruct (S w1) as (w2 & E & Q). destruct (call_fill _ _ _ _ _ _ E) as (q & EF). exists q, w2. split; [assumption|]. split; [|assumption].
    intros _. pose proof (proj1 (@Filler_main.c08_match_kinds_proof obj ty W P)) as MK.
    assert (K : q = fits (eff_style d (ts ++ own)) (ty_eqb P (type_of P y) t) (isinstance P y t)).
    { eapply MK; [exact HM|exact EF|]. rewrite own_ops_own_only. cbn [match_kind]. rewrite app_nil_r. apply HK. }
    rewrite K. unfold good, fits. clear K MK EF E Q. destruct HS as [HS | HS]; rewrite HS in O |- *; cbn in O |- *.
    + destruct (ty_eqP P (type_of P y) t); [auto|]. destruct O as [O|O]; [contradiction|]. rewrite O. auto.
    + destruct (ty_eqP P (type_of P y) t); [auto|contradiction].
  - intros F L x w o w' HF. specialize (H2 F L x w).
    rewrite call_eq, HF in H2. destruct o as [[y p]|e]; eapply H2; reflexivity.
Qed.

(** a class field whose validators are tests, as the outside of a container *)
Lemma outside : forall d ts own t f0, plain_class P t -> checks (eff_style d (ts ++ own)) ->
  existsb is_validation (ts ++ own) = false \/ Forall testing (ts ++ own) ->
  make_filler P d (HAnn (HTy t) own) (own_only ts) = Ok f0 ->
  (forall x w z w', call P f0 x w = (Ok z, w') -> class_ok P (eff_style d (ts ++ own)) t z) /\
  (forall x w z w', call P f0 x w = (Ok z, w') -> forall y w1, class_ok P (eff_style d (ts ++ own)) t y ->
     existsb is_validation (ts ++ own) = false \/ y = z -> call P f0 y w1 = (Ok y, w1)) /\
  (has_coercer (ts ++ own) = false -> forall x w z w', call P f0 x w = (Ok z, w') -> z = x) /\
  (has_coercer (ts ++ own) = false -> forall x w o w', call P f0 x w = (o, w') -> w' = w).
Proof.
  intros d ts own t f0 (N1 & N2 & N3) HS HV HM.
  destruct (leaf_make P (HTy t) _ _ _ _ _ eq_refl HM) as (cs & vs & C & V & EF & _). rewrite own_ops_own_only in *.
  assert (HT : Forall (@testing_callback obj W) vs).
  { destruct HV as [HV|HV]; [rewrite (no_validators P _ _ _ V HV); constructor|exact (testing_declared _ _ _ HV V)]. }
  assert (EL : lit_validators P (class_kind P t) (eff_style d (ts ++ own)) = []).
  { unfold class_kind. destruct (ty_eqb P t (t_bool P)); [reflexivity|]. destruct (ty_eqb P t (t_none P)); [reflexivity|].
    destruct (ty_eqb P t (t_ellipsis P)); reflexivity. }
  rewrite EL, app_nil_r in EF. set (s := eff_style d (ts ++ own)) in *.
  assert (CE : forall x w, call P f0 x w = (let* p := type_phase P (class_kind P t) s cs x in run_validators vs (fst p)) w).
  { intros x w. rewrite EF, call_ann. unfold afill. cbn [a_kind a_style a_coercers a_validators]. unfold bind, ret.
    destruct (type_phase P (class_kind P t) s cs x w) as [[[z p]|e] w1]; [|reflexivity]. cbn [fst snd]. destruct (run_validators vs z w1) as [[u|e] w2]; reflexivity. }
  pose proof (class_settles t s cs N2 N3 HS) as KS.
  assert (FO : forall z (w : W), firm s (class_kind P t) z -> class_ok P s t z).
  { intros z w F. destruct (class_ok_dec P s t z HS) as [O|O]; [assumption|exfalso].
    destruct (class_accepts P s t HS N2 N3 z w) as [_ A]. destruct (A O) as [A1 A2]. destruct (F w) as [E|[E1 E2]]; auto. apply (A2 E1 E2). }
  assert (TP : forall x w z w', call P f0 x w = (Ok z, w') ->
    (exists p, type_phase P (class_kind P t) s cs x w = (Ok (z, p), w')) /\ forall w1, run_validators vs z w1 = (Ok z, w1)).
  { intros x w z w' H. rewrite CE in H. unfold bind in H. destruct (type_phase P (class_kind P t) s cs x w) as [[[y p]|e] w1]; [|discriminate].
    cbn [fst] in H. destruct (tests_run vs y w1 HT) as [(e & He)|Ho]; [rewrite He in H; discriminate|]. rewrite Ho in H. injection H as <- <-. eauto. }
  split; [|split; [|split]].
  - intros x w z w' H. apply TP in H. destruct H as ((p & H) & _). apply (FO z w'). apply (type_phase_ok _ _ _ _ _ _ _ _ HS) in H.
    destruct H as [(-> & -> & T & _)|(N & _ & T)]; [exact (KS _ _ (or_introl T))|exact (KS _ _ (or_intror (conj N T)))].
  - intros x w z w' H y w1 O HZ. apply TP in H. destruct H as (_ & HR).
    assert (HR' : forall w2, run_validators vs y w2 = (Ok y, w2)).
    { destruct HZ as [HZ | ->]; [|exact HR]. rewrite (no_validators P _ _ _ V HZ). reflexivity. }
    rewrite CE. destruct (type_phase_match P s (class_kind P t) (class_ok P s t) cs y w1 HS (class_accepts P s t HS N2 N3) O) as (p & E).
    unfold bind. rewrite E. apply HR'.
  - intros HC x w z w' H. apply TP in H. destruct H as ((p & H) & _). rewrite (no_coercers P _ _ _ C HC) in H.
    destruct (type_phase_ok _ _ _ _ _ _ _ _ HS H) as [(-> & _)|(N & _)]; [reflexivity|congruence].
  - intros HC x w o w' H. rewrite CE, (no_coercers P _ _ _ C HC) in H. unfold bind in H.
    destruct (type_phase P (class_kind P t) s [] x w) as [[[z p]|e] w1] eqn:ET.
    + destruct (type_phase_ok _ _ _ _ _ _ _ _ HS ET) as [(-> & -> & _)|(N & _)]; [|congruence].
      cbn [fst] in H. destruct (tests_run vs x w HT) as [(e & He)|Ho]; [rewrite He in H|rewrite Ho in H]; congruence.
    + unfold type_phase, raise in ET. destruct HS as [HS | HS]; rewrite HS in ET; cbn [style_eqb] in ET; destruct (type_check P (class_kind P t) x w); congruence.
Qed.

(** elements: what they settle on *)
Definition stays (g : obj -> M W obj) (q : bool) (e : obj) : Prop :=
  forall w, exists w2, g e w = (Ok e, w2) /\ (q = true -> w2 = w).

Lemma mapM_stays : forall g q l w, Forall (stays g q) l -> exists w2, mapM g l w = (Ok l, w2) /\ (q = true -> w2 = w).
Proof.
  intros g q. induction l as [|e r IH]; intros w H; cbn.
  - exists w. auto.
  - inversion H as [|? ? H1 H2]; subst. destruct (H1 w) as (w1 & E1 & Q1). destruct (IH w1 H2) as (w2 & E2 & Q2).
    exists w2. unfold bind. rewrite E1, E2. split; [reflexivity|]. intro Q. rewrite Q2, Q1 by assumption. reflexivity.
Qed.

Lemma mapM_out : forall {A B} (g : A -> M W B) (R : B -> Prop), (forall e w y w', g e w = (Ok y, w') -> R y) ->
  forall l w l' w', mapM g l w = (Ok l', w') -> Forall R l'.
Proof.
  intros A B g R HR. induction l as [|e r IH]; intros w l' w' H; cbn in H.
  - unfold ret in H. injection H as <- _. constructor.
  - unfold bind in H. destruct (g e w) as [[y|x] w1] eqn:E; [|discriminate]. destruct (mapM g r w1) as [[s|x] w2] eqn:E2; [|discriminate].
    unfold ret in H. injection H as <- _. constructor; [eapply HR; exact E|eapply IH; exact E2].
Qed.

Lemma mapM_same : forall {A} (g : A -> M W A), (forall e w y w', g e w = (Ok y, w') -> y = e) ->
  forall l w l' w', mapM g l w = (Ok l', w') -> l' = l.
Proof.
  intros A g HR. induction l as [|e r IH]; intros w l' w' H; cbn in H.
  - unfold ret in H. injection H as <- _. reflexivity.
  - unfold bind in H. destruct (g e w) as [[y|x] w1] eqn:E; [|discriminate]. destruct (mapM g r w1) as [[s|x] w2] eqn:E2; [|discriminate].
    unfold ret in H. injection H as <- _. f_equal; [eapply HR; exact E|eapply IH; exact E2].
Qed.

Lemma mapM_still : forall {A B} (g : A -> M W B), (forall e w o w', g e w = (o, w') -> w' = w) ->
  forall l w o w', mapM g l w = (o, w') -> w' = w.
Proof.
  intros A B g HR. induction l as [|e r IH]; intros w o w' H; cbn in H.
  - unfold ret in H. congruence.
  - unfold bind in H. destruct (g e w) as [[y|x] w1] eqn:E; apply HR in E; subst w1; [|congruence].
    destruct (mapM g r w) as [[s|x] w2] eqn:E2; apply IH in E2; subst w2; unfold ret in H; congruence.
Qed.

Lemma same_objects_refl : forall l, same_objects P l l = true.
Proof. intro l. apply (same_objects_eq P). reflexivity. Qed.

Definition parts_same (g : obj -> M W obj) : Prop := forall e w y w', g e w = (Ok y, w') -> y = e.
Definition parts_still (g : obj -> M W obj) : Prop := forall e w o w', g e w = (o, w') -> w' = w.

Section Elements.
Hypothesis honest : honest_containers P.
Hypothesis readable : readable_containers P.

Lemma elements_settle : forall rk (g : obj -> M W obj) q s t, checks s -> (forall e w y w', g e w = (Ok y, w') -> stays g q y) ->
  forall z w y w', class_ok P s t z -> fill_elements P rk g z w = (Ok y, w') ->
  class_ok P s t y /\ (forall w1, exists w2, fill_elements P rk g y w1 = (Ok y, w2) /\ (q = true -> w2 = w1)).
Proof.
  intros rk g q s t HS HG z w y w' HO H. unfold fill_elements in H. destruct (elems P z) as [l|] eqn:EZ; [|discriminate].
  unfold bind in H. destruct (mapM g l w) as [[l'|e] w1] eqn:EM; [|discriminate].
  pose proof (mapM_out g (stays g q) HG _ _ _ _ EM) as HA.
  assert (G : class_ok P s t y /\ exists m, elems P y = Some m /\ Forall (stays g q) m).
  { destruct (same_objects P l l') eqn:ES.
    - unfold ret in H. injection H as <- _. apply (same_objects_eq P) in ES. subst l'. eauto.
    - destruct honest as [HH _]. destruct readable as [HR _]. destruct (HR _ _ _ _ _ _ H) as (m & EM2).
      destruct (HH _ _ _ _ _ _ H) as (T1 & T2 & T3 & _). split.
      + destruct HS as [-> | ->]; cbn in *; [rewrite T1, T2|rewrite T1]; assumption.
      + exists m. split; [assumption|]. apply Forall_forall. intros e HI. rewrite Forall_forall in HA. apply HA, (T3 _ EM2), HI. }
  destruct G as (O & m & EM2 & HM). split; [assumption|]. intro w2. unfold fill_elements. rewrite EM2.
  destruct (mapM_stays g q m w2 HM) as (w3 & E3 & Q). exists w3. unfold bind. rewrite E3, same_objects_refl. auto.
Qed.

Lemma elements_same : forall rk (g : obj -> M W obj), parts_same g -> parts_same (fill_elements P rk g).
Proof.
  intros rk g HG z w y w' H. unfold fill_elements in H. destruct (elems P z) as [l|] eqn:EZ; [|discriminate].
  unfold bind in H. destruct (mapM g l w) as [[l'|e] w1] eqn:EM; [|discriminate]. rewrite (mapM_same g HG _ _ _ _ EM), same_objects_refl in H.
  unfold ret in H. congruence.
Qed.

Lemma elements_still : forall rk (g : obj -> M W obj), parts_same g -> parts_still g -> parts_still (fill_elements P rk g).
Proof.
  intros rk g HG HT z w o w' H. unfold fill_elements in H. destruct (elems P z) as [l|] eqn:EZ; [|unfold raise in H; congruence].
  unfold bind in H. destruct (mapM g l w) as [[l'|e] w1] eqn:EM; pose proof (mapM_still g HT _ _ _ _ EM); subst w1; [|congruence].
  rewrite (mapM_same g HG _ _ _ _ EM), same_objects_refl in H. unfold ret in H. congruence.
Qed.

(** items of mappings *)
Lemma pairs_settle : forall rk (gk gv : obj -> M W obj) q s t, checks s ->
  (forall e w y w', gk e w = (Ok y, w') -> stays gk q y) -> (forall e w y w', gv e w = (Ok y, w') -> stays gv q y) ->
  forall z w y w', class_ok P s t z -> fill_items P rk gk gv z w = (Ok y, w') ->
  class_ok P s t y /\ (forall w1, exists w2, fill_items P rk gk gv y w1 = (Ok y, w2) /\ (q = true -> w2 = w1)).
Proof.
  intros rk gk gv q s t HS HK HV z w y w' HO H. unfold fill_items in H. destruct (items P z) as [l|] eqn:EZ; [|discriminate].
  set (g2 := fun kv : obj * obj => let* k := gk (fst kv) in let* v := gv (snd kv) in ret (k, v)) in *.
  unfold bind at 1 in H. destruct (mapM g2 l w) as [[l'|e] w1] eqn:EM; [|discriminate].
  assert (HA : Forall (fun kv => stays gk q (fst kv) /\ stays gv q (snd kv)) l').
  { eapply (mapM_out g2); [|exact EM]. intros e w0 [k v] w2 E. unfold g2, bind in E.
    destruct (gk (fst e) w0) as [[k1|x] w3] eqn:E1; [|discriminate]. destruct (gv (snd e) w3) as [[v1|x] w4] eqn:E2; [|discriminate].
    unfold ret in E. injection E as <- <- _. cbn. eauto. }
  assert (SP : forall l l' : list (obj * obj), same_pairs P l l' = true -> l = l').
  { clear. induction l as [|[a b] r IH]; intros [|[c d] r'] E; cbn in E; try discriminate; [reflexivity|].
    apply andb_prop in E. destruct E as [E E3]. apply andb_prop in E. destruct E as [E1 E2].
    destruct (py_isP P a c); [|discriminate]. destruct (py_isP P b d); [|discriminate]. subst. f_equal. apply IH. assumption. }
  assert (G : class_ok P s t y /\ exists m, items P y = Some m /\ Forall (fun kv => stays gk q (fst kv) /\ stays gv q (snd kv)) m).
  { destruct (same_pairs P l l') eqn:ES.
    - unfold ret in H. injection H as <- _. apply SP in ES. subst l'. eauto.
    - destruct honest as [_ HH]. destruct readable as [_ HR]. destruct (HR _ _ _ _ _ _ H) as (m & EM2).
      destruct (HH _ _ _ _ _ _ H) as (T1 & T2 & T3). split.
      + destruct HS as [-> | ->]; cbn in *; [rewrite T1, T2|rewrite T1]; assumption.
      + exists m. split; [assumption|]. destruct (T3 _ EM2) as [I1 I2]. apply Forall_forall. intros [k v] HI. rewrite Forall_forall in HA. split; cbn.
        * apply (in_map fst) in HI. apply I1 in HI. apply in_map_iff in HI. cbn [fst] in HI. destruct HI as (p & E & HI). rewrite <- E. apply HA, HI.
        * apply (in_map snd) in HI. apply I2 in HI. apply in_map_iff in HI. cbn [snd] in HI. destruct HI as (p & E & HI). rewrite <- E. apply HA, HI. }
  destruct G as (O & m & EM2 & HM). split; [assumption|]. intro w2. unfold fill_items. rewrite EM2. fold g2.
  assert (R : forall m w2, Forall (fun kv => stays gk q (fst kv) /\ stays gv q (snd kv)) m -> exists w3, mapM g2 m w2 = (Ok m, w3) /\ (q = true -> w3 = w2)).
  { clear - g2. induction m as [|[k v] r IH]; intros w2 H; cbn [mapM].
    - exists w2. split; [reflexivity|auto].
    - inversion H as [|? ? [H1 H2] H3]; subst. cbn in H1, H2. destruct (H1 w2) as (w3 & E1 & Q1). destruct (H2 w3) as (w4 & E2 & Q2).
      destruct (IH w4 H3) as (w5 & E3 & Q3). exists w5. unfold bind. unfold g2 at 1. unfold bind. cbn [fst snd]. rewrite E1, E2. unfold ret at 1. rewrite E3.
      split; [reflexivity|]. intro Q. rewrite Q3, Q2, Q1 by assumption. reflexivity. }
  destruct (R m w2 HM) as (w3 & E3 & Q). exists w3. unfold bind at 1. rewrite E3.
  assert (SR : same_pairs P m m = true).
  { clear. induction m as [|[a b] r IH]; [reflexivity|]. cbn. rewrite IH. destruct (py_isP P a a); [|contradiction]. destruct (py_isP P b b); [|contradiction]. reflexivity. }
  rewrite SR. split; [reflexivity|assumption].
Qed.

Lemma same_pairs_refl : forall m, same_pairs P m m = true.
Proof.
  induction m as [|[a b] r IH]; [reflexivity|]. cbn. rewrite IH. destruct (py_isP P a a); [|contradiction]. destruct (py_isP P b b); [|contradiction]. reflexivity.
Qed.

Lemma pairs_same : forall rk (gk gv : obj -> M W obj), parts_same gk -> parts_same gv -> parts_same (fill_items P rk gk gv).
Proof.
  intros rk gk gv HK HV z w y w' H. unfold fill_items in H. destruct (items P z) as [l|] eqn:EZ; [|discriminate].
  set (g2 := fun kv : obj * obj => let* k := gk (fst kv) in let* v := gv (snd kv) in ret (k, v)) in *.
  unfold bind at 1 in H. destruct (mapM g2 l w) as [[l'|e] w1] eqn:EM; [|discriminate].
  assert (l' = l) as ->.
  { eapply (mapM_same g2); [|exact EM]. intros [a b] w0 [k v] w2 E. unfold g2, bind in E. cbn [fst snd] in E.
    destruct (gk a w0) as [[k1|x] w3] eqn:E1; [|discriminate]. destruct (gv b w3) as [[v1|x] w4] eqn:E2; [|discriminate].
    unfold ret in E. injection E as <- <- _. rewrite (HK _ _ _ _ E1), (HV _ _ _ _ E2). reflexivity. }
  rewrite same_pairs_refl in H. unfold ret in H. congruence.
Qed.

Lemma pairs_still : forall rk (gk gv : obj -> M W obj), parts_same gk -> parts_same gv -> parts_still gk -> parts_still gv ->
  parts_still (fill_items P rk gk gv).
Proof.
  intros rk gk gv HK HV SK SV z w o w' H. unfold fill_items in H. destruct (items P z) as [l|] eqn:EZ; [|unfold raise in H; congruence].
  set (g2 := fun kv : obj * obj => let* k := gk (fst kv) in let* v := gv (snd kv) in ret (k, v)) in *.
  unfold bind at 1 in H. destruct (mapM g2 l w) as [r w1] eqn:EM.
  assert (w1 = w) as ->.
  { eapply (mapM_still g2); [|exact EM]. intros [a b] w0 o2 w2 E. unfold g2, bind in E. cbn [fst snd] in E.
    destruct (gk a w0) as [[k1|x] w3] eqn:E1; apply SK in E1; subst w3; [|congruence].
    destruct (gv b w0) as [[v1|x] w4] eqn:E2; apply SV in E2; subst w4; unfold ret in E; congruence. }
  destruct r as [l'|e]; [|congruence].
  assert (l' = l) as ->.
  { eapply (mapM_same g2); [|exact EM]. intros [a b] w0 [k v] w2 E. unfold g2, bind in E. cbn [fst snd] in E.
    destruct (gk a w0) as [[k1|x] w3] eqn:E1; [|discriminate]. destruct (gv b w3) as [[v1|x] w4] eqn:E2; [|discriminate].
    unfold ret in E. injection E as <- <- _. rewrite (HK _ _ _ _ E1), (HV _ _ _ _ E2). reflexivity. }
  rewrite same_pairs_refl in H. unfold ret in H. congruence.
Qed.

(** positions of fixed tuples *)
Lemma zipM_stays : forall q (gs : list (obj -> M W obj)) l w, Forall2 (fun g e => stays g q e) gs l ->
  exists w2, zipM gs l w = (Ok l, w2) /\ (q = true -> w2 = w).
Proof.
  intros q gs l w H. revert w. induction H as [|g e gs l H1 H2 IH]; intro w; cbn.
  - exists w. auto.
  - destruct (H1 w) as (w1 & E1 & Q1). destruct (IH w1) as (w2 & E2 & Q2). exists w2. unfold bind. rewrite E1, E2.
    split; [reflexivity|]. intro Q. rewrite Q2, Q1 by assumption. reflexivity.
Qed.

Lemma zipM_out : forall q (gs : list (obj -> M W obj)) l w l' w',
  Forall (fun g => forall e w y w', g e w = (Ok y, w') -> stays g q y) gs -> List.length l = List.length gs ->
  zipM gs l w = (Ok l', w') -> Forall2 (fun g e => stays g q e) gs l'.
Proof.
  intros q. induction gs as [|g gs IH]; intros [|e l] w l' w' HG HL H; try discriminate; cbn in H.
  - unfold ret in H. injection H as <- _. constructor.
  - inversion HG as [|? ? G1 G2]; subst. unfold bind in H. destruct (g e w) as [[y|x] w1] eqn:E; [|discriminate].
    destruct (zipM gs l w1) as [[s|x] w2] eqn:E2; [|discriminate]. unfold ret in H. injection H as <- _.
    constructor; [eapply G1; exact E|]. eapply IH; [assumption| |exact E2]. cbn in HL. lia.
Qed.

Lemma zipM_same : forall (gs : list (obj -> M W obj)) l w l' w', Forall parts_same gs -> List.length l = List.length gs ->
  zipM gs l w = (Ok l', w') -> l' = l.
Proof.
  induction gs as [|g gs IH]; intros [|e l] w l' w' HG HL H; try discriminate; cbn in H.
  - unfold ret in H. injection H as <- _. reflexivity.
  - inversion HG as [|? ? G1 G2]; subst. unfold bind in H. destruct (g e w) as [[y|x] w1] eqn:E; [|discriminate].
    destruct (zipM gs l w1) as [[s|x] w2] eqn:E2; [|discriminate]. unfold ret in H. injection H as <- _.
    f_equal; [eapply G1; exact E|]. eapply IH; [assumption| |exact E2]. cbn in HL. lia.
Qed.

Lemma zipM_still : forall (gs : list (obj -> M W obj)) l w o w', Forall parts_still gs -> zipM gs l w = (o, w') -> w' = w.
Proof.
  induction gs as [|g gs IH]; intros [|e l] w o w' HG H; cbn in H; try (unfold ret in H; congruence).
  inversion HG as [|? ? G1 G2]; subst. unfold bind in H. destruct (g e w) as [[y|x] w1] eqn:E; apply G1 in E; subst w1; [|congruence].
  destruct (zipM gs l w) as [[s|x] w2] eqn:E2; apply IH in E2; subst; try assumption; unfold ret in H; congruence.
Qed.

Lemma positions_settle : forall (gs : list (obj -> M W obj)) q s, checks s ->
  Forall (fun g => forall e w y w', g e w = (Ok y, w') -> stays g q y) gs ->
  forall z w y w', class_ok P s (t_tuple P) z -> fill_positions P gs z w = (Ok y, w') ->
  class_ok P s (t_tuple P) y /\ (forall w1, exists w2, fill_positions P gs y w1 = (Ok y, w2) /\ (q = true -> w2 = w1)).
Proof.
  intros gs q s HS HG z w y w' HO H. unfold fill_positions in H. destruct (elems P z) as [l|] eqn:EZ; [|discriminate].
  destruct (Nat.eqb (List.length l) (List.length gs)) eqn:EL; [|discriminate]. apply Nat.eqb_eq in EL.
  unfold bind in H. destruct (zipM gs l w) as [[l'|e] w1] eqn:EM; [|discriminate].
  pose proof (zipM_out q _ _ _ _ _ HG EL EM) as HA.
  assert (G : class_ok P s (t_tuple P) y /\ elems P y = Some l').
  { destruct (same_objects P l l') eqn:ES.
    - unfold ret in H. injection H as <- _. apply (same_objects_eq P) in ES. subst l'. auto.
    - destruct honest as [HH _]. destruct (HH _ _ _ _ _ _ H) as (T1 & T2 & _ & T4). split.
      + destruct HS as [-> | ->]; cbn in *; [rewrite T1, T2|rewrite T1]; assumption.
      + apply T4. destruct HS as [-> | ->]; cbn in HO; tauto. }
  destruct G as [O E]. split; [assumption|]. intro w2. unfold fill_positions. rewrite E.
  assert (L : List.length l' = List.length gs). { clear - HA. induction HA; cbn; congruence. }
  rewrite L, Nat.eqb_refl. destruct (zipM_stays q _ _ w2 HA) as (w3 & E3 & Q). exists w3. unfold bind. rewrite E3, same_objects_refl. auto.
Qed.

Lemma positions_same : forall (gs : list (obj -> M W obj)), Forall parts_same gs -> parts_same (fill_positions P gs).
Proof.
  intros gs HG z w y w' H. unfold fill_positions in H. destruct (elems P z) as [l|] eqn:EZ; [|discriminate].
  destruct (Nat.eqb (List.length l) (List.length gs)) eqn:EL; [|discriminate]. apply Nat.eqb_eq in EL.
  unfold bind in H. destruct (zipM gs l w) as [[l'|e] w1] eqn:EM; [|discriminate]. rewrite (zipM_same _ _ _ _ _ HG EL EM), same_objects_refl in H.
  unfold ret in H. congruence.
Qed.

Lemma positions_still : forall (gs : list (obj -> M W obj)), Forall parts_same gs -> Forall parts_still gs -> parts_still (fill_positions P gs).
Proof.
  intros gs HG HT z w o w' H. unfold fill_positions in H. destruct (elems P z) as [l|] eqn:EZ; [|unfold raise in H; congruence].
  destruct (Nat.eqb (List.length l) (List.length gs)) eqn:EL; [|unfold raise in H; congruence]. apply Nat.eqb_eq in EL.
  unfold bind in H. destruct (zipM gs l w) as [[l'|e] w1] eqn:EM; pose proof (zipM_still _ _ _ _ _ HT EM); subst w1; [|congruence].
  rewrite (zipM_same _ _ _ _ _ HG EL EM), same_objects_refl in H. unfold ret in H. congruence.
Qed.

End Elements.

(** ** Unions *)
Lemma attempts_ok : forall (fs : list (obj -> M W (obj * tpk))) x w os w', attempts fs x w = (Ok os, w') ->
  forall p, In (Ok p) os -> exists f w1 w2, In f fs /\ f x w1 = (Ok p, w2).
Proof.
  induction fs as [|f r IH]; intros x w os w' H p HI; cbn in H.
  - unfold ret in H. injection H as <- _. destruct HI.
  - destruct (f x w) as [[q|e] w1] eqn:E.
    + unfold bind in H. destruct (attempts r x w1) as [[os'|e'] w2] eqn:E2; [|discriminate]. unfold ret in H. injection H as <- _.
      destruct HI as [HI|HI]; [injection HI as <-; exists f, w, w1; cbn; auto|].
      destruct (IH _ _ _ _ E2 _ HI) as (f' & w3 & w4 & I & EF). exists f', w3, w4. cbn. auto.
    + destruct (is_Exception e); [|discriminate]. unfold bind in H. destruct (attempts r x w1) as [[os'|e'] w2] eqn:E2; [|discriminate].
      unfold ret in H. injection H as <- _. destruct HI as [HI|HI]; [discriminate|].
      destruct (IH _ _ _ _ E2 _ HI) as (f' & w3 & w4 & I & EF). exists f', w3, w4. cbn. auto.
Qed.

Lemma attempts_run : forall (fs : list (obj -> M W (obj * tpk))) y, 
  (forall f w e w', In f fs -> f y w = (Raise e, w') -> is_Exception e = true) ->
  forall w, exists os w', attempts fs y w = (Ok os, w') /\ List.length os = List.length fs /\
    (forall n f o, nth_error fs n = Some f -> nth_error os n = Some o -> exists w1 w2, f y w1 = (o, w2)).
Proof.
  induction fs as [|f r IH]; intros y HE w; cbn.
  - exists [], w. split; [reflexivity|]. split; [reflexivity|]. intros [|n] f o H; discriminate.
  - destruct (f y w) as [o w1] eqn:E.
    assert (HE' : forall f w e w', In f r -> f y w = (Raise e, w') -> is_Exception e = true) by (intros; eapply HE; [right; eassumption|eassumption]).
    destruct (IH y HE' w1) as (os & w2 & EA & EL & EN).
    exists (o :: os), w2. destruct o as [p|e].
    + unfold bind. rewrite EA. split; [reflexivity|]. split; [cbn; congruence|].
      intros [|n] f0 o H1 H2; cbn in *; [|eapply EN; eassumption]. injection H1 as <-. injection H2 as <-. eauto.
    + rewrite (HE f w e w1 (or_introl eq_refl) E). unfold bind. rewrite EA. split; [reflexivity|]. split; [cbn; congruence|].
      intros [|n] f0 o H1 H2; cbn in *; [|eapply EN; eassumption]. injection H1 as <-. injection H2 as <-. eauto.
Qed.

Lemma attempts_still : forall (fs : list (obj -> M W (obj * tpk))) y,
  (forall f w o w', In f fs -> f y w = (o, w') -> w' = w) -> forall w o w', attempts fs y w = (o, w') -> w' = w.
Proof.
  induction fs as [|f r IH]; intros y HS w o w' H; cbn in H; [unfold ret in H; congruence|].
  assert (HS' : forall f w o w', In f r -> f y w = (o, w') -> w' = w) by (intros; eapply HS; [right; eassumption|eassumption]).
  destruct (f y w) as [q w1] eqn:E. pose proof (HS f w q w1 (or_introl eq_refl) E). subst w1. destruct q as [p|e].
  - unfold bind in H. destruct (attempts r y w) as [q w2] eqn:E2. pose proof (IH y HS' _ _ _ E2). subst w2. destruct q; unfold ret in H; congruence.
  - destruct (is_Exception e); [|congruence]. unfold bind in H. destruct (attempts r y w) as [q w2] eqn:E2. pose proof (IH y HS' _ _ _ E2). subst w2.
    destruct q; unfold ret in H; congruence.
Qed.

Lemma verdict_settles : forall (os : list (outcome (obj * tpk))) y q,
  In (Ok (y, q)) os -> good q -> (forall v p, In (Ok (v, p)) os -> good p -> v = y) -> verdict P os = Ok y.
Proof.
  intros os y q HI HG HA. destruct (Filler_main.c09_verdict_proof P os) as [HV _]. apply HV. clear HV.
  assert (M : exists p, In (Ok (y, p)) os /\ good p /\ forall v' p', In (Ok (v', p')) os -> tpk_rank p <= tpk_rank p').
  { destruct (existsb (fun o => match o with Ok (_, PStrict) => true | _ => false end) os) eqn:EX.
    - apply existsb_exists in EX. destruct EX as ([[v [| | |]]|e] & I & E); try discriminate. exists PStrict.
      assert (v = y) as -> by (eapply HA; [exact I|left; reflexivity]). split; [assumption|]. split; [left; reflexivity|]. intros. cbn. lia.
    - exists q. split; [assumption|]. split; [assumption|]. intros v' p' I'. destruct HG as [-> | ->]; [cbn; lia|].
      destruct p'; cbn; try lia. exfalso. assert (T : existsb (fun o => match o with Ok (_, PStrict) => true | _ => false end) os = true).
      { apply existsb_exists. exists (Ok (v', PStrict)). auto. }
      congruence. }
  destruct M as (p & I & G & L). exists p. split; [auto|]. intros v' p' [I' L'].
  apply (HA v' p' I'). assert (tpk_rank p' <= tpk_rank p) by (eapply L'; exact I). specialize (L _ _ I').
  assert (p' = p) as -> by (apply (rank_inj); lia). assumption.
Qed.

Lemma uninterrupted_fill : forall d h ops g, runtime_keeps P (fun _ => None) -> make_filler P d h ops = Ok g ->
  Forall uninterrupted (hint_tokens h ++ map snd ops) ->
  forall x w e w', fill P g x w = (Raise e, w') -> is_Exception e = true.
Proof.
  intros d h ops g HR HM HU x w e w' HF.
  pose proof (Filler_main.c19_interrupts_proof P (fun _ => None) d h ops g HM HU HR x w eq_refl) as H.
  rewrite call_eq, HF in H. destruct (is_Exception e); [reflexivity|discriminate].
Qed.

Lemma coercer_free_member : forall (hs : list hint) h ts, has_coercer (flat_map hint_tokens hs ++ ts) = false -> In h hs ->
  coercer_free ts h = true.
Proof.
  intros hs h ts H HI. unfold coercer_free, has_coercer in *. rewrite existsb_app in *. apply orb_false_iff in H. destruct H as [H1 H2].
  rewrite H2, orb_false_r. destruct (existsb is_coercion (hint_tokens h)) eqn:E; [|reflexivity].
  apply existsb_exists in E. destruct E as (t & I & E).
  assert (T : existsb is_coercion (flat_map hint_tokens hs) = true). { apply existsb_exists. exists t. split; [|assumption]. apply in_flat_map. eauto. }
  congruence.
Qed.

Lemma union_settled : forall d ts own hs, runtime_keeps P (fun _ => None) -> hs <> [] ->
  Forall uninterrupted (flat_map hint_tokens hs ++ own ++ ts) ->
  (forall h, In h hs -> is_union h = false /\ (is_leaf h = true \/ coercer_free (own ++ ts) h = true) /\ settled d (own ++ ts) [] h) ->
  settled d ts own (HUnion hs).
Proof.
  intros d ts own hs HR HN HU HH f HM.
  destruct (union_eq P _ _ _ _ _ HN HM) as (gs & HL & HG & HC).
  rewrite own_ops_own_only in *.
  assert (HG2 : forall n g, nth_error gs n = Some g -> exists h, In h hs /\ make_filler P d (HAnn h []) (own_only (own ++ ts)) = Ok g).
  { intros n g E. destruct (nth_error hs n) as [h|] eqn:EH.
    - destruct (HG n h EH) as (g' & E' & M). assert (g' = g) by congruence. subst g'. rewrite sub_ops_own_only in M. exists h. split; [eapply nth_error_In; exact EH|exact M].
    - apply nth_error_None in EH. assert (n < List.length gs) by (apply nth_error_Some; congruence). lia. }
  assert (HIn : forall F, In F (map (fill P) gs) -> exists h g, In h hs /\ make_filler P d (HAnn h []) (own_only (own ++ ts)) = Ok g /\ F = fill P g).
  { intros F HI. apply in_map_iff in HI. destruct HI as (g & <- & HI). apply In_nth_error in HI. destruct HI as (n & E).
    destruct (HG2 n g E) as (h & I & M). eauto. }
  assert (CI : forall x w e w' F, In F (map (fill P) gs) -> F x w = (Raise e, w') -> is_Exception e = true).
  { intros x w e w' F HI HF. destruct (HIn F HI) as (h & g & I & M & ->). eapply uninterrupted_fill; [exact HR|exact M| |exact HF].
    apply Forall_app in HU. destruct HU as [U1 U2]. cbn [hint_tokens]. rewrite app_nil_r. apply Forall_app. split.
    - apply (Forall_tokens uninterrupted hs h U1 I).
    - unfold own_only. rewrite map_map. cbn. rewrite map_id. assumption. }
  set (hol := all_i _ 0 hs) in HC.
  assert (C1 : forall x w y w', call P f x w = (Ok y, w') ->
     (forall w1, exists w2, call P f y w1 = (Ok y, w2) /\ (quiet ts own (HUnion hs) = true -> w2 = w1)) /\
     (coercer_free (own ++ ts) (HUnion hs) = true -> y = x)).
  { intros x w y w' H. rewrite HC in H. destruct hol.
    { injection H as <- <-. split; [|auto]. intro w1. exists w1. rewrite HC. auto. }
    unfold bind in H. destruct (attempts (map (fill P) gs) x w) as [[os|e] w0] eqn:EA; [|discriminate].
    unfold lift in H. assert (HV : verdict P os = Ok y) by (destruct (verdict P os); congruence). clear H.
    pose proof (proj1 (Filler_main.c09_verdict_proof P os) y) as V. apply V in HV. clear V. destruct HV as (p & [HB _] & _).
    destruct (attempts_ok _ _ _ _ _ EA _ HB) as (F & w2 & w3 & IF & EF).
    destruct (HIn F IF) as (h & g & I & M & ->). destruct (HH h I) as (NU & _ & S). destruct (S g M) as [S1 _].
    destruct (S1 _ _ _ _ _ EF) as (Y1 & _ & Y3). split.
    - intro w1. destruct (attempts_run (map (fill P) gs) y (fun F w e w' HI HF => CI y w e w' F HI HF) w1) as (os2 & w4 & EA2 & EL2 & EN2).
      exists w4. rewrite HC. unfold bind. rewrite EA2. split.
      + assert (V2 : verdict P os2 = Ok y).
        { apply In_nth_error in IF. destruct IF as (n & En).
          assert (exists o, nth_error os2 n = Some o) as (o & Eo).
          { destruct (nth_error os2 n) as [o|] eqn:E; [eauto|]. apply nth_error_None in E. assert (n < List.length (map (fill P) gs)) by (apply nth_error_Some; congruence). lia. }
          destruct (EN2 _ _ _ En Eo) as (w5 & w6 & E5). destruct (Y1 w5) as (q & w7 & E7 & G & _). rewrite E7 in E5. injection E5 as <- <-.
          eapply verdict_settles; [eapply nth_error_In; exact Eo|exact (G NU)|].
          intros v p0 I2 G2. destruct (attempts_ok _ _ _ _ _ EA2 _ I2) as (F2 & w8 & w9 & IF2 & EF2).
          destruct (HIn F2 IF2) as (h2 & g2 & I3 & M2 & ->). destruct (HH h2 I3) as (_ & LC & S2). destruct (S2 g2 M2) as [S3 _].
          destruct (S3 _ _ _ _ _ EF2) as (_ & Z1 & Z2). destruct LC as [LC|LC]; [exact (Z1 LC G2)|exact (Z2 LC)]. }
        rewrite V2. reflexivity.
      + intro Q. cbn [quiet] in Q. apply andb_prop in Q. destruct Q as [Q1 Q2]. apply negb_true_iff in Q1, Q2.
        eapply attempts_still; [|exact EA2]. intros F2 w8 o2 w9 IF2 EF2. destruct (HIn F2 IF2) as (h2 & g2 & I3 & M2 & ->).
        destruct (HH h2 I3) as (_ & _ & S2). destruct (S2 g2 M2) as [_ S4]. eapply S4; [| |exact EF2].
        * apply (coercer_free_member hs); assumption.
        * destruct (has_literal h2) eqn:EL3; [|reflexivity]. exfalso.
          assert (existsb has_literal hs = true) by (apply existsb_exists; eauto). congruence.
    - intro CF. apply Y3. unfold coercer_free in CF. apply negb_true_iff in CF. cbn [hint_tokens] in CF. cbn [app].
      apply (coercer_free_member hs); assumption. }
  split.
  - intros x w y p w' HF. assert (H : call P f x w = (Ok y, w')) by (rewrite call_eq, HF; reflexivity).
    destruct (C1 _ _ _ _ H) as [A B]. split; [|split; [discriminate|assumption]].
    intro w1. destruct (A w1) as (w2 & E & Q). destruct (call_fill _ _ _ _ _ _ E) as (q & EF). exists q, w2. split; [assumption|]. split; [discriminate|assumption].
  - intros CF HLt x w o w' HF. assert (H : snd (call P f x w) = w'). { rewrite call_eq, HF. destruct o as [[? ?]|?]; reflexivity. }
    rewrite HC in H. destruct hol; [symmetry; exact H|]. unfold bind in H.
    destruct (attempts (map (fill P) gs) x w) as [q w1] eqn:EA. assert (w1 = w).
    { eapply attempts_still; [|exact EA]. intros F2 w8 o2 w9 IF2 EF2. destruct (HIn F2 IF2) as (h2 & g2 & I3 & M2 & ->).
      destruct (HH h2 I3) as (_ & _ & S2). destruct (S2 g2 M2) as [_ S4]. eapply S4; [| |exact EF2].
      - unfold coercer_free in CF. apply negb_true_iff in CF. cbn [hint_tokens] in CF. apply (coercer_free_member hs); assumption.
      - cbn [has_literal] in HLt. destruct (has_literal h2) eqn:EL3; [|reflexivity]. exfalso.
        assert (existsb has_literal hs = true) by (apply existsb_exists; eauto). congruence. }
    subst w1. destruct q as [os|e]; [unfold lift in H; destruct (verdict P os)|]; symmetry; exact H.
Qed.

Lemma unvalidated_ext : forall (h : hint) sub sub' pre own, (forall i, sub i = sub' i) -> unvalidated sub pre own h = unvalidated sub' pre own h.
Proof.
  assert (AX : forall (hs : list hint) (p q : nat -> hint -> bool) i, (forall i h, p i h = q i h) -> all_i p i hs = all_i q i hs).
  { induction hs as [|h r IH]; intros p q i H; cbn; [reflexivity|]. rewrite H. f_equal. apply IH. assumption. }
  induction h as [t0| | | |h IH|hs IH|lid vals|base|hs IH|h IH|rk t0 h IH|rk t0 hk hv IHk IHv|t0 hs IH|t0| |h toks IH]
    using hint_ind'; intros sub sub' pre own H; cbn; try reflexivity.
  - destruct h; try reflexivity; apply IH; assumption.
  - apply AX. intros i h. rewrite H. reflexivity.
  - apply IH. assumption.
Qed.

(** ** All declarations *)
Section All.
Hypothesis honest : honest_containers P.
Hypothesis readable : readable_containers P.
Hypothesis polite : runtime_keeps P (fun _ => None).

Lemma settled_call : forall d ts h g, settled d ts [] h -> make_filler P d h (own_only ts) = Ok g ->
  (forall e w y w', call P g e w = (Ok y, w') -> stays (call P g) (quiet ts [] h) y) /\
  (coercer_free ts h = true -> parts_same (call P g)) /\
  (coercer_free ts h = true -> has_literal h = false -> parts_still (call P g)).
Proof.
  intros d ts h g S M. destruct (S g M) as [S1 S2]. split; [|split].
  - intros e w y w' H. apply call_fill in H. destruct H as (p & H). destruct (S1 _ _ _ _ _ H) as (A & _ & _).
    intro w1. destruct (A w1) as (q & w2 & E & _ & Q). exists w2. rewrite call_eq, E. auto.
  - intros CF e w y w' H. apply call_fill in H. destruct H as (p & H). destruct (S1 _ _ _ _ _ H) as (_ & _ & B). auto.
  - intros CF HL e w o w' H. rewrite call_eq in H. destruct (fill P g e w) as [[[y p]|x] w1] eqn:E; pose proof (S2 CF HL _ _ _ _ E); congruence.
Qed.

Lemma free_part : forall ts (h h' : hint), (forall t, In t (hint_tokens h') -> In t (hint_tokens h)) -> coercer_free ts h = true -> coercer_free [] h' = true.
Proof.
  intros ts h h' HI H. unfold coercer_free, has_coercer in *. apply negb_true_iff in H. apply negb_true_iff. rewrite app_nil_r.
  rewrite existsb_app in H. apply orb_false_iff in H. destruct H as [H _].
  destruct (existsb is_coercion (hint_tokens h')) eqn:E; [|reflexivity]. apply existsb_exists in E. destruct E as (t & I & E).
  assert (existsb is_coercion (hint_tokens h) = true) by (apply existsb_exists; eauto). congruence.
Qed.

Lemma all_p_Forall : forall {A} (p : A -> Prop) l, all_p p l <-> Forall p l.
Proof. intros A p. induction l as [|a r IH]; cbn; split; intro H; auto; [destruct H; constructor; tauto|inversion H; tauto]. Qed.

Lemma nested_make : forall d (h : hint) toks own ts,
  make_filler P d (HAnn (HAnn h toks) own) (own_only ts) = make_filler P d (HAnn h (toks ++ own)) (own_only ts).
Proof. intros. unfold make_filler, get_filler. cbn. rewrite !app_nil_r. reflexivity. Qed.

Lemma weaker : forall {A B C : Prop}, A \/ B /\ C -> A \/ B.
Proof. tauto. Qed.

Lemma settling_settled : forall h d ts own, settling P d ts own h -> settled d ts own h.
Proof.
  induction h as [t0| | | |h IH|hs IH|lid vals|base|hs IH|h IH|rk t0 h IH|rk t0 hk hv IHk IHv|t0 hs IH|t0| |h toks IH]
    using hint_ind'; intros d ts own HS; cbn [settling] in HS; try contradiction.
  - destruct HS as (N1 & N2 & C & T). eapply leaf_settled; [reflexivity| |assumption|assumption|].
    + intros lid vals E. unfold class_kind in E. destruct (ty_eqb P t0 (t_bool P)); [discriminate|].
      destruct (ty_eqb P t0 (t_none P)); [discriminate|]. destruct (ty_eqb P t0 (t_ellipsis P)); discriminate.
    + intros cs _. apply class_settles; assumption.
  - destruct HS as (C & N & T). eapply leaf_settled; [reflexivity|discriminate|assumption|assumption|].
    intros cs E. rewrite (no_coercers P _ _ _ E N). apply none_settles.
  - destruct HS as (C & N & T). eapply leaf_settled; [reflexivity|discriminate|assumption|assumption|].
    intros cs E. rewrite (no_coercers P _ _ _ E N). apply callable_settles.
  - destruct HS as (N & C & T). eapply leaf_settled; [reflexivity|discriminate|assumption|assumption|].
    intros cs _. apply simple_settles. assumption.
  - destruct HS as (HN & HS). apply newtype_settled; [|apply IH; assumption]. intros h' toks E. rewrite E in HN. exact (HN eq_refl).
  - destruct HS as (HN & HU & HA). apply union_settled; [assumption|assumption|assumption|].
    intros h I. rewrite Forall_forall in IH. apply all_p_Forall in HA. rewrite Forall_forall in HA. destruct (HA h I) as (A & B & C). auto.
  - destruct HS as (C & T). apply literal_settled; assumption.
  - destruct HS as (C & T). apply type_settled; assumption.
  - (* HTupleN *)
    destruct HS as ((PC & C & V) & HA). apply all_p_Forall in HA.
    eapply (container_settled d ts own (HTupleN hs) (t_tuple P) C); [reflexivity|reflexivity|].
    intros f M. destruct (tuplen_eq P _ _ _ _ _ PC M) as (f0 & gs & M0 & HL & HG & HC). rewrite own_ops_own_only in *.
    destruct (outside d ts own (t_tuple P) f0 PC C (weaker V) M0) as (O1 & O2 & O3 & O4).
    assert (GP : forall g, In g gs -> exists h, In h hs /\ settled d [] [] h /\ make_filler P d h (own_only []) = Ok g).
    { intros g I. apply In_nth_error in I. destruct I as (n & E). destruct (nth_error hs n) as [h|] eqn:EH.
      - destruct (HG n h EH) as (g' & E' & M'). assert (g' = g) by congruence. subst g'. rewrite sub_ops_own_only in M'.
        exists h. assert (I : In h hs) by (eapply nth_error_In; exact EH). split; [assumption|]. split; [|assumption].
        rewrite Forall_forall in IH, HA. apply IH; [assumption|]. apply HA. assumption.
      - apply nth_error_None in EH. assert (n < List.length gs) by (apply nth_error_Some; congruence). lia. }
    assert (GS : Forall (fun g => forall e w y w', g e w = (Ok y, w') -> stays g (forallb (quiet [] []) hs) y) (map (call P) gs)).
    { apply Forall_forall. intros G I. apply in_map_iff in I. destruct I as (g & <- & I). destruct (GP g I) as (h & Ih & Sh & Mh).
      destruct (settled_call d [] h g Sh Mh) as [A _]. intros e w y w' H. pose proof (A _ _ _ _ H) as ST. intro w1. destruct (ST w1) as (w2 & E & Q).
      exists w2. split; [assumption|]. intro FB. apply Q. rewrite forallb_forall in FB. apply FB. assumption. }
    assert (CF : coercer_free (own ++ ts) (HTupleN hs) = true -> has_coercer (ts ++ own) = false /\ Forall parts_same (map (call P) gs)).
    { intro F. split; [eapply coercer_free_own; exact F|]. apply Forall_forall. intros G I. apply in_map_iff in I. destruct I as (g & <- & I).
      destruct (GP g I) as (h & Ih & Sh & Mh). destruct (settled_call d [] h g Sh Mh) as (_ & B & _). apply B.
      eapply free_part; [|exact F]. cbn. intros t It. apply in_flat_map. eauto. }
    split.
    + intros x w y w' H. rewrite HC in H. unfold bind in H. destruct (call P f0 x w) as [[z|e] w0] eqn:E0; [|discriminate].
      pose proof (O1 _ _ _ _ E0) as OK.
      assert (ST : forall w1 w3 u, (if all_i (fun n h => hollow_hint d no_sub_tokens (sub_ops (own_only ts) n) [] h) 0 hs
                    then if style_eqb (eff_style d (ts ++ own)) SHollow then ret z else check_length P (List.length hs) z
                    else fill_positions P (map (call P) gs) z) w1 = (Ok u, w3) ->
                  class_ok P (eff_style d (ts ++ own)) (t_tuple P) u /\
                  forall w1, exists w2, (if all_i (fun n h => hollow_hint d no_sub_tokens (sub_ops (own_only ts) n) [] h) 0 hs
                    then if style_eqb (eff_style d (ts ++ own)) SHollow then ret u else check_length P (List.length hs) u
                    else fill_positions P (map (call P) gs) u) w1 = (Ok u, w2) /\ (forallb (quiet [] []) hs = true -> w2 = w1)).
      { intros w1 w3 u HF. destruct (all_i _ 0 hs).
        - destruct (style_eqb (eff_style d (ts ++ own)) SHollow).
          + unfold ret in HF. injection HF as <- <-. split; [assumption|]. intro w4. exists w4. auto.
          + unfold check_length in HF. destruct (elems P z) as [l|] eqn:EZ; [|discriminate].
            destruct (Nat.eqb (List.length l) (List.length hs)) eqn:EL; [|discriminate]. unfold ret in HF. injection HF as <- <-.
            split; [assumption|]. intro w4. exists w4. unfold check_length. rewrite EZ, EL. auto.
        - exact (positions_settle honest _ _ _ C GS _ _ _ _ OK HF). }
      destruct (ST _ _ _ H) as [OK2 S2]. split; [assumption|]. split.
      * intro w1. destruct (S2 w1) as (w2 & E2 & Q2). exists w2. rewrite HC. unfold bind. rewrite (O2 _ _ _ _ E0 y w1 OK2); [auto|].
        destruct V as [V|[_ V]]; [left; exact V|right]. assert (FP : Forall parts_same (map (call P) gs)).
        { apply Forall_forall. intros G I. apply in_map_iff in I. destruct I as (g & <- & I). destruct (GP g I) as (h & Ih & Sh & Mh).
          destruct (settled_call d [] h g Sh Mh) as (_ & B & _). apply B. rewrite forallb_forall in V. apply V. assumption. }
        clear ST S2 E2. destruct (all_i _ 0 hs).
        -- destruct (style_eqb (eff_style d (ts ++ own)) SHollow); [unfold ret in H; congruence|].
           unfold check_length in H. destruct (elems P z); [|discriminate]. destruct (Nat.eqb _ _); [|discriminate]. unfold ret in H. congruence.
        -- exact (positions_same _ FP _ _ _ _ H).
      * intro F. destruct (CF F) as [F1 F2]. rewrite <- (O3 F1 _ _ _ _ E0). clear ST S2.
        destruct (all_i _ 0 hs).
        -- destruct (style_eqb (eff_style d (ts ++ own)) SHollow); [unfold ret in H; congruence|].
           unfold check_length in H. destruct (elems P z); [|discriminate]. destruct (Nat.eqb _ _); [|discriminate]. unfold ret in H. congruence.
        -- exact (positions_same _ F2 _ _ _ _ H).
    + intros F L x w o w' H. destruct (CF F) as [F1 F2]. rewrite HC in H. unfold bind in H. destruct (call P f0 x w) as [q w0] eqn:E0.
      pose proof (O4 F1 _ _ _ _ E0). subst w0. destruct q as [z|e]; [|congruence].
      destruct (all_i _ 0 hs).
      * destruct (style_eqb (eff_style d (ts ++ own)) SHollow); [unfold ret in H; congruence|].
        unfold check_length, raise in H. destruct (elems P z); [|congruence]. destruct (Nat.eqb _ _); unfold ret in H; congruence.
      * eapply (positions_still (map (call P) gs) F2); [|exact H]. apply Forall_forall. intros G I. apply in_map_iff in I. destruct I as (g & <- & I).
        destruct (GP g I) as (h & Ih & Sh & Mh). destruct (settled_call d [] h g Sh Mh) as (_ & _ & B). apply B.
        -- eapply free_part; [|exact F]. cbn. intros t It. apply in_flat_map. eauto.
        -- destruct (has_literal h) eqn:EL; [|reflexivity]. exfalso. cbn in L. assert (existsb has_literal hs = true) by (apply existsb_exists; eauto). congruence.
  - (* HTupleV *)
    destruct HS as ((PC & C & V) & HP).
    eapply (container_settled d ts own (HTupleV h) (t_tuple P) C); [reflexivity|reflexivity|].
    intros f M. destruct (tuplev_eq P _ _ _ _ _ PC M) as (f0 & g & M0 & MG & HC). rewrite own_ops_own_only in *. rewrite sub_ops_own_only in *.
    destruct (outside d ts own (t_tuple P) f0 PC C (weaker V) M0) as (O1 & O2 & O3 & O4).
    destruct HP as [HP|HP].
    + assert (HC' : forall x w, call P f x w = call P f0 x w).
      { intros x w. rewrite HC. unfold bind. destruct (call P f0 x w) as [[z|e] w1]; [|reflexivity]. rewrite HP. reflexivity. }
      split.
      * intros x w y w' H. rewrite HC' in H. pose proof (O1 _ _ _ _ H) as OK. split; [assumption|]. split.
        -- intro w1. exists w1. rewrite HC'. split; [|reflexivity]. exact (O2 _ _ _ _ H y w1 OK (or_intror eq_refl)).
        -- intro F. apply coercer_free_own in F. exact (O3 F _ _ _ _ H).
      * intros F _ x w o w' H. rewrite HC' in H. apply coercer_free_own in F. exact (O4 F _ _ _ _ H).
    + destruct (settled_call d [] h g (IH _ _ _ HP) MG) as (A & B & D). split.
      * intros x w y w' H. rewrite HC in H. unfold bind in H. destruct (call P f0 x w) as [[z|e] w0] eqn:E0; [|discriminate].
        pose proof (O1 _ _ _ _ E0) as OK. destruct (hollow_hint d no_sub_tokens [] [] h).
        { unfold ret in H. injection H as <- <-. split; [assumption|]. split.
          - intro w1. exists w1. rewrite HC. unfold bind. rewrite (O2 _ _ _ _ E0 z w1 OK (or_intror eq_refl)). auto.
          - intro F. apply coercer_free_own in F. exact (O3 F _ _ _ _ E0). }
        destruct (elements_settle honest readable _ _ _ _ _ C A _ _ _ _ OK H) as [OK2 S2]. split; [assumption|]. split.
        -- intro w1. destruct (S2 w1) as (w2 & E2 & Q2). exists w2. rewrite HC. unfold bind. rewrite (O2 _ _ _ _ E0 y w1 OK2); [auto|].
           destruct V as [V|[_ V]]; [left; exact V|right]. cbn in V. apply andb_prop in V. exact (elements_same _ _ (B (proj1 V)) _ _ _ _ H).
        -- intro F. rewrite <- (O3 (coercer_free_own _ _ _ F) _ _ _ _ E0).
           eapply elements_same; [|exact H]. apply B. eapply free_part; [|exact F]. cbn. auto.
      * intros F L x w o w' H. rewrite HC in H. unfold bind in H. destruct (call P f0 x w) as [q w0] eqn:E0.
        pose proof (O4 (coercer_free_own _ _ _ F) _ _ _ _ E0). subst w0. destruct q as [z|e]; [|congruence].
        destruct (hollow_hint d no_sub_tokens [] [] h); [unfold ret in H; congruence|].
        assert (F' : coercer_free [] h = true) by (eapply free_part; [|exact F]; cbn; auto).
        exact (elements_still _ _ (B F') (D F' L) _ _ _ _ H).
  - (* HIter *)
    destruct HS as ((PC & C & V) & HP).
    eapply (container_settled d ts own (HIter rk t0 h) t0 C); [reflexivity|reflexivity|].
    intros f M. destruct (iter_eq P _ _ _ _ _ _ _ PC M) as (f0 & g & M0 & MG & HC). rewrite own_ops_own_only in *. rewrite sub_ops_own_only in *.
    destruct (outside d ts own t0 f0 PC C (weaker V) M0) as (O1 & O2 & O3 & O4).
    destruct HP as [HP|HP].
    + assert (HC' : forall x w, call P f x w = call P f0 x w).
      { intros x w. rewrite HC. unfold bind. destruct (call P f0 x w) as [[z|e] w1]; [|reflexivity]. rewrite HP. reflexivity. }
      split.
      * intros x w y w' H. rewrite HC' in H. pose proof (O1 _ _ _ _ H) as OK. split; [assumption|]. split.
        -- intro w1. exists w1. rewrite HC'. split; [|reflexivity]. exact (O2 _ _ _ _ H y w1 OK (or_intror eq_refl)).
        -- intro F. apply coercer_free_own in F. exact (O3 F _ _ _ _ H).
      * intros F _ x w o w' H. rewrite HC' in H. apply coercer_free_own in F. exact (O4 F _ _ _ _ H).
    + destruct (settled_call d [] h g (IH _ _ _ HP) MG) as (A & B & D). split.
      * intros x w y w' H. rewrite HC in H. unfold bind in H. destruct (call P f0 x w) as [[z|e] w0] eqn:E0; [|discriminate].
        pose proof (O1 _ _ _ _ E0) as OK. destruct (hollow_hint d no_sub_tokens [] [] h).
        { unfold ret in H. injection H as <- <-. split; [assumption|]. split.
          - intro w1. exists w1. rewrite HC. unfold bind. rewrite (O2 _ _ _ _ E0 z w1 OK (or_intror eq_refl)). auto.
          - intro F. apply coercer_free_own in F. exact (O3 F _ _ _ _ E0). }
        destruct (elements_settle honest readable _ _ _ _ _ C A _ _ _ _ OK H) as [OK2 S2]. split; [assumption|]. split.
        -- intro w1. destruct (S2 w1) as (w2 & E2 & Q2). exists w2. rewrite HC. unfold bind. rewrite (O2 _ _ _ _ E0 y w1 OK2); [auto|].
           destruct V as [V|[_ V]]; [left; exact V|right]. cbn in V. apply andb_prop in V. exact (elements_same _ _ (B (proj1 V)) _ _ _ _ H).
        -- intro F. rewrite <- (O3 (coercer_free_own _ _ _ F) _ _ _ _ E0).
           eapply elements_same; [|exact H]. apply B. eapply free_part; [|exact F]. cbn. auto.
      * intros F L x w o w' H. rewrite HC in H. unfold bind in H. destruct (call P f0 x w) as [q w0] eqn:E0.
        pose proof (O4 (coercer_free_own _ _ _ F) _ _ _ _ E0). subst w0. destruct q as [z|e]; [|congruence].
        destruct (hollow_hint d no_sub_tokens [] [] h); [unfold ret in H; congruence|].
        assert (F' : coercer_free [] h = true) by (eapply free_part; [|exact F]; cbn; auto).
        exact (elements_still _ _ (B F') (D F' L) _ _ _ _ H).
  - (* HMap *)
    destruct HS as ((PC & C & V) & HP).
    eapply (container_settled d ts own (HMap rk t0 hk hv) t0 C); [reflexivity|reflexivity|].
    intros f M. destruct (map_eq P _ _ _ _ _ _ _ _ PC M) as (f0 & gk & gv & M0 & MK & MV & HC). rewrite own_ops_own_only in *. rewrite !sub_ops_own_only in *.
    destruct (outside d ts own t0 f0 PC C (weaker V) M0) as (O1 & O2 & O3 & O4).
    destruct HP as [HP|[HPk HPv]].
    + assert (HC' : forall x w, call P f x w = call P f0 x w).
      { intros x w. rewrite HC. unfold bind. destruct (call P f0 x w) as [[z|e] w1]; [|reflexivity]. rewrite HP. reflexivity. }
      split.
      * intros x w y w' H. rewrite HC' in H. pose proof (O1 _ _ _ _ H) as OK. split; [assumption|]. split.
        -- intro w1. exists w1. rewrite HC'. split; [|reflexivity]. exact (O2 _ _ _ _ H y w1 OK (or_intror eq_refl)).
        -- intro F. apply coercer_free_own in F. exact (O3 F _ _ _ _ H).
      * intros F _ x w o w' H. rewrite HC' in H. apply coercer_free_own in F. exact (O4 F _ _ _ _ H).
    + destruct (settled_call d [] hk gk (IHk _ _ _ HPk) MK) as (Ak & Bk & Dk).
      destruct (settled_call d [] hv gv (IHv _ _ _ HPv) MV) as (Av & Bv & Dv).
      assert (Ak' : forall e w y w', call P gk e w = (Ok y, w') -> stays (call P gk) (quiet [] [] hk && quiet [] [] hv) y).
      { intros e w y w' H w1. destruct (Ak _ _ _ _ H w1) as (w2 & E & Q). exists w2. split; [assumption|]. intro T. apply andb_prop in T. tauto. }
      assert (Av' : forall e w y w', call P gv e w = (Ok y, w') -> stays (call P gv) (quiet [] [] hk && quiet [] [] hv) y).
      { intros e w y w' H w1. destruct (Av _ _ _ _ H w1) as (w2 & E & Q). exists w2. split; [assumption|]. intro T. apply andb_prop in T. tauto. }
      assert (FK : coercer_free (own ++ ts) (HMap rk t0 hk hv) = true -> coercer_free [] hk = true).
      { apply free_part. cbn. intros t It. apply in_or_app. auto. }
      assert (FV : coercer_free (own ++ ts) (HMap rk t0 hk hv) = true -> coercer_free [] hv = true).
      { apply free_part. cbn. intros t It. apply in_or_app. auto. }
      split.
      * intros x w y w' H. rewrite HC in H. unfold bind in H. destruct (call P f0 x w) as [[z|e] w0] eqn:E0; [|discriminate].
        pose proof (O1 _ _ _ _ E0) as OK. destruct (hollow_hint d no_sub_tokens [] [] hk && hollow_hint d no_sub_tokens [] [] hv).
        { unfold ret in H. injection H as <- <-. split; [assumption|]. split.
          - intro w1. exists w1. rewrite HC. unfold bind. rewrite (O2 _ _ _ _ E0 z w1 OK (or_intror eq_refl)). auto.
          - intro F. apply coercer_free_own in F. exact (O3 F _ _ _ _ E0). }
        destruct (pairs_settle honest readable _ _ _ _ _ _ C Ak' Av' _ _ _ _ OK H) as [OK2 S2]. split; [assumption|]. split.
        -- intro w1. destruct (S2 w1) as (w2 & E2 & Q2). exists w2. rewrite HC. unfold bind. rewrite (O2 _ _ _ _ E0 y w1 OK2); [auto|].
           destruct V as [V|[_ V]]; [left; exact V|right]. cbn in V. apply andb_prop in V. destruct V as (V1 & V2). apply andb_prop in V2.
           exact (pairs_same _ _ _ (Bk V1) (Bv (proj1 V2)) _ _ _ _ H).
        -- intro F. rewrite <- (O3 (coercer_free_own _ _ _ F) _ _ _ _ E0). exact (pairs_same _ _ _ (Bk (FK F)) (Bv (FV F)) _ _ _ _ H).
      * intros F L x w o w' H. rewrite HC in H. unfold bind in H. destruct (call P f0 x w) as [q w0] eqn:E0.
        pose proof (O4 (coercer_free_own _ _ _ F) _ _ _ _ E0). subst w0. destruct q as [z|e]; [|congruence].
        destruct (hollow_hint d no_sub_tokens [] [] hk && hollow_hint d no_sub_tokens [] [] hv); [unfold ret in H; congruence|].
        cbn in L. apply orb_false_iff in L. destruct L as [L1 L2].
        exact (pairs_still _ _ _ (Bk (FK F)) (Bv (FV F)) (Dk (FK F) L1) (Dv (FV F) L2) _ _ _ _ H).
  - (* HBare *)
    destruct HS as (N1 & N2 & C & T). eapply leaf_settled; [reflexivity| |assumption|assumption|].
    + intros lid vals E. unfold class_kind in E. destruct (ty_eqb P t0 (t_bool P)); [discriminate|].
      destruct (ty_eqb P t0 (t_none P)); [discriminate|]. destruct (ty_eqb P t0 (t_ellipsis P)); discriminate.
    + intros cs _. apply class_settles; assumption.
  - (* HAnn *)
    intros f M. rewrite nested_make in M. destruct (IH _ _ _ HS f M) as [S1 S2].
    assert (CF : coercer_free (own ++ ts) (HAnn h toks) = coercer_free ((toks ++ own) ++ ts) h).
    { unfold coercer_free. cbn [hint_tokens]. rewrite <- !app_assoc. reflexivity. }
    assert (E1 : is_union (HAnn h toks) = is_union h) by reflexivity. assert (E2 : is_leaf (HAnn h toks) = is_leaf h) by reflexivity.
    rewrite CF, E1, E2. split; [exact S1|exact S2].
Qed.
End All.
End Lemmas.

Lemma c155_settles_partial_proof : forall {obj ty W} (P : Py obj ty W) d h ts f,
  settled_runtime P -> settling P d ts [] h -> make_filler P d h (own_only ts) = Ok f ->
  forall x w y w', call P f x w = (Ok y, w') ->
  forall w1, exists w2, call P f y w1 = (Ok y, w2) /\ (quiet ts [] h = true -> w2 = w1).
Proof.
  intros obj ty W P d h ts f (H1 & H2 & H3) HS HM x w y w' HC.
  exact (proj1 (settled_call P d ts h f (settling_settled P H1 H2 H3 h d ts [] HS) HM) x w y w' HC).
Qed.

Lemma c155_untouched_proof : forall {obj ty W} (P : Py obj ty W) d h ts f,
  settled_runtime P -> settling P d ts [] h -> coercer_free ts h = true -> make_filler P d h (own_only ts) = Ok f ->
  forall x w y w', call P f x w = (Ok y, w') -> y = x /\ (has_literal h = false -> w' = w).
Proof.
  intros obj ty W P d h ts f (H1 & H2 & H3) HS HF HM x w y w' HC.
  destruct (settled_call P d ts h f (settling_settled P H1 H2 H3 h d ts [] HS) HM) as (_ & A & B).
  split; [exact (A HF _ _ _ _ HC)|]. intro HL. exact (B HF HL _ _ _ _ HC).
Qed.

Lemma c155_record_partial_proof : forall {obj ty W} (R : Rt obj ty W) c n kw w x w',
  settled_runtime (rt_py R) -> made (rt_py R) c -> dict_ok kw -> no_reserved kw -> only_validates R c ->
  construct R n c None kw w = (Ok x, w') ->
  forall k v, dget k kw = Some v -> (forall f, dget k (c_fields c) = Some f -> settling_field (rt_py R) f) ->
  exists i f y, lookup R w' x = Some i /\ dget k (c_fields c) = Some f /\ dget k (i_dict i) = Some y /\
    forall w1, call (rt_py R) (f_filler f) y w1 = (Ok y, w1).
Proof.
  intros obj ty W R c n kw w x w' HR HM HD HN HV HC k v HK HS.
  destruct (New_main.c29_keyword_partial_proof R c n kw w x w' k v HM HD HN HV HC HK) as (i & f & y & wa & wb & E1 & E2 & E3 & E4).
  exists i, f, y. split; [assumption|]. split; [assumption|]. split; [assumption|]. intro w1.
  destruct (HS f E2) as (d & h & ts & MF & [[ST QU]|[HH HU]]).
  2:{ apply (Filler_main.c01_hollow_proof (rt_py R) d h (own_only ts) (f_filler f) MF).
      - rewrite own_ops_own_only, (hollow_hint_ext d h _ no_sub_tokens); [assumption|]. intro. apply sub_ops_own_only.
      - rewrite own_ops_own_only, (unvalidated_ext h _ no_sub_tokens); [assumption|]. intro. apply sub_ops_own_only. }
  destruct (c155_settles_partial_proof (rt_py R) d h ts (f_filler f) HR ST MF _ _ _ _ E4 w1) as (w2 & E & Q).
  rewrite E, (Q QU). reflexivity.
Qed.

Lemma c155_copy_partial_proof : forall {obj ty W} (R : Rt obj ty W) ctx D eqb m n c kw w x w' i,
  settled_runtime (rt_py R) -> made (rt_py R) c -> dict_ok kw -> no_reserved kw -> only_validates R c ->
  construct R n c None kw w = (Ok x, w') ->
  (forall k f, dget k (c_fields c) = Some f -> In k (keys kw) /\ settling_field (rt_py R) f) ->
  Spec_Inst.accepts R ctx c (rebuilt eqb c i) -> fields_callable c -> c_frozen c = false ->
  instance_of R ctx c w' x i -> has_eq R D eqb -> defaults_in D c -> values_in D c i ->
  stored_fixed R c i /\
  exists y w2 j, copy R ctx (S m) x w' = (Ok y, w2) /\ fresh_instance R ctx c w' w2 y j /\ all_kept R w' w2 /\
    forall k f v, dget k (c_fields c) = Some f -> dget k (i_dict i) = Some v ->
      dget k (i_dict j) = Some v \/ exists d, f_default f = DefVal d /\ eqb d v = true /\ dget k (i_dict j) = Some d.
Proof.
  intros obj ty W R ctx D eqb m n c kw w x w' i HR HM HD HN HV HC HF HA HFC HFZ HI HE HDI HVI.
  assert (SF : stored_fixed R c i).
  { intros k f v EF EV w1. destruct (HF k f EF) as [IK SF]. apply Dict_proofs.in_keys_get in IK. destruct IK as (u & EU).
    destruct (c155_record_partial_proof R c n kw w x w' HR HM HD HN HV HC k u EU) as (i' & f' & y & L & EF' & EY & FX).
    - intros f' EF'. assert (f' = f) by congruence. subst f'. assumption.
    - destruct HI as (_ & HL & _). assert (i' = i) by congruence. subst i'. assert (f' = f) by congruence. assert (y = v) by congruence. subst. apply FX. }
  split; [assumption|].
  destruct (Copy_main.c38_not_default_partial_proof R ctx D eqb m c w' x i HM HA HFC HFZ HI HE HDI HVI SF) as (y & w2 & j & E1 & E2 & E3 & E4 & E5).
  exists y, w2, j. split; [assumption|]. split; [assumption|]. split; [assumption|]. intros k f v EF EV.
  destruct (f_default f) as [|d|fac] eqn:ED.
  - left. apply (E4 k f v EF EV). intros d E. congruence.
  - destruct (eqb d v) eqn:EE.
    + right. exists d. split; [reflexivity|]. split; [assumption|]. exact (E5 k f v d EF EV ED EE).
    + left. apply (E4 k f v EF EV). intros d' E. assert (d' = d) by congruence. subst. assumption.
  - left. apply (E4 k f v EF EV). intros d E. congruence.
Qed.

Lemma c155_validator_refuted_proof : forall {obj ty W} (P : Py obj ty W) s t v f x w y w1 w2 z w3,
  checks s -> t <> t_none P -> t <> t_ellipsis P ->
  make_filler P s (HAnn (HTy t) [TValid (VGlobal (fun _ => Ok v))]) [] = Ok f ->
  class_ok P s t x -> v x w = (Ok y, w1) -> class_ok P s t y -> v y w2 = (Ok z, w3) ->
  call P f x w = (Ok y, w1) /\ call P f y w2 = (Ok z, w3).
Proof.
  intros obj ty W P s t v f x w y w1 w2 z w3 HS N1 N2 HM OX EX OY EY.
  assert (ES : eff_style s (own_ops (@nil (option nat * @token obj ty W)) ++ [TValid (VGlobal (fun _ => Ok v))]) = s) by (destruct HS as [-> | ->]; reflexivity).
  destruct (Filler_main.c04_matching_not_coerced_proof P s t _ [] f N1 N2 HM) as (vs & DV & HC); [rewrite ES; exact HS|].
  rewrite ES in HC. cbn in DV. inversion DV as [|? ? ? ? H1 H2]; subst. inversion H2; subst. injection H1 as <-.
  split; [rewrite (proj1 (HC x OX w))|rewrite (proj1 (HC y OY w2))]; cbn; unfold bind, ret; [rewrite EX|rewrite EY]; reflexivity.
Qed.

Lemma c155_none_refuted_proof : forall {obj ty W} (P : Py obj ty W) s c f x w y w1 w2 z w3,
  checks s -> make_filler P s (HAnn HNone [TCoerce (CGlobal (fun _ => Ok c))]) [] = Ok f ->
  x <> o_none P -> c x w = (Ok y, w1) -> y <> o_none P -> c y w2 = (Ok z, w3) ->
  call P f x w = (Ok y, w1) /\ call P f y w2 = (Ok z, w3).
Proof.
  intros obj ty W P s c f x w y w1 w2 z w3 HS HM NX EX NY EY.
  destruct (leaf_make P HNone KNone _ _ _ _ eq_refl HM) as (cs & vs & C & V & -> & _). cbn in C, V. injection C as <-. injection V as <-.
  assert (ES : eff_style s (own_ops (@nil (option nat * @token obj ty W)) ++ [TCoerce (CGlobal (fun _ => Ok c))]) = s) by (destruct HS as [-> | ->]; reflexivity).
  rewrite ES. rewrite !call_ann. unfold afill. cbn [a_kind a_style a_coercers a_validators lit_validators app run_validators]. unfold bind, ret, type_phase.
  cbn [type_check]. destruct (py_isP P x (o_none P)); [contradiction|]. destruct (py_isP P y (o_none P)); [contradiction|].
  cbn [run_coercers]. unfold bind. rewrite EX, EY. cbn [type_check].
  destruct HS as [-> | ->]; cbn [type_check]; destruct (py_isP P y (o_none P)); try contradiction; destruct (py_isP P z (o_none P)); split; reflexivity.
Qed.

Lemma demo_settled : forall W getg setg, settled_runtime (@demo W getg setg).
Proof.
  intros W getg setg. split; [apply Props_Filler.demo_honest|]. split; [split|].
  - intros rk v es w r w' H. cbn in H. destruct v; try discriminate; unfold ret in H; injection H as <- _; eexists; reflexivity.
  - intros rk v es w r w' H. cbn in H. destruct v; try discriminate; unfold ret in H; injection H as <- _; eexists; reflexivity.
  - split; [|split; [|split; [|split; [|split]]]].
    + intros rk v es w _. cbn. destruct v; reflexivity.
    + intros rk v es w _. cbn. destruct v; reflexivity.
    + intros v z w _. reflexivity.
    + intros v b. cbn. destruct v; exact I || reflexivity.
    + intros v e H. exact (dhash_error_Exception v e H).
    + reflexivity.
Qed.

(** a coercion token *)
Definition coerces (c : dobj -> M demo_state dobj) : @token dobj dty demo_state := TCoerce (CGlobal (fun _ => Ok c)).
(** List[Annotated[int, coercer]] and List[Annotated[str, coercer]]: None is made 5, 5 is made "s" *)
Definition ints_of_none : @hint dobj dty demo_state :=
  HIter RkPlain TList (HAnn (HTy TInt) [coerces (fun x => match x with DNone => ret (DInt 5) | _ => raise (mkexc ValueError "") end)]).
Definition strs_of_ints : @hint dobj dty demo_state :=
  HIter RkPlain TList (HAnn (HTy TStr) [coerces (fun x => match x with DInt _ => ret (DStr "s") | _ => raise (mkexc ValueError "") end)]).

Lemma c155_union_refuted_proof : exists (P : Py dobj dty demo_state) a b f x y w e,
  settled_runtime P /\ existsb is_validation (hint_tokens (HUnion [a; b])) = false /\
  settling P SCheck [] [] a /\ settling P SCheck [] [] b /\
  make_filler P SCheck (HUnion [a; b]) [] = Ok f /\
  call P f x w = (Ok y, w) /\ call P f y w = (Raise e, w) /\ exc_cls e = ValueError.
Proof.
  exists demo0, ints_of_none, strs_of_ints. eexists. exists (dlist [DNone]), (dlist [DInt 5]), st0. eexists.
  split; [apply demo_settled|]. split; [reflexivity|].
  assert (T : forall c, Forall testing [coerces c]) by (intro c; repeat constructor).
  assert (L : plain_class demo0 TList) by (repeat split; discriminate).
  split; [|split].
  - cbn -[eff_style]. split; [split; [assumption|]; split; [left; reflexivity|left; reflexivity]|]. right.
    split; [discriminate|]. split; [discriminate|]. split; [left; reflexivity|apply T].
  - cbn -[eff_style]. split; [split; [assumption|]; split; [left; reflexivity|left; reflexivity]|]. right.
    split; [discriminate|]. split; [discriminate|]. split; [left; reflexivity|apply T].
  - split; [reflexivity|]. split; [reflexivity|]. split; reflexivity.
Qed.

(** a test for lists without repetitions *)
Fixpoint repeats (l : list dobj) : bool :=
  match l with [] => false | x :: r => existsb (dis x) r || repeats r end.
Definition different : dobj -> M demo_state dobj :=
  fun x w => (match x with DList l => if repeats (unchain l) then Raise (mkexc ValueError "repeated") else Ok x | _ => Ok x end, w).

Lemma c155_container_refuted_proof : exists (P : Py dobj dty demo_state) h v f x y w e,
  settled_runtime P /\ settling P SCheck [] [] h /\ testing_callback v /\
  make_filler P SCheck (HAnn h [TValid (VGlobal (fun _ => Ok v))]) [] = Ok f /\
  call P f x w = (Ok y, w) /\ call P f y w = (Raise e, w) /\ v y w = (Raise e, w).
Proof.
  exists demo0, ints_of_none, different. eexists. exists (dlist [DInt 5; DNone]), (dlist [DInt 5; DInt 5]), st0. eexists.
  split; [apply demo_settled|]. split; [|split].
  - cbn -[eff_style]. split; [split; [repeat split; discriminate|]; split; [left; reflexivity|left; reflexivity]|]. right.
    split; [discriminate|]. split; [discriminate|]. split; [left; reflexivity|repeat constructor].
  - exists (fun x => match x with DList l => if repeats (unchain l) then Some (mkexc ValueError "repeated") else None | _ => None end).
    intros x w. unfold different. destruct x; try reflexivity. destruct (repeats (unchain x)); reflexivity.
  - split; [reflexivity|]. split; [reflexivity|]. split; reflexivity.
Qed.
