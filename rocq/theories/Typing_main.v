(** Typing_main.v -- proofs of the properties stated in Props_Typing.v: what annotations mean *)

From Verif Require Import Base Py Filler Hints Spec_Filler Spec_State Spec_Typing Spec_Hints Demo DemoTyping.
From Verif Require Filler_proofs Filler_shape Filler_eqs Filler_decl Filler_main Filler_exact Hints_proofs Hints_docs.
Open Scope string_scope.
Open Scope list_scope.

Import Filler_proofs Filler_shape Filler_eqs Filler_decl Filler_main Filler_exact Hints_proofs Hints_docs.

Lemma bare_tokens : forall {obj ty W} (P : Py obj ty W) T (y : @typing obj ty W), bare y -> Forall (eq TOther) (hint_tokens (hint_of P T y)).
Proof.
  intros obj ty W P T y. induction y as [t| | | | | | |y IH|ys IH|l vs|t ps IH|y ms IH] using typing_ind'; intros HB; try constructor.
  - apply IH. apply HB.
  - apply every_union in HB as [_ HB]. cbn. induction IH as [|y r H _ IHr]; [constructor|]. inversion HB; subst. cbn. apply Forall_app. auto.
  - apply every_alias in HB as [_ HB]. cbn [hint_of]. destruct (has_args ps); [|constructor]. destruct (ty_eqb P t (t_type P)); [constructor|].
    assert (A : Forall (fun p => Forall (eq TOther) (hint_tokens (hint_of P T p))) ps) by (eapply Forall_mp; eassumption).
    assert (L : Forall (eq TOther) (flat_map hint_tokens (map (hint_of P T) ps))).
    { clear - A. induction A; cbn; [constructor|]. apply Forall_app. auto. }
    destruct (gmap T t) as [[|rk|rk|]|]; try constructor; try exact L.
    + destruct ps as [|p1 [|p2 [|p3 ps]]]; try exact L; destruct p2; try exact L. inversion A; subst. assumption.
    + destruct ps as [|p ps]; [constructor|]. inversion A; subst. assumption.
    + destruct ps as [|p1 [|p2 [|p3 ps]]]; try constructor. cbn. inversion A as [|? ? A1 A2]; subst. inversion A2; subst. apply Forall_app. auto.
  - destruct HB as [HB1 HB2]. cbn. apply Forall_app. split; [auto|]. clear - HB1. induction HB1 as [|m r <- _ IH]; cbn; constructor; auto.
Qed.

Lemma others_free : forall {obj ty W} (ts : list (@token obj ty W)), Forall (eq TOther) ts -> Forall callback_free ts.
Proof. induction 1; constructor; subst; cbn; auto. Qed.
Lemma others_understood : forall {obj ty W} (ts : list (@token obj ty W)), Forall (eq TOther) ts -> Forall understood ts.
Proof. induction 1; constructor; subst; cbn; auto. Qed.

Lemma c84_exact_proof : forall {obj ty W} (P : Py obj ty W) dflt h f,
  plain_errors P ->
  make_filler P dflt h [] = Ok f ->
  Forall callback_free (hint_tokens h) ->
  accepts_exactly (call P f) (belongs P dflt [] [] h).
Proof.
  intros obj ty W P dflt h f HS HM HF v w. destruct (make_filler_exact P (proj1 HS) (proj2 HS) dflt h f HM HF v w) as [(r & w' & E & -> & B)|(e & w' & E & X & N)].
  - left. eauto.
  - right. eauto 6.
Qed.

Lemma made_supported : forall {obj ty W} (P : Py obj ty W) T s (y : @typing obj ty W),
  (s = SCheck \/ s = SStrict) -> (forall t, gmap T t = Some GTuple -> t = t_tuple P) -> bare y -> proper y ->
  ((exists f, make_filler P s (hint_of P T y) [] = Ok f) <-> supported P T (is_strict s) y).
Proof.
  intros obj ty W P T s y CS HT HB HP. rewrite <- (supported_consistent P T s y CS HT HB HP [] [] (Forall_nil _) (Forall_nil _)).
  apply (c15_exact_proof P s (hint_of P T y) []). apply others_understood. apply bare_tokens. assumption.
Qed.

Lemma describes_exact : forall {obj ty W} (P : Py obj ty W) T s (y : @typing obj ty W) f,
  sane P T -> (s = SCheck \/ s = SStrict) -> bare y -> proper y -> types_of_classes P y -> (s = SStrict -> any_free y) ->
  make_filler P s (hint_of P T y) [] = Ok f -> accepts_exactly (call P f) (describes P T (is_a P s) y).
Proof.
  intros obj ty W P T s y f HS CS HB HP HC HA HM.
  assert (SU : supported P T (is_strict s) y) by (apply made_supported; eauto; apply (sane_tuple _ _ HS)).
  pose proof (belongs_describes P T HS s y CS HB HP HC HA SU [] [] (Forall_nil _) (Forall_nil _)) as BD.
  intros v w. destruct (c84_exact_proof P s _ f (sane_errors _ _ HS) HM (others_free _ (bare_tokens P T y HB)) v w) as [(w' & E & B)|(e & w' & E & X & N)].
  - left. exists w'. split; [assumption|]. apply BD. assumption.
  - right. exists e, w'. split; [assumption|]. split; [assumption|]. rewrite <- BD. assumption.
Qed.

Lemma c85_check_partial_proof : forall {obj ty W} (P : Py obj ty W) T (y : @typing obj ty W) f,
  sane P T -> bare y -> proper y -> types_of_classes P y ->
  make_filler P SCheck (hint_of P T y) [] = Ok f ->
  accepts_exactly (call P f) (describes P T (an_instance P) y).
Proof.
 intros obj ty W P T y f HS HB HP HC HM. apply (describes_exact P T SCheck y f HS (or_introl eq_refl) HB HP HC); [discriminate|assumption]. Qed.

Lemma c85_strict_partial_proof : forall {obj ty W} (P : Py obj ty W) T (y : @typing obj ty W) f,
  sane P T -> bare y -> proper y -> types_of_classes P y -> any_free y ->
  make_filler P SStrict (hint_of P T y) [] = Ok f ->
  accepts_exactly (call P f) (describes P T (exactly_a P) y).
Proof.
 intros obj ty W P T y f HS HB HP HC HA HM. apply (describes_exact P T SStrict y f HS (or_intror eq_refl) HB HP HC); [intros _; assumption|assumption]. Qed.

Lemma c85_type_any_refuted_proof : forall {obj ty W} (P : Py obj ty W) T f,
  sane P T -> (forall v, issubclass P v (special T) <> Ok true) ->
  make_filler P SCheck (hint_of P T (YAlias (t_type P) [YAny])) [] = Ok f ->
  (forall v, isinstance P v (t_type P) = true -> describes P T (an_instance P) (@YAlias obj ty W (t_type P) [YAny]) v) /\
  forall v w, exists e w', call P f v w = (Raise e, w').
Proof.
  intros obj ty W P T f HS HA HM.
  assert (EH : hint_of P T (YAlias (t_type P) [YAny]) = HType (special T)).
  { cbn. destruct (ty_eqP P (t_type P) (t_type P)); [reflexivity|contradiction]. }
  rewrite EH in HM. split.
  - intros v I. cbn. split; [exact I|]. destruct (ty_eqP P (t_type P) (t_type P)); [exact Logic.I|contradiction].
  - intros v w. destruct (c84_exact_proof P SCheck _ f (sane_errors _ _ HS) HM (Forall_nil _) v w) as [(w' & _ & B)|(e & w' & E & _)].
    + destruct B as [_ B]. cbn in B. destruct (HA v B).
    + exists e, w'. exact E.
Qed.

Lemma c85_strict_any_refuted_proof : forall {obj ty W} (P : Py obj ty W) T f v w,
  sane P T -> make_filler P SStrict (hint_of P T YAny) [] = Ok f -> type_of P v <> t_object P ->
  describes P T (exactly_a P) (@YAny obj ty W) v /\ exists e w', call P f v w = (Raise e, w').
Proof.
  intros obj ty W P T f v w HS HM N. split; [exact I|].
  destruct (c84_exact_proof P SStrict _ f (sane_errors _ _ HS) HM (Forall_nil _) v w) as [(w' & _ & B)|(e & w' & E & _)].
  - cbn in B. contradiction.
  - exists e, w'. exact E.
Qed.

Lemma c86_check_proof : forall {obj ty W} (P : Py obj ty W) T (y : @typing obj ty W),
  (forall t, gmap T t = Some GTuple -> t = t_tuple P) -> bare y -> proper y ->
  ((exists f, make_filler P SCheck (hint_of P T y) [] = Ok f) <-> supported P T false y).
Proof.
 intros obj ty W P T y HT HB HP. apply (made_supported P T SCheck); auto. Qed.

Lemma c86_strict_proof : forall {obj ty W} (P : Py obj ty W) T (y : @typing obj ty W),
  (forall t, gmap T t = Some GTuple -> t = t_tuple P) -> bare y -> proper y ->
  ((exists f, make_filler P SStrict (hint_of P T y) [] = Ok f) <-> supported P T true y).
Proof.
 intros obj ty W P T y HT HB HP. apply (made_supported P T SStrict); auto. Qed.

Lemma all_i_true : forall {A} (f : nat -> A -> bool) l n, (forall i a, In a l -> f i a = true) -> all_i f n l = true.
Proof. intros A f. induction l as [|a r IH]; intros n H; [reflexivity|]. cbn. rewrite H by (left; reflexivity). cbn. apply IH. intros. apply H. right. assumption. Qed.

Lemma plain_hollow : forall {obj ty W} (P : Py obj ty W) T (y : @typing obj ty W), unannotated y ->
  consistent P SHollow no_sub_tokens [] [] (hint_of P T y) = true /\
  hollow_hint SHollow no_sub_tokens [] [] (hint_of P T y) = true /\
  unvalidated no_sub_tokens [] [] (hint_of P T y) = true.
Proof.
  intros obj ty W P T y. induction y as [t| | | | | | |y IH|ys IH|l vs|t ps IH|y ms IH] using typing_ind'; intros HU; try (repeat split; reflexivity).
  - destruct HU as [_ HU]. specialize (IH HU). destruct (newtype_cases P T y) as [(y' & ms & ->)|N]; [destruct HU as [[] _]|]. cbn [hint_of consistent hollow_hint unvalidated].
    destruct (hint_of P T y); exact IH || (repeat split; reflexivity).
  - apply every_union in HU as [_ HU]. cbn [hint_of consistent hollow_hint unvalidated]. rewrite Forall_forall in IH, HU.
    repeat split; apply all_i_true; intros i h I; apply in_map_iff in I as (p & <- & I); apply IH; auto; apply HU; assumption.
  - apply every_alias in HU as [_ HU]. rewrite Forall_forall in IH, HU. cbn [hint_of].
    assert (A : forall p, In p ps -> consistent P SHollow no_sub_tokens [] [] (hint_of P T p) = true /\
      hollow_hint SHollow no_sub_tokens [] [] (hint_of P T p) = true /\ unvalidated no_sub_tokens [] [] (hint_of P T p) = true) by (intros; apply IH; auto; apply HU; assumption).
    destruct (has_args ps); [|repeat split; reflexivity]. destruct (ty_eqb P t (t_type P)); [repeat split; reflexivity|].
    assert (N : consistent P SHollow no_sub_tokens [] [] (HTupleN (map (hint_of P T) ps)) = true /\
      hollow_hint SHollow no_sub_tokens [] [] (HTupleN (map (hint_of P T) ps)) = true /\ unvalidated no_sub_tokens [] [] (HTupleN (map (hint_of P T) ps)) = true).
    { cbn [consistent hollow_hint unvalidated]. cbn [eff_style]. split; [|split; reflexivity]. cbn. rewrite !all_i_true; [reflexivity| |];
      intros i h I; apply in_map_iff in I as (p & <- & I); apply A; auto. }
    destruct (gmap T t) as [[|rk|rk|]|]; try (repeat split; reflexivity).
    + destruct ps as [|p1 [|p2 [|p3 ps]]]; try exact N; destruct p2; try exact N. destruct (A p1) as (A1 & A2 & A3); [left; reflexivity|].
      cbn; change (@no_sub_tokens obj ty W 0) with (@nil (@token obj ty W)); rewrite A1, A2. repeat split; reflexivity.
    + destruct ps as [|p ps]; [repeat split; reflexivity|]. destruct (A p) as (A1 & A2 & A3); [left; reflexivity|]. cbn; change (@no_sub_tokens obj ty W 0) with (@nil (@token obj ty W)); rewrite A1, A2. repeat split; reflexivity.
    + destruct ps as [|p1 [|p2 [|p3 ps]]]; try (repeat split; reflexivity). destruct (A p1) as (A1 & A2 & A3); [left; reflexivity|].
      destruct (A p2) as (B1 & B2 & B3); [right; left; reflexivity|]. cbn; change (@no_sub_tokens obj ty W 0) with (@nil (@token obj ty W)); change (@no_sub_tokens obj ty W 1) with (@nil (@token obj ty W)); rewrite A1, A2, B1, B2. repeat split; reflexivity.
    + cbn. split; [|split; reflexivity]. rewrite !all_i_true; [reflexivity| |]; intros i h I; apply in_map_iff in I as (p & <- & I); apply A; auto.
  - destruct HU as [[] _].
Qed.

Lemma unannotated_bare : forall {obj ty W} (y : @typing obj ty W), unannotated y -> bare y.
Proof.
  intros obj ty W y. induction y as [t| | | | | | |y IH|ys IH|l vs|t ps IH|y ms IH] using typing_ind'; intros HU; try (split; exact I).
  - split; [exact I|]. apply IH. apply HU.
  - apply every_union in HU as [_ HU]. split; [exact I|]. induction IH as [|y r H _ IHr]; [exact I|]; inversion HU; subst; split; [apply H|apply IHr]; assumption.
  - apply every_alias in HU as [_ HU]. split; [exact I|]. induction IH as [|y r H _ IHr]; [exact I|]; inversion HU; subst; split; [apply H|apply IHr]; assumption.
  - destruct HU as [[] _].
Qed.

Lemma c86_hollow_proof : forall {obj ty W} (P : Py obj ty W) T (y : @typing obj ty W),
  unannotated y ->
  exists f, make_filler P SHollow (hint_of P T y) [] = Ok f /\ forall v w, call P f v w = (Ok v, w).
Proof.
  intros obj ty W P T y HU. destruct (plain_hollow P T y HU) as (H1 & H2 & H3).
  destruct (proj2 (c15_exact_proof P SHollow (hint_of P T y) [] (others_understood _ (bare_tokens P T y (unannotated_bare y HU)))) H1) as [f HM].
  exists f. split; [assumption|]. apply (c01_hollow_proof P SHollow (hint_of P T y) [] f HM); assumption.
Qed.

Lemma make_made : forall {obj ty W} (P : Py obj ty W) dflt h ts f,
  make_filler P dflt h (own_only ts) = Ok f <-> made P dflt [] ts h = Ok f.
Proof.
  intros obj ty W P dflt h ts f. unfold make_filler, get_filler, bind_filler, made. destruct (gaf P [] h) as [g|]; cbn [obind]; [|reflexivity].
  rewrite apply_ops_own_only. split.
  - intros H. destruct (applys P g ts) as [g1|] eqn:E; [|discriminate]. cbn [obind] in H. rewrite (bind_with_applys P dflt ts [] g g1 E) in H. rewrite app_nil_r in H. exact H.
  - intros H. apply bind_with_applys_conv in H as (g1 & -> & H). exact H.
Qed.

Lemma c87_ignored_partial_proof : forall {obj ty W} (P : Py obj ty W) T dflt ts (y : @typing obj ty W),
  types_of_classes P y -> tidy y ->
  (forall f, make_filler P dflt (hint_of P T y) (own_only ts) = Ok f ->
     exists g, make_filler P dflt (hint_of P T (without_docs y)) (own_only ts) = Ok g /\ forall v w, call P f v w = call P g v w) /\
  (dflt <> SHollow -> forall g, make_filler P dflt (hint_of P T (without_docs y)) (own_only ts) = Ok g ->
     exists f, make_filler P dflt (hint_of P T y) (own_only ts) = Ok f).
Proof.
  intros obj ty W P T dflt ts y HC HT.
  assert (D : drops ts ts) by (clear; induction ts; constructor; assumption).
  destruct (docs_sim P T dflt y HC HT [] [] ts ts (drops_nil) D) as [F B]. split.
  - intros f H. apply make_made in H. destruct (F f H) as (g & Hg & E). exists g. split; [apply make_made; assumption|]. apply call_ext. assumption.
  - intros N g H. apply make_made in H. destruct (B N g H) as [f Hf]. exists f. apply make_made. assumption.
Qed.

(** a class, None, Any or a callable *)
Definition leaf_class {obj ty W} (y : @typing obj ty W) : Prop := match y with YClass _ | YNone | YAny | YCallable => True | _ => False end.

Lemma c87_wrapped_refuted_proof : forall {obj ty W} (P : Py obj ty W) T dflt (y : @typing obj ty W) mk,
  leaf_class y -> mk = Ok MadeOther \/ (exists e, mk = Raise e) ->
  exists e, make_filler P dflt (hint_of P T (YAnn y [MWrapped mk])) [] = Raise e.
Proof.
  intros obj ty W P T dflt y mk HL HM. destruct y; try contradiction; destruct HM as [-> |[e ->]]; eexists; reflexivity.
Qed.

Lemma c87_unsupported_refuted_proof : forall {obj ty W} (P : Py obj ty W) T m,
  m = MOther \/ m = MWrapped (Ok MadeNone) ->
  (exists f, make_filler P SHollow (hint_of P T (@YOther obj ty W)) [] = Ok f) /\
  exists e, make_filler P SHollow (hint_of P T (@YAnn obj ty W YOther [m])) [] = Raise e.
Proof.
 intros obj ty W P T m [-> | ->]; (split; [eexists; reflexivity|eexists; reflexivity]). Qed.

Lemma c88_uncalled_partial_proof : forall {obj ty W} (P : Py obj ty W) T dflt ops (y : @typing obj ty W),
  types_of_classes P y -> no_validator_factories y ->
  make_filler P dflt (hint_of P T y) ops = make_filler P dflt (hint_of P T (called y)) ops.
Proof.
 intros obj ty W P T dflt ops y HC HN. rewrite called_same by assumption. reflexivity. Qed.

Lemma c88_factory_refuted_proof : forall {obj ty W} (P : Py obj ty W) T t v f x w,
  plain_class P t -> make_filler P SCheck (hint_of P T (YAnn (YClass t) [MWrapped (Ok (MadeValidator (VGlobal (fun _ => Ok v))))])) [] = Ok f ->
  class_ok P SCheck t x ->
  call P f x w = (Ok x, w) /\
  exists g, make_filler P SCheck (hint_of P T (called (YAnn (YClass t) [MWrapped (Ok (MadeValidator (VGlobal (fun _ => Ok v))))]))) [] = Ok g /\
    call P g x w = v x w.
Proof.
  intros obj ty W P T t v f x w HP HM HC. destruct HP as (N1 & N2 & N3). split.
  - destruct (c04_matching_not_coerced_proof P SCheck t _ [] f N2 N3 HM) as (vs & _ & HV); [left; reflexivity|].
    apply (HV x HC w). reflexivity.
  - assert (MG : exists g, make_filler P SCheck (hint_of P T (called (YAnn (YClass t) [MWrapped (Ok (MadeValidator (VGlobal (fun _ => Ok v))))]))) [] = Ok g).
    { unfold make_filler, get_filler. cbn. rewrite (plain_class_kind P t (conj N1 (conj N2 N3))). eexists. reflexivity. }
    destruct MG as [g MG]. exists g. split; [exact MG|].
    destruct (c04_matching_not_coerced_proof P SCheck t _ [] g N2 N3 MG) as (vs & DV & HV); [left; reflexivity|].
    destruct (HV x HC w) as [E _]. rewrite E. inversion DV as [|? h ? r EV DV']; subst. inversion DV'; subst. cbn in EV. injection EV as <-.
    cbn. unfold bind. destruct (v x w) as [[z|e] w1]; reflexivity.
Qed.

Lemma c89_newtype_partial_proof : forall {obj ty W} (P : Py obj ty W) T dflt ops (y : @typing obj ty W),
  types_of_classes P y -> tidy y ->
  make_filler P dflt (hint_of P T y) ops = make_filler P dflt (hint_of P T (expand y)) ops.
Proof.
 intros obj ty W P T dflt ops y HC HT. unfold make_filler, get_filler. rewrite expand_same by assumption. reflexivity. Qed.

Lemma c89_annotated_refuted_proof : forall {obj ty W} (P : Py obj ty W) T t ms f x w,
  make_filler P SHollow (hint_of P T (YNewType (YAnn (YClass t) ms))) [] = Ok f ->
  call P f x w = (Ok x, w).
Proof.
 intros obj ty W P T t ms f x w HM. cbn in HM. injection HM as <-. reflexivity. Qed.

(** annotations without parameters *)
Definition leaf {obj ty W} (y : @typing obj ty W) : Prop :=
  match y with YClass _ | YNone | YAny | YCallable | YLiteral _ _ => True | _ => False end.
(** [m] is a token class, or a wrapper of one, and calling it raises [e] *)
Definition uncalled_error {obj ty W} (m : @meta obj ty W) (e : exc) : Prop :=
  match m with
  | MCoercerClass mk => mk = Raise e
  | MValidatorClass mk => mk = Raise e
  | MWrapped mk => mk = Raise e
  | _ => False
  end.

Definition no_styles {obj ty W} (ts : list (@token obj ty W)) : Prop := forall s, ~ In (TStyle s) ts.

Lemma aapplys_app : forall {obj ty W} (P : Py obj ty W) ts us a, aapplys P a (ts ++ us) = (do b <- aapplys P a ts; aapplys P b us).
Proof. intros obj ty W P ts. induction ts as [|t r IH]; intros us a; cbn; [reflexivity|]. destruct (aapply P a t); cbn; [apply IH|reflexivity]. Qed.

(** applying tokens that are no styles depends neither on the style nor on the arguments *)
Lemma aapplys_styled : forall {obj ty W} (P : Py obj ty W) ts k ar ar' st st' cs vs, no_styles ts ->
  match aapplys P (AF k ar st cs vs false) ts, aapplys P (AF k ar' st' cs vs false) ts with
  | Ok a, Ok b => exists cs' vs', a = AF k ar st cs' vs' false /\ b = AF k ar' st' cs' vs' false
  | Raise e, Raise e' => e = e'
  | _, _ => False
  end.
Proof.
  intros obj ty W P ts. induction ts as [|t r IH]; intros k ar ar' st st' cs vs HN; cbn [aapplys]; [eauto|].
  assert (HN' : no_styles r) by (intros s HI; apply (HN s); right; assumption).
  destruct t as [s|c|v|]; [destruct (HN s); left; reflexivity|..]; unfold aapply at 1 3; cbn.
  - destruct (get_coercer P k c) as [f|e]; cbn; [|reflexivity]. apply IH. assumption.
  - destruct (get_validator P k v) as [f|e]; cbn; [|reflexivity]. apply IH. assumption.
  - apply IH. assumption.
Qed.

Lemma abind_styled : forall {obj ty W} (P : Py obj ty W) dflt s k ts us, s <> SDefault -> no_styles (ts ++ us) ->
  match abind P dflt (mk_afiller k (ts ++ TStyle s :: us)), abind P s (mk_afiller k (ts ++ us)) with
  | Ok a, Ok b => a_kind a = a_kind b /\ a_style a = a_style b /\ a_coercers a = a_coercers b /\ a_validators a = a_validators b
  | Raise e, Raise e' => e = e'
  | _, _ => False
  end.
Proof.
  intros obj ty W P dflt s k ts us HS HN.
  assert (N1 : no_styles ts) by (intros s' HI; apply (HN s'); apply in_or_app; auto).
  assert (N2 : no_styles us) by (intros s' HI; apply (HN s'); apply in_or_app; auto).
  unfold abind, mk_afiller. cbn [a_args]. rewrite !aapplys_app.
  pose proof (aapplys_styled P ts k (ts ++ TStyle s :: us) (ts ++ us) SDefault SDefault [] [] N1) as H.
  destruct (aapplys P (AF k (ts ++ TStyle s :: us) SDefault [] [] false) ts) as [a|e], (aapplys P (AF k (ts ++ us) SDefault [] [] false) ts) as [b|e'];
    try contradiction; [|subst; reflexivity].
  destruct H as (cs & vs & -> & ->). cbn [obind aapplys]. unfold aapply at 1. cbn.
  pose proof (aapplys_styled P us k (ts ++ TStyle s :: us) (ts ++ us) s SDefault cs vs N2) as H.
  destruct (aapplys P (AF k (ts ++ TStyle s :: us) s cs vs false) us) as [a|e], (aapplys P (AF k (ts ++ us) SDefault cs vs false) us) as [b|e'];
    try contradiction; [|subst; reflexivity].
  destruct H as (cs' & vs' & -> & ->). cbn.
  replace (style_eqb s SDefault) with false by (destruct s; try reflexivity; congruence).
  destruct (style_eqb s SHollow && negb (match cs' with [] => true | _ => false end)); [reflexivity|].
  destruct k; cbn; try (destruct (style_eqb s SStrict && _); [reflexivity|]; auto).
  destruct (ahollow _); cbn; auto.
Qed.

Lemma exists_leaf : forall {obj ty W} (P : Py obj ty W) T (y : @typing obj ty W), leaf y ->
  exists k, forall toks, gaf P [] (HAnn (hint_of P T y) toks) = Ok (FAnn (mk_afiller k (toks ++ []))).
Proof. intros obj ty W P T y H. destruct y; try contradiction; eexists; intros toks; reflexivity. Qed.
Lemma applys_ann : forall {obj ty W} (P : Py obj ty W) ts a, applys P (FAnn a) ts = do b <- aapplys P a ts; Ok (FAnn b).
Proof. intros obj ty W P. induction ts as [|u r IH]; intros a; cbn; [reflexivity|]. destruct (aapply P a u) as [b|e]; cbn; [apply IH|reflexivity]. Qed.
Lemma call_ann_ext : forall {obj ty W} (P : Py obj ty W) a b (v : obj) w, a_kind a = a_kind b -> a_style a = a_style b -> a_coercers a = a_coercers b ->
  a_validators a = a_validators b -> call P (FAnn a) v w = call P (FAnn b) v w.
Proof. intros obj ty W P [k ar st cs vs bb] [k' ar' st' cs' vs' bb'] v w. cbn [a_kind a_style a_coercers a_validators]. intros -> -> -> ->. reflexivity. Qed.

Lemma no_styles_meta : forall {obj ty W} (ms : list (@meta obj ty W)), (forall s, ~ In (MStyle s) ms) -> no_styles (map (@meta_token obj ty W) ms).
Proof.
  intros obj ty W ms H s HI. apply in_map_iff in HI. destruct HI as (m & E & HI). destruct m as [s'|c|mk|v|mk|mk|]; cbn in E; try discriminate.
  - apply (H s'). assumption.
  - destruct mk; discriminate.
  - destruct mk; discriminate.
  - destruct mk as [[]|]; cbn in E; try discriminate. destruct v; discriminate.
Qed.

Lemma c109_override_proof : forall {obj ty W} (P : Py obj ty W) T dflt s (y : @typing obj ty W) ms ms',
  leaf y -> s <> SDefault -> (forall s', ~ In (MStyle s') (ms ++ ms')) ->
  match make_filler P dflt (hint_of P T (YAnn y (ms ++ MStyle s :: ms'))) [],
        make_filler P s (hint_of P T (YAnn y (ms ++ ms'))) [] with
  | Ok f, Ok g => forall v w, call P f v w = call P g v w
  | Raise e, Raise e' => e = e'
  | _, _ => False
  end.
Proof.
  intros obj ty W P T dflt s y ms ms' HL HS HN.
  assert (HT : no_styles (map (@meta_token obj ty W) ms ++ map (@meta_token obj ty W) ms')) by (rewrite <- map_app; apply no_styles_meta; assumption).
  destruct (exists_leaf P T y HL) as [k HK]. unfold make_filler, get_filler. cbn [hint_of]. rewrite !HK, !map_app. cbn [map meta_token obind apply_ops].
  unfold bind_filler. cbn [bind_with aapplys obind]. rewrite !app_nil_r.
  pose proof (abind_styled P dflt s k _ _ HS HT) as H.
  destruct (abind P dflt _) as [a|e], (abind P s _) as [b|e']; try contradiction; cbn; [|assumption].
  destruct H as (H1 & H2 & H3 & H4). intros v w. apply call_ann_ext; assumption.
Qed.

Lemma c109_elements_proof : forall {obj ty W} (P : Py obj ty W) T t rk (y : @typing obj ty W) f,
  sane P T -> bare y -> proper y -> types_of_classes P y -> supported P T false y ->
  y <> YTypeVar -> ty_eqb P t (t_type P) = false -> gmap T t = Some (GIter rk) ->
  make_filler P SCheck (hint_of P T (YAnn (YAlias t [y]) [MStyle SStrict])) [] = Ok f ->
  accepts_exactly (call P f) (fun v => exactly_a P v t /\ exists l, elems P v = Some l /\ forall e, In e l -> describes P T (an_instance P) y e).
Proof.
  intros obj ty W P T t rk y f HS HB HP HC HU NV NT EG HM.
  assert (HA : has_args [y] = true) by (unfold has_args; destruct y; cbn; try reflexivity; congruence).
  assert (EH : hint_of P T (YAnn (YAlias t [y]) [MStyle SStrict]) = HAnn (HIter rk t (hint_of P T y)) [TStyle SStrict]).
  { cbn [hint_of]. rewrite HA, NT, EG. reflexivity. }
  rewrite EH in HM.
  pose proof (belongs_describes P T HS SCheck y (or_introl eq_refl) HB HP HC ltac:(discriminate) HU [] [] (Forall_nil _) (Forall_nil _)) as BD.
  assert (NL : ~ not_looked_at SCheck (hint_of P T y)).
  { unfold not_looked_at. rewrite (supported_hollow P T SCheck y (or_introl eq_refl) HB HP HU [] [] (Forall_nil _) (Forall_nil _)). discriminate. }
  assert (FR : Forall callback_free (hint_tokens (HAnn (HIter rk t (hint_of P T y)) [TStyle SStrict]))).
  { cbn. apply Forall_app. split; [apply others_free; apply bare_tokens; assumption|]. constructor; [exact I|constructor]. }
  intros v w. destruct (c84_exact_proof P SCheck _ f (sane_errors _ _ HS) HM FR v w) as [(w' & E & B)|(e & w' & E & X & N)].
  - left. exists w'. split; [assumption|]. cbn in B. destruct B as [B1 [B2|(l & B2 & B3)]]; [contradiction|].
    split; [exact B1|]. exists l. split; [assumption|]. intros x HI. apply BD. apply B3. assumption.
  - right. exists e, w'. split; [assumption|]. split; [assumption|]. intros [B1 (l & B2 & B3)]. apply N. cbn. split; [exact B1|]. right.
    exists l. split; [assumption|]. intros x HI. apply BD. apply B3. assumption.
Qed.

Lemma failing_meta : forall {obj ty W} (P : Py obj ty W) (m : @meta obj ty W) e k, uncalled_error m e ->
  forall ar st cs vs, aapply P (AF k ar st cs vs false) (meta_token m) = Raise e.
Proof.
  intros obj ty W P m e k H ar st cs vs. destruct m as [s|c|mk|v|mk|mk|]; try contradiction; cbn in H; subst mk; reflexivity.
Qed.
Lemma aapplys_unbound : forall {obj ty W} (P : Py obj ty W) ts a b, aapplys P a ts = Ok b -> a_bound a = false -> a_kind b = a_kind a /\ a_bound b = false /\ a_args b = a_args a.
Proof.
  intros obj ty W P ts. induction ts as [|t r IH]; intros a b H HB; cbn in H; [injection H as <-; auto|].
  destruct (aapply P a t) as [a1|e] eqn:E; [|discriminate]. cbn in H.
  assert (A : a_kind a1 = a_kind a /\ a_bound a1 = false /\ a_args a1 = a_args a).
  { unfold aapply in E. rewrite HB in E. destruct t as [s|c|v|].
    - injection E as <-. auto.
    - destruct (get_coercer P (a_kind a) c) as [f|]; [|discriminate]. injection E as <-. auto.
    - destruct (get_validator P (a_kind a) v) as [f|]; [|discriminate]. injection E as <-. auto.
    - injection E as <-. auto. }
  destruct A as (A1 & A2 & A3). destruct (IH a1 b H A2) as (B1 & B2 & B3). repeat split; congruence.
Qed.

Lemma c88_errors_proof : forall {obj ty W} (P : Py obj ty W) T dflt e (y : @typing obj ty W) m ms,
  leaf y -> uncalled_error m e -> make_filler P dflt (hint_of P T (YAnn y (m :: ms))) [] = Raise e.
Proof.
  intros obj ty W P T dflt e y m ms HL HM. destruct (exists_leaf P T y HL) as [k HK].
  unfold make_filler, get_filler. cbn [hint_of]. rewrite HK. cbn [map obind apply_ops]. rewrite app_nil_r.
  unfold bind_filler. cbn [bind_with aapplys obind]. unfold abind, mk_afiller. cbn [a_args aapplys].
  rewrite (failing_meta P m e k HM). reflexivity.
Qed.

Lemma c88_no_class_proof : forall {obj ty W} (P : Py obj ty W) T dflt e (y : @typing obj ty W) m ms ms' ts,
  leaf y -> uncalled_error m e -> forall f, make_filler P dflt (hint_of P T (YAnn y (ms ++ m :: ms'))) (own_only ts) <> Ok f.
Proof.
  intros obj ty W P T dflt e y m ms ms' ts HL HM f H. destruct (exists_leaf P T y HL) as [k HK].
  unfold make_filler, get_filler in H. cbn [hint_of] in H. rewrite HK in H. cbn [obind] in H. rewrite app_nil_r, map_app in H. cbn [map] in H.
  rewrite apply_ops_own_only, applys_ann in H.
  set (l := map (@meta_token obj ty W) ms ++ meta_token m :: map (@meta_token obj ty W) ms') in *.
  destruct (aapplys P (mk_afiller k l) ts) as [a1|] eqn:E1; [|discriminate]. cbn [obind] in H.
  destruct (aapplys_unbound P ts _ _ E1 eq_refl) as (K1 & B1 & A1). unfold bind_filler in H. cbn [bind_with aapplys obind] in H.
  unfold abind in H. rewrite A1 in H. cbn [a_args mk_afiller] in H. unfold l in H at 1. rewrite aapplys_app in H.
  destruct (aapplys P a1 (map (@meta_token obj ty W) ms)) as [a2|] eqn:E2; [|discriminate]. cbn [obind aapplys] in H.
  destruct (aapplys_unbound P _ _ _ E2 B1) as (K2 & B2 & _). destruct a2 as [k2 ar st cs vs b2]. cbn in B2. subst b2.
  rewrite (failing_meta P m e k2 HM) in H. discriminate.
Qed.

Lemma c70_tokens_proof : forall {obj ty W} (P : Py obj ty W) (ms : list (@meta obj ty W)) cs,
  Forall2 stands_for ms cs ->
  exists t, Hints.compose ms = Ok t /\
    forall k f, get_coercer P k t = Ok f ->
      exists fs, Forall2 (yields P (origin_of P k)) cs fs /\ forall x w, f x w = Spec_Filler.compose fs x w.
Proof.
  intros obj ty W P ms cs H. exists (CCompose cs). split.
  - unfold Hints.compose. assert (E : mapO as_coercer ms = Ok (map Some cs)).
    { induction H as [|m c ms cs HM HS IH]; [reflexivity|]. cbn [mapO map]. destruct HM; cbn [as_coercer obind]; rewrite IH; reflexivity. }
    rewrite E. cbn [obind]. rewrite map_map. rewrite map_id. reflexivity.
  - intros k f HF. exact (Filler_main.c70_compose_proof P k cs f HF).
Qed.

Lemma c70_no_token_proof : forall {obj ty W} (P : Py obj ty W) (ms : list (@meta obj ty W)) m,
  In m ms -> no_coercer m -> forall t k f, Hints.compose ms = Ok t -> get_coercer P k t <> Ok f.
Proof.
  intros obj ty W P ms m HI HN t k f HC HF. unfold Hints.compose in HC.
  destruct (mapO as_coercer ms) as [l|] eqn:E; [|discriminate]. cbn [obind] in HC. injection HC as <-.
  destruct (Filler_main.c70_compose_proof P k _ f HF) as (fs & HY & _).
  assert (HB : In CBad (map (fun c : option (@ctoken obj ty W) => match c with Some c => c | None => CBad end) l)).
  { clear HF HY. revert l E. induction ms as [|m' r IH]; intros l E; [destruct HI|]. cbn [mapO] in E.
    destruct (as_coercer m') as [c|] eqn:EM; [|discriminate]. cbn [obind] in E. destruct (mapO as_coercer r) as [l'|]; [|discriminate].
    cbn [obind] in E. injection E as <-. destruct HI as [->|HI].
    - left. destruct m as [| | | | |[[]|]|]; try contradiction; cbn in EM; injection EM as <-; reflexivity.
    - right. exact (IH HI l' eq_refl). }
  clear HF E. revert HB. induction HY as [|c g cs gs Y _ IH]; [intros []|]. intros [->|HB]; [inversion Y|exact (IH HB)].
Qed.
