(** Filler_leaf.v -- what a bound class, None, callable or Literal filler does to an argument. *)
From Verif Require Import Base Py Filler Spec_Filler Filler_proofs Filler_sound Filler_shape Filler_eqs.

Section Leaf.
Context {obj ty W : Type} (P : Py obj ty W).
Notation token := (@token obj ty W).
Notation hint := (@hint obj ty W).
Notation origin := (@origin ty).
Notation filler := (@filler obj ty W).
Notation afiller := (@afiller obj ty W).
Notation callback := (@callback obj W).
Notation akind := (@akind obj ty).
Notation op := (option nat * token)%type.

Definition checking (s : style) : Prop := s = SCheck \/ s = SStrict.

(** [ok] is what the kind accepts, whatever the state *)
Definition accepts (s : style) (k : akind) (ok : obj -> Prop) : Prop :=
  forall v w,
    (ok v -> type_check P k v w = TCExact \/ (type_check P k v w = TCInexact /\ s = SCheck)) /\
    (~ ok v -> type_check P k v w <> TCExact /\ (type_check P k v w = TCInexact -> s <> SCheck)).

Lemma class_kind_check : forall t v w, t <> t_none P -> t <> t_ellipsis P ->
  type_check P (class_kind P t) v w = simple_check P t v.
Proof.
  intros t v w H1 H2. unfold class_kind.
  destruct (ty_eqP P t (t_bool P)) as [->|]; [reflexivity|].
  destruct (ty_eqP P t (t_none P)); [congruence|]. destruct (ty_eqP P t (t_ellipsis P)); [congruence|]. reflexivity.
Qed.

Lemma class_accepts : forall s t, checking s -> t <> t_none P -> t <> t_ellipsis P ->
  accepts s (class_kind P t) (class_ok P s t).
Proof.
  intros s t HS H1 H2 v w. rewrite class_kind_check by assumption. unfold simple_check.
  destruct HS as [-> | ->]; cbn; destruct (ty_eqP P (type_of P v) t) as [E|E];
    try destruct (isinstance P v t) eqn:I; intuition congruence.
Qed.

Lemma class_coerced : forall s t z w, checking s -> t <> t_none P -> t <> t_ellipsis P ->
  coerced_ok s (type_check P (class_kind P t) z w) = true <-> class_ok P s t z.
Proof.
  intros s t z w HS H1 H2. rewrite class_kind_check by assumption. unfold simple_check.
  destruct HS as [-> | ->]; cbn; destruct (ty_eqP P (type_of P z) t) as [E|E];
    try destruct (isinstance P z t) eqn:I; cbn; intuition congruence.
Qed.

Lemma class_ok_dec : forall s t z, checking s -> class_ok P s t z \/ ~ class_ok P s t z.
Proof.
  intros s t z HS. destruct HS as [-> | ->]; cbn; destruct (ty_eqP P (type_of P z) t) as [E|E];
    try destruct (isinstance P z t) eqn:I; intuition congruence.
Qed.

Lemma type_phase_match : forall s k ok cs x w, checking s -> accepts s k ok -> ok x ->
  exists p, type_phase P k s cs x w = (Ok (x, p), w).
Proof.
  intros s k ok cs x w HS HA HO. destruct (HA x w) as [H _]. specialize (H HO). unfold type_phase.
  destruct HS as [-> | ->]; destruct H as [-> | [-> E]]; try discriminate; cbn; eexists; reflexivity.
Qed.

Lemma type_phase_mismatch : forall s k ok cs x w, checking s -> accepts s k ok -> ~ ok x ->
  type_phase P k s cs x w =
  match cs with
  | [] => raise (mkexc TypeError "failed type checking")
  | _ => let* y := run_coercers P k s cs x in ret (y, PCoerce)
  end w.
Proof.
  intros s k ok cs x w HS HA HO. destruct (HA x w) as [_ H]. specialize (H HO). unfold type_phase.
  destruct HS as [-> | ->]; destruct (type_check P k x w) eqn:E; cbn; try reflexivity; exfalso; intuition.
Qed.

Lemma run_coercers_tried : forall k s ok rest cs1 x w y w1,
  (forall z w, coerced_ok s (type_check P k z w) = true <-> ok z) -> rest <> [] ->
  tried ok cs1 x w y w1 -> run_coercers P k s (cs1 ++ rest) x w = run_coercers P k s rest y w1.
Proof.
  intros k s ok rest cs1 x w y w1 HO HN HT.
  induction HT as [x w|c cs x w e w1 y w2 HC HE HT IH|c cs x w z w1 y w2 HC HK HT IH]; [reflexivity| |].
  - cbn [app run_coercers]. rewrite HC, HE. destruct (cs ++ rest) as [|d l] eqn:E.
    + destruct cs; [cbn in E; congruence|discriminate].
    + exact IH.
  - cbn [app run_coercers]. rewrite HC.
    destruct (coerced_ok s (type_check P k z w1)) eqn:EC; [apply HO in EC; contradiction|].
    destruct (cs ++ rest) as [|d l] eqn:E.
    + destruct cs; [cbn in E; congruence|discriminate].
    + exact IH.
Qed.

Lemma tried_cases : forall (ok : obj -> Prop) (cs : list callback) x w,
  (forall z, ok z \/ ~ ok z) -> cs <> [] ->
  exists cs1 c cs2 y w1, cs = cs1 ++ c :: cs2 /\ tried ok cs1 x w y w1 /\
    ((exists z w2, c y w1 = (Ok z, w2) /\ ok z) \/
     (exists e w2, c y w1 = (Raise e, w2) /\ is_Exception e = false) \/
     (cs2 = [] /\ exists e w2, c y w1 = (Raise e, w2)) \/
     (cs2 = [] /\ exists z w2, c y w1 = (Ok z, w2) /\ ~ ok z)).
Proof.
  intros ok cs x w D. revert x w. induction cs as [|c r IH]; intros x w HN; [congruence|].
  destruct (c x w) as [[z|e] w2] eqn:EC.
  - destruct (D z) as [Z|Z].
    + exists [], c, r, x, w. split; [reflexivity|]. split; [constructor|]. left. eauto.
    + destruct r as [|c' r'].
      * exists [], c, [], x, w. split; [reflexivity|]. split; [constructor|]. right. right. right. eauto.
      * destruct (IH z w2) as (cs1 & d & cs2 & y & w3 & E & HT & H); [discriminate|].
        exists (c :: cs1), d, cs2, y, w3. rewrite E. split; [reflexivity|]. split; [|assumption].
        eapply tried_wrong; eassumption.
  - destruct (is_Exception e) eqn:EX.
    + destruct r as [|c' r'].
      * exists [], c, [], x, w. split; [reflexivity|]. split; [constructor|]. right. right. left. eauto.
      * destruct (IH x w2) as (cs1 & d & cs2 & y & w3 & E & HT & H); [discriminate|].
        exists (c :: cs1), d, cs2, y, w3. rewrite E. split; [reflexivity|]. split; [|assumption].
        eapply tried_raised; eassumption.
    + exists [], c, r, x, w. split; [reflexivity|]. split; [constructor|]. right. left. eauto.
Qed.

(** a field whose annotation is not a container: the callables its tokens declare, and
    what filling does in terms of them *)
Lemma leaf_call : forall h k dflt toks ops f,
  leaf_kind P h = Some k -> (forall lid vals, k <> KLiteral lid vals) ->
  make_filler P dflt (HAnn h toks) ops = Ok f ->
  exists cs vs,
    declared_coercers P (origin_of P k) (own_ops ops ++ toks) cs /\
    declared_validators (origin_of P k) (own_ops ops ++ toks) vs /\
    (eff_style dflt (own_ops ops ++ toks) = SHollow -> cs = []) /\
    forall x w, call P f x w =
      (let* p := type_phase P k (eff_style dflt (own_ops ops ++ toks)) cs x in in_order vs (fst p)) w.
Proof.
  intros h k dflt toks ops f HK HL H. destruct (leaf_make P _ _ _ _ _ _ HK H) as (cs & vs & HC & HV & -> & HH & _).
  exists cs, vs. split; [apply tok_coercers_declared; assumption|]. split; [apply tok_validators_declared; assumption|].
  split; [assumption|]. intros x w. rewrite call_ann. unfold afill. cbn [a_kind a_style a_coercers a_validators].
  rewrite bind_assoc. apply bind_ext; [reflexivity|]. intros p w1 _. rewrite bind_assoc.
  assert (E : lit_validators P k (eff_style dflt (own_ops ops ++ toks)) = []).
  { destruct k; try reflexivity. destruct (HL lid vals). reflexivity. }
  rewrite E, app_nil_r. unfold bind. rewrite run_validators_in_order.
  destruct (in_order vs (fst p) w1) as [[y|e] w2]; reflexivity.
Qed.

Lemma literal_last : forall dflt lid vals toks ops f x w y w',
  make_filler P dflt (HAnn (HLiteral lid vals) toks) ops = Ok f ->
  eff_style dflt (own_ops ops ++ toks) <> SHollow ->
  call P f x w = (Ok y, w') ->
  exists l, In l vals /\ type_of P y = type_of P l /\ lit_eq P y l = true.
Proof.
  intros dflt lid vals toks ops f x w y w' H HS HC.
  destruct (leaf_make P (HLiteral lid vals) (KLiteral lid vals) _ _ _ _ eq_refl H) as (cs & vs & _ & _ & -> & _ & _).
  rewrite call_ann in HC. minv HC. injection HC as <- <-. destruct a as [y p]. cbn in *. apply afill_inv in HCa.
  destruct HCa as (z & w1 & _ & HR). cbn [a_validators] in HR. rewrite run_validators_app in HR. minv HR.
  unfold lit_validators in HR. destruct (style_eqb_spec (eff_style dflt (own_ops ops ++ toks)) SHollow); [contradiction|].
  cbn in HR. minv HR. unfold ret in HR. injection HR as <- <-.
  apply literal_validator_ok in HRa0. destruct HRa0 as [-> HM]. exact HM.
Qed.

(** removing the validation tokens from a declaration removes the validators and nothing else *)
Notation strip := without_validators.

Lemma strip_app : forall ts us : list token, strip (ts ++ us) = strip ts ++ strip us.
Proof. intros. apply filter_app. Qed.

Lemma strip_coercers : forall k ts cs, tok_coercers P k ts = Ok cs -> tok_coercers P k (strip ts) = Ok cs.
Proof.
  induction ts as [|t r IH]; intros cs H; cbn in *; [assumption|].
  destruct t; cbn; try (apply IH; assumption). oinv H. oinv H. rewrite Ha. cbn. fold (without_validators r). rewrite (IH _ Ha0). cbn. assumption.
Qed.

Lemma strip_validators : forall k (ts : list token), tok_validators P k (strip ts) = Ok [].
Proof. induction ts as [|t r IH]; cbn; [reflexivity|]. destruct t; cbn; assumption. Qed.

Lemma strip_last_style : forall dflt (ts : list token), eff_style dflt (strip ts) = eff_style dflt ts.
Proof.
  intros dflt ts. unfold eff_style. enough (E : last_style (strip ts) = last_style ts) by (rewrite E; reflexivity).
  unfold last_style. generalize SDefault.
  induction ts as [|t r IH]; intros s; cbn; [reflexivity|]. destruct t; cbn; apply IH.
Qed.

Lemma strip_make : forall h k dflt toks ops f,
  leaf_kind P h = Some k -> make_filler P dflt (HAnn h toks) ops = Ok f ->
  exists f0, make_filler P dflt (HAnn h (strip toks)) (own_only (strip (own_ops ops))) = Ok f0 /\
    exists cs vs, tok_validators P k (own_ops ops ++ toks) = Ok vs /\
    let s := eff_style dflt (own_ops ops ++ toks) in
    f = FAnn (AF k toks s cs (vs ++ lit_validators P k s) true) /\
    f0 = FAnn (AF k (strip toks) s cs (lit_validators P k s) true).
Proof.
  intros h k dflt toks ops f HK H.
  destruct (leaf_make P _ _ _ _ _ _ HK H) as (cs & vs & HC & HV & -> & HH & HA).
  set (s := eff_style dflt (own_ops ops ++ toks)) in *.
  exists (FAnn (AF k (strip toks) s cs (lit_validators P k s) true)). split; [|exists cs, vs; auto].
  unfold make_filler, get_filler, bind_filler. cbn. rewrite app_nil_r, (leaf_gaf P _ _ _ HK). cbn.
  rewrite apply_ops_own_only.
  assert (HF : forall ts a, applys P (FAnn a) ts = do b <- aapplys P a ts; Ok (FAnn b)).
  { induction ts as [|u r IH]; intros a; cbn; [reflexivity|]. destruct (aapply P a u) as [b|e]; cbn; [apply IH|reflexivity]. }
  rewrite HF.
  pose proof (bound_fwd P dflt (strip (own_ops ops)) k (strip toks) cs []) as B.
  rewrite <- strip_app in B. rewrite (strip_coercers _ _ _ HC), strip_validators, strip_last_style in B.
  specialize (B eq_refl eq_refl). cbn [app] in B. fold s in B.
  destruct (aapplys P (mk_afiller k (strip toks)) (strip (own_ops ops))) as [a1|e]; cbn in *.
  - rewrite B.
    assert (E : style_eqb s SHollow && negb (match cs with [] => true | _ => false end) = false).
    { destruct (style_eqb_spec s SHollow) as [E|]; [|reflexivity]. rewrite (HH E). reflexivity. }
    rewrite E. destruct k; try reflexivity;
    destruct (style_eqb_spec s SStrict) as [E2|]; cbn; try reflexivity; specialize (HA E2); unfold kind_abstract in *; cbn in *; rewrite HA; reflexivity.
  - exfalso. revert B. destruct (_ && _) eqn:E1.
    + destruct (style_eqb_spec s SHollow) as [E|]; [|discriminate]. rewrite (HH E) in E1. discriminate.
    + destruct k; try discriminate;
      destruct (style_eqb_spec s SStrict) as [E2|]; cbn; try discriminate; specialize (HA E2); unfold kind_abstract in *; cbn in *; rewrite HA; discriminate.
Qed.

End Leaf.
