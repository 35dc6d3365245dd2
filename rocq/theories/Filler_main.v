(** Filler_main.v -- proofs of the properties stated in Props_Filler.v: fillers (records/fillers) *)

From Verif Require Import Base Py Filler Spec_Filler Demo.
From Verif Require Filler_proofs Filler_sound Filler_inv Filler_shape Filler_eqs Filler_leaf Filler_seal Filler_decl Filler_kind.
Open Scope string_scope.
Open Scope list_scope.

Import Filler_proofs Filler_sound Filler_inv Filler_shape Filler_eqs Filler_leaf Filler_seal Filler_decl Filler_kind.

Lemma c01_hollow_proof : forall {obj ty W} (P : Py obj ty W) dflt h ops f,
  make_filler P dflt h ops = Ok f ->
  hollow_hint dflt (sub_ops ops) (own_ops ops) [] h = true ->
  unvalidated (sub_ops ops) (own_ops ops) [] h = true ->
  forall x w, call P f x w = (Ok x, w).
Proof.
  intros obj ty W P dflt h ops f H HH HV x w. unfold make_filler, get_filler, bind_filler in H. oinv H. oinv H.
  pose proof (raw_correct P h [] a ops a0 dflt [] f Ha Ha0 H) as R. rewrite app_nil_r in R.
  rewrite call_eq. unfold bind. rewrite (R HH HV). reflexivity.
Qed.

Lemma call_sound : forall {obj ty W} (P : Py obj ty W) (L : list token -> origin -> obj -> Prop) dflt h ops f,
  (forall ts o v, accepted (W:=W) ts o v -> L ts o v) ->
  honest_containers P ->
  make_filler P dflt h ops = Ok f ->
  Forall asserting (hint_tokens h ++ map snd ops) ->
  forall x w y w', call P f x w = (Ok y, w') ->
  conforms_with P L dflt (sub_ops ops) (own_ops ops) [] h y.
Proof.
  intros obj ty W P L dflt h ops f HL HO H HA x w y w' HC.
  unfold make_filler, get_filler, bind_filler in H. oinv H. oinv H.
  destruct (sound P L HL HO h [] a ops a0 dflt [] f Ha Ha0 H) as [S _].
  { cbn. rewrite app_nil_r. assumption. }
  rewrite app_nil_r in S. apply call_fill in HC. destruct HC as [p HC]. eapply S; eassumption.
Qed.

Lemma c02_type_soundness_proof : forall {obj ty W} (P : Py obj ty W) dflt h ops f,
  honest_containers P ->
  make_filler P dflt h ops = Ok f ->
  Forall asserting (hint_tokens h ++ map snd ops) ->
  forall x w y w', call P f x w = (Ok y, w') ->
  conforms P dflt (sub_ops ops) (own_ops ops) [] h y.
Proof.
  intros obj ty W P dflt h ops f HO H HA x w y w' HC. eapply call_sound; try eassumption. auto.
Qed.

Lemma c03_none_refuted_proof : forall {obj ty W} (P : Py obj ty W) dflt s c f x w y w',
  s = SCheck \/ s = SStrict ->
  make_filler P dflt (HAnn HNone [TStyle s; TCoerce (CGlobal (fun _ => Ok c))]) [] = Ok f ->
  x <> o_none P -> c x w = (Ok y, w') -> call P f x w = (Ok y, w').
Proof.
  intros obj ty W P dflt s c f x w y w' HS HM N HC. unfold make_filler in HM. cbn in HM.
  assert (X : py_is P x (o_none P) = false) by (destruct (py_isP P x (o_none P)); [contradiction|reflexivity]).
  destruct HS as [-> | ->]; cbn in HM; [|destruct (isabstract P (t_none P)); [discriminate HM|]]; injection HM as <-;
    cbn; unfold bind, ret, afill, bind, type_phase; cbn; unfold bind, ret; rewrite X; cbn; unfold bind, ret; rewrite HC; cbn; destruct (py_is P y (o_none P)); reflexivity.
Qed.

Lemma c03_callable_refuted_proof : forall {obj ty W} (P : Py obj ty W) dflt s c f x w y w',
  s = SCheck \/ s = SStrict ->
  make_filler P dflt (HAnn HCallable [TStyle s; TCoerce (CGlobal (fun _ => Ok c))]) [] = Ok f ->
  callable P x = false -> c x w = (Ok y, w') -> call P f x w = (Ok y, w').
Proof.
  intros obj ty W P dflt s c f x w y w' HS HM N HC. unfold make_filler in HM. cbn in HM.
  destruct HS as [-> | ->]; cbn in HM; injection HM as <-;
    cbn; unfold bind, ret, afill, bind, type_phase; cbn; unfold bind, ret; rewrite N; cbn; unfold bind, ret; rewrite HC; cbn; destruct (callable P y); reflexivity.
Qed.

Lemma c03_partial_proof : forall {obj ty W} (P : Py obj ty W) dflt toks ops,
  honest_containers P ->
  Forall asserting (toks ++ map snd ops) ->
  (eff_style dflt (own_ops ops ++ toks) = SCheck \/ eff_style dflt (own_ops ops ++ toks) = SStrict) ->
  has_coercer (own_ops ops ++ toks) = false ->
  (forall f x w y w', make_filler P dflt (HAnn HNone toks) ops = Ok f -> call P f x w = (Ok y, w') -> y = o_none P) /\
  (forall f x w y w', t_ellipsis P <> t_bool P -> t_ellipsis P <> t_none P ->
     make_filler P dflt (HAnn (HTy (t_ellipsis P)) toks) ops = Ok f -> call P f x w = (Ok y, w') -> y = o_ellipsis P) /\
  (forall f x w y w', make_filler P dflt (HAnn HCallable toks) ops = Ok f -> call P f x w = (Ok y, w') -> callable P y = true).
Proof.
  intros obj ty W P dflt toks ops HO HA HS HC.
  assert (CONV : forall s c, (s = SCheck \/ s = SStrict) -> checked s c -> c) by (intros s c [-> | ->]; exact (fun H => H)).
  split; [|split].
  - intros f x w y w' HM HF. eapply (c02_type_soundness_proof P) in HF; [|assumption|exact HM|cbn; assumption].
    cbn in HF. rewrite app_nil_r in HF. apply CONV in HF; [|assumption]. rewrite HC in HF. destruct HF as [[?|?] _]; congruence.
  - intros f x w y w' N1 N2 HM HF. eapply (c02_type_soundness_proof P) in HF; [|assumption|exact HM|cbn; assumption].
    cbn in HF. rewrite app_nil_r in HF. destruct (ty_eqP P (t_ellipsis P) (t_bool P)); [congruence|].
    unfold class_conforms in HF. destruct (ty_eqP P (t_ellipsis P) (t_none P)); [congruence|].
    destruct (ty_eqP P (t_ellipsis P) (t_ellipsis P)); [|congruence].
    destruct HF as [HF _]. apply CONV in HF; [|assumption]. rewrite HC in HF. destruct HF; congruence.
  - intros f x w y w' HM HF. eapply (c02_type_soundness_proof P) in HF; [|assumption|exact HM|cbn; assumption].
    cbn in HF. rewrite app_nil_r in HF. apply CONV in HF; [|assumption]. rewrite HC in HF. destruct HF as [[?|?] _]; congruence.
Qed.

Lemma c04_matching_not_coerced_proof : forall {obj ty W} (P : Py obj ty W) dflt t toks ops f,
  t <> t_none P -> t <> t_ellipsis P ->
  make_filler P dflt (HAnn (HTy t) toks) ops = Ok f ->
  let s := eff_style dflt (own_ops ops ++ toks) in
  s = SCheck \/ s = SStrict ->
  exists vs, declared_validators (OTy t) (own_ops ops ++ toks) vs /\
    forall x, class_ok P s t x ->
      forall w, call P f x w = in_order vs x w /\
        (existsb is_validation (own_ops ops ++ toks) = false -> call P f x w = (Ok x, w)).
Proof.
  intros obj ty W P dflt t toks ops f N1 N2 HM s HS.
  assert (HL : forall lid vals, class_kind P t <> KLiteral lid vals).
  { intros. unfold class_kind. repeat destruct (ty_eqb _ _ _); discriminate. }
  destruct (leaf_call P (HTy t) _ dflt toks ops f eq_refl HL HM) as (cs & vs & HC & HV & _ & E).
  rewrite origin_class_kind in HV. exists vs. split; [assumption|]. intros x HX w.
  destruct (type_phase_match P s (class_kind P t) (class_ok P s t) cs x w HS (class_accepts P s t HS N1 N2) HX) as [p T].
  assert (C : call P f x w = in_order vs x w).
  { rewrite E. unfold bind. fold s. rewrite T. reflexivity. }
  split; [assumption|]. intro NV. rewrite C.
  assert (vs = []) as ->; [|reflexivity].
  unfold declared_validators in HV. destruct vs as [|v r]; [reflexivity|]. exfalso.
  clear - HV NV. unfold validation_tokens in HV.
  induction (own_ops ops ++ toks) as [|u us IH]; cbn in *; [inversion HV|].
  apply orb_false_elim in NV. destruct NV as [N1 N2]. destruct u; cbn in *; try discriminate; apply IH; assumption.
Qed.

Lemma c04_matching_not_coerced_special_proof : forall {obj ty W} (P : Py obj ty W) dflt toks ops,
  let s := eff_style dflt (own_ops ops ++ toks) in
  s = SCheck \/ s = SStrict ->
  (forall f, make_filler P dflt (HAnn HNone toks) ops = Ok f ->
     exists vs, declared_validators (OTy (t_none P)) (own_ops ops ++ toks) vs /\
       forall w, call P f (o_none P) w = in_order vs (o_none P) w) /\
  (forall f, make_filler P dflt (HAnn HCallable toks) ops = Ok f ->
     exists vs, declared_validators OCallable (own_ops ops ++ toks) vs /\
       forall x w, callable P x = true -> call P f x w = in_order vs x w).
Proof.
  intros obj ty W P dflt toks ops s HS. split; intros f HM.
  - destruct (leaf_call P HNone _ dflt toks ops f eq_refl ltac:(discriminate) HM) as (cs & vs & HC & HV & _ & E).
    exists vs. split; [assumption|]. intros w. rewrite E. fold s. unfold bind, type_phase. cbn.
    destruct (py_isP P (o_none P) (o_none P)); [|congruence]. destruct HS as [-> | ->]; reflexivity.
  - destruct (leaf_call P HCallable _ dflt toks ops f eq_refl ltac:(discriminate) HM) as (cs & vs & HC & HV & _ & E).
    exists vs. split; [assumption|]. intros x w HX. rewrite E. fold s. unfold bind, type_phase. cbn. rewrite HX.
    destruct HS as [-> | ->]; reflexivity.
Qed.

Lemma c05_first_coercer_wins_proof : forall {obj ty W} (P : Py obj ty W) dflt t toks ops f,
  t <> t_none P -> t <> t_ellipsis P ->
  make_filler P dflt (HAnn (HTy t) toks) ops = Ok f ->
  let s := eff_style dflt (own_ops ops ++ toks) in
  s = SCheck \/ s = SStrict ->
  exists cs vs,
    declared_coercers P (OTy t) (own_ops ops ++ toks) cs /\
    declared_validators (OTy t) (own_ops ops ++ toks) vs /\
    forall x w, ~ class_ok P s t x ->
      (cs = [] -> exists e, exc_cls e = TypeError /\ call P f x w = (Raise e, w)) /\
      (forall cs1 c cs2 y w1, cs = cs1 ++ c :: cs2 -> tried (class_ok P s t) cs1 x w y w1 ->
         (forall z w2, c y w1 = (Ok z, w2) -> class_ok P s t z -> call P f x w = in_order vs z w2) /\
         (forall e w2, c y w1 = (Raise e, w2) -> is_Exception e = false -> call P f x w = (Raise e, w2)) /\
         (forall e w2, cs2 = [] -> c y w1 = (Raise e, w2) -> call P f x w = (Raise e, w2)) /\
         (forall z w2, cs2 = [] -> c y w1 = (Ok z, w2) -> ~ class_ok P s t z ->
            exists e, exc_cls e = TypeError /\ call P f x w = (Raise e, w2))).
Proof.
  intros obj ty W P dflt t toks ops f N1 N2 HM s HS.
  assert (HL : forall lid vals, class_kind P t <> KLiteral lid vals).
  { intros. unfold class_kind. repeat destruct (ty_eqb _ _ _); discriminate. }
  destruct (leaf_call P (HTy t) _ dflt toks ops f eq_refl HL HM) as (cs & vs & HC & HV & _ & E).
  rewrite origin_class_kind in HV, HC. exists cs, vs. split; [assumption|]. split; [assumption|].
  fold s in E. intros x w HX.
  pose proof (type_phase_mismatch P s (class_kind P t) (class_ok P s t) cs x w HS (class_accepts P s t HS N1 N2) HX) as T.
  split.
  - intros ->. eexists. split; [|rewrite E; unfold bind; rewrite T; reflexivity]. reflexivity.
  - intros cs1 c cs2 y w1 -> HT.
    pose proof (run_coercers_tried P (class_kind P t) s (class_ok P s t) (c :: cs2) cs1 x w y w1
                  (fun z w => class_coerced P s t z w HS N1 N2) ltac:(discriminate) HT) as R.
    assert (T' : type_phase P (class_kind P t) s (cs1 ++ c :: cs2) x w =
                 (let* y := run_coercers P (class_kind P t) s (c :: cs2) y in ret (y, PCoerce)) w1).
    { rewrite T. destruct (cs1 ++ c :: cs2) eqn:EE; [destruct cs1; discriminate|]. unfold bind at 1. rewrite R. reflexivity. }
    assert (C : forall o w2, run_coercers P (class_kind P t) s (c :: cs2) y w1 = (o, w2) ->
                call P f x w = match o with Ok z => in_order vs z w2 | Raise e => (Raise e, w2) end).
    { intros o w2 EO. rewrite E. unfold bind. rewrite T'. unfold bind. rewrite EO. destruct o; reflexivity. }
    clear E T T' R. repeat split.
    + intros z w2 HZ OK. apply (C (Ok z)). cbn. rewrite HZ. rewrite (proj2 (class_coerced P s t z w2 HS N1 N2) OK). reflexivity.
    + intros e w2 HZ NE. apply (C (Raise e)). cbn. rewrite HZ, NE. reflexivity.
    + intros e w2 -> HZ. apply (C (Raise e)). cbn. rewrite HZ, andb_false_r. reflexivity.
    + intros z w2 -> HZ NOK. eexists. split; [|apply (C (Raise _)); cbn; rewrite HZ].
      2:{ destruct (coerced_ok s (type_check P (class_kind P t) z w2)) eqn:EO; [|reflexivity].
          apply class_coerced in EO; try assumption. contradiction. }
      reflexivity.
Qed.

Lemma c05_cases_proof : forall {obj ty W} (P : Py obj ty W) s t (cs : list (obj -> M W obj)) x w,
  s = SCheck \/ s = SStrict -> cs <> [] ->
  exists cs1 c cs2 y w1, cs = cs1 ++ c :: cs2 /\ tried (class_ok P s t) cs1 x w y w1 /\
    ((exists z w2, c y w1 = (Ok z, w2) /\ class_ok P s t z) \/
     (exists e w2, c y w1 = (Raise e, w2) /\ is_Exception e = false) \/
     (cs2 = [] /\ exists e w2, c y w1 = (Raise e, w2)) \/
     (cs2 = [] /\ exists z w2, c y w1 = (Ok z, w2) /\ ~ class_ok P s t z)).
Proof.
  intros obj ty W P s t cs x w HS HN. apply tried_cases; [|assumption].
  intros z. apply class_ok_dec. exact HS.
Qed.

Lemma c06_refuted_proof : forall {obj ty W} (P : Py obj ty W) dflt s t c1 c2 f x w y w1 z w2,
  t <> t_none P -> t <> t_ellipsis P -> s = SCheck \/ s = SStrict ->
  make_filler P dflt (HAnn (HTy t) [TStyle s; TCoerce (CGlobal (fun _ => Ok c1)); TCoerce (CGlobal (fun _ => Ok c2))]) [] = Ok f ->
  ~ class_ok P s t x -> c1 x w = (Ok y, w1) ->
  ~ class_ok P s t y -> c2 y w1 = (Ok z, w2) -> class_ok P s t z ->
  call P f x w = (Ok z, w2).
Proof.
  intros obj ty W P dflt s t c1 c2 f x w y w1 z w2 N1 N2 HS HM NX H1 NY H2 HZ.
  assert (ES : eff_style dflt (own_ops (@nil (option nat * @token obj ty W)) ++ [TStyle s; TCoerce (CGlobal (fun _ => Ok c1)); TCoerce (CGlobal (fun _ => Ok c2))]) = s)
    by (destruct HS as [-> | ->]; reflexivity).
  destruct (c05_first_coercer_wins_proof P dflt t _ [] f N1 N2 HM) as (cs & vs & DC & DV & H); [rewrite ES; exact HS|].
  rewrite ES in H. inversion DV; subst. inversion DC as [|? g1 ? r1 Y1 DC1]; subst. inversion DC1 as [|? g2 ? r2 Y2 DC2]; subst. inversion DC2; subst.
  inversion Y1 as [? ? E1| |]; subst. inversion Y2 as [? ? E2| |]; subst. injection E1 as <-. injection E2 as <-.
  destruct (H x w NX) as [_ HT]. destruct (HT [c1] c2 [] y w1 eq_refl) as [HG _].
  - eapply tried_wrong; [exact H1|exact NY|constructor].
  - rewrite (HG z w2 H2 HZ). reflexivity.
Qed.

Lemma offered_tried : forall {obj W} (ok : obj -> Prop) (x : obj) (cs1 : list (obj -> M W obj)) w w1,
  (forall c, In c cs1 -> forall w z w', c x w = (Ok z, w') -> ok z) ->
  offered ok x cs1 w w1 -> tried ok cs1 x w x w1.
Proof.
  intros obj W ok x cs1 w w1 H HO. induction HO as [w|c cs w e w1 w2 HC HE HO IH|c cs w z w1 w2 HC HK HO IH].
  - constructor.
  - eapply tried_raised; [eassumption..|]. apply IH. intros d HD. apply H. right. assumption.
  - exfalso. apply HK. eapply H; [left; reflexivity|eassumption].
Qed.

Lemma c06_partial_proof : forall {obj ty W} (P : Py obj ty W) dflt t toks ops f,
  t <> t_none P -> t <> t_ellipsis P ->
  make_filler P dflt (HAnn (HTy t) toks) ops = Ok f ->
  let s := eff_style dflt (own_ops ops ++ toks) in
  s = SCheck \/ s = SStrict ->
  exists cs vs,
    declared_coercers P (OTy t) (own_ops ops ++ toks) cs /\
    declared_validators (OTy t) (own_ops ops ++ toks) vs /\
    forall x, ~ class_ok P s t x ->
      (forall c, In c cs -> forall w z w', c x w = (Ok z, w') -> class_ok P s t z) ->
      forall w cs1 c cs2 w1, cs = cs1 ++ c :: cs2 -> offered (class_ok P s t) x cs1 w w1 ->
         (forall z w2, c x w1 = (Ok z, w2) -> call P f x w = in_order vs z w2) /\
         (forall e w2, cs2 = [] -> c x w1 = (Raise e, w2) -> call P f x w = (Raise e, w2)).
Proof.
  intros obj ty W P dflt t toks ops f N1 N2 HM s HS.
  destruct (c05_first_coercer_wins_proof P dflt t toks ops f N1 N2 HM HS) as (cs & vs & HC & HV & H).
  exists cs, vs. split; [assumption|]. split; [assumption|]. intros x HX HG w cs1 c cs2 w1 E HO.
  destruct (H x w HX) as [_ H1].
  destruct (H1 cs1 c cs2 x w1 E) as (A & _ & B & _).
  { apply offered_tried; [|assumption]. intros d HD. apply HG. rewrite E. apply in_or_app. left. assumption. }
  split; [|exact B]. intros z w2 HZ. apply A; [assumption|]. eapply (HG c); [|eassumption].
  rewrite E. apply in_or_app. right. left. reflexivity.
Qed.

Lemma c07_validators_in_order_proof : forall {obj ty W} (P : Py obj ty W) dflt h o toks ops f,
  match h with
  | HTy t | HBare t => o = OTy t
  | HNone => o = OTy (t_none P)
  | HCallable => o = OCallable
  | HAny => o = OTy (t_object P)
  | _ => False
  end ->
  make_filler P dflt (HAnn h toks) ops = Ok f ->
  exists f0 vs,
    make_filler P dflt (HAnn h (without_validators toks)) (own_only (without_validators (own_ops ops))) = Ok f0 /\
    declared_validators o (own_ops ops ++ toks) vs /\
    forall x w, call P f x w = (let* z := call P f0 x in in_order vs z) w.
Proof.
  intros obj ty W P dflt h o toks ops f HO HM.
  assert (HK : exists k, leaf_kind P h = Some k /\ origin_of P k = o /\ lit_validators P k = fun _ => []).
  { destruct h; try contradiction; subst o; eexists; (split; [reflexivity|]); split; try reflexivity; try apply origin_class_kind;
    unfold class_kind; repeat destruct (ty_eqb _ _ _); reflexivity. }
  destruct HK as (k & HK & <- & HLV).
  destruct (strip_make P h k dflt toks ops f HK HM) as (f0 & HM0 & cs & vs & HV & -> & ->).
  eexists. exists vs. split; [exact HM0|]. split; [apply tok_validators_declared; assumption|].
  intros x w. rewrite HLV, app_nil_r, call_ann, bind_call_ann. unfold afill. cbn [a_kind a_style a_coercers a_validators run_validators].
  rewrite !bind_assoc. apply bind_ext; [reflexivity|]. intros p w1 _. rewrite bind_assoc. unfold bind, ret. cbn.
  rewrite run_validators_in_order. destruct (in_order vs (fst p) w1) as [[y|e] w2]; reflexivity.
Qed.

Lemma c09_union_proof : forall {obj ty W} (P : Py obj ty W) dflt hs toks ops f,
  hs <> [] ->
  make_filler P dflt (HAnn (HUnion hs) toks) ops = Ok f ->
  exists gs,
    List.length gs = List.length hs /\
    (forall n h, nth_error hs n = Some h ->
       exists g, nth_error gs n = Some g /\
         make_filler P dflt h (own_only (sub_ops ops n ++ toks ++ own_ops ops)) = Ok g) /\
    forall x w, call P f x w =
      if all_i (fun n h => hollow_hint dflt no_sub_tokens (sub_ops ops n ++ toks ++ own_ops ops) [] h) 0 hs
      then (Ok x, w)
      else (let* os := attempts (map (fill P) gs) x in lift (verdict P os)) w.
Proof.
 intros obj ty W P. apply union_eq. Qed.

Lemma verdict_ok : forall {obj ty W} (P : Py obj ty W) os v, verdict P os = Ok v ->
  exists p, In (Ok (v, p)) os /\
  (forall v' p', In (Ok (v', p')) os -> tpk_rank p <= tpk_rank p') /\
  (forall v' p', In (Ok (v', p')) os -> tpk_rank p' = tpk_rank p -> v' = v).
Proof.
  intros obj ty W P os v H. unfold verdict in H.
  assert (IS : forall v p, In (v, p) (successes os) <-> In (Ok (v, p)) os).
  { intros v0 p0. unfold successes. rewrite in_flat_map. split.
    - intros (o & HI & HO). destruct o; cbn in HO; [|destruct HO]. destruct HO as [->|[]]. assumption.
    - intro HI. exists (Ok (v0, p0)). split; [assumption|left; reflexivity]. }
  destruct (winners (successes os)) as [|[u p] r] eqn:EW.
  - exfalso. destruct os as [|o os]; [discriminate|].
    pose proof (last_In (o :: os) (Raise (mkexc LookupError "list index out of range")) ltac:(discriminate)) as HI.
    destruct (last (o :: os) _) as [[y q]|e]; [|discriminate]. apply IS in HI. apply winners_nil in EW. rewrite EW in HI. destruct HI.
  - destruct (forallb (fun s => py_is P (fst s) u) r) eqn:EF; [|discriminate]. injection H as ->.
    assert (I0 : In (v, p) (winners (successes os))) by (rewrite EW; left; reflexivity).
    exists p. split; [apply IS, winners_in; assumption|]. split.
    + intros v' p' HI. apply IS in HI. exact (winners_min _ _ _ I0 HI).
    + intros v' p' HI E. apply IS in HI.
      assert (HW : In (v', p') (winners (successes os))).
      { unfold winners. apply filter_In. split; [assumption|]. apply forallb_forall. intros s HS. apply Nat.leb_le. cbn. rewrite E.
        exact (winners_min _ _ _ I0 HS). }
      rewrite EW in HW. destruct HW as [HW|HW]; [congruence|].
      rewrite forallb_forall in EF. apply EF in HW. cbn in HW. destruct (py_isP P v' v); congruence.
Qed.

Lemma winner_ex : forall {obj : Type} (ss : list (obj * tpk)), ss <> [] -> exists v p, In (v, p) (winners ss).
Proof.
  intros obj ss HN. destruct (winners ss) as [|[v p] r] eqn:E; [apply winners_nil in E; congruence|].
  exists v, p. left. reflexivity.
Qed.

Lemma verdict_ok_conv : forall {obj ty W} (P : Py obj ty W) os v p,
  In (Ok (v, p)) os ->
  (forall v' p', In (Ok (v', p')) os -> tpk_rank p <= tpk_rank p') ->
  (forall v' p', In (Ok (v', p')) os -> tpk_rank p' = tpk_rank p -> v' = v) ->
  verdict P os = Ok v.
Proof.
  intros obj ty W P os v p HI HM HU.
  assert (IS : forall v p, In (v, p) (successes os) <-> In (Ok (v, p)) os).
  { intros v0 p0. unfold successes. rewrite in_flat_map. split.
    - intros (o & HJ & HO). destruct o; cbn in HO; [|destruct HO]. destruct HO as [->|[]]. assumption.
    - intro HJ. exists (Ok (v0, p0)). split; [assumption|left; reflexivity]. }
  assert (HW : In (v, p) (winners (successes os))).
  { unfold winners. apply filter_In. split; [apply IS; assumption|]. apply forallb_forall. intros [v' p'] HS. apply Nat.leb_le.
    apply IS in HS. cbn. eapply HM; eassumption. }
  unfold verdict. destruct (winners (successes os)) as [|[u q] r] eqn:EW; [destruct HW|].
  assert (ALL : forall s, In s ((u, q) :: r) -> fst s = v).
  { intros s HS. rewrite <- EW in HS, HW. pose proof (winners_same_rank _ _ _ HS HW) as HR.
    apply winners_in in HS. destruct s as [v' p']. apply IS in HS. cbn in *. eapply HU; eassumption. }
  pose proof (ALL (u, q) (or_introl eq_refl)) as HU0. cbn in HU0. subst u.
  replace (forallb (fun s => py_is P (fst s) v) r) with true; [reflexivity|].
  symmetry. apply forallb_forall. intros s HS. rewrite (ALL s (or_intror HS)). destruct (py_isP P v v); congruence.
Qed.

Lemma verdict_perm : forall {obj ty W} (P : Py obj ty W) os os' v,
  Permutation os os' -> verdict P os = Ok v -> verdict P os' = Ok v.
Proof.
  intros obj ty W P os os' v HP H. apply verdict_ok in H. destruct H as (p & HI & HM & HU).
  pose proof (Permutation_sym HP) as HP'.
  apply verdict_ok_conv with (p := p).
  - eapply Permutation_in; eassumption.
  - intros v' p' HJ. eapply HM. eapply Permutation_in; eassumption.
  - intros v' p' HJ. eapply HU. eapply Permutation_in; eassumption.
Qed.

Lemma c09_verdict_proof : forall {obj ty W} (P : Py obj ty W) (os : list (outcome (obj * tpk))),
  let best v p := In (Ok (v, p)) os /\ forall v' p', In (Ok (v', p')) os -> tpk_rank p <= tpk_rank p' in
  (forall v, verdict P os = Ok v <->
     exists p, best v p /\ forall v' p', best v' p' -> v' = v) /\
  ((exists v p v' p', best v p /\ best v' p' /\ v <> v') ->
     verdict P os = Raise (mkexc ValueError "multiple sub-fillers matched")) /\
  (forall os' e, os = os' ++ [Raise e] -> (forall v p, ~ In (Ok (v, p)) os) -> verdict P os = Raise e).
Proof.
  intros obj ty W P os best. split; [|split].
  - intros v. split.
    + intro H. apply verdict_ok in H. destruct H as (p & HI & HM & HU). exists p. split; [split; assumption|].
      intros v' p' [HJ HN]. eapply HU; [eassumption|]. apply HN in HI. apply HM in HJ. lia.
    + intros (p & [HI HM] & HU). apply verdict_ok_conv with (p := p); [assumption..|].
      intros v' p' HJ E. apply (HU v' p'). split; [assumption|]. intros v'' p'' HK. rewrite E. eapply HM; eassumption.
  - intros (v & p & v' & p' & H1 & H2 & N).
    assert (R : forall u, verdict P os <> Ok u).
    { intros u H. apply verdict_ok in H. destruct H as (q & HI & HM & HU). destruct H1 as [I1 M1], H2 as [I2 M2].
      apply N. transitivity u; [|symmetry]; eapply HU; try eassumption.
      - apply M1 in HI. apply HM in I1. lia.
      - apply M2 in HI. apply HM in I2. lia. }
    unfold verdict in *. destruct (winners (successes os)) as [|[u q] r] eqn:EW.
    + apply winners_nil in EW. destruct H1 as [I1 _].
      assert (In (v, p) (successes os)). { unfold successes. apply in_flat_map. exists (Ok (v, p)). split; [assumption|left; reflexivity]. }
      rewrite EW in H. destruct H.
    + destruct (forallb _ r); [destruct (R u); reflexivity|reflexivity].
  - intros os' e -> HN. unfold verdict.
    destruct (winners (successes (os' ++ [Raise e]))) as [|[u q] r] eqn:EW.
    + rewrite last_last. reflexivity.
    + exfalso. assert (HI : In (u, q) (winners (successes (os' ++ [Raise e])))) by (rewrite EW; left; reflexivity).
      apply winners_in in HI. unfold successes in HI. apply in_flat_map in HI. destruct HI as (o & HO & HI).
      destruct o; cbn in HI; [|destruct HI]. destruct HI as [->|[]]. apply (HN u q). assumption.
Qed.

Lemma attempts_outcomes : forall {obj W} (fs : list (obj -> M W (obj * tpk))) x w os w1 (rs : list (outcome (obj * tpk))),
  Forall2 (fun f r => forall w, fst (f x w) = r) fs rs ->
  attempts fs x w = (Ok os, w1) -> os = rs.
Proof.
  induction fs as [|f fr IH]; intros x w os w1 rs HF HA; inversion HF; subst; cbn in HA.
  - injection HA as <- <-. reflexivity.
  - specialize (H1 w). destruct (f x w) as [[p|e] w2]; cbn in H1.
    + minv HA. injection HA as <- <-. subst y. f_equal. eapply IH; eassumption.
    + destruct (is_Exception e); [|discriminate]. minv HA. injection HA as <- <-. subst y. f_equal. eapply IH; eassumption.
Qed.

Lemma attempts_run : forall {obj W} (fs : list (obj -> M W (obj * tpk))) x w (rs : list (outcome (obj * tpk))),
  Forall2 (fun f r => forall w, fst (f x w) = r) fs rs ->
  Forall (fun r => match r with Ok _ => True | Raise e => is_Exception e = true end) rs ->
  exists w1, attempts fs x w = (Ok rs, w1).
Proof.
  induction fs as [|f fr IH]; intros x w rs HF HE; inversion HF; subst; cbn; [eexists; reflexivity|].
  inversion HE; subst. specialize (H1 w). destruct (f x w) as [[p|e] w2]; cbn in H1; subst y.
  - destruct (IH x w2 l' H3 H4) as [w3 E]. exists w3. unfold bind. rewrite E. reflexivity.
  - rewrite H2. destruct (IH x w2 l' H3 H4) as [w3 E]. exists w3. unfold bind. rewrite E. reflexivity.
Qed.

Lemma attempts_exceptions : forall {obj W} (fs : list (obj -> M W (obj * tpk))) x w os w1,
  attempts fs x w = (Ok os, w1) -> Forall (fun r => match r with Ok _ => True | Raise e => is_Exception e = true end) os.
Proof.
  induction fs as [|f fr IH]; intros x w os w1 HA; cbn in HA.
  - injection HA as <- <-. constructor.
  - destruct (f x w) as [[p|e] w2].
    + minv HA. injection HA as <- <-. constructor; [exact I|]. eapply IH; eassumption.
    + destruct (is_Exception e) eqn:EX; [|discriminate]. minv HA. injection HA as <- <-. constructor; [assumption|]. eapply IH; eassumption.
Qed.

Lemma Forall2_perm : forall {A B} (R : A -> B -> Prop) l m m', Forall2 R l m -> Permutation m m' ->
  exists l', Permutation l l' /\ Forall2 R l' m'.
Proof.
  intros A B R l m m' HF HP. revert l HF. induction HP as [|b m m' HP IH|b c m|m m1 m2 HP1 IH1 HP2 IH2]; intros l HF.
  - inversion HF; subst. exists []. split; constructor.
  - inversion HF; subst. destruct (IH _ H3) as (l' & P1 & P2). exists (x :: l'). split; [constructor; assumption|constructor; assumption].
  - inversion HF as [|x1 ? l1 ? R1 HF1]; subst. inversion HF1 as [|x2 ? l2 ? R2 HF2]; subst. exists (x2 :: x1 :: l2). split; [apply perm_swap|repeat constructor; assumption].
  - destruct (IH1 _ HF) as (l1 & P1 & F1). destruct (IH2 _ F1) as (l2 & P2 & F2). exists l2. split; [eapply perm_trans; eassumption|assumption].
Qed.

Lemma Forall2_fun : forall {A B} (R : A -> B -> Prop) l m m',
  (forall a b b', In a l -> R a b -> R a b' -> b = b') -> Forall2 R l m -> Forall2 R l m' -> m = m'.
Proof.
  intros A B R l m m' H HF. revert m'. induction HF as [|a b l m HR HF IH]; intros m' HF'; inversion HF'; subst; [reflexivity|].
  f_equal; [eapply H; [left; reflexivity|eassumption..]|apply IH; [|assumption]]. intros; eapply H; [right; eassumption|eassumption..].
Qed.

Lemma member_decls_nth : forall {obj ty W} (ops : list (option nat * @token obj ty W)) hs i n,
  nth_error (member_decls ops i hs) n = match nth_error hs n with Some h => Some (h, sub_ops ops (i + n)) | None => None end.
Proof.
  intros obj ty W ops. induction hs as [|h r IH]; intros i n; cbn; [destruct n; reflexivity|].
  destruct n; cbn; [rewrite Nat.add_0_r; reflexivity|]. rewrite IH. destruct (nth_error r n); [|reflexivity].
  rewrite Nat.add_succ_r. reflexivity.
Qed.

Lemma member_decls_length : forall {obj ty W} (ops : list (option nat * @token obj ty W)) hs i,
  List.length (member_decls ops i hs) = List.length hs.
Proof. intros obj ty W ops. induction hs; intros; cbn; [reflexivity|]. rewrite IHhs. reflexivity. Qed.

Lemma Forall2_nth : forall {A B} (R : A -> B -> Prop) l m, List.length l = List.length m ->
  (forall n a b, nth_error l n = Some a -> nth_error m n = Some b -> R a b) -> Forall2 R l m.
Proof.
  intros A B R l. induction l as [|a r IH]; intros [|b m] HL H; try discriminate; constructor.
  - apply (H 0); reflexivity.
  - apply IH; [cbn in HL; congruence|]. intros n c d E1 E2. apply (H (S n)); assumption.
Qed.

Lemma all_i_decls : forall {obj ty W} (q : @hint obj ty W -> list (@token obj ty W) -> bool) ops hs i,
  all_i (fun n h => q h (sub_ops ops n)) i hs = forallb (fun d => q (fst d) (snd d)) (member_decls ops i hs).
Proof. intros obj ty W q ops. induction hs as [|h r IH]; intros i; cbn; [reflexivity|]. rewrite IH. reflexivity. Qed.

Lemma forallb_perm : forall {A} (p : A -> bool) l l', Permutation l l' -> forallb p l = forallb p l'.
Proof.
  intros A p l l' H. induction H; cbn; try congruence. destruct (p x), (p y); reflexivity.
Qed.

Lemma c08_order_irrelevant_proof : forall {obj ty W} (P : Py obj ty W) dflt toks hs hs' ops ops' f f' x,
  hs <> [] ->
  make_filler P dflt (HAnn (HUnion hs) toks) ops = Ok f ->
  make_filler P dflt (HAnn (HUnion hs') toks) ops' = Ok f' ->
  Permutation (member_decls ops 0 hs) (member_decls ops' 0 hs') ->
  own_ops ops = own_ops ops' ->
  (forall h ts g, In (h, ts) (member_decls ops 0 hs) ->
     make_filler P dflt h (own_only (ts ++ toks ++ own_ops ops)) = Ok g ->
     exists o, forall w, fst (fill P g x w) = o) ->
  forall w w' v w1, call P f x w = (Ok v, w1) -> exists w1', call P f' x w' = (Ok v, w1').
Proof.
  intros obj ty W P dflt toks hs hs' ops ops' f f' x HN HM HM' HP HO HS w w' v w1 HC.
  assert (HN' : hs' <> []).
  { intros ->. apply Permutation_length in HP. rewrite !member_decls_length in HP. destruct hs; [congruence|discriminate]. }
  destruct (union_eq P dflt hs toks ops f HN HM) as (gs & L & G & E).
  destruct (union_eq P dflt hs' toks ops' f' HN' HM') as (gs' & L' & G' & E').
  rewrite E in HC. rewrite E'. rewrite <- HO in *.
  set (R := fun d g => make_filler P dflt (fst d) (own_only (snd d ++ toks ++ own_ops ops)) = Ok g).
  assert (F : Forall2 R (member_decls ops 0 hs) gs).
  { apply Forall2_nth; [rewrite member_decls_length; congruence|]. intros n d g E1 E2. rewrite member_decls_nth in E1.
    destruct (nth_error hs n) eqn:EH; [|discriminate]. injection E1 as <-. destruct (G _ _ EH) as (g' & E3 & HG).
    unfold R. cbn [fst snd]. rewrite HG. congruence. }
  assert (F' : Forall2 R (member_decls ops' 0 hs') gs').
  { apply Forall2_nth; [rewrite member_decls_length; congruence|]. intros n d g E1 E2. rewrite member_decls_nth in E1.
    destruct (nth_error hs' n) eqn:EH; [|discriminate]. injection E1 as <-. destruct (G' _ _ EH) as (g' & E3 & HG).
    unfold R. cbn [fst snd]. rewrite HG. congruence. }
  rewrite (all_i_decls (fun h ts => hollow_hint dflt no_sub_tokens (ts ++ toks ++ own_ops ops) [] h)) in HC.
  rewrite (all_i_decls (fun h ts => hollow_hint dflt no_sub_tokens (ts ++ toks ++ own_ops ops) [] h)).
  rewrite <- (forallb_perm _ _ _ HP). destruct (forallb _ (member_decls ops 0 hs)).
  { injection HC as <- <-. eexists. reflexivity. }
  assert (RS : exists rs, Forall2 (fun (g : filler) r => forall w, fst (fill P g x w) = r) gs rs).
  { clear - F HS. assert (SUB : incl (member_decls ops 0 hs) (member_decls ops 0 hs)) by apply incl_refl.
    revert F SUB. generalize (member_decls ops 0 hs) at 1 2. intros l F. induction F as [|d g l gs HR F IH]; intro SUB.
    - exists []. constructor.
    - destruct IH as [rs HF]. { intros a HA. apply SUB. right. assumption. }
      destruct (HS (fst d) (snd d) g) as [o HOo]; [destruct d; apply SUB; left; reflexivity|exact HR|].
      exists (o :: rs). constructor; assumption. }
  destruct RS as [rs RS].
  destruct (Forall2_perm (fun g d => R d g) gs (member_decls ops 0 hs) (member_decls ops' 0 hs')) as (gs2 & PG & FG).
  { clear - F. induction F; constructor; assumption. } { exact HP. }
  assert (gs2 = gs') as ->.
  { eapply (Forall2_fun R (member_decls ops' 0 hs')); [|clear - FG; induction FG; constructor; eassumption|exact F'].
    unfold R. intros. congruence. }
  assert (RS2 : exists rs', Permutation rs rs' /\ Forall2 (fun (g : filler) r => forall w, fst (fill P g x w) = r) gs' rs').
  { destruct (Forall2_perm (fun r (g : filler) => forall w, fst (fill P g x w) = r) rs gs gs') as (rs' & P1 & P2).
    - clear - RS. induction RS; constructor; assumption.
    - assumption.
    - exists rs'. split; [assumption|]. clear - P2. induction P2; constructor; assumption. }
  destruct RS2 as (rs' & PR & RS2).
  assert (MAP : forall l rr, Forall2 (fun (g : filler) r => forall w, fst (fill P g x w) = r) l rr ->
                Forall2 (fun f r => forall w, fst (f x w) = r) (map (fill P) l) rr).
  { intros l rr HF. induction HF; constructor; assumption. }
  minv HC. pose proof (attempts_exceptions _ _ _ _ _ HCa) as EXC.
  apply (attempts_outcomes _ _ _ _ _ rs (MAP _ _ RS)) in HCa. subst a.
  unfold lift in HC. injection HC as HV _.
  destruct (attempts_run _ x w' rs' (MAP _ _ RS2)) as [w2 EA].
  { rewrite Forall_forall in *. intros r HR. apply EXC. eapply Permutation_in; [apply Permutation_sym; eassumption|assumption]. }
  exists w2. unfold bind. rewrite EA. unfold lift. f_equal. eapply verdict_perm; eassumption.
Qed.

Lemma c08_match_kinds_proof : forall {obj ty W} (P : Py obj ty W),
  (forall dflt h ops g x w v p w' q,
     make_filler P dflt h ops = Ok g -> fill P g x w = (Ok (v, p), w') ->
     match_kind P dflt (own_ops ops) [] h x = Some q -> p = q) /\
  tpk_rank PStrict < tpk_rank PNoCoerce < tpk_rank PCoerce /\ tpk_rank PCoerce < tpk_rank PHollow.
Proof.
  intros obj ty W P. split; [|cbn; lia]. intros dflt h ops g x w v p w' q H HF HM.
  unfold make_filler, get_filler, bind_filler in H. oinv H. oinv H.
  eapply (kind_correct P h [] a ops a0 dflt [] g Ha Ha0 H x w v p w' q HF). rewrite app_nil_r. assumption.
Qed.

Lemma c10_elements_proof : forall {obj ty W} (P : Py obj ty W) dflt rk t h toks ops f,
  plain_class P t ->
  make_filler P dflt (HAnn (HIter rk t h) toks) ops = Ok f ->
  exists f0 g,
    make_filler P dflt (HAnn (HTy t) toks) (own_only (own_ops ops)) = Ok f0 /\
    make_filler P dflt h (own_only (sub_ops ops 0)) = Ok g /\
    forall x w, call P f x w =
      (let* z := call P f0 x in
       if hollow_hint dflt no_sub_tokens (sub_ops ops 0) [] h then ret z
       else fill_elements P rk (call P g) z) w.
Proof.
 intros obj ty W P. apply iter_eq. Qed.

Lemma c10_elements_tuple_proof : forall {obj ty W} (P : Py obj ty W) dflt h toks ops f,
  plain_class P (t_tuple P) ->
  make_filler P dflt (HAnn (HTupleV h) toks) ops = Ok f ->
  exists f0 g,
    make_filler P dflt (HAnn (HTy (t_tuple P)) toks) (own_only (own_ops ops)) = Ok f0 /\
    make_filler P dflt h (own_only (sub_ops ops 0)) = Ok g /\
    forall x w, call P f x w =
      (let* z := call P f0 x in
       if hollow_hint dflt no_sub_tokens (sub_ops ops 0) [] h then ret z
       else fill_elements P RkPlain (call P g) z) w.
Proof.
 intros obj ty W P. apply tuplev_eq. Qed.

Lemma c11_fixed_tuple_proof : forall {obj ty W} (P : Py obj ty W) dflt hs toks ops f,
  plain_class P (t_tuple P) ->
  make_filler P dflt (HAnn (HTupleN hs) toks) ops = Ok f ->
  exists f0 gs,
    make_filler P dflt (HAnn (HTy (t_tuple P)) toks) (own_only (own_ops ops)) = Ok f0 /\
    List.length gs = List.length hs /\
    (forall n h, nth_error hs n = Some h ->
       exists g, nth_error gs n = Some g /\ make_filler P dflt h (own_only (sub_ops ops n)) = Ok g) /\
    forall x w, call P f x w =
      (let* z := call P f0 x in
       if all_i (fun n h => hollow_hint dflt no_sub_tokens (sub_ops ops n) [] h) 0 hs
       then if style_eqb (eff_style dflt (own_ops ops ++ toks)) SHollow then ret z else check_length P (List.length hs) z
       else fill_positions P (map (call P) gs) z) w.
Proof.
 intros obj ty W P. apply tuplen_eq. Qed.

Lemma c12_mapping_proof : forall {obj ty W} (P : Py obj ty W) dflt rk t hk hv toks ops f,
  plain_class P t ->
  make_filler P dflt (HAnn (HMap rk t hk hv) toks) ops = Ok f ->
  exists f0 gk gv,
    make_filler P dflt (HAnn (HTy t) toks) (own_only (own_ops ops)) = Ok f0 /\
    make_filler P dflt hk (own_only (sub_ops ops 0)) = Ok gk /\
    make_filler P dflt hv (own_only (sub_ops ops 1)) = Ok gv /\
    forall x w, call P f x w =
      (let* z := call P f0 x in
       if hollow_hint dflt no_sub_tokens (sub_ops ops 0) [] hk && hollow_hint dflt no_sub_tokens (sub_ops ops 1) [] hv then ret z
       else fill_items P rk (call P gk) (call P gv) z) w.
Proof.
 intros obj ty W P. apply map_eq. Qed.

Lemma c13_literal_proof : forall {obj ty W} (P : Py obj ty W) dflt lid vals toks ops f,
  make_filler P dflt (HAnn (HLiteral lid vals) toks) ops = Ok f ->
  eff_style dflt (own_ops ops ++ toks) <> SHollow ->
  forall x w y w', call P f x w = (Ok y, w') ->
  exists l, In l vals /\ type_of P y = type_of P l /\ lit_eq P y l = true.
Proof.
 intros obj ty W P dflt lid vals toks ops f HM HS x w y w' HC. eapply literal_last; eassumption. Qed.

Lemma c13_errors_proof : forall {obj ty W} (P : Py obj ty W) s lid vals f x w e w',
  s = SCheck \/ s = SStrict -> make_filler P s (HLiteral lid vals) [] = Ok f ->
  call P f x w = (Raise e, w') ->
  exc_cls e = TypeError \/ hash_error P x = Some e \/ (hash_error P x = None /\ exc_cls e = ValueError).
Proof.
  intros obj ty W P s lid vals f x w e w' HS HM HC.
  assert (EF : f = FAnn (AF (KLiteral lid vals) [] s [] [literal_validator P lid vals] true)).
  { destruct HS as [-> | ->]; cbn in HM; unfold add_validator in HM; cbn in HM; congruence. }
  subst f. clear HM.
  assert (V : forall u (k : tpk), (let* y := run_validators [literal_validator P lid vals] x in ret (y, k)) u = (Raise e, w') ->
    hash_error P x = Some e \/ (hash_error P x = None /\ exc_cls e = ValueError)).
  { intros u k. cbn [run_validators]. unfold bind, literal_validator. destruct (lit_mem P vals x); [discriminate|].
    destruct (hash_error P x) as [e0|]; intros H; injection H as <- _; auto. }
  assert (HC' : (let* p := fill P (FAnn (AF (KLiteral lid vals) [] s [] [literal_validator P lid vals] true)) x in
      ret (fst p)) w = (Raise e, w')) by (destruct HS as [-> | ->]; exact HC).
  revert HC'. unfold bind at 1. clear HC. cbn [fill]. unfold afill. cbn [a_kind a_style a_coercers a_validators]. unfold bind at 1, type_phase.
  assert (C : forall r, (match r with (Ok a, w1) => ret (fst a) w1 | (Raise e0, w1) => (Raise e0, w1) end) = (Raise e, w') ->
     r = (Raise (A := obj * tpk) e, w')).
  { intros [[a|e0] w1] HR; cbn in HR; inversion HR; reflexivity. }
  destruct HS as [-> | ->]; destruct (type_check P (KLiteral lid vals) x w); cbn [style_eqb fst snd];
    intros HC; apply C in HC;
    first [ right; exact (V _ _ HC) | left; injection HC as <- _; reflexivity ].
Qed.

Lemma c16_union_refuted_proof : forall {obj ty W} (P : Py obj ty W) dflt ts toks f x w,
  ts <> [] -> eff_style dflt toks = SHollow ->
  make_filler P dflt (HAnn (HUnion (map HTy ts)) toks) [] = Ok f ->
  call P f x w = (Ok x, w).
Proof.
  intros obj ty W P dflt ts toks f x w NE HS HM.
  assert (NM : map (@HTy obj ty W) ts <> []) by (destruct ts; [contradiction|discriminate]).
  destruct (union_eq P dflt _ toks [] f NM HM) as (gs & _ & _ & ->).
  replace (all_i _ 0 _) with true; [reflexivity|]. symmetry. clear NE NM HM f. generalize 0. induction ts as [|t r IH]; intros n; cbn; [reflexivity|].
  rewrite IH, andb_true_r. rewrite !app_nil_r. rewrite HS. reflexivity.
Qed.

Lemma c16_elements_refuted_proof : forall {obj ty W} (P : Py obj ty W) dflt rk t te etoks toks f,
  plain_class P t -> eff_style dflt etoks = SHollow ->
  make_filler P dflt (HAnn (HIter rk t (HAnn (HTy te) etoks)) toks) [] = Ok f ->
  exists f0, make_filler P dflt (HAnn (HTy t) toks) [] = Ok f0 /\ forall x w, call P f x w = call P f0 x w.
Proof.
  intros obj ty W P dflt rk t te etoks toks f HP HS HM.
  destruct (iter_eq P dflt rk t _ toks [] f HP HM) as (f0 & g & H0 & _ & E). exists f0. split; [exact H0|].
  intros x w. rewrite E. cbn [sub_ops own_ops]. replace (hollow_hint _ _ _ _ _) with true.
  - unfold bind. destruct (call P f0 x w) as [[z|e] w1]; reflexivity.
  - cbn. rewrite ?app_nil_r. rewrite HS. reflexivity.
Qed.

Lemma c16_partial_proof : forall {obj ty W} (P : Py obj ty W) dflt h ops f,
  honest_containers P ->
  make_filler P dflt h ops = Ok f ->
  Forall asserting (hint_tokens h ++ map snd ops) ->
  forall x w y w', call P f x w = (Ok y, w') ->
  vetted P dflt (sub_ops ops) (own_ops ops) [] h y.
Proof.
  intros obj ty W P dflt h ops f HO H HA x w y w' HC. eapply call_sound; try eassumption. auto.
Qed.

Lemma c17_refuted_proof : forall {obj ty W} (P : Py obj ty W) dflt rk t h toks f,
  plain_class P t -> eff_style dflt toks = SCheck \/ eff_style dflt toks = SStrict ->
  make_filler P dflt (HAnn (HIter rk t h) toks) [] = Ok f ->
  exists vs, declared_validators (OTy t) toks vs /\
  forall x w, class_ok P (eff_style dflt toks) t x ->
    (forall e w1, in_order vs x w = (Raise e, w1) -> call P f x w = (Raise e, w1)) /\
    (forall w1 g, in_order vs x w = (Ok x, w1) -> hollow_hint dflt no_sub_tokens [] [] h = false ->
       make_filler P dflt h [] = Ok g -> call P f x w = fill_elements P rk (call P g) x w1).
Proof.
  intros obj ty W P dflt rk t h toks f HP HS HM.
  destruct (iter_eq P dflt rk t _ toks [] f HP HM) as (f0 & g & H0 & H1 & E).
  destruct HP as (N1 & N2 & N3).
  destruct (c04_matching_not_coerced_proof P dflt t toks [] f0 N2 N3 H0 HS) as (vs & DV & HV).
  exists vs. split; [exact DV|]. intros x w HC. destruct (HV x HC w) as [EV _]. rewrite E. unfold bind. rewrite EV. split.
  - intros e w1 ->. reflexivity.
  - intros w1 g' -> HH Hg. change (sub_ops (@nil (option nat * @token obj ty W)) 0) with (@nil (@token obj ty W)) in *. cbn in H1. rewrite HH. rewrite Hg in H1. injection H1 as ->. reflexivity.
Qed.

Lemma in_order_asserting : forall {obj W} (vs : list (obj -> M W obj)) x w y w',
  (forall v, In v vs -> asserting_callback v) -> in_order vs x w = (Ok y, w') ->
  y = x /\ forall v, In v vs -> exists w1 w2, v x w1 = (Ok x, w2).
Proof.
  induction vs as [|v r IH]; intros x w y w' HA H; cbn in H.
  - injection H as <- <-. split; [reflexivity|]. intros v [].
  - minv H. pose proof (HA v (or_introl eq_refl) _ _ _ _ Ha) as ->.
    destruct (IH x _ y w' (fun u HU => HA u (or_intror HU)) H) as [-> HR].
    split; [reflexivity|]. intros u [<-|HU]; [eauto|apply HR; assumption].
Qed.

Lemma declared_asserting : forall {obj ty W} o (ts : list (@token obj ty W)) vs,
  Forall asserting ts -> declared_validators o ts vs -> forall v, In v vs -> asserting_callback v.
Proof.
  unfold declared_validators. induction ts as [|t r IH]; intros vs HA HD v HI; cbn in HD.
  - inversion HD; subst. destruct HI.
  - inversion HA; subst. destruct t; try (eapply IH; eassumption). cbn in HD. inversion HD; subst.
    destruct HI as [->|HI]; [|eapply IH; eassumption]. destruct v0; [|contradiction]. cbn in H1. eapply H1. eassumption.
Qed.

Lemma c17_partial_proof : forall {obj ty W} (P : Py obj ty W) dflt rk t h toks ops f,
  honest_containers P -> plain_class P t ->
  make_filler P dflt (HAnn (HIter rk t h) toks) ops = Ok f ->
  Forall asserting (hint_tokens h ++ toks ++ map snd ops) ->
  let s := eff_style dflt (own_ops ops ++ toks) in
  s = SCheck \/ s = SStrict ->
  exists vs, declared_validators (OTy t) (own_ops ops ++ toks) vs /\
  forall x w y w', call P f x w = (Ok y, w') ->
  exists z, class_ok P s t z /\
    (forall v, In v vs -> exists w1 w2, v z w1 = (Ok z, w2)) /\
    (y = z -> forall l e, elems P y = Some l -> In e l -> conforms P dflt no_sub_tokens (sub_ops ops 0) [] h e).
Proof.
  intros obj ty W P dflt rk t h toks ops f HO HP HM HA s HS.
  destruct (iter_eq P dflt rk t h toks ops f HP HM) as (f0 & g & HM0 & _ & E).
  destruct HP as (N1 & N2 & N3).
  assert (HL : forall lid vals, class_kind P t <> KLiteral lid vals).
  { intros. unfold class_kind. repeat destruct (ty_eqb _ _ _); discriminate. }
  destruct (leaf_call P (HTy t) _ dflt toks _ f0 eq_refl HL HM0) as (cs & vs & HC & HV & _ & E0).
  rewrite own_ops_own_only in *. rewrite origin_class_kind in HV.
  assert (HA0 : Forall asserting (own_ops ops ++ toks)).
  { apply Forall_app in HA. destruct HA as [_ HA]. apply Forall_app in HA. destruct HA as [HA1 HA2].
    apply Forall_app. split; [|assumption].
    clear - HA2. induction ops as [|[[n|] u] r IH]; cbn in *; [constructor| |]; inversion HA2; subst; [apply IH; assumption|].
    constructor; [assumption|apply IH; assumption]. }
  exists vs. split; [assumption|]. intros x w y w' HF.
  pose proof HF as HF0. rewrite E in HF0. minv HF0. rewrite E0 in HF0a. minv HF0a. destruct a0 as [z p]. cbn in HF0a.
  destruct (in_order_asserting vs z _ _ _ (declared_asserting _ _ _ HA0 HV) HF0a) as [-> HR].
  exists z. split; [|split; [assumption|]].
  - fold s in HF0aa.
    pose proof (type_phase_ok P _ _ _ _ _ _ _ _ HF0aa) as KO.
    rewrite plain_class_kind in KO by (repeat split; assumption). exact KO.
  - intros -> l e EL HI.
    assert (CF : conforms P dflt (sub_ops ops) (own_ops ops) [] (HAnn (HIter rk t h) toks) z).
    { eapply c02_type_soundness_proof; try eassumption. cbn [hint_tokens]. rewrite <- app_assoc. assumption. }
    cbn in CF. rewrite app_nil_r in CF. destruct CF as [_ CF]. fold s in CF.
    destruct HS as [HS|HS]; rewrite HS in CF; cbn in CF; eapply CF; eassumption.
Qed.

Lemma keeps_sat : forall {W A} (pending : W -> option exc) (m : M W A),
  keeps_interrupts pending m ->
  sat (fun w oe w' => pending w = None ->
         pending w' = match oe with Some e => if is_Exception e then None else Some e | None => None end) m.
Proof.
  intros W A pending m H w HP. specialize (H w HP). destruct (m w) as [[a|e] w']; cbn; assumption.
Qed.

Lemma c19_interrupts_proof : forall {obj ty W} (P : Py obj ty W) (pending : W -> option exc) dflt h ops f,
  make_filler P dflt h ops = Ok f ->
  Forall (token_keeps pending) (hint_tokens h ++ map snd ops) ->
  runtime_keeps P pending ->
  forall x, keeps_interrupts pending (call P f x).
Proof.
  intros obj ty W P pending dflt h ops f HM HT (R1 & R2 & R3 & R4 & R6 & R5) x.
  set (Phi := fun w oe w' => pending w = None ->
         pending w' = match oe with Some e => if is_Exception e then None else Some e | None => None end).
  assert (S : sat Phi (call P f x)).
  { eapply (make_filler_sat P Phi); try exact HM.
    - split; [|split; [|split]]; unfold Phi.
      + auto.
      + intros w e ->. auto.
      + intros w w1 o w2 H1 H2 H. apply H2, H1, H.
      + intros w e w1 o w2 E H1 H2 H. apply H2. rewrite H1 by assumption. rewrite E. reflexivity.
    - split; [|split; [|split; [|split; [|split]]]].
      + intros. apply keeps_sat, R1.
      + intros. apply keeps_sat, R2.
      + intros. apply keeps_sat, R3.
      + intros v b w. unfold Phi, lift. cbn. intro H. specialize (R4 v b). destruct (issubclass P v b); cbn; [assumption|]. rewrite R4. assumption.
      + intros v e E w. unfold Phi. cbn. intro H. rewrite (R6 v e E). assumption.
      + intros l t w. unfold Phi. intro. rewrite R5. assumption.
    - revert HT. apply Forall_impl. intros t HK. destruct t as [s|c|[g|]|]; cbn in *; try exact I.
      + revert c HK. fix IH 1. intros [g| |cs|] HK; cbn in *; try exact I.
        * intros o k E y. apply keeps_sat. eapply HK; eassumption.
        * induction cs as [|c r IHl]; [exact I|]. destruct HK as [H1 H2]. split; [apply IH; assumption|apply IHl; assumption].
      + intros o k E y. apply keeps_sat. eapply HK; eassumption. }
  intros w HW. specialize (S w HW). destruct (call P f x w) as [[y|e] w']; cbn in S; assumption.
Qed.

Lemma c68_from_integer_proof : forall {obj ty W} (P : Py obj ty W) dflt h o toks ops f,
  match h with
  | HTy t | HBare t => o = OTy t
  | HNone => o = OTy (t_none P)
  | HCallable => o = OCallable
  | HAny => o = OTy (t_object P)
  | HLiteral _ _ => o = OLiteral
  | _ => False
  end ->
  make_filler P dflt (HAnn h toks) ops = Ok f ->
  In (TCoerce CFromInteger) toks ->
  o = OTy (t_bool P) /\
  exists cs c, declared_coercers P o (own_ops ops ++ toks) cs /\ In c cs /\
    forall x w, c x w = (let* zero := eq_int P x 0 in
                         if zero : bool then ret (o_false P) else
                         let* one := eq_int P x 1 in
                         if one : bool then ret (o_true P) else raise (mkexc TypeError "")) w.
Proof.
  intros obj ty W P dflt h o toks ops f HO HM HI.
  assert (HK : exists k, leaf_kind P h = Some k /\ origin_of P k = o).
  { destruct h; try contradiction; subst o; eexists; (split; [reflexivity|]); try reflexivity; apply origin_class_kind. }
  destruct HK as (k & HK & <-).
  destruct (leaf_make P h k dflt toks ops f HK HM) as (cs & vs & HC & _).
  apply tok_coercers_declared in HC.
  assert (EX : exists c, In c cs /\ yields P (origin_of P k) CFromInteger c).
  { assert (HI' : In (TCoerce CFromInteger) (own_ops ops ++ toks)) by (apply in_or_app; right; assumption).
    clear - HC HI'. unfold declared_coercers in HC. revert cs HC.
    induction (own_ops ops ++ toks) as [|u r IH]; intros cs HC; [destruct HI'|].
    destruct HI' as [->|HI']; cbn in HC.
    - inversion HC; subst. exists y. split; [left; reflexivity|assumption].
    - destruct u; try (apply IH; assumption). cbn in HC. inversion HC; subst. destruct (IH HI' _ H3) as (d & D1 & D2).
      exists d. split; [right; assumption|assumption]. }
  destruct EX as (c & HIc & HY). inversion HY as [|? EO EQ|]; subst. split; [assumption|].
  exists cs, c. split; [assumption|]. split; [assumption|]. exact EQ.
Qed.

Lemma yields_fun : forall {obj ty W} (P : Py obj ty W) o c f g, yields P o c f -> yields P o c g -> forall x w, f x w = g x w.
Proof.
  intros obj ty W P o. fix IH 1. intros c f g HF HG x w. destruct c as [h| |cs|].
  - clear IH. inversion HF; inversion HG; subst. congruence.
  - clear IH. inversion HF as [|? ? E1|]; inversion HG as [|? ? E2|]; subst. rewrite E1, E2. reflexivity.
  - inversion HF as [| |? fs ? F1 E1]; inversion HG as [| |? gs ? F2 E2]; subst. rewrite E1, E2. clear HF HG E1 E2.
    revert fs gs x w F1 F2. induction cs as [|c r IHl]; intros fs gs x w F1 F2; inversion F1 as [|? f1 ? fr Y1 R1]; inversion F2 as [|? g1 ? gr Y2 R2]; subst; [reflexivity|].
    cbn. unfold bind. rewrite (IHl fr gr x w R1 R2). destruct (compose gr x w) as [[z|e] w1]; [|reflexivity].
    exact (IH c f1 g1 Y1 Y2 z w1).
  - inversion HF.
Qed.

Lemma compose_app : forall {obj W} (fs gs : list (obj -> M W obj)) x w,
  compose (fs ++ gs) x w = (let* y := compose gs x in compose fs y) w.
Proof.
  induction fs as [|f r IH]; intros gs x w; cbn.
  - unfold bind, ret. destruct (compose gs x w) as [[y|e] w1]; reflexivity.
  - unfold bind in *. rewrite IH. destruct (compose gs x w) as [[y|e] w1]; reflexivity.
Qed.

Lemma c70_compose_proof : forall {obj ty W} (P : Py obj ty W) k cs f,
  get_coercer P k (CCompose cs) = Ok f ->
  exists fs, Forall2 (yields P (origin_of P k)) cs fs /\ forall x w, f x w = compose fs x w.
Proof.
  intros obj ty W P k cs f H. apply get_coercer_yields in H. inversion H; subst. eauto.
Qed.

Lemma c70_associative_proof : forall {obj ty W} (P : Py obj ty W) o cs1 cs2 cs3 f g,
  yields P o (CCompose (cs1 ++ CCompose cs2 :: cs3)) f ->
  yields P o (CCompose (cs1 ++ cs2 ++ cs3)) g ->
  forall x w, f x w = g x w.
Proof.
  intros obj ty W P o cs1 cs2 cs3 f g HF HG x w.
  inversion HF as [| |? fs ? FF EF]; subst. inversion HG as [| |? gs ? FG EG]; subst.
  rewrite EF, EG.
  apply Forall2_app_inv_l in FF. destruct FF as (f1 & f23 & F1 & F23 & ->).
  inversion F23 as [|? fm ? f3 HM F3]; subst. inversion HM as [| |? f2 ? F2 E2]; subst.
  apply Forall2_app_inv_l in FG. destruct FG as (g1 & g23 & G1 & G23 & ->).
  apply Forall2_app_inv_l in G23. destruct G23 as (g2 & g3 & G2 & G3 & ->).
  assert (EXT : forall cs fs gs, Forall2 (yields P o) cs fs -> Forall2 (yields P o) cs gs -> forall x w, compose fs x w = compose gs x w).
  { intros cs fs gs A B y u. pose proof (yields_fun P o (CCompose cs) (compose fs) (compose gs) (yields_compose _ _ _ _ _ A (fun _ _ => eq_refl))
        (yields_compose _ _ _ _ _ B (fun _ _ => eq_refl)) y u) as E. exact E. }
  rewrite !compose_app. unfold bind. rewrite compose_app. cbn [compose].
  unfold bind. rewrite (EXT _ _ _ F3 G3). destruct (compose g3 x w) as [[y|e] w1]; [|reflexivity].
  rewrite E2, (EXT _ _ _ F2 G2). destruct (compose g2 y w1) as [[z|e] w2]; [|reflexivity].
  apply (EXT _ _ _ F1 G1).
Qed.

Lemma c15_refused_proof : forall {obj ty W} (P : Py obj ty W) dflt h ops,
  consistent P dflt (sub_ops ops) (own_ops ops) [] h = false ->
  exists e, make_filler P dflt h ops = Raise e.
Proof.
  intros obj ty W P dflt h ops H. destruct (make_filler P dflt h ops) as [f|e] eqn:E; [|eauto].
  apply make_consistent in E. congruence.
Qed.

Lemma c15_exact_proof : forall {obj ty W} (P : Py obj ty W) dflt h ts,
  Forall understood (ts ++ hint_tokens h) ->
  ((exists f, make_filler P dflt h (own_only ts) = Ok f) <-> consistent P dflt no_sub_tokens ts [] h = true).
Proof.
  intros obj ty W P dflt h ts HU. split.
  - intros [f H]. unfold make_filler, get_filler, bind_filler in H. oinv H. oinv H.
    rewrite apply_ops_own_only in Ha0. rewrite (bind_with_applys P _ _ _ _ _ Ha0), app_nil_r in H.
    exact (consistent_correct P h [] _ [] _ _ _ _ Ha eq_refl H).
  - intro HC. apply make_forward; assumption.
Qed.

Lemma c15_hollow_with_coercers_proof : forall {obj ty W} (P : Py obj ty W) dflt t toks,
  Forall understood toks -> eff_style dflt toks = SHollow -> has_coercer toks = true ->
  exists m, make_filler P dflt (HAnn (HTy t) toks) [] = Raise (mkexc ValueError m).
Proof.
  intros obj ty W P dflt t toks HU HS HC. unfold make_filler, get_filler, bind_filler. cbn. rewrite app_nil_r.
  destruct (understood_coercers P (class_kind P t) toks HU) as [cs C].
  destruct (understood_validators P (class_kind P t) toks HU) as [vs V].
  assert (B := bound_fwd P dflt [] (class_kind P t) toks cs vs C V). cbn [app] in B. cbn zeta in B.
  rewrite HS in B. cbn [aapplys obind] in B. rewrite B. destruct cs; [|cbn; eauto].
  pose proof (tok_coercers_declared P _ _ _ C) as D. apply declared_coercers_nonempty in D.
  assert (has_coercer toks = false) by (apply D; reflexivity). congruence.
Qed.

Lemma c15_strict_abstract_proof : forall {obj ty W} (P : Py obj ty W) dflt t toks,
  Forall understood toks -> eff_style dflt toks = SStrict -> isabstract P t = true ->
  exists m, make_filler P dflt (HAnn (HTy t) toks) [] = Raise (mkexc TypeError m).
Proof.
  intros obj ty W P dflt t toks HU HS HA. unfold make_filler, get_filler, bind_filler. cbn. rewrite app_nil_r.
  destruct (understood_coercers P (class_kind P t) toks HU) as [cs C].
  destruct (understood_validators P (class_kind P t) toks HU) as [vs V].
  assert (B := bound_fwd P dflt [] (class_kind P t) toks cs vs C V). cbn [app] in B. cbn zeta in B.
  rewrite HS in B. cbn [aapplys obind] in B. rewrite B. cbn [style_eqb andb].
  pose proof (class_kind_origin P t) as O. unfold kind_abstract.
  destruct (class_kind P t) eqn:K; try discriminate; rewrite O, HA; cbn; eauto.
Qed.

Lemma c15_hollow_container_proof : forall {obj ty W} (P : Py obj ty W) dflt rk t h toks g,
  Forall understood toks -> eff_style dflt toks = SHollow -> has_coercer toks = false ->
  make_filler P dflt h [] = Ok g -> hollow_hint dflt no_sub_tokens [] [] h = false ->
  exists m, make_filler P dflt (HAnn (HIter rk t h) toks) [] = Raise (mkexc TypeError m).
Proof.
  intros obj ty W P dflt rk t h toks g HU HS HC HG HH. unfold make_filler, get_filler, bind_filler in *. cbn in *.
  rewrite app_nil_r. oinv HG. rewrite HGa. cbn.
  destruct (understood_coercers P (KSimple t) toks HU) as [cs C].
  destruct (understood_validators P (KSimple t) toks HU) as [vs V].
  assert (B := bound_fwd P dflt [] (KSimple t) toks cs vs C V). cbn [app] in B. cbn zeta in B.
  rewrite HS in B. cbn [aapplys obind] in B. rewrite (no_coercers P _ _ _ C HC) in B. cbn in B. rewrite B. cbn.
  rewrite HG. cbn. rewrite (is_hollow_part P _ _ _ _ _ HGa HG), HH. eexists; reflexivity.
Qed.

Lemma c15_unspecialised_proof : forall {obj ty W} (P : Py obj ty W) dflt t h toks g f,
  make_filler P dflt (HAnn (HTy t) toks) [] = Ok f -> ty_eqb P t (t_bool P) = false -> ty_eqb P t (t_none P) = false ->
  ty_eqb P t (t_ellipsis P) = false ->
  make_filler P dflt h [] = Ok g -> hollow_hint dflt no_sub_tokens [] [] h = false ->
  exists m, make_filler P dflt (HAnn (HGenN t [h]) toks) [] = Raise (mkexc TypeError m).
Proof.
  intros obj ty W P dflt t h toks g f HF E1 E2 E3 HG HH. unfold make_filler, get_filler, bind_filler in *. cbn in *.
  rewrite app_nil_r in *. unfold class_kind in HF. rewrite E1, E2, E3 in HF. oinv HF. oinv HG. rewrite HGa. cbn. rewrite HFa. cbn.
  rewrite HG. cbn. rewrite (is_hollow_part P _ _ _ _ _ HGa HG), HH. eexists; reflexivity.
Qed.

Lemma c15_not_a_type_proof : forall {obj ty W} (P : Py obj ty W) dflt ts,
  dflt <> SHollow -> exists m, make_filler P dflt HOther (own_only ts) = Raise (mkexc TypeError m).
Proof.
  intros obj ty W P dflt [|t ts] HD; cbn; [|eauto]. destruct (style_eqb_spec dflt SHollow); [congruence|]. cbn. eauto.
Qed.

Lemma c18_sealed_proof : forall {obj ty W} (P : Py obj ty W) dflt h ops f path g,
  make_filler P dflt h ops = Ok f -> reach path f = Ok g ->
  (forall t, exists e, apply P g t = Raise e /\ (exc_cls e = RuntimeError \/ exc_cls e = TypeError)) /\
  (forall k t, exists e, apply_at P k t g = Raise e) /\
  (forall dflt', exists e, bind_filler P dflt' g = Raise e).
Proof.
  intros obj ty W P dflt h ops f path g H HR.
  assert (S : is_sealed g) by (eapply reach_sealed; [eapply make_seals; exact H|exact HR]).
  split; [intro t; destruct (apply_sealed P g t S) as (e & R & E); exists e; auto|]. split; [intros k t; apply apply_at_sealed; assumption|].
  intro d. apply bind_sealed; assumption.
Qed.
