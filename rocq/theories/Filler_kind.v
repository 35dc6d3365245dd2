(** Filler_kind.v -- the match kind that a successful fill reports. *)
From Verif Require Import Base Py Filler Spec_Filler Filler_proofs Filler_sound Filler_shape.

Section Kind.
Context {obj ty W : Type} (P : Py obj ty W).
Notation token := (@token obj ty W).
Notation hint := (@hint obj ty W).
Notation afiller := (@afiller obj ty W).
Notation akind := (@akind obj ty).

Definition checked_fit (s : style) (tc : tcheck) : tpk :=
  fits s (match tc with TCExact => true | _ => false end) (match tc with TCInexact => true | _ => false end).

Lemma afill_kind : forall (a : afiller) x w v p w',
  afill P a x w = (Ok (v, p), w') -> p = checked_fit (a_style a) (type_check P (a_kind a) x w).
Proof.
  intros a x w v p w' H. unfold afill, bind in H.
  destruct (type_phase P (a_kind a) (a_style a) (a_coercers a) x w) as [[[y q]|e] w1] eqn:E; [|discriminate].
  assert (p = q) as ->.
  { cbn in H. destruct (run_validators (a_validators a) y w1) as [[z|e] w2]; [|discriminate]. unfold ret in H. cbn in H. injection H as _ <- _. reflexivity. }
  clear H. unfold type_phase in E. unfold checked_fit, fits.
  destruct (a_style a) eqn:ES; try discriminate; cbn [style_eqb] in E |- *.
  - cbn in E. congruence.
  - destruct (type_check P (a_kind a) x w); cbn; try congruence;
      (destruct (a_coercers a); [discriminate|]; unfold bind in E;
       match type of E with context [run_coercers P ?k ?s ?cs x w] => destruct (run_coercers P k s cs x w) as [[z|e] w2] end;
       [|discriminate]; unfold ret in E; cbn in E; congruence).
  - destruct (type_check P (a_kind a) x w); cbn; try congruence;
      (destruct (a_coercers a); [discriminate|]; unfold bind in E;
       match type of E with context [run_coercers P ?k ?s ?cs x w] => destruct (run_coercers P k s cs x w) as [[z|e] w2] end;
       [|discriminate]; unfold ret in E; cbn in E; congruence).
Qed.

Lemma bound_kind : forall dflt k own ops t a1 b1 a2,
  aapplys P (mk_afiller k own) (own_ops ops) = Ok a1 -> aapplys P a1 t = Ok b1 -> abind P dflt b1 = Ok a2 ->
  a_kind a2 = k /\ a_style a2 = eff_style dflt ((own_ops ops ++ t) ++ own).
Proof.
  intros dflt k own ops t a1 b1 a2 H1 H2 H3.
  destruct (aapplys_abind P _ _ _ _ _ _ _ _ H1 H2 H3) as [HA _].
  destruct (bound_afiller P _ _ _ _ _ _ HA H3) as (cs & vs & C & V & -> & _). split; reflexivity.
Qed.

Lemma simple_fit : forall s t x, checked_fit s (simple_check P t x) = fits s (ty_eqb P (type_of P x) t) (isinstance P x t).
Proof.
  intros s t x. unfold checked_fit, simple_check, fits.
  destruct (ty_eqb P (type_of P x) t); [destruct s; reflexivity|]. destruct (isinstance P x t); destruct s; reflexivity.
Qed.

Lemma simple_fit' : forall s t x w, checked_fit s (type_check P (KSimple t) x w) = fits s (ty_eqb P (type_of P x) t) (isinstance P x t).
Proof. intros. apply simple_fit. Qed.

Lemma if_fit : forall s (b : bool), checked_fit s (if b then TCExact else TCFalse) = fits s b false.
Proof. intros s [|]; destruct s; reflexivity. Qed.

Lemma class_fit : forall s t x w, Some (checked_fit s (type_check P (class_kind P t) x w)) =
  (if ty_eqb P t (t_bool P) then Some (fits s (ty_eqb P (type_of P x) t) (isinstance P x t))
   else if ty_eqb P t (t_none P) then Some (fits s (py_is P x (o_none P)) false)
   else if ty_eqb P t (t_ellipsis P) then Some (fits s (py_is P x (o_ellipsis P)) false)
   else Some (fits s (ty_eqb P (type_of P x) t) (isinstance P x t))).
Proof.
  intros s t x w. unfold class_kind. destruct (ty_eqb P t (t_bool P)) eqn:E1.
  - assert (t = t_bool P) as -> by (destruct (ty_eqP P t (t_bool P)); congruence). f_equal. apply simple_fit.
  - destruct (ty_eqb P t (t_none P)); [cbn; f_equal; apply if_fit|].
    destruct (ty_eqb P t (t_ellipsis P)); [cbn; f_equal; apply if_fit|]. f_equal. apply simple_fit.
Qed.

Definition kind_at (h : hint) : Prop :=
  forall own f ops f1 dflt t f',
    gaf P own h = Ok f -> apply_ops P f ops = Ok f1 -> bind_with P dflt t f1 = Ok f' ->
    forall x w v p w' q, fill P f' x w = (Ok (v, p), w') ->
    match_kind P dflt (own_ops ops ++ t) own h x = Some q -> p = q.

Ltac leaf HO HBa HBa0 HF :=
  destruct (bound_kind _ _ _ _ _ _ _ _ HO HBa HBa0) as [EK ES];
  cbn [fill] in HF; apply afill_kind in HF; cbn [a_style a_kind add_validator] in HF; rewrite EK, ES in HF.

Lemma kind_correct : forall h, kind_at h.
Proof.
  induction h as [t0| | | |h IH|hs IH|lid vals|base|hs IH|h IH|rk t0 h IH|rk t0 hk hv IHk IHv|t0 hs IH|t0| |h toks IH]
    using hint_ind'; intros own f ops f1 dflt t f' HG HO HB x w v p w' q HF HM;
    try (cbn in HG; injection HG as <-; apply ops_ann in HO; destruct HO as (a1 & -> & HO);
         cbn in HB; oinv HB; oinv HB; injection HB as <-; leaf HO HBa HBa0 HF).
  - cbn in HM. rewrite <- (class_fit _ _ _ w) in HM. congruence.
  - cbn in HM, HF. rewrite if_fit in HF. congruence.
  - cbn in HM, HF. rewrite if_fit in HF. congruence.
  - rewrite simple_fit' in HF. cbn in HM. congruence.
  - (* HNewType *)
    assert (D : (exists h' ts, h = HAnn h' ts) \/ (forall A (x y : A), match h with HAnn _ _ => x | _ => y end = y)).
    { destruct h; auto. left; eauto. }
    destruct D as [(h' & ts & ->)|D].
    + cbn in HG. unfold dumb in HG. destruct own; [|discriminate]. injection HG as <-.
      apply ops_dumb in HO. destruct HO as [-> ->]. cbn in HB. destruct t; [|discriminate].
      destruct (style_eqb dflt SHollow); [|discriminate]. injection HB as <-. cbn in HF, HM. unfold ret in HF. congruence.
    + assert (HG' : gaf P own h = Ok f) by (rewrite <- HG; cbn; symmetry; apply (D (outcome filler))).
      eapply (IH own f ops f1 dflt t f' HG' HO HB x w v p w' q HF).
      rewrite <- HM. cbn. symmetry. apply (D (option tpk)).
  - discriminate.
  - (* HLiteral *)
    cbn in HM. cbn in HF. unfold checked_fit, fits in HF.
    assert (E : existsb (fun l => ty_eqb P (type_of P x) (type_of P l)) vals = true -> ty_mem P (type_of P x) (lit_types P lid vals w) = true).
    { intro H. unfold ty_mem, lit_types. rewrite existsb_app. apply orb_true_iff. left.
      apply existsb_exists in H. destruct H as (l & HI & HE). apply existsb_exists. exists (type_of P l). split; [apply in_map; assumption|assumption]. }
    destruct (eff_style dflt ((own_ops ops ++ t) ++ own)); try (cbn in *; congruence);
      (destruct (existsb (fun l => ty_eqb P (type_of P x) (type_of P l)) vals); [|discriminate];
       rewrite (E eq_refl) in HF; cbn in *; congruence).
  - (* HType *)
    cbn in HG. injection HG as <-. apply ops_type in HO. destruct HO as (a1 & -> & HO).
    cbn in HB. oinv HB. oinv HB. injection HB as <-. destruct (ahollow a0); leaf HO HBa HBa0 HF;
      rewrite simple_fit' in HF; cbn in HM; congruence.
  - (* HTupleN *)
    cbn in HG. oinv HG. injection HG as <-. apply ops_tuplen in HO. destruct HO as (a1 & subs1 & -> & HO & HS).
    cbn in HB. oinv HB. oinv HB. oinv HB.
    destruct (forallb is_hollow a3).
    + injection HB as <-. destruct (ahollow a2); leaf HO HBa HBa0 HF; rewrite simple_fit' in HF; cbn in HM; congruence.
    + match type of HB with context [if ?b then Raise _ else _] => destruct b eqn:HH; [discriminate|] end.
      injection HB as <-. destruct (ahollow a2); leaf HO HBa HBa0 HF; rewrite simple_fit' in HF; cbn in HM; congruence.
  - (* HTupleV *)
    cbn in HG. oinv HG. injection HG as <-. apply ops_tuplev in HO. destruct HO as (a1 & sub1 & -> & HO & HS).
    cbn in HB. oinv HB. oinv HB. oinv HB.
    destruct (is_hollow a3); [|destruct (ahollow a2) eqn:E; [discriminate|]]; injection HB as <-;
      leaf HO HBa HBa0 HF; rewrite simple_fit' in HF; cbn in HM; congruence.
  - (* HIter *)
    cbn in HG. oinv HG. injection HG as <-. apply ops_iter in HO. destruct HO as (a1 & sub1 & -> & HO & HS).
    cbn in HB. oinv HB. oinv HB. oinv HB.
    destruct (is_hollow a3); [|destruct (ahollow a2) eqn:E; [discriminate|]]; injection HB as <-;
      leaf HO HBa HBa0 HF; rewrite simple_fit' in HF; cbn in HM; congruence.
  - (* HMap *)
    cbn in HG. oinv HG. oinv HG. injection HG as <-. apply ops_map in HO.
    destruct HO as (a1 & fk1 & fv1 & -> & HO & HSk & HSv).
    cbn in HB. oinv HB. oinv HB. oinv HB. oinv HB.
    destruct (is_hollow a4 && is_hollow a5); [|destruct (ahollow a3) eqn:E; [discriminate|]]; injection HB as <-;
      leaf HO HBa HBa0 HF; rewrite simple_fit' in HF; cbn in HM; congruence.
  - (* HGenN *)
    cbn in HG. oinv HG. injection HG as <-. apply ops_genn in HO. destruct HO as (a1 & -> & HO).
    cbn in HB. oinv HB. oinv HB. oinv HB. injection HB as <-.
    leaf HO HBa HBa0 HF; rewrite simple_fit' in HF; cbn in HM; congruence.
  - cbn in HM. rewrite <- (class_fit _ _ _ w) in HM. congruence.
  - (* HOther *)
    cbn in HG. unfold dumb in HG. destruct own; [|discriminate]. injection HG as <-.
    apply ops_dumb in HO. destruct HO as [-> ->]. cbn in HB. destruct t; [|discriminate].
    destruct (style_eqb dflt SHollow); [|discriminate]. injection HB as <-. cbn in HF, HM. unfold ret in HF. congruence.
  - (* HAnn *)
    cbn in HG. eapply (IH (toks ++ own)); eassumption.
Qed.

End Kind.
